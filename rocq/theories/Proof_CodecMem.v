(** C65: the codec functions in one memory do what they do with separate source and destination. *)
From Verif Require Import Base BaseLemmas Spec_Codec Model_Container Model_Codec Model_CodecMem Spec_CodecMem
  Proof_Codec16 Proof_Codec64 Proof_CodecApi Proof_Alloc Proof_Range.
Local Open Scope nat_scope.

Section Sim.
  Context (m0 : list N) (s n d k : nat) (Hs : s + n <= length m0) (Hd : d + k <= length m0).
  Definition src := slice m0 s n.
  Definition dst := slice m0 d k.
  (** The destination [to] so far: only offsets below [W] have been written. *)
  Definition Rel (W : nat) (to : list N) : Prop := length to = k /\ forall j, W <= j -> j < k -> nth j to 0%N = nth j dst 0%N.
  Lemma Rel_start : Rel 0 dst.
  Proof. split; [apply slice_length, Hd|reflexivity]. Qed.
  Lemma put_dst : m0 = put m0 d dst.
  Proof.
    assert (L : length dst = k) by (apply slice_length, Hd). apply list_ext; [rewrite put_length; lia|].
    intros i x _. rewrite nth_put by lia. destruct (Nat.leb_spec d i); destruct (Nat.ltb_spec i (d + length dst)); cbn [andb]; try reflexivity.
    unfold dst. rewrite nth_slice by lia. f_equal. lia.
  Qed.
  Lemma Rel_weak W W' to : W <= W' -> Rel W to -> Rel W' to.
  Proof. intros H [L R]. split; [exact L|]. intros j H1 H2. apply R; lia. Qed.
  Lemma src_len : length src = n.
  Proof. apply slice_length, Hs. Qed.
  Lemma sim_rd W to j : Rel W to -> j < n -> s + j < d \/ d + W <= s + j -> rd (put m0 d to) (s + j) = rd src j.
  Proof.
    intros [L R] Hj P. rewrite (rd_nth (put m0 d to) (s + j) 0%N) by (rewrite put_length; lia).
    rewrite (rd_nth src j 0%N) by (rewrite src_len; exact Hj). f_equal. unfold src. rewrite nth_slice by exact Hj.
    rewrite nth_put by lia. destruct (Nat.leb_spec d (s + j)); destruct (Nat.ltb_spec (s + j) (d + length to)); cbn [andb]; try reflexivity.
    rewrite R by lia. unfold dst. rewrite nth_slice by lia. f_equal. lia.
  Qed.
  Lemma sim_wr W to i v to' : Rel W to -> wr to i v = Some to' ->
    wr (put m0 d to) (d + i) v = Some (put m0 d to') /\ i < k /\ Rel (Nat.max W (i + 1)) to'.
  Proof.
    intros [L R] E. destruct (wr_len _ _ _ _ E) as [L' Hi]. rewrite L in Hi.
    assert (E2 : to' = put to i [v]) by (rewrite wr_put in E by lia; injection E as <-; reflexivity). subst to'.
    split; [|split; [exact Hi|]].
    - rewrite wr_put by (rewrite put_length; lia). f_equal. apply list_ext.
      + rewrite !put_length; cbn [length]; rewrite ?put_length; cbn [length]; lia.
      + intros j x _. rewrite (nth_put (put m0 d to)) by (rewrite put_length; cbn [length]; lia). rewrite (nth_put m0 to) by lia.
        rewrite (nth_put m0 (put to i [v])) by (rewrite put_length; cbn [length]; lia). rewrite L', L. cbn [length].
        destruct (Nat.leb_spec d j); destruct (Nat.ltb_spec j (d + k)); cbn [andb];
        destruct (Nat.leb_spec (d + i) j); destruct (Nat.ltb_spec j (d + i + 1)); cbn [andb]; try lia; try reflexivity;
        rewrite (nth_put to) by (cbn [length]; lia); cbn [length];
        destruct (Nat.leb_spec i (j - d)); destruct (Nat.ltb_spec (j - d) (i + 1)); cbn [andb]; try lia; try reflexivity.
        f_equal. lia.
    - split; [lia|]. intros j H1 H2. rewrite (nth_put to) by (cbn [length]; lia). cbn [length].
      destruct (Nat.leb_spec i j); destruct (Nat.ltb_spec j (i + 1)); cbn [andb]; try lia; apply R; lia.
  Qed.

  Ltac rdn H := match goal with |- context [rd (put m0 d ?t) (s + ?j)] => rewrite (sim_rd _ t j H) by lia end.
  Ltac wrn H := match type of H with
    | bind (wr ?t ?i ?v) _ = Some _ => let E := fresh "E" in destruct (wr t i v) as [?|] eqn:E; [|discriminate]; cbn [bind] in H end.
  Ltac rdh H := match type of H with
    | bind (rd ?t ?i) _ = Some _ => destruct (rd t i) as [?|]; [|discriminate]; cbn [bind] in H end.
  Ltac simw R := match goal with
    | E : wr ?t ?i ?v = Some ?u |- context [wr (put m0 d ?t) (d + ?i) _] =>
        let A := fresh in let B := fresh in let C := fresh in
        destruct (sim_wr _ _ _ _ _ R E) as (A & B & C); rewrite A; cbn [bind]; clear A E R; rename C into R end.

  Lemma sim_d16 sg : decode_place s n d -> forall q to i fp tb W r, Rel W to -> W <= fp -> W <= tb + i -> tb + i <= fp + 1 ->
    fp + 2 * q <= n -> b16_decode_loop sg src to q i fp tb = Some r ->
    b16_decode_loop_at sg (put m0 d to) s d q i fp tb = Some (match r with inl t => inl (put m0 d t) | inr (t, z) => inr (put m0 d t, z) end).
  Proof.
    intros P. induction q as [|q IH]; intros to i fp tb W r R H1 H2 H3 H4 E; cbn [b16_decode_loop b16_decode_loop_at] in *.
    - injection E as <-. reflexivity.
    - unfold decode_place in P. rdn R. rdn R. rdh E. rdh E. cbn [bind]. destruct (_ || _) eqn:C.
      + injection E as <-. reflexivity.
      + wrn E. simw R. eapply IH; [exact R|lia|lia|lia|lia|exact E].
  Qed.
  Lemma sim_decode16 sg e to' z e' : decode_place s n d -> b16_decode sg src dst e = Some (to', z, e') ->
    b16_decode_at sg m0 s n d e = Some (put m0 d to', z, e').
  Proof.
    intros P E. unfold b16_decode, b16_decode_at in *. rewrite src_len in E.
    pose proof put_dst as M.
    pose proof Rel_start as R. pose proof (Nat.div2_odd n) as Hn. unfold decode_place in P.
    destruct (Nat.odd n) eqn:O; cbn [Nat.b2n] in Hn.
    - rewrite M at 1. rdn R. rdh E. cbn [bind]. destruct (char_eq_u8 sg _ _).
      + injection E as <- <- <-. rewrite <- M. reflexivity.
      + rewrite M at 1. wrn E. simw R. destruct (b16_decode_loop _ _ _ _ _ _ _) as [r|] eqn:L; [|discriminate]. cbn [bind] in E.
        rewrite (sim_d16 sg P _ _ _ _ _ _ r R); [|lia|lia|lia|lia|exact L]. cbn [bind].
        destruct r as [t|[t x]]; injection E as <- <- <-; reflexivity.
    - rewrite M at 1. destruct (b16_decode_loop _ _ _ _ _ _ _) as [r|] eqn:L; [|discriminate]. cbn [bind] in E.
      rewrite (sim_d16 sg P _ _ _ _ _ _ r R); [|lia|lia|lia|lia|exact L]. cbn [bind].
      destruct r as [t|[t x]]; injection E as <- <- <-; reflexivity.
  Qed.

  Lemma sim_e16 : encode16_place s n d -> forall q to fp W t', Rel W to -> W = 2 * fp -> fp + q = n ->
    b16_encode_loop (skipn fp src) to W = Some t' ->
    b16_encode_loop_at (put m0 d to) s d q fp W = Some (put m0 d t').
  Proof.
    intros P. induction q as [|q IH]; intros to fp W t' R H1 H2 E; cbn [b16_encode_loop_at].
    - rewrite skipn_all2 in E by (rewrite src_len; lia). injection E as <-. reflexivity.
    - unfold encode16_place in P. rdn R.
      assert (X : exists b, nth_error src fp = Some b /\ skipn fp src = b :: skipn (S fp) src).
      { assert (F : fp < length src) by (rewrite src_len; lia). clear - F. generalize src F. clear. induction fp as [|f IH]; intros l F; (destruct l as [|a l]; [cbn in F; lia|]).
        - exists a. split; reflexivity.
        - cbn [length nth_error skipn] in *. apply IH. lia. }
      destruct X as (b & X1 & X2). unfold rd. rewrite X1. rewrite X2 in E. cbn [bind b16_encode_loop] in *.
      wrn E. wrn E. simw R. simw R.
      apply IH; [|lia|lia|].
      + replace (W + 2) with (Nat.max (Nat.max W (W + 1)) (W + 1 + 1)) by lia. exact R.
      + rewrite Nat.add_1_r. exact E.
  Qed.
  Lemma sim_encode16 t' z : encode16_place s n d -> b16_encode src dst = Some (t', z) -> b16_encode_at m0 s n d = Some (put m0 d t', z).
  Proof.
    intros P E. unfold b16_encode, b16_encode_at in *. destruct (b16_encode_loop src dst 0) as [t|] eqn:L; [|discriminate]. cbn [bind] in E.
    injection E as <- <-. rewrite src_len. rewrite put_dst at 1. rewrite (sim_e16 P n dst 0 0 t Rel_start eq_refl eq_refl L). reflexivity.
  Qed.
  Lemma sim_d64 sg : decode_place s n d -> forall q to fp tp r, Rel tp to -> tp <= fp -> fp + 4 * q <= n ->
    b64_decode_loop sg src to q fp tp = Some r ->
    b64_decode_loop_at sg (put m0 d to) s d q fp tp
      = Some (match r with inl (t, a, b) => inl (put m0 d t, a, b) | inr (t, z) => inr (put m0 d t, z) end) /\
    match r with inl (t, a, b) => Rel b t /\ a = fp + 4 * q /\ b <= a | inr _ => True end.
  Proof.
    intros P. induction q as [|q IH]; intros to fp tp r R H1 H2 E; cbn [b64_decode_loop b64_decode_loop_at] in *.
    - injection E as <-. split; [reflexivity|]. split; [exact R|lia].
    - unfold decode_place in P. do 4 (rdn R). do 4 (rdh E). cbn [bind]. destruct (_ || _) eqn:C.
      + injection E as <-. split; [reflexivity|exact I].
      + do 3 (wrn E). do 3 (simw R).
        assert (R' : Rel (tp + 3) l1) by (eapply Rel_weak; [|exact R]; lia).
        destruct (IH _ (fp + 4) (tp + 3) r R') as [A B]; [lia|lia|exact E|]. split; [exact A|].
        destruct r as [[[t a] b]|]; [|exact I]. destruct B as (B1 & B2 & B3). split; [exact B1|lia].
  Qed.
  Lemma sim_decode64 sg e to' z e' : decode_place s n d -> b64_decode sg src dst e = Some (to', z, e') ->
    b64_decode_at sg m0 s n d e = Some (put m0 d to', z, e').
  Proof.
    intros P E. unfold b64_decode, b64_decode_at in *. rewrite src_len in E.
    pose proof put_dst as M. pose proof Rel_start as R. 
    destruct (negb _) eqn:Q; [injection E as <- <- <-; rewrite <- M; reflexivity|].
    apply Bool.negb_false_iff, Nat.eqb_eq in Q. pose proof (Nat.div_mod n 4) as D. rewrite Q in D.
    set (full := n / 4) in *. clearbody full.
    destruct (b64_decode_loop _ _ _ _ _ _) as [r|] eqn:L; [|discriminate]. cbn [bind] in E.
    rewrite M at 1. destruct (sim_d64 sg P (full - 1) dst 0 0 r R) as [A B]; [lia|lia|exact L|]. rewrite A. cbn [bind]. clear A.
    destruct r as [[[t fp] tp]|[t x]]; [|injection E as <- <- <-; reflexivity].
    destruct B as (R2 & B2 & B3). clear R. destruct (Nat.ltb_spec 0 full) as [F|F]; [|injection E as <- <- <-; reflexivity].
    unfold decode_place in P. do 4 (rdn R2). do 4 (rdh E). cbn [bind]. destruct (_ || _) eqn:C.
    - injection E as <- <- <-. reflexivity.
    - wrn E. simw R2.
      destruct (negb (n2 =? 61)%N) eqn:P0; destruct (negb (n3 =? 61)%N) eqn:P1; cbn [bind] in E |- *; repeat wrn E; repeat simw R2;
        injection E as <- <- <-; reflexivity.
  Qed.
  Lemma sim_e64 : (s + n <= d \/ d + ((n + 2) / 3 - 1) <= s) -> forall q to g fp tp r, Rel tp to -> fp = 3 * g -> tp = 4 * g -> fp + 3 * q <= n ->
    b64_encode_loop src to q fp tp = Some r ->
    exists t, r = (t, fp + 3 * q, tp + 4 * q) /\ b64_encode_loop_at (put m0 d to) s d q fp tp = Some (put m0 d t, fp + 3 * q, tp + 4 * q) /\ Rel (tp + 4 * q) t.
  Proof.
    intros P. induction q as [|q IH]; intros to g fp tp r R H1 H2 H3 E; cbn [b64_encode_loop b64_encode_loop_at] in *.
    - injection E as <-. exists to. rewrite !Nat.mul_0_r, !Nat.add_0_r. auto.
    - assert (PP : s + n <= d \/ d + tp <= s + fp).
      { destruct P as [P|P]; [left; exact P|right]. assert (g + 1 <= (n + 2) / 3) by (apply Nat.div_le_lower_bound; lia). lia. }
      do 3 (rdn R). do 3 (rdh E). cbn [bind]. do 4 (wrn E). do 4 (simw R).
      assert (R' : Rel (tp + 4) l2) by (eapply Rel_weak; [|exact R]; lia).
      destruct (IH _ (S g) (fp + 3) (tp + 4) r R') as (t & -> & A & B); [lia|lia|lia|exact E|].
      exists t. replace (fp + 3 * S q) with (fp + 3 + 3 * q) by lia. replace (tp + 4 * S q) with (tp + 4 + 4 * q) by lia. auto.
  Qed.
  Lemma sim_encode64 t' z : encode64_place s n d -> b64_encode src dst = Some (t', z) -> b64_encode_at m0 s n d = Some (put m0 d t', z).
  Proof.
    intros P E. unfold b64_encode, b64_encode_at in *. rewrite src_len in E.
    pose proof (Nat.div_mod n 3) as D. pose proof (Nat.mod_upper_bound n 3) as U.
    assert (P' : s + n <= d \/ d + ((n + 2) / 3 - 1) <= s) by (unfold encode64_place in P; tauto). clear P.
    destruct (b64_encode_loop _ _ _ _ _) as [r|] eqn:L; [|discriminate]. cbn [bind] in E.
    rewrite put_dst at 1. destruct (sim_e64 P' (n / 3) dst 0 0 0 r Rel_start) as (t & -> & A & R); [reflexivity|reflexivity|lia|exact L|].
    rewrite A. cbn [bind]. destruct (Nat.eqb_spec (n mod 3) 0) as [Z|Z]; [injection E as <- <-; reflexivity|].
    assert (PP : s + n <= d \/ d + (0 + 4 * (n / 3)) <= s + (0 + 3 * (n / 3))).
    { destruct P' as [P|P]; [left; exact P|right]. assert (n / 3 + 1 <= (n + 2) / 3) by (apply Nat.div_le_lower_bound; lia). lia. }
    set (full := n / 3) in *. set (lasts := n mod 3) in *. clearbody full lasts.
    destruct (Nat.eqb_spec lasts 2) as [Y|Y]; do 2 (rdn R); do 2 (rdh E); cbn [bind]; do 4 (wrn E); do 4 (simw R); injection E as <- <-; reflexivity.
  Qed.
End Sim.

(** *** The functions of the user *)
Local Open Scope N_scope.


Lemma decode16_one sg m s n d e : (s + n <= length m)%nat -> decode_place s n d ->
  let size := b16_decode_size (slice m s n) in (d + size <= length m)%nat ->
  exists l z e', b16_decode sg (slice m s n) (slice m d size) e = Some (l, z, e') /\ length l = size /\
    b16_decode_at sg m s n d e = Some (put m d l, z, e').
Proof.
  intros Hs P size Hd. destruct (b16_decode_safe sg (slice m s n) (slice m d size) [] e) as (l & z & e' & E & L).
  { apply slice_length, Hd. }
  rewrite !app_nil_r in E. exists l, z, e'. split; [exact E|]. split; [rewrite L; apply slice_length, Hd|].
  exact (sim_decode16 m s n d size Hs Hd sg e l z e' P E).
Qed.
Lemma decode64_one sg m s n d e size : (s + n <= length m)%nat -> decode_place s n d -> (Z.of_nat n * 3 < 2 ^ 64)%Z ->
  b64_decode_size (slice m s n) = Some size -> (d + size <= length m)%nat ->
  exists l z e', b64_decode sg (slice m s n) (slice m d size) e = Some (l, z, e') /\ length l = size /\
    b64_decode_at sg m s n d e = Some (put m d l, z, e').
Proof.
  intros Hs P Hz Hn Hd. destruct (b64_decode_safe sg (slice m s n) (slice m d size) [] e size) as (l & z & e' & E & L).
  { rewrite slice_length by exact Hs. exact Hz. }
  { exact Hn. }
  { apply slice_length, Hd. }
  rewrite !app_nil_r in E. exists l, z, e'. split; [exact E|]. split; [rewrite L; apply slice_length, Hd|].
  exact (sim_decode64 m s n d size Hs Hd sg e l z e' P E).
Qed.
Lemma decode16_text sg m s n d e x : (s + n <= length m)%nat -> decode_place s n d -> (d + length x <= length m)%nat ->
  spec_unhex (slice m s n) = Some x -> b16_decode_at sg m s n d e = Some (put m d x, length x, err_none).
Proof.
  intros Hs P Hd E. apply (sim_decode16 m s n d (length x) Hs Hd sg e x _ _ P).
  unfold src, dst. rewrite (b16_decode_valid _ _ _ _ _ E) by (rewrite slice_length; lia).
  rewrite skipn_all2 by (rewrite slice_length; lia). rewrite app_nil_r. reflexivity.
Qed.
Lemma decode64_text sg m s n d e x : (s + n <= length m)%nat -> decode_place s n d -> (d + length x <= length m)%nat -> (Z.of_nat n * 3 < 2 ^ 64)%Z ->
  spec_unb64 (slice m s n) = Some x -> b64_decode_at sg m s n d e = Some (put m d x, length x, err_none).
Proof.
  intros Hs P Hd Hz E. apply (sim_decode64 m s n d (length x) Hs Hd sg e x _ _ P). unfold src, dst.
  pose proof (spec_unb64_ascii _ _ E) as A.
  assert (Z' : (Z.of_nat (length (slice m s n)) * 3 < 2 ^ 64)%Z) by (rewrite slice_length by exact Hs; exact Hz).
  destruct (b64_decode_size_eq (slice m s n) Z') as [Q _].
  pose proof (spec_unb64_size sg _ _ E (or_intror A)) as L. rewrite <- L in Q.
  pose proof (b64_decode_tight sg (slice m s n) (slice m d (length x)) e _ (ascii_bytes _ A) (or_intror A) Z' Q (slice_length _ _ _ Hd)) as T.
  rewrite E in T. exact (proj1 T).
Qed.
Lemma encode16_text m s n d : (s + n <= length m)%nat -> encode16_place s n d -> (d + 2 * n <= length m)%nat -> bytes (slice m s n) ->
  b16_encode_at m s n d = Some (put m d (spec_hex (slice m s n)), (2 * n)%nat).
Proof.
  intros Hs P Hd B. apply (sim_encode16 m s n d (2 * n) Hs Hd _ _ P). unfold src, dst.
  pose proof (b16_encode_frame (slice m s n) (slice m d (2 * n)) [] B) as F. rewrite !app_nil_r, !slice_length in F by assumption. apply F. reflexivity.
Qed.
Lemma encode64_text m s n d : (s + n <= length m)%nat -> encode64_place s n d -> (d + 4 * ((n + 2) / 3) <= length m)%nat -> bytes (slice m s n) ->
  b64_encode_at m s n d = Some (put m d (spec_b64 (slice m s n)), (4 * ((n + 2) / 3))%nat).
Proof.
  intros Hs P Hd B. apply (sim_encode64 m s n d (4 * ((n + 2) / 3)) Hs Hd _ _ P). unfold src, dst.
  pose proof (b64_encode_frame (slice m s n) (slice m d (4 * ((n + 2) / 3))) [] B) as F.
  rewrite !app_nil_r, spec_b64_length, !slice_length in F by assumption. apply F. reflexivity.
Qed.

(** *** In place *)
Lemma put_twice (m : list N) d l l' : length l = length l' -> (d + length l <= length m)%nat -> put (put m d l) d l' = put m d l'.
Proof.
  intros L H. apply list_ext; [rewrite !put_length; rewrite ?put_length; lia|].
  intros i x _. rewrite (nth_put (put m d l)) by (rewrite put_length; lia). rewrite !nth_put by lia. rewrite <- L.
  destruct (_ && _); reflexivity.
Qed.
Lemma in_place16 a b b' r n : (2 <= n)%nat -> b16_encode_at (a :: b :: r) 0 n 0 = b16_encode_at (a :: b' :: r) 0 n 0.
Proof. intros H. destruct n as [|n]; [lia|]. unfold b16_encode_at. cbn [b16_encode_loop_at Nat.add rd nth_error bind]. reflexivity. Qed.
Lemma in_place64 a0 a1 a2 b b' r n : (3 <= n)%nat ->
  b64_encode_at (a0 :: a1 :: a2 :: b :: r) 0 n 0 = b64_encode_at (a0 :: a1 :: a2 :: b' :: r) 0 n 0.
Proof.
  intros H. assert (F : (1 <= n / 3)%nat) by (apply Nat.div_le_lower_bound; lia). unfold b64_encode_at.
  destruct (n / 3)%nat as [|f] eqn:E; [lia|]. cbn [b64_encode_loop_at Nat.add rd nth_error bind]. reflexivity.
Qed.

(** *** One container twice *)
Lemma e16_room : forall k m s d fp tp m', b16_encode_loop_at m s d k fp tp = Some m' -> length m' = length m /\ (k = 0 \/ d + tp + 2 * k <= length m)%nat.
Proof.
  induction k as [|k IH]; intros m s d fp tp m' H; cbn [b16_encode_loop_at] in H; [injection H as <-; auto|].
  binds H. wrs_len. apply IH in H. lia.
Qed.
Lemma e64_room : forall k m s d fp tp m' fp' tp', b64_encode_loop_at m s d k fp tp = Some (m', fp', tp') ->
  length m' = length m /\ tp' = (tp + 4 * k)%nat /\ (k = 0 \/ d + tp + 4 * k <= length m)%nat.
Proof.
  induction k as [|k IH]; intros m s d fp tp m' fp' tp' H; cbn [b64_encode_loop_at] in H.
  - injection H as <- <- <-. lia.
  - binds H. wrs_len. apply IH in H. lia.
Qed.
Lemma encode16_too_long m n : (length m < 2 * n)%nat -> b16_encode_at m 0 n 0 = None.
Proof.
  intros H. unfold b16_encode_at. destruct (b16_encode_loop_at m 0 0 n 0 0) as [m'|] eqn:E; [|reflexivity]. apply e16_room in E. lia.
Qed.
Lemma encode64_too_long m n : (length m < 4 * ((n + 2) / 3))%nat -> b64_encode_at m 0 n 0 = None.
Proof.
  intros H. destruct (b64_encode_at m 0 n 0) as [[m' z]|] eqn:E; [|reflexivity]. unfold b64_encode_at in E.
  pose proof (Nat.div_mod n 3) as D. pose proof (Nat.mod_upper_bound n 3) as U.
  destruct (b64_encode_loop_at m 0 0 (n / 3) 0 0) as [[[m1 fp] tp]|] eqn:L; [|discriminate]. cbn [bind] in E. apply e64_room in L.
  assert (Q : ((n + 2) / 3 = n / 3 + (if n mod 3 =? 0 then 0 else 1))%nat).
  { symmetry. destruct (Nat.eqb_spec (n mod 3) 0) as [Z|Z].
    - apply (Nat.div_unique (n + 2) 3 (n / 3 + 0) 2); lia.
    - apply (Nat.div_unique (n + 2) 3 (n / 3 + 1) (n mod 3 - 1)); lia. }
  rewrite Q in H. set (f := (n / 3)%nat) in *. set (l := (n mod 3)%nat) in *. clearbody f l.
  destruct (Nat.eqb_spec l 0) as [Z|Z]; [lia|]. binds E. wrs_len. lia.
Qed.
Lemma encode_same_none sg c : cdata c <> [] -> N.of_nat (length (cdata c)) < 2 ^ 62 ->
  apie_encode_same (base_16_at sg) c = None /\ apie_encode_same (base_64_at sg) c = None.
Proof.
  intros Hc Hl. assert (L0 : (1 <= length (cdata c))%nat) by (destruct (cdata c); [contradiction|cbn; lia]).
  assert (E1 : co_encode_size (ca_codec (base_16_at sg)) (cdata c) = (2 * length (cdata c))%nat).
  { cbn [base_16_at ca_codec base_16 co_encode_size]. unfold b16_encode_size. rewrite N.mod_small by lia. lia. }
  assert (E2 : co_encode_size (ca_codec (base_64_at sg)) (cdata c) = (4 * ((length (cdata c) + 2) / 3))%nat).
  { cbn [base_64_at ca_codec base_64 co_encode_size]. rewrite b64_encode_size_correct by exact Hl.
    rewrite N2Nat.inj_mul, N2Nat.inj_div, N2Nat.inj_add, Nat2N.id. reflexivity. }
  assert (Q : (length (cdata c) <= 3 * ((length (cdata c) + 2) / 3))%nat).
  { pose proof (Nat.div_mod (length (cdata c) + 2) 3). pose proof (Nat.mod_upper_bound (length (cdata c) + 2) 3). lia. }
  assert (Q2 : forall a, (1 <= a)%nat -> (a < 4 * ((a + 2) / 3))%nat).
  { intros a Ha. pose proof (Nat.div_mod (a + 2) 3). pose proof (Nat.mod_upper_bound (a + 2) 3). lia. }
  unfold apie_encode_same. rewrite E1, E2. destruct c as [l|l]; cbn [cresize cdata] in *; cbn [base_16_at base_64_at ca_encode].
  - rewrite !resize_list_len, encode16_too_long by (rewrite resize_list_len; lia).
    rewrite encode64_too_long by (rewrite resize_list_len; apply Q2; lia). auto.
  - rewrite encode16_too_long by lia. rewrite encode64_too_long by (apply Q2; lia). auto.
Qed.
Lemma decode_same_static sg t e x :
  (spec_unhex t = Some x -> apie_decode_same (base_16_at sg) (Static t) e = Some (Static (put t 0 x), length x, err_none)) /\
  (spec_unb64 t = Some x -> (Z.of_nat (length t) * 3 < 2 ^ 64)%Z ->
     apie_decode_same (base_64_at sg) (Static t) e = Some (Static (put t 0 x), length x, err_none)).
Proof.
  split.
  - intros E. pose proof (spec_unhex_length _ _ E) as L. unfold apie_decode_same. cbn [base_16_at ca_codec base_16 co_decode_size ca_decode bind cresize cdata].
    rewrite (decode16_text sg t 0 (length t) 0 e x); [reflexivity|lia|left; lia|lia|rewrite slice_all; exact E].
  - intros E Hz. pose proof (spec_unb64_ascii _ _ E) as A. pose proof (spec_unb64_size sg _ _ E (or_intror A)) as L.
    destruct (b64_decode_size_eq t Hz) as [Q _]. unfold apie_decode_same. cbn [base_64_at ca_codec base_64 co_decode_size ca_decode cdata]. rewrite Q. cbn [bind cresize cdata].
    rewrite (decode64_text sg t 0 (length t) 0 e x); [reflexivity|lia|left; lia| |exact Hz|rewrite slice_all; exact E].
    cbn [Nat.add]. rewrite L. assert (length t * 3 / 4 <= length t)%nat by (apply Nat.div_le_upper_bound; lia). lia.
Qed.
Lemma spec_hex_app a b : spec_hex (a ++ b) = spec_hex a ++ spec_hex b.
Proof. unfold spec_hex. apply flat_map_app. Qed.
Lemma spec_hex_len l : length (spec_hex l) = (2 * length l)%nat.
Proof. induction l as [|a l IH]; [reflexivity|]. change (spec_hex (a :: l)) with (digit hex_lower (a / 16) :: digit hex_lower (a mod 16) :: spec_hex l). cbn [length]. rewrite IH. lia. Qed.
Lemma spec_unhex_hex l : bytes l -> spec_unhex (spec_hex l) = Some l.
Proof. intros B. apply spec_unhex_case; [exact B|]. induction (spec_hex l); constructor; auto. Qed.
Lemma put_0_all (m x : list N) : (length x <= length m)%nat -> resize_list (put m 0 x) (length x) = x.
Proof.
  intros H. unfold put, resize_list. cbn [firstn app Nat.add]. rewrite firstn_app, Nat.sub_diag, firstn_O, firstn_all, app_nil_r.
  rewrite app_length, skipn_length. replace (length x - _)%nat with 0%nat by lia. apply app_nil_r.
Qed.
Lemma resize_shrink l n : (n <= length l)%nat -> resize_list l n = firstn n l.
Proof. intros H. unfold resize_list. replace (n - length l)%nat with 0%nat by lia. apply app_nil_r. Qed.
Lemma decode_same_half16 sg x y e : bytes (x ++ y) -> length x = length y ->
  apie_decode_same (base_16_at sg) (Dynamic (spec_hex (x ++ y))) e = Some (Dynamic x, length x, err_none).
Proof.
  intros B L. apply bytes_app in B. destruct B as [Bx By]. unfold apie_decode_same. cbn [base_16_at ca_codec base_16 co_decode_size ca_decode cdata bind cresize].
  set (t := spec_hex (x ++ y)). assert (Lt : length t = (2 * (2 * length x))%nat) by (unfold t; rewrite spec_hex_len, app_length; lia).
  unfold b16_decode_size. rewrite Lt, even_twice, div2_twice, Nat.add_0_r, resize_shrink by lia.
  assert (T : firstn (2 * length x) t = spec_hex x).
  { unfold t. rewrite spec_hex_app, firstn_app, spec_hex_len, Nat.sub_diag, firstn_O, app_nil_r. apply firstn_all2. rewrite spec_hex_len. lia. }
  rewrite T, (decode16_text sg (spec_hex x) 0 (length (spec_hex x)) 0 e x); [|lia|left; lia|rewrite spec_hex_len; lia|rewrite slice_all; apply spec_unhex_hex, Bx].
  cbn [bind cset cresize]. rewrite put_0_all by (rewrite spec_hex_len; lia). reflexivity.
Qed.
Lemma spec_b64_app a b : (length a mod 3 = 0)%nat -> bytes a -> spec_b64 (a ++ b) = spec_b64 a ++ spec_b64 b.
Proof.
  intros H B. rewrite spec_b64_split by assumption. f_equal. pose proof (spec_b64_split a [] H B) as E. rewrite app_nil_r in E. rewrite E. cbn [spec_b64]. rewrite app_nil_r. reflexivity.
Qed.
Lemma decode_same_part64 sg x y j e : bytes (x ++ y) -> length x = (9 * j)%nat -> length y = (3 * j)%nat -> N.of_nat (length (x ++ y)) < 2 ^ 60 ->
  apie_decode_same (base_64_at sg) (Dynamic (spec_b64 (x ++ y))) e = Some (Dynamic x, length x, err_none).
Proof.
  intros B L1 L2 Hb. pose proof (base64_roundtrip sg (x ++ y) B Hb) as (_ & Q & _). apply bytes_app in B. destruct B as [Bx By].
  unfold apie_decode_same. cbn [base_64_at ca_codec ca_decode cdata]. rewrite Q. cbn [bind cresize cdata].
  assert (M3 : (length x mod 3 = 0)%nat) by (rewrite L1; replace (9 * j)%nat with (3 * j * 3)%nat by lia; apply Nat.mod_mul; lia).
  assert (Lx : length (spec_b64 x) = (12 * j)%nat).
  { rewrite spec_b64_length, L1. replace ((9 * j + 2) / 3)%nat with (3 * j)%nat; [lia|]. apply (Nat.div_unique _ 3 _ 2); lia. }
  rewrite app_length in Hb. rewrite app_length.
  assert (T : resize_list (spec_b64 (x ++ y)) (length x + length y) = spec_b64 x).
  { rewrite spec_b64_app by assumption. rewrite resize_shrink by (rewrite app_length; lia). replace (length x + length y)%nat with (length (spec_b64 x) + 0)%nat by lia.
    rewrite firstn_app_2, firstn_O, app_nil_r. reflexivity. }
  rewrite T, (decode64_text sg (spec_b64 x) 0 (length (spec_b64 x)) 0 e x); [|lia|left; lia|lia| |rewrite slice_all; apply spec_unb64_b64, Bx].
  - cbn [bind cset cresize]. rewrite put_0_all by lia. reflexivity.
  - rewrite Lx. lia.
Qed.
