(** Symbolic execution of straight-line vector code that reads a source range and writes a destination range in whole
    vectors, each place of the destination after the same place of the source was read. *)
From Verif Require Import Base BaseLemmas BytesLemmas Spec_Bytes Spec_Range Proof_Range Model_Dispatch Model_X86.
Local Open Scope N_scope.

(** A machine whose memory is described by the vectors written so far. *)
Record am := { a_reg : list vec; a_tmp : list vec; a_base : list vec; a_out : list (option vec) }.

Section AM.
  Variable w : nat.
  Variable tr : bool.               (* whether there is a source *)
  Variable X : nat -> N.            (* its 32-bit words *)
  Definition aget (a : am) (o : opd) : option vec :=
    match o with
    | Rg i => nth_error (a_reg a) i
    | Tm i => nth_error (a_tmp a) i
    | Bs i => nth_error (a_base a) i
    | Cn v => Some v
    | Src off =>
        if tr && (off mod w =? 0)%nat then
          match nth_error (a_out a) (off / w) with
          | Some None => Some (map X (seq (w / 4 * (off / w)) (w / 4)))
          | _ => None
          end
        else None
    | _ => None
    end.
  Definition a_with_reg (a : am) (r : list vec) : am := {| a_reg := r; a_tmp := a_tmp a; a_base := a_base a; a_out := a_out a |}.
  Definition a_with_tmp (a : am) (r : list vec) : am := {| a_reg := a_reg a; a_tmp := r; a_base := a_base a; a_out := a_out a |}.
  Definition a_with_base (a : am) (r : list vec) : am := {| a_reg := a_reg a; a_tmp := a_tmp a; a_base := r; a_out := a_out a |}.
  Definition a_with_out (a : am) (r : list (option vec)) : am := {| a_reg := a_reg a; a_tmp := a_tmp a; a_base := a_base a; a_out := r |}.
  Definition asetreg (a : am) (d : nat) (v : vec) : option am := r <- lset (a_reg a) d v ;; Some (a_with_reg a r).
  Definition aset (a : am) (o : opd) (v : vec) : option am :=
    match o with
    | Rg i => asetreg a i v
    | Tm i => r <- lset (a_tmp a) i v ;; Some (a_with_tmp a r)
    | Bs i => r <- lset (a_base a) i v ;; Some (a_with_base a r)
    | Dst off =>
        if (off mod w =? 0)%nat then
          if (length v =? w / 4)%nat then r <- lset (a_out a) (off / w) (Some v) ;; Some (a_with_out a r) else None
        else None
    | _ => None
    end.
  Definition aexec (a : am) (i : instr) : option am :=
    if may_fault w i then None else
    match i with
    | Mov _ d s => v <- aget a s ;; aset a d v
    | Op3 o d x y => u <- nth_error (a_reg a) x ;; v <- aget a y ;; asetreg a d (fun3 o u v)
    | Sll d x k => u <- nth_error (a_reg a) x ;; asetreg a d (pslld k u)
    | Srl d x k => u <- nth_error (a_reg a) x ;; asetreg a d (psrld k u)
    | Shufb d x mask => u <- nth_error (a_reg a) x ;; asetreg a d (pshufb u mask)
    | Shufd d x imm => u <- nth_error (a_reg a) x ;; asetreg a d (pshufd imm u)
    | Perm2 d x y imm => u <- nth_error (a_reg a) x ;; v <- nth_error (a_reg a) y ;; asetreg a d (vperm2i128 imm u v)
    | _ => None
    end.
  Fixpoint arun (p : list instr) (a : am) : option am :=
    match p with [] => Some a | i :: p => a <- aexec a i ;; arun p a end.
End AM.

Lemma lset_split {A} : forall (l : list A) k v l', lset l k v = Some l' ->
  exists pre x post, l = pre ++ x :: post /\ length pre = k /\ l' = pre ++ v :: post.
Proof.
  induction l as [|x l IH]; intros [|k] v l' H; cbn [lset] in H; try discriminate.
  - injection H as <-. exists [], x, l. repeat split.
  - destruct (lset l k v) as [l1|] eqn:E; [|discriminate]. injection H as <-.
    destruct (IH k v l1 E) as (pre & y & post & -> & <- & ->). exists (x :: pre), y, post. repeat split.
Qed.
Lemma nth_error_split' {A} (l : list A) k x : nth_error l k = Some x -> exists pre post, l = pre ++ x :: post /\ length pre = k.
Proof. intros H. destruct (nth_error_split l k H) as (p & q & -> & <-). exists p, q. split; reflexivity. Qed.
Lemma put_mid {A} (x b b' y : list A) d : d = length x -> length b = length b' -> put (x ++ b ++ y) d b' = x ++ b' ++ y.
Proof.
  intros -> H. unfold put. rewrite firstn_app, Nat.sub_diag, firstn_O, app_nil_r, firstn_all2 by lia. f_equal. f_equal.
  rewrite skipn_app, skipn_all2 by lia. cbn [app]. rewrite skipn_app, skipn_all2 by lia.
  replace (length x + length b' - length x - length b)%nat with 0%nat by lia. reflexivity.
Qed.
Lemma slice_mid {A} (x b y : list A) s n : s = length x -> n = length b -> slice (x ++ b ++ y) s n = b.
Proof.
  intros -> ->. unfold slice. rewrite skipn_app, skipn_all2, Nat.sub_diag by lia. cbn [app]. rewrite skipn_O.
  rewrite firstn_app, Nat.sub_diag, firstn_O, app_nil_r. apply firstn_all2. lia.
Qed.
Lemma put_self {A} (m : list A) d n : (d + n <= length m)%nat -> put m d (slice m d n) = m.
Proof.
  intros H. apply list_ext.
  - apply put_length. rewrite slice_length; lia.
  - intros i x Hi. rewrite nth_put by (rewrite slice_length; lia). rewrite slice_length by lia.
    destruct (Nat.leb_spec d i), (Nat.ltb_spec i (d + n)); try reflexivity. cbn [andb]. rewrite nth_slice by lia. f_equal. lia.
Qed.
Lemma vbytes_length v : length (vbytes v) = (4 * length v)%nat.
Proof. unfold vbytes. induction v as [|x v IH]; [reflexivity|]. cbn [flat_map]. rewrite app_length, le_enc_length, IH. cbn [length]. lia. Qed.
Lemma slice_add {A} (m : list A) s a b : slice m s (a + b) = slice m s a ++ slice m (s + a) b.
Proof. apply slice_app. Qed.
Lemma le_words_slice m : forall n s, (s + 4 * n <= length m)%nat ->
  le_words 4 n (slice m s (4 * n)) = map (fun j => le_dec (slice m (s + 4 * j) 4)) (seq 0 n).
Proof.
  induction n as [|n IH]; intros s H; [reflexivity|].
  replace (4 * S n)%nat with (4 + 4 * n)%nat by lia. rewrite slice_add.
  cbn [le_words seq map]. rewrite firstn_app, slice_length, Nat.sub_diag, firstn_O, app_nil_r by lia.
  rewrite firstn_all2 by (rewrite slice_length; lia). rewrite Nat.mul_0_r, Nat.add_0_r. f_equal.
  rewrite skipn_app, skipn_all2 by (rewrite slice_length; lia). rewrite slice_length, Nat.sub_diag, skipn_O by lia. cbn [app].
  rewrite IH by lia. rewrite <- seq_shift, map_map. apply map_ext. intros j. do 2 f_equal. lia.
Qed.

Lemma seq_from c n : seq c n = map (fun j => (c + j)%nat) (seq 0 n).
Proof.
  revert c. induction n as [|n IH]; intros c; [reflexivity|]. cbn [seq map]. rewrite Nat.add_0_r. f_equal.
  rewrite (IH (S c)), (IH 1%nat), map_map. apply map_ext. intros j. lia.
Qed.
Section SIM.
  Variables (w cnt : nat) (tr : bool) (m : list N) (d s : nat) (st : list N).
  Hypothesis Hw : w = (4 * (w / 4))%nat.
  Hypothesis Hw0 : w <> 0%nat.
  Hypothesis Hd : (d + w * cnt <= length m)%nat.
  Hypothesis Hs : tr = true -> (s + w * cnt <= length m)%nat.
  Hypothesis Hap : tr = true -> apart d s (w * cnt).
  Definition src_word (j : nat) : N := le_dec (slice m (s + 4 * j) 4).

  Definition fill (k : nat) (o : option vec) : list N := match o with Some v => vbytes v | None => slice m (d + w * k) w end.
  Fixpoint flat (k : nat) (l : list (option vec)) : list N :=
    match l with [] => [] | o :: l => fill k o ++ flat (S k) l end.
  Definition good (o : option vec) : Prop := match o with Some v => length v = (w / 4)%nat | None => True end.
  Lemma fill_length k o : good o -> (k < cnt)%nat -> length (fill k o) = w.
  Proof. intros G Hk. destruct o as [v|]; cbn in *; [rewrite vbytes_length, G; lia|]. apply slice_length. nia. Qed.
  Lemma flat_length : forall l k, Forall good l -> (k + length l <= cnt)%nat -> length (flat k l) = (w * length l)%nat.
  Proof.
    induction l as [|o l IH]; intros k G Hk; [cbn; lia|]. inversion_clear G. cbn [flat length] in *.
    rewrite app_length, fill_length, IH by (try assumption; lia). nia.
  Qed.
  Lemma flat_app : forall l1 l2 k, flat k (l1 ++ l2) = flat k l1 ++ flat (k + length l1) l2.
  Proof.
    induction l1 as [|o l1 IH]; intros l2 k; [cbn; rewrite Nat.add_0_r; reflexivity|]. cbn [app flat length].
    rewrite IH, <- app_assoc. replace (S k + length l1)%nat with (k + S (length l1))%nat by lia. reflexivity.
  Qed.
  Lemma flat_none : forall n k, (k + n <= cnt)%nat -> flat k (repeat None n) = slice m (d + w * k) (w * n).
  Proof.
    induction n as [|n IH]; intros k H; [rewrite Nat.mul_0_r; reflexivity|]. cbn [repeat flat fill]. rewrite IH by lia.
    replace (w * S n)%nat with (w + w * n)%nat by lia. rewrite slice_add. do 2 f_equal. nia.
  Qed.

  Definition inv (a : am) : Prop := length (a_out a) = cnt /\ Forall good (a_out a).
  Definition conc (a : am) : mach :=
    {| mc_reg := a_reg a; mc_tmp := a_tmp a; mc_base := a_base a; mc_mem := put m d (flat 0 (a_out a)); mc_dst := d; mc_src := s; mc_state := st |}.

  Lemma load_sim a k : tr = true -> inv a -> nth_error (a_out a) k = Some None ->
    rds (put m d (flat 0 (a_out a))) (s + w * k) w = Some (slice m (s + w * k) w).
  Proof.
    intros TR [L G] H. pose proof (Hs TR) as Hs'. destruct (nth_error_split' _ _ _ H) as (pre & post & E & <-). rewrite E in *.
    rewrite app_length in L. cbn [length] in L. assert (FL : length (flat 0 (pre ++ None :: post)) = (w * cnt)%nat).
    { rewrite flat_length; [rewrite app_length; cbn [length]; lia|exact G|rewrite app_length; cbn [length]; lia]. }
    rewrite rds_slice by (rewrite put_length; nia). f_equal.
    destruct (Hap TR) as [Eds|D].
    - rewrite <- Eds. rewrite flat_app. cbn [flat fill Nat.add]. unfold put. rewrite <- !app_assoc. rewrite app_assoc.

      rewrite slice_mid; [reflexivity| |rewrite slice_length; nia].
      rewrite app_length, firstn_length, flat_length; [nia|apply Forall_app in G; apply G|lia].
    - rewrite slice_put_other; [reflexivity|lia|nia|nia].
  Qed.
  Lemma store_sim a k v out' : inv a -> lset (a_out a) k (Some v) = Some out' -> length v = (w / 4)%nat ->
    wrs (put m d (flat 0 (a_out a))) (d + w * k) (vbytes v) = Some (put m d (flat 0 out')) /\ length out' = cnt /\ Forall good out'.
  Proof.
    intros [L G] H Hv. destruct (lset_split _ _ _ _ H) as (pre & x & post & E & <- & ->). rewrite E in *.
    rewrite app_length in L. cbn [length] in L. apply Forall_app in G. destruct G as [G1 G2].
    assert (G3 : Forall good (pre ++ x :: post)) by (apply Forall_app; split; assumption).
    assert (FL : length (flat 0 (pre ++ x :: post)) = (w * cnt)%nat).
    { rewrite flat_length; [rewrite app_length; cbn [length]; lia|exact G3|rewrite app_length; cbn [length]; lia]. }
    assert (VL : length (vbytes v) = w) by (rewrite vbytes_length, Hv; lia).
    split; [|split; [rewrite app_length; cbn [length]; lia|]].
    - rewrite wrs_put by (rewrite put_length; nia). f_equal.
      assert (FX : length (fill (length pre) x) = w) by (apply fill_length; [exact (Forall_inv G2)|lia]).
      unfold put at 2. rewrite FL. rewrite flat_app. cbn [flat Nat.add]. rewrite <- app_assoc, <- app_assoc, app_assoc.
      rewrite put_mid; [|rewrite app_length, firstn_length, flat_length; [nia|exact G1|lia]|lia].
      unfold put. rewrite flat_app. cbn [flat fill Nat.add]. rewrite <- !app_assoc. do 4 f_equal.
      rewrite flat_app in FL. cbn [flat Nat.add] in FL. rewrite !app_length in *. f_equal. lia.
    - apply Forall_app. split; [exact G1|]. constructor; [exact Hv|exact (Forall_inv_tail G2)].
  Qed.

  Lemma get_sim a o v : inv a -> aget w tr src_word a o = Some v -> get w (conc a) o = Some v.
  Proof.
    intros I H. destruct o as [i|i|i|c|off|off|i]; cbn [aget] in H; cbn [get conc mc_reg mc_tmp mc_base mc_mem mc_src]; try exact H; try discriminate.
    assert (TR : tr = true) by (revert H; case tr; [reflexivity|cbn [andb]; discriminate]).
    pose proof (Hs TR) as Hs'. rewrite TR in H. cbn [andb] in H.
    destruct (Nat.eqb_spec (off mod w) 0) as [E|]; [|discriminate].
    destruct (nth_error (a_out a) (off / w)) as [[|]|] eqn:N; try discriminate. injection H as <-.
    pose proof (Nat.div_mod off w Hw0) as D. rewrite E, Nat.add_0_r in D. set (k := (off / w)%nat) in *. clearbody k. subst off.
    rewrite (load_sim a k TR I N). cbn [bind]. f_equal. unfold blanes.
    assert (B : (w * k + w <= w * cnt)%nat).
    { assert (k < length (a_out a))%nat by (apply nth_error_Some; congruence). rewrite (proj1 I) in *. nia. }
    rewrite slice_length by lia. rewrite Hw at 3. rewrite le_words_slice by lia.
    rewrite (seq_from (w / 4 * k)), map_map. apply map_ext. intros j. unfold src_word. do 2 f_equal. nia.
  Qed.
  Lemma setreg_sim a i v a' : asetreg a i v = Some a' -> setreg (conc a) i v = Some (conc a') /\ a_out a' = a_out a.
  Proof.
    unfold asetreg, setreg. cbn [conc mc_reg]. destruct (lset (a_reg a) i v); [|discriminate]. intros H. injection H as <-. split; reflexivity.
  Qed.
  Lemma set_sim a o v a' : inv a -> aset w a o v = Some a' -> set (conc a) o v = Some (conc a') /\ inv a'.
  Proof.
    intros I H. destruct o as [i|i|i|c|off|off|i]; cbn [aset] in H; try discriminate.
    - destruct (setreg_sim a i v a' H) as [E O]. split; [exact E|]. unfold inv. rewrite O. exact I.
    - unfold set. cbn [conc mc_tmp]. destruct (lset (a_tmp a) i v); [|discriminate]. injection H as <-. split; [reflexivity|exact I].
    - unfold set. cbn [conc mc_base]. destruct (lset (a_base a) i v); [|discriminate]. injection H as <-. split; [reflexivity|exact I].
    - destruct (Nat.eqb_spec (off mod w) 0) as [E|]; [|discriminate].
      destruct (Nat.eqb_spec (length v) (w / 4)) as [LV|]; [|discriminate].
      destruct (lset (a_out a) (off / w) (Some v)) as [out|] eqn:N; [|discriminate]. injection H as <-.
      pose proof (Nat.div_mod off w Hw0) as D. rewrite E, Nat.add_0_r in D. set (k := (off / w)%nat) in *. clearbody k. subst off.
      destruct (store_sim a k v out I N LV) as (S1 & S2 & S3). cbn [set conc mc_mem mc_dst]. rewrite S1. cbn [bind].
      split; [reflexivity|]. split; assumption.
  Qed.
  Lemma exec_sim a i a' : inv a -> aexec w tr src_word a i = Some a' -> exec w (conc a) i = Some (conc a') /\ inv a'.
  Proof.
    intros I H. unfold aexec in H. unfold exec. destruct (may_fault w i); [discriminate|].
    assert (R : forall k v, asetreg a k v = Some a' -> setreg (conc a) k v = Some (conc a') /\ inv a').
    { intros k v Q. destruct (setreg_sim a k v a' Q) as [E O]. split; [exact E|]. unfold inv. rewrite O. exact I. }
    destruct i as [al o1 o2|o x y z|x y k|x y k|x y k|x y k|x y z k|x y|n|n]; try discriminate;
      change (mc_reg (conc a)) with (a_reg a).
    - destruct (aget w tr src_word a o2) as [v|] eqn:G; [|discriminate]. cbn [bind] in H.
      rewrite (get_sim a o2 v I G). cbn [bind]. apply set_sim; assumption.
    - destruct (nth_error (a_reg a) y) as [u|]; [|discriminate]. cbn [bind] in *.
      destruct (aget w tr src_word a z) as [v|] eqn:G; [|discriminate]. cbn [bind] in H.
      rewrite (get_sim a z v I G). cbn [bind]. apply R, H.
    - destruct (nth_error (a_reg a) y) as [u|]; [|discriminate]. cbn [bind] in *. apply R, H.
    - destruct (nth_error (a_reg a) y) as [u|]; [|discriminate]. cbn [bind] in *. apply R, H.
    - destruct (nth_error (a_reg a) y) as [u|]; [|discriminate]. cbn [bind] in *. apply R, H.
    - destruct (nth_error (a_reg a) y) as [u|]; [|discriminate]. cbn [bind] in *. apply R, H.
    - destruct (nth_error (a_reg a) y) as [u|]; [|discriminate]. cbn [bind] in *.
      destruct (nth_error (a_reg a) z) as [v|]; [|discriminate]. cbn [bind] in *. apply R, H.
  Qed.
  Lemma run_sim p : forall a a', inv a -> arun w tr src_word p a = Some a' -> run w p (conc a) = Some (conc a') /\ inv a'.
  Proof.
    induction p as [|i p IH]; intros a a' I H; cbn [arun] in H; [injection H as <-; split; [reflexivity|exact I]|].
    destruct (aexec w tr src_word a i) as [b|] eqn:E; [|discriminate]. destruct (exec_sim a i b I E) as [E1 I1].
    cbn [run bind] in *. rewrite E1. cbn [bind]. apply IH; assumption.
  Qed.

  (** From a fresh state to one where every place has been written. *)
  Lemma run_block p regs tmp base regs' tmp' base' (outs : list vec) :
    arun w tr src_word p {| a_reg := regs; a_tmp := tmp; a_base := base; a_out := repeat None cnt |}
    = Some {| a_reg := regs'; a_tmp := tmp'; a_base := base'; a_out := map Some outs |} ->
    run w p {| mc_reg := regs; mc_tmp := tmp; mc_base := base; mc_mem := m; mc_dst := d; mc_src := s; mc_state := st |}
    = Some {| mc_reg := regs'; mc_tmp := tmp'; mc_base := base'; mc_mem := put m d (flat_map vbytes outs); mc_dst := d; mc_src := s; mc_state := st |}.
  Proof.
    intros H. set (a0 := {| a_reg := regs; a_tmp := tmp; a_base := base; a_out := repeat None cnt |}) in *.
    assert (I : inv a0). { split; [apply repeat_length|]. apply Forall_forall. intros x Hx. apply repeat_spec in Hx. subst x. exact I. }
    destruct (run_sim p a0 _ I H) as [R _]. unfold conc, a0 in R. cbn [a_reg a_tmp a_base a_out] in R.
    rewrite flat_none in R by lia. rewrite Nat.mul_0_r, Nat.add_0_r in R. rewrite put_self in R by exact Hd. rewrite R.
    do 3 f_equal. generalize 0%nat. clear. induction outs as [|v outs IH]; intros k; [reflexivity|]. cbn [map flat fill flat_map]. rewrite IH. reflexivity.
  Qed.
End SIM.
