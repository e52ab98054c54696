(** The vector routines when the source range overlaps the destination range: exactly what they compute. *)
From Verif Require Import Base BaseLemmas BytesLemmas Spec_Bytes Spec_ChaCha Model_Memory Model_X86 Model_Cipher Spec_Cipher Spec_ChaChaAsm Model_ChaChaAsm
  Proof_ChaChaCore Proof_X86Sym Proof_ChaChaAsm Proof_ChaChaAsm2 Proof_ChaChaAsm3 Spec_Range Proof_Range.
Local Open Scope N_scope.

(** *** Loads and stores of straight-line code *)
Definition src_of (i : instr) : option nat := match i with Mov _ _ (Src x) => Some x | Op3 _ _ _ (Src x) => Some x | _ => None end.
Definition dst_of (i : instr) : option nat := match i with Mov _ (Dst y) _ => Some y | _ => None end.
Definition srcs (w : nat) (p : list instr) : list nat := flat_map (fun i => match src_of i with Some x => [(x / w)%nat] | None => [] end) p.
Definition dsts (w : nat) (p : list instr) : list nat := flat_map (fun i => match dst_of i with Some x => [(x / w)%nat] | None => [] end) p.
(** Place [k'] is written, and later place [k] of the source is read. *)
Fixpoint before (w : nat) (p : list instr) (k' k : nat) : bool :=
  match p with
  | [] => false
  | i :: p => match dst_of i with
              | Some y => if (y / w =? k')%nat then existsb (Nat.eqb k) (srcs w p) else before w p k' k
              | None => before w p k' k
              end
  end.

Lemma srcs_app w p q : srcs w (p ++ q) = srcs w p ++ srcs w q.
Proof. apply flat_map_app. Qed.
Lemma dsts_app w p q : dsts w (p ++ q) = dsts w p ++ dsts w q.
Proof. apply flat_map_app. Qed.
Lemma before_split w pre i post off k' : NoDup (srcs w (pre ++ i :: post)) -> src_of i = Some off ->
  before w (pre ++ i :: post) k' (off / w) = existsb (Nat.eqb k') (dsts w pre).
Proof.
  intros ND E. set (k := (off / w)%nat).
  assert (A : forall q, existsb (Nat.eqb k) (srcs w (q ++ i :: post)) = true).
  { intros q. apply existsb_exists. exists k. split; [|apply Nat.eqb_refl]. rewrite srcs_app. apply in_or_app. right.
    cbn [srcs flat_map]. rewrite E. left. reflexivity. }
  assert (B : before w post k' k = false /\ (existsb (Nat.eqb k) (srcs w post) = false)).
  { rewrite srcs_app in ND. cbn [srcs flat_map] in ND. rewrite E in ND. fold k in ND. cbn [app] in ND.
    apply NoDup_remove_2 in ND. assert (NI : ~ In k (srcs w post)) by (intros H; apply ND, in_or_app; right; exact H).
    clear -NI. assert (Q : forall q, ~ In k (srcs w q) -> existsb (Nat.eqb k) (srcs w q) = false).
    { intros q H. destruct (existsb _ _) eqn:X; [|reflexivity]. apply existsb_exists in X. destruct X as (y & Y & Z). apply Nat.eqb_eq in Z. subst y. contradiction. }
    split; [|apply Q, NI]. induction post as [|j post IH]; [reflexivity|]. assert (NI' : ~ In k (srcs w post)).
    { intros H. apply NI. cbn [srcs flat_map]. apply in_or_app. right. exact H. }
    cbn [before]. rewrite (IH NI'), (Q _ NI'). destruct (dst_of j); [|reflexivity]. destruct (_ =? _)%nat; reflexivity. }
  clear ND. induction pre as [|j pre IH].
  - cbn [app before dsts flat_map existsb]. assert (D : dst_of i = None \/ exists y, dst_of i = Some y) by (destruct (dst_of i); eauto).
    destruct (dst_of i) as [y|]; [destruct (y / w =? k')%nat|]; apply B.
  - cbn [app before dsts flat_map]. rewrite existsb_app. fold (dsts w pre).
    destruct (dst_of j) as [y|]; cbn [existsb]; [|exact IH].
    rewrite A. rewrite (Nat.eqb_sym k'). destruct (y / w =? k')%nat; [reflexivity|]. exact IH.
Qed.

Section SPLIT.
  Variables (w cnt : nat) (m : list N) (d s : nat) (st : list N).
  Hypothesis Hw : w = (4 * (w / 4))%nat.
  Hypothesis Hw0 : w <> 0%nat.
  Hypothesis Hd : (d + w * cnt <= length m)%nat.
  Hypothesis Hs : (s + w * cnt <= length m)%nat.
  Let F1 : false = true -> (s + w * cnt <= length m)%nat := fun _ => Hs.
  Let F2 : false = true -> apart d s (w * cnt) := fun H => match Bool.diff_false_true H with end.
  Notation conc := (conc w m d s st).
  Notation inv := (inv w cnt).
  (** The words of place [k] of the source, in the memory of [a]. *)
  Definition loaded (a : am) (k : nat) : vec := blanes (slice (mc_mem (conc a)) (s + w * k) w).

  Lemma mem_length a : inv a -> length (mc_mem (conc a)) = length m.
  Proof.
    intros [L G]. cbn [Proof_X86Sym.conc mc_mem]. apply put_length. rewrite (flat_length w cnt false m d s Hw Hw0 Hd F1 F2) by (try assumption; lia). lia.
  Qed.
  Lemma blanes_length b : length b = w -> length (blanes b) = (w / 4)%nat.
  Proof. intros H. unfold blanes. rewrite H.
    assert (Q : forall n l, length (le_words 4 n l) = n) by (induction n as [|n IH]; intros l; [reflexivity|]; cbn [le_words length]; f_equal; apply IH). apply Q. Qed.
  Lemma loaded_length a k : inv a -> (k < cnt)%nat -> length (loaded a k) = (w / 4)%nat.
  Proof. intros I Hk. apply blanes_length, slice_length. rewrite mem_length by exact I. nia. Qed.

  Definition chunk_of (X : nat -> N) (k : nat) : vec := map X (seq (w / 4 * k) (w / 4)).
  Definition fits (X : nat -> N) (a : am) (i : instr) : Prop := forall off, src_of i = Some off -> chunk_of X (off / w) = loaded a (off / w).

  Lemma src_get X a off v : inv a -> aget w true X a (Src off) = Some v ->
    v = chunk_of X (off / w) /\ (off / w < cnt)%nat /\ off = (w * (off / w))%nat.
  Proof.
    intros I H. cbn [aget] in H. cbn [andb] in H. destruct (Nat.eqb_spec (off mod w) 0) as [E|]; [|discriminate].
    destruct (nth_error (a_out a) (off / w)) as [[|]|] eqn:Q; try discriminate. injection H as <-. split; [reflexivity|]. split.
    - rewrite <- (proj1 I). apply nth_error_Some. congruence.
    - pose proof (Nat.div_mod off w Hw0). lia.
  Qed.
  Lemma get_fits X a o v : inv a -> aget w true X a o = Some v -> (forall off, o = Src off -> chunk_of X (off / w) = loaded a (off / w)) ->
    get w (conc a) o = Some v.
  Proof.
    intros I H F. destruct o as [i|i|i|c|off|off|i]; try exact H; try discriminate.
    destruct (src_get X a off v I H) as (-> & B & E). cbn [get]. rewrite (F off eq_refl). unfold loaded. rewrite <- E.
    rewrite rds_slice; [reflexivity|]. rewrite mem_length by exact I. cbn [Proof_X86Sym.conc mc_src]. nia.
  Qed.
  Lemma set_sim' a o v a' : inv a -> aset w a o v = Some a' -> set (conc a) o v = Some (conc a') /\ inv a'.
  Proof. exact (set_sim w cnt false m d s st Hw Hw0 Hd F1 F2 a o v a'). Qed.
  Lemma exec_fits X a i a' : inv a -> fits X a i -> aexec w true X a i = Some a' -> exec w (conc a) i = Some (conc a') /\ inv a'.
  Proof.
    intros I F H. unfold aexec in H. unfold exec. destruct (may_fault w i); [discriminate|].
    assert (R : forall k v, asetreg a k v = Some a' -> setreg (conc a) k v = Some (conc a') /\ inv a').
    { intros k v Q. destruct (setreg_sim w m d s st a k v a' Q) as [E O]. split; [exact E|]. unfold Proof_X86Sym.inv. rewrite O. exact I. }
    destruct i as [al o1 o2|o x y z|x y k|x y k|x y k|x y k|x y z k|x y|n|n]; try discriminate;
      change (mc_reg (conc a)) with (a_reg a).
    - destruct (aget w true X a o2) as [v|] eqn:G; [|discriminate]. cbn [bind] in H.
      rewrite (get_fits X a o2 v I G); [|intros off ->; apply F; reflexivity]. cbn [bind]. apply set_sim'; assumption.
    - destruct (nth_error (a_reg a) y) as [u|]; [|discriminate]. cbn [bind] in *.
      destruct (aget w true X a z) as [v|] eqn:G; [|discriminate]. cbn [bind] in H.
      rewrite (get_fits X a z v I G); [|intros off ->; apply F; reflexivity]. cbn [bind]. apply R, H.
    - destruct (nth_error (a_reg a) y) as [u|]; [|discriminate]. cbn [bind] in *. apply R, H.
    - destruct (nth_error (a_reg a) y) as [u|]; [|discriminate]. cbn [bind] in *. apply R, H.
    - destruct (nth_error (a_reg a) y) as [u|]; [|discriminate]. cbn [bind] in *. apply R, H.
    - destruct (nth_error (a_reg a) y) as [u|]; [|discriminate]. cbn [bind] in *. apply R, H.
    - destruct (nth_error (a_reg a) y) as [u|]; [|discriminate]. cbn [bind] in *.
      destruct (nth_error (a_reg a) z) as [v|]; [|discriminate]. cbn [bind] in *. apply R, H.
  Qed.
  (** Only the place that is read matters. *)
  Lemma aexec_ext X Y a i : (forall off, src_of i = Some off -> chunk_of X (off / w) = chunk_of Y (off / w)) -> aexec w true X a i = aexec w true Y a i.
  Proof.
    intros H. assert (G : forall o, (forall off, o = Src off -> chunk_of X (off / w) = chunk_of Y (off / w)) -> aget w true X a o = aget w true Y a o).
    { intros o Ho. destruct o as [j|j|j|c|off|off|j]; try reflexivity. cbn [aget]. specialize (Ho off eq_refl). unfold chunk_of in Ho. rewrite Ho. reflexivity. }
    unfold aexec. destruct (may_fault w i); [reflexivity|].
    destruct i as [al o1 o2|o x y z|x y k|x y k|x y k|x y k|x y z k|x y|n|n]; try reflexivity.
    - rewrite (G o2); [reflexivity|]. intros off ->. apply H. reflexivity.
    - rewrite (G z); [reflexivity|]. intros off ->. apply H. reflexivity.
  Qed.
  (** [X] with other words at place [k]. *)
  Definition over (X : nat -> N) (k : nat) (v : vec) (j : nat) : N := if (j / (w / 4) =? k)%nat then nth (j mod (w / 4)) v 0 else X j.
  Definition same_at (X Y : nat -> N) (k : nat) : Prop := chunk_of X k = chunk_of Y k.
  Lemma w4 : (w / 4 <> 0)%nat.
  Proof. intros H. rewrite H in Hw. lia. Qed.
  Lemma over_at X k v : length v = (w / 4)%nat -> chunk_of (over X k v) k = v.
  Proof.
    intros H. pose proof w4 as Q. apply (nth_ext _ _ 0 0); unfold chunk_of; rewrite map_length, seq_length; [symmetry; exact H|].
    intros j Hj. rewrite seq_from, map_map, nth_map_seq by exact Hj. unfold over.
    replace ((w / 4 * k + j) / (w / 4))%nat with k by (rewrite (Nat.mul_comm (w / 4) k), Nat.div_add_l, Nat.div_small by lia; lia).
    rewrite Nat.eqb_refl. f_equal. rewrite (Nat.mul_comm (w / 4) k), Nat.add_comm, Nat.mod_add by exact Q. apply Nat.mod_small, Hj.
  Qed.
  Lemma over_other X k v k' : k' <> k -> same_at (over X k v) X k'.
  Proof.
    intros H. pose proof w4 as Q. unfold same_at, chunk_of. apply map_ext_in. intros j Hj. apply in_seq in Hj. unfold over.
    destruct (Nat.eqb_spec (j / (w / 4)) k) as [E|]; [|reflexivity]. exfalso. apply H. rewrite <- E.
    symmetry. replace j with (w / 4 * k' + (j - w / 4 * k'))%nat by lia.
    rewrite (Nat.mul_comm (w / 4) k') at 1. rewrite Nat.div_add_l by exact Q. rewrite Nat.div_small by lia. lia.
  Qed.

  (** The words read, whatever overlaps. *)
  Lemma split p : forall a X0, inv a -> NoDup (srcs w p) ->
    (forall X, (forall k, ~ In k (srcs w p) -> same_at X X0 k) -> arun w true X p a <> None) ->
    exists X a', (forall k, ~ In k (srcs w p) -> same_at X X0 k) /\ arun w true X p a = Some a' /\ run w p (conc a) = Some (conc a') /\ inv a' /\
      forall pre i post off, p = pre ++ i :: post -> src_of i = Some off ->
        exists ax, arun w true X pre a = Some ax /\ inv ax /\ (off / w < cnt)%nat /\ chunk_of X (off / w) = loaded ax (off / w).
  Proof.
    induction p as [|i p IH]; intros a X0 I ND T.
    - exists X0, a. split; [reflexivity|]. split; [reflexivity|]. split; [reflexivity|]. split; [exact I|]. intros [|] ? ? ? E; discriminate E.
    - cbn [srcs flat_map] in ND, T. fold (srcs w p) in ND, T.
      assert (STEP : exists X1 a1, aexec w true X1 a i = Some a1 /\ fits X1 a i /\
        (forall off, src_of i = Some off -> (off / w < cnt)%nat) /\
        (forall k, (forall off, src_of i = Some off -> k <> off / w)%nat -> same_at X1 X0 k)).
      { destruct (src_of i) as [off|] eqn:E.
        - set (k := (off / w)%nat) in *. set (X1 := over X0 k (loaded a k)).
          assert (B : (k < cnt)%nat).
          { assert (NZ : arun w true X0 (i :: p) a <> None) by (apply T; intros; reflexivity).
            cbn [arun] in NZ. destruct (aexec w true X0 a i) as [a1|] eqn:A; [|exfalso; apply NZ; reflexivity].
            unfold aexec in A. destruct (may_fault w i); [discriminate|].
            destruct i as [al o1 o2|o x y z| | | | | | | |]; try discriminate E; cbn [src_of] in E.
            - destruct o2; try discriminate E. injection E as ->. destruct (aget w true X0 a (Src off)) as [v|] eqn:G; [|discriminate].
              apply (src_get X0 a off v I G).
            - destruct z; try discriminate E. injection E as ->. destruct (nth_error (a_reg a) y) as [u|]; [|discriminate]. cbn [bind] in A.
              destruct (aget w true X0 a (Src off)) as [v|] eqn:G; [|discriminate]. apply (src_get X0 a off v I G). }
          assert (NZ : arun w true X1 (i :: p) a <> None).
          { apply T. intros k' Hk'. apply over_other. intros ->. apply Hk'. left. reflexivity. }
          cbn [arun] in NZ. destruct (aexec w true X1 a i) as [a1|] eqn:A; [|exfalso; apply NZ; reflexivity].
          exists X1, a1. split; [exact A|]. split; [|split].
          + intros o Ho. assert (o = off) by congruence. subst o. apply over_at, loaded_length; assumption.
          + intros o Ho. assert (o = off) by congruence. subst o. exact B.
          + intros k' Hk'. apply over_other. exact (Hk' off eq_refl).
        - assert (NZ : arun w true X0 (i :: p) a <> None) by (apply T; intros; reflexivity).
          cbn [arun] in NZ. destruct (aexec w true X0 a i) as [a1|] eqn:A; [|exfalso; apply NZ; reflexivity].
          exists X0, a1. split; [exact A|]. split; [|split]; intros; try discriminate; try reflexivity. intros o Ho. congruence. }
      destruct STEP as (X1 & a1 & A & F & B & S1).
      destruct (exec_fits X1 a i a1 I F A) as [E1 I1].
      assert (ND' : NoDup (srcs w p)). { destruct (src_of i); [inversion ND; assumption|exact ND]. }
      assert (NI : forall off, src_of i = Some off -> ~ In (off / w)%nat (srcs w p)).
      { intros off E. rewrite E in ND. inversion ND; assumption. }
      destruct (IH a1 X1 I1 ND') as (X & a' & S2 & R & RR & I' & LF).
      { intros X SX NZ. assert (NZ2 : arun w true X (i :: p) a <> None).
        { apply T. intros k Hk. unfold same_at. rewrite (SX k).
          - apply S1. intros off E ->. apply Hk. rewrite E. left. reflexivity.
          - intros H. apply Hk. apply in_or_app. right. exact H. }
        apply NZ2. cbn [arun]. rewrite (aexec_ext X X1 a i).
        - rewrite A. exact NZ.
        - intros off E. apply SX, NI, E. }
      assert (AX : aexec w true X a i = Some a1).
      { rewrite (aexec_ext X X1 a i); [exact A|]. intros off E. apply S2, NI, E. }
      exists X, a'. split; [|split; [|split; [|split]]].
      + intros k Hk. unfold same_at. rewrite (S2 k).
        * apply S1. intros off E ->. apply Hk. cbn [srcs flat_map]. rewrite E. left. reflexivity.
        * intros H. apply Hk. cbn [srcs flat_map]. apply in_or_app. right. exact H.
      + cbn [arun]. rewrite AX. exact R.
      + cbn [run]. rewrite E1. exact RR.
      + exact I'.
      + intros [|j pre] i' post off E So.
        * cbn [app] in E. injection E as <- <-. exists a. split; [reflexivity|]. split; [exact I|]. split; [apply B, So|].
          rewrite (S2 (off / w)%nat) by (apply NI, So). apply F, So.
        * cbn [app] in E. injection E as <- ->. destruct (LF pre i' post off eq_refl So) as (ax & R1 & I1' & B1 & C1).
          exists ax. split; [|split; [exact I1'|split; assumption]]. cbn [arun]. rewrite AX. exact R1.
  Qed.
End SPLIT.

(** *** Which places have been written *)
Lemma lset_nth {A} (l : list A) : forall k v l' j, lset l k v = Some l' -> nth_error l' j = if (j =? k)%nat then Some v else nth_error l j.
Proof.
  induction l as [|x l IH]; intros [|k] v l' j H; cbn [lset] in H; try discriminate.
  - injection H as <-. destruct j; reflexivity.
  - destruct (lset l k v) as [l1|] eqn:E; [|discriminate]. cbn [bind] in H. injection H as <-. destruct j as [|j]; [reflexivity|]. cbn [nth_error]. apply (IH k v l1 j E).
Qed.
Lemma aexec_out w X a i a' : aexec w true X a i = Some a' -> forall k,
  match dst_of i with
  | Some y => if (k =? y / w)%nat then exists v, nth_error (a_out a') k = Some (Some v) else nth_error (a_out a') k = nth_error (a_out a) k
  | None => nth_error (a_out a') k = nth_error (a_out a) k
  end.
Proof.
  intros H k. unfold aexec in H. destruct (may_fault w i); [discriminate|].
  assert (R : forall j v, asetreg a j v = Some a' -> nth_error (a_out a') k = nth_error (a_out a) k).
  { intros j v Q. unfold asetreg in Q. destruct (lset (a_reg a) j v); [|discriminate]. injection Q as <-. reflexivity. }
  destruct i as [al o1 o2|o x y z|x y j|x y j|x y j|x y j|x y z j|x y|n|n]; try discriminate; cbn [dst_of].
  - destruct (aget w true X a o2) as [v|]; [|discriminate]. cbn [bind] in H.
    destruct o1 as [j|j|j|c|off|off|j]; cbn [aset] in H; try discriminate.
    + exact (R _ _ H).
    + destruct (lset (a_tmp a) j v); [|discriminate]. injection H as <-. reflexivity.
    + destruct (lset (a_base a) j v); [|discriminate]. injection H as <-. reflexivity.
    + destruct (off mod w =? 0)%nat; [|discriminate]. destruct (length v =? w / 4)%nat; [|discriminate].
      destruct (lset (a_out a) (off / w) (Some v)) as [out|] eqn:E; [|discriminate]. injection H as <-. cbn [a_out a_with_out].
      rewrite (lset_nth _ _ _ _ k E). destruct (k =? off / w)%nat; [exists v|]; reflexivity.
  - destruct (nth_error (a_reg a) y) as [u|]; [|discriminate]. cbn [bind] in H. destruct (aget w true X a z) as [v|]; [|discriminate]. exact (R _ _ H).
  - destruct (nth_error (a_reg a) y) as [u|]; [|discriminate]. exact (R _ _ H).
  - destruct (nth_error (a_reg a) y) as [u|]; [|discriminate]. exact (R _ _ H).
  - destruct (nth_error (a_reg a) y) as [u|]; [|discriminate]. exact (R _ _ H).
  - destruct (nth_error (a_reg a) y) as [u|]; [|discriminate]. exact (R _ _ H).
  - destruct (nth_error (a_reg a) y) as [u|]; [|discriminate]. cbn [bind] in H. destruct (nth_error (a_reg a) z) as [v|]; [|discriminate]. exact (R _ _ H).
Qed.
Lemma arun_out w X p : forall a a', arun w true X p a = Some a' -> forall k,
  (~ In k (dsts w p) -> nth_error (a_out a') k = nth_error (a_out a) k) /\
  (In k (dsts w p) -> exists v, nth_error (a_out a') k = Some (Some v)).
Proof.
  induction p as [|i p IH]; intros a a' H k; cbn [arun] in H.
  - injection H as <-. split; [reflexivity|intros []].
  - destruct (aexec w true X a i) as [a1|] eqn:E; [|discriminate]. cbn [bind] in H. destruct (IH a1 a' H k) as [I1 I2].
    pose proof (aexec_out w X a i a1 E k) as O. cbn [dsts flat_map]. fold (dsts w p). destruct (in_dec Nat.eq_dec k (dsts w p)) as [J|J].
    + split; [|intros _; exact (I2 J)]. intros Q. exfalso. apply Q, in_or_app. right. exact J.
    + rewrite (I1 J). destruct (dst_of i) as [y|].
      * destruct (Nat.eqb_spec k (y / w)) as [Q|Q]; (split; [intros HH|intros HH]).
        -- exfalso. apply HH. left. congruence.
        -- exact O.
        -- exact O.
        -- destruct HH as [HH|HH]; [congruence|contradiction].
      * split; [intros _; exact O|]. intros HH. contradiction.
Qed.
Lemma arun_app w X p q a : arun w true X (p ++ q) a = (b <- arun w true X p a ;; arun w true X q b).
Proof. revert a. induction p as [|i p IH]; intros a; [reflexivity|]. cbn [app arun]. destruct (aexec w true X a i); [apply IH|reflexivity]. Qed.

Section MEM.
  Variables (w cnt : nat) (m : list N) (d s : nat) (st : list N).
  Hypothesis Hw : w = (4 * (w / 4))%nat.
  Hypothesis Hw0 : w <> 0%nat.
  Hypothesis Hd : (d + w * cnt <= length m)%nat.
  Hypothesis Hs : (s + w * cnt <= length m)%nat.
  Hypothesis Hm : bytes m.
  Let F1 : false = true -> (s + w * cnt <= length m)%nat := fun _ => Hs.
  Let F2 : false = true -> apart d s (w * cnt) := fun H => match Bool.diff_false_true H with end.

  Lemma nth_flat l : forall k0 k i o, Forall (good w) l -> (k0 + length l <= cnt)%nat -> nth_error l k = Some o -> (i < w)%nat ->
    nth (w * k + i) (flat w m d k0 l) 0 = nth i (fill w m d (k0 + k) o) 0.
  Proof.
    induction l as [|x l IH]; intros k0 k i o G B H Hi; [destruct k; discriminate|]. inversion_clear G. cbn [flat length] in *.
    assert (LF : length (fill w m d k0 x) = w) by (apply (fill_length w cnt false m d s Hw Hw0 Hd F1 F2); [assumption|lia]).
    destruct k as [|k]; cbn [nth_error] in H.
    - injection H as ->. rewrite Nat.mul_0_r, Nat.add_0_r. cbn [Nat.add]. apply app_nth1. lia.
    - rewrite app_nth2 by nia. rewrite LF. replace (w * S k + i - w)%nat with (w * k + i)%nat by nia.
      rewrite (IH (S k0) k i o) by (try assumption; lia). f_equal. f_equal. lia.
  Qed.
  Lemma flat_bytes l : forall k, bytes (flat w m d k l).
  Proof.
    induction l as [|o l IH]; intros k; [constructor|]. cbn [flat]. apply bytes_app. split; [|apply IH]. destruct o as [v|]; cbn [fill].
    - unfold vbytes. apply Forall_forall. intros x Hx. apply in_flat_map in Hx. destruct Hx as (y & _ & Hx). exact (proj1 (Forall_forall _ _) (le_enc_bytes 4 y) x Hx).
    - apply slice_bytes, Hm.
  Qed.
  Lemma mem_bytes a : bytes (mc_mem (conc w m d s st a)).
  Proof. cbn [conc mc_mem]. apply put_bytes; [exact Hm|apply flat_bytes]. Qed.
  (** A byte of memory. *)
  Lemma mem_nth a P : inv w cnt a -> nth P (mc_mem (conc w m d s st a)) 0 =
    if ((d <=? P) && (P <? d + w * cnt))%nat then
      match nth_error (a_out a) ((P - d) / w) with Some (Some v) => nth ((P - d) mod w) (vbytes v) 0 | _ => nth P m 0 end
    else nth P m 0.
  Proof.
    intros [L G]. cbn [conc mc_mem]. assert (FL := flat_length w cnt false m d s Hw Hw0 Hd F1 F2 (a_out a) 0 G ltac:(lia)).
    rewrite nth_put by lia. rewrite FL, L.
    destruct (Nat.leb_spec d P) as [H1|]; [|reflexivity]. destruct (Nat.ltb_spec P (d + w * cnt)) as [H2|]; [|reflexivity]. cbn [andb].
    pose proof (Nat.div_mod (P - d) w Hw0) as D. pose proof (Nat.mod_upper_bound (P - d) w Hw0) as M.
    set (k := ((P - d) / w)%nat) in *. set (i := ((P - d) mod w)%nat) in *.
    destruct (nth_error (a_out a) k) as [o|] eqn:E.
    - rewrite D. rewrite (nth_flat (a_out a) 0 k i o G ltac:(lia) E M). destruct o as [v|]; [reflexivity|]. cbn [fill Nat.add].
      assert (k < length (a_out a))%nat by (apply nth_error_Some; congruence).
      rewrite nth_slice by nia. f_equal. nia.
    - apply nth_error_None in E. rewrite L in E. nia.
  Qed.
End MEM.

Lemma vbytes_blanes b n : bytes b -> length b = (4 * n)%nat -> vbytes (blanes b) = b.
Proof.
  intros Hb H. unfold blanes, vbytes. rewrite H. replace (4 * n / 4)%nat with n by (rewrite Nat.mul_comm, Nat.div_mul by discriminate; reflexivity).
  revert b Hb H. induction n as [|n IH]; intros b Hb H; [destruct b; [reflexivity|discriminate]|]. cbn [le_words flat_map].
  rewrite IH; [|apply bytes_skipn, Hb|rewrite skipn_length; lia].
  transitivity (firstn 4 b ++ skipn 4 b); [|apply firstn_skipn]. f_equal.
  apply le_enc_dec; [apply bytes_firstn, Hb|]. rewrite firstn_length. lia.
Qed.
Lemma blanes_lt b : bytes b -> Forall (fun x => x < 2 ^ 32) (blanes b).
Proof.
  intros Hb. unfold blanes. generalize (length b / 4)%nat. intros n. revert b Hb. induction n as [|n IH]; intros b Hb; [constructor|]. cbn [le_words].
  constructor; [|apply IH, bytes_skipn, Hb]. eapply N.lt_le_trans; [apply le_dec_lt, bytes_firstn, Hb|]. change (2 ^ 32) with (256 ^ 4).
  apply N.pow_le_mono_r; [lia|]. rewrite firstn_length. lia.
Qed.

Lemma in_srcs w p k : In k (srcs w p) -> exists pre i post off, p = pre ++ i :: post /\ src_of i = Some off /\ (off / w = k)%nat.
Proof.
  intros H. apply in_flat_map in H. destruct H as (i & Hi & H). destruct (src_of i) as [off|] eqn:E; [|destruct H].
  destruct H as [H|[]]. destruct (in_split _ _ Hi) as (pre & post & ->). exists pre, i, post, off. auto.
Qed.
Lemma le_bytes_nth (X : nat -> N) : forall n c q, (q < 4 * n)%nat ->
  nth q (flat_map (le_enc 4) (map X (seq c n))) 0 = nth (q mod 4) (le_enc 4 (X (c + q / 4)%nat)) 0.
Proof.
  induction n as [|n IH]; intros c q H; [lia|]. cbn [seq map flat_map].
  destruct (Nat.lt_ge_cases q 4) as [Q|Q].
  - rewrite app_nth1 by (rewrite le_enc_length; exact Q). rewrite Nat.mod_small, Nat.div_small, Nat.add_0_r by exact Q. reflexivity.
  - rewrite app_nth2 by (rewrite le_enc_length; exact Q). rewrite le_enc_length, IH by lia.
    replace q with (q - 4 + 1 * 4)%nat at 3 4 by lia. rewrite Nat.mod_add, Nat.div_add by discriminate. f_equal. f_equal. f_equal. lia.
Qed.
Lemma flat_le_length (X : list N) : length (flat_map (le_enc 4) X) = (4 * length X)%nat.
Proof. induction X as [|x X IH]; [reflexivity|]. cbn [flat_map length]. rewrite app_length, le_enc_length, IH. lia. Qed.
Lemma flat_le_bytes (X : list N) : bytes (flat_map (le_enc 4) X).
Proof. induction X as [|x X IH]; [constructor|]. cbn [flat_map]. apply bytes_app. split; [apply le_enc_bytes|exact IH]. Qed.
Lemma slice_chunk (X : nat -> N) n c k : (c + k <= n)%nat ->
  slice (flat_map (le_enc 4) (map X (seq 0 n))) (4 * c) (4 * k) = flat_map (le_enc 4) (map X (seq c k)).
Proof.
  intros H. apply list_ext.
  - rewrite slice_length; rewrite !flat_le_length, !map_length, !seq_length; lia.
  - intros i x Hi. rewrite slice_length in Hi by (rewrite flat_le_length, map_length, seq_length; lia).
    rewrite nth_slice by exact Hi. rewrite (nth_indep _ x 0) by (rewrite flat_le_length, map_length, seq_length; lia).
    rewrite (nth_indep (flat_map (le_enc 4) (map X (seq c k))) x 0) by (rewrite flat_le_length, map_length, seq_length; lia).
    rewrite !le_bytes_nth by lia. replace (4 * c + i)%nat with (i + c * 4)%nat by lia. rewrite Nat.mod_add, Nat.div_add by discriminate. do 3 f_equal. lia.
Qed.

Lemma flat_some w m d l : forall n, flat w m d n (map Some l) = flat_map vbytes l.
Proof. induction l as [|v l IH]; intros n; [reflexivity|]. cbn [map flat fill flat_map]. rewrite IH. reflexivity. Qed.

Section GROUP.
  Variables (w L : nat) (body : list instr).
  Hypothesis Hwidth : width w.
  Hypothesis HL : L = lanes w.
  Hypothesis Hbody : body = straight body ++ [AddDst (16 * w); AddSrc (16 * w)].
  Hypothesis Hsym : forall X f g t2 t3 t4 t5, exists regs' tmp', length regs' = 16%nat /\ length tmp' = 6%nat /\
    arun w true X (straight body)
      {| a_reg := V L f; a_tmp := [vreg L f 15; vreg L f 12; t2; t3; t4; t5]; a_base := V L g; a_out := repeat None 16 |}
    = Some {| a_reg := regs'; a_tmp := tmp'; a_base := V L (step_base L g);
              a_out := map Some (chunks L 16 (fun j => N.lxor (out_word L f g j) (X j))) |}.
  Hypothesis NDs : NoDup (srcs w (straight body)).
  Hypothesis NDd : NoDup (dsts w (straight body)).
  Hypothesis Alls : forall k, (k < 16)%nat -> In k (srcs w (straight body)).
  Variables (rounds : N) (st : list N).
  Hypothesis Hst : length st = 16%nat.
  Hypothesis Wst : words 32 st.
  Let r := times rounds.
  (** The byte [q] of the source is read after its place was written, when the source is [e] after the destination. *)
  Definition late (e q : nat) : bool := ((q + e <? 16 * w) && before w (straight body) ((q + e) / w) (q / w))%nat.

  Lemma group_run k tmp m d e : length tmp = 6%nat -> bytes m -> (d + e + 64 * L <= length m)%nat ->
    exists T regs' tmp', length regs' = 16%nat /\ length tmp' = 6%nat /\ length T = (64 * L)%nat /\ bytes T /\
    one_block w body rounds (mk (V L (G L st k)) tmp (V L (G L st k)) m d (d + e)%nat st)
    = Some (mk regs' tmp' (V L (G L st (S k))) (put m d (xor_with (kbyte r st) (64 * (L * k)) T)) (d + 64 * L) (d + e + 64 * L)%nat st) /\
    forall q, (q < 64 * L)%nat -> nth q T 0 =
      if late e q then N.lxor (nth (q + e) T 0) (kbyte r st (64 * (L * k) + (q + e))) else nth (d + e + q) m 0.
  Proof.
    intros HT Hm HE. assert (WLL : (w = 4 * L /\ 1 <= L)%nat) by (rewrite HL; destruct Hwidth as [->| ->]; split; cbn; lia). destruct WLL as [WL L1]. destruct (list6 tmp HT) as (t0 & t1 & t2 & t3 & t4 & t5 & ->).
    unfold one_block. fold r. set (s := (d + e)%nat) in *.
    assert (VG : vregs (lanes w) (V L (G L st k))) by (rewrite <- HL; apply V_ok, G_lt, Wst).
    destruct (run_doubles w r (V L (G L st k)) t0 t1 [t2; t3; t4; t5] (V L (G L st k)) m d s st Hwidth VG (times_pos rounds)) as (R & VR & E & ->).
    cbn [bind]. rewrite <- HL in VR, E.
    replace (nth 15 R []) with (vreg L (unV R) 15).
    2:{ rewrite (V_unV L R VR) at 2. symmetry. apply (nth_map_seq (fun i => vreg L (unV R) i)). lia. }
    replace (nth 12 R []) with (vreg L (unV R) 12).
    2:{ rewrite (V_unV L R VR) at 2. symmetry. apply (nth_map_seq (fun i => vreg L (unV R) i)). lia. }
    assert (ER : forall tm bs, mk R tm bs m d s st = mk (V L (unV R)) tm bs m d s st) by (intros; f_equal; exact (V_unV L R VR)).
    rewrite ER. clear ER. replace (run w body) with (run w (straight body ++ [AddDst (16 * w); AddSrc (16 * w)])) by (rewrite <- Hbody; reflexivity). rewrite run_app.
    set (a0 := {| a_reg := V L (unV R); a_tmp := [vreg L (unV R) 15; vreg L (unV R) 12; t2; t3; t4; t5]; a_base := V L (G L st k); a_out := repeat None 16 |}).
    set (p := straight body) in *.
    assert (Hw : w = (4 * (w / 4))%nat) by (destruct Hwidth as [->| ->]; reflexivity).
    assert (Hw0 : w <> 0%nat) by lia.
    assert (Hd : (d + w * 16 <= length m)%nat) by lia. assert (Hs : (s + w * 16 <= length m)%nat) by lia.
    assert (I0 : inv w 16 a0). { split; [apply repeat_length|]. apply Forall_forall. intros x Hx. apply repeat_spec in Hx. subst x. exact I. }
    assert (C0 : conc w m d s st a0 = mk (V L (unV R)) [vreg L (unV R) 15; vreg L (unV R) 12; t2; t3; t4; t5] (V L (G L st k)) m d s st).
    { unfold conc, a0, mk. cbn [a_reg a_tmp a_base a_out]. f_equal.
      rewrite (flat_none w 16 false m d s Hw Hw0 Hd (fun _ => Hs) (fun H => match Bool.diff_false_true H with end)) by lia.
      rewrite Nat.mul_0_r, Nat.add_0_r. apply put_self. lia. }
    destruct (split w 16 m d s st Hw Hw0 Hd Hs p a0 (fun _ => 0) I0 NDs) as (X & a' & _ & AR & RR & I' & LF).
    { intros X _ H. destruct (Hsym X (unV R) (G L st k) t2 t3 t4 t5) as (x1 & x2 & _ & _ & Q). fold p a0 in Q. rewrite H in Q. discriminate. }
    destruct (Hsym X (unV R) (G L st k) t2 t3 t4 t5) as (regs' & tmp' & L1' & L2' & SY). fold p a0 in SY.
    assert (EA : a' = {| a_reg := regs'; a_tmp := tmp'; a_base := V L (step_base L (G L st k));
              a_out := map Some (chunks L 16 (fun j => N.lxor (out_word L (unV R) (G L st k) j) (X j))) |}) by congruence.
    set (T := flat_map (le_enc 4) (map X (seq 0 (L * 16)))).
    assert (LT : length T = (64 * L)%nat) by (unfold T; rewrite flat_le_length, map_length, seq_length; lia).
    assert (CK : forall c, (c < 16)%nat -> exists pre i post off ax, p = pre ++ i :: post /\ src_of i = Some off /\ (off / w = c)%nat /\
      arun w true X pre a0 = Some ax /\ inv w 16 ax /\ chunk_of w X c = loaded w m d s st ax c).
    { intros c Hc. destruct (in_srcs w p c (Alls c Hc)) as (pre & i & post & off & Ep & So & Ec).
      destruct (LF pre i post off Ep So) as (ax & R1 & I1 & _ & C1). exists pre, i, post, off, ax. rewrite <- Ec. auto 10. }
    assert (ML : forall ax, inv w 16 ax -> length (mc_mem (conc w m d s st ax)) = length m) by (intros; apply (mem_length w 16); assumption).
    assert (XL : forall j, (j < L * 16)%nat -> X j < 2 ^ 32).
    { intros j Hj. assert (Hc : (j / L < 16)%nat) by (apply Nat.div_lt_upper_bound; lia).
      destruct (CK _ Hc) as (_ & _ & _ & _ & ax & _ & _ & _ & _ & I1 & C1).
      assert (Q : Forall (fun x => x < 2 ^ 32) (loaded w m d s st ax (j / L))) by (apply blanes_lt, slice_bytes, mem_bytes, Hm).
      rewrite <- C1 in Q. apply (proj1 (Forall_forall _ _) Q). unfold chunk_of. apply in_map. apply in_seq.
      assert (w / 4 = L)%nat by lia. pose proof (Nat.div_mod j L). pose proof (Nat.mod_upper_bound j L). nia. }
    assert (TS : forall c ax, (c < 16)%nat -> inv w 16 ax -> chunk_of w X c = loaded w m d s st ax c ->
      slice T (w * c) w = slice (mc_mem (conc w m d s st ax)) (s + w * c) w).
    { intros c ax Hc I1 C1. assert (Q : vbytes (chunk_of w X c) = slice T (w * c) w).
      { unfold T. replace (w * c)%nat with (4 * (L * c))%nat by lia. rewrite WL at 2. rewrite slice_chunk by nia.
        unfold vbytes, chunk_of. replace (w / 4)%nat with L by lia. reflexivity. }
      rewrite <- Q, C1. unfold loaded. apply (vbytes_blanes _ L); [apply slice_bytes, mem_bytes, Hm|].
      rewrite slice_length; [lia|]. rewrite ML by exact I1. nia. }
    assert (FM : mc_mem (conc w m d s st a') = put m d (xor_with (kbyte r st) (64 * (L * k)) T)).
    { rewrite EA. cbn [conc mc_mem a_out]. f_equal.
      transitivity (flat_map vbytes (chunks L 16 (fun j => N.lxor (out_word L (unV R) (G L st k) j) (X j)))).
      { apply flat_some. }
      rewrite chunks_flat.
      rewrite (map_ext_in _ (fun j => N.lxor (kw r st (16 * (L * k) + j)) (src_word T 0 j))).
      2:{ intros j Hj. apply in_seq in Hj. rewrite (out_word_kw w L HL rounds st Hst Wst k R j VR E) by lia. f_equal.
          unfold src_word. cbn [Nat.add]. unfold T. change (slice ?l (4 * j) 4) with (slice l (4 * j) (4 * 1)). rewrite (slice_chunk X (L * 16) j 1) by lia.
          cbn [seq map flat_map]. rewrite app_nil_r, le_dec_enc. symmetry. apply N.mod_small. apply XL. lia. }
      rewrite transform_bytes by (try apply flat_le_bytes; lia).
      rewrite Nat.mul_0_r, !Nat.add_0_r. f_equal; [lia|]. replace (4 * (L * 16))%nat with (length T) by lia. apply slice_all. }
    exists T, regs', tmp'. split; [exact L1'|]. split; [exact L2'|]. split; [exact LT|]. split; [apply flat_le_bytes|]. split.
    - rewrite <- C0. rewrite RR. cbn [bind run exec may_fault]. unfold with_ptr. rewrite FM. rewrite EA. unfold mk, conc. cbn [mc_reg mc_tmp mc_base mc_dst mc_src mc_state a_reg a_tmp a_base].
      rewrite G_step. replace (16 * w)%nat with (64 * L)%nat by lia. reflexivity.
    - intros q Hq. set (c := (q / w)%nat). assert (Hc : (c < 16)%nat) by (apply Nat.div_lt_upper_bound; lia).
      pose proof (Nat.div_mod q w Hw0) as DQ. pose proof (Nat.mod_upper_bound q w Hw0) as MQ. fold c in DQ.
      destruct (CK c Hc) as (pre & i & post & off & ax & Ep & So & Ec & R1 & I1 & C1).
      pose proof (TS c ax Hc I1 C1) as TQ.
      assert (NQ : nth q T 0 = nth (s + q) (mc_mem (conc w m d s st ax)) 0).
      { rewrite DQ at 1. rewrite <- (nth_slice T (w * c) w (q mod w) 0) by exact MQ. rewrite TQ. rewrite nth_slice by exact MQ. f_equal. lia. }
      rewrite NQ. rewrite (mem_nth w 16 m d s st Hw Hw0 Hd Hs ax (s + q) I1).
      assert (BF : forall k', before w p k' c = existsb (Nat.eqb k') (dsts w pre)).
      { intros k'. rewrite <- Ec. rewrite Ep in NDs |- *. apply before_split; assumption. }
      unfold late. fold p c. replace (s + q - d)%nat with (q + e)%nat by lia.
      destruct (Nat.leb_spec d (s + q)); [|lia]. cbn [andb].
      destruct (Nat.ltb_spec (q + e) (16 * w)) as [H1|H1]; destruct (Nat.ltb_spec (s + q) (d + w * 16)) as [H2|H2]; try lia; cbn [andb]; [|reflexivity].
      rewrite BF. set (k' := ((q + e) / w)%nat).
      assert (Hk' : (k' < 16)%nat) by (apply Nat.div_lt_upper_bound; lia).
      destruct (existsb (Nat.eqb k') (dsts w pre)) eqn:EX.
      + apply existsb_exists in EX. destruct EX as (z & Hz & EZ). apply Nat.eqb_eq in EZ. subst z.
        destruct (proj2 (arun_out w X pre a0 ax R1 k') Hz) as (v & Hv). rewrite Hv.
        assert (AR2 : arun w true X (i :: post) ax = Some a') by (rewrite Ep, arun_app, R1 in AR; exact AR).
        assert (NI : ~ In k' (dsts w (i :: post))).
        { intros HH. rewrite Ep in NDd. rewrite dsts_app in NDd. destruct (in_split _ _ Hz) as (l1 & l2 & El). rewrite El, <- app_assoc in NDd.
          cbn [app] in NDd. apply NoDup_remove_2 in NDd. apply NDd. apply in_or_app. right. apply in_or_app. right. exact HH. }
        pose proof (proj1 (arun_out w X (i :: post) ax a' AR2 k') NI) as KE. rewrite Hv in KE.
        pose proof (mem_nth w 16 m d s st Hw Hw0 Hd Hs a' (s + q) I') as FN. rewrite FM in FN.
        destruct (Nat.leb_spec d (s + q)); [|lia]. destruct (Nat.ltb_spec (s + q) (d + w * 16)); [|lia]. cbn [andb] in FN.
        replace (s + q - d)%nat with (q + e)%nat in FN by lia. fold k' in FN. rewrite KE in FN. rewrite <- FN.
        rewrite nth_put by (rewrite xor_with_length; lia). rewrite xor_with_length.
        destruct (Nat.leb_spec d (s + q)); [|lia]. destruct (Nat.ltb_spec (s + q) (d + length T)); [|lia]. cbn [andb].
        replace (s + q - d)%nat with (q + e)%nat by lia. apply nth_xor_with. lia.
      + assert (NI : ~ In k' (dsts w pre)).
        { intros HH. assert (existsb (Nat.eqb k') (dsts w pre) = true) by (apply existsb_exists; exists k'; split; [exact HH|apply Nat.eqb_refl]). congruence. }
        rewrite (proj1 (arun_out w X pre a0 ax R1 k') NI). cbn [a0 a_out].
        destruct (nth_error (repeat None 16) k') as [[v|]|] eqn:EN; try reflexivity.
        exfalso. apply nth_error_In in EN. apply repeat_spec in EN. discriminate.
  Qed.

  (** One group and then [n] more. The groups do not disturb one another: what a group writes is before the source of the next. *)
  Lemma groups_run n : forall k tmp m d e, length tmp = 6%nat -> bytes m -> (d + e + 64 * L * S n <= length m)%nat ->
    exists T m', (m1 <- one_block w body rounds (mk (V L (G L st k)) tmp (V L (G L st k)) m d (d + e)%nat st) ;; more_blocks w body rounds n m1) = Some m' /\
      length T = (64 * L * S n)%nat /\ bytes T /\ mc_mem m' = put m d (xor_with (kbyte r st) (64 * (L * k)) T) /\
      forall q, (q < 64 * L * S n)%nat -> nth q T 0 =
        if late e (q mod (64 * L)) then N.lxor (nth (q + e) T 0) (kbyte r st (64 * (L * k) + (q + e))) else nth (d + e + q) m 0.
  Proof.
    assert (WLL : (w = 4 * L /\ 1 <= L)%nat) by (rewrite HL; destruct Hwidth as [->| ->]; split; cbn; lia). destruct WLL as [WL L1].
    assert (LATE : forall e q, late e q = true -> (q + e < 64 * L)%nat).
    { intros e q H. unfold late in H. apply andb_prop in H. destruct H as [H _]. apply Nat.ltb_lt in H. lia. }
    induction n as [|n IH]; intros k tmp m d e HT Hm HE.
    - destruct (group_run k tmp m d e HT Hm ltac:(lia)) as (T & regs' & tmp' & R1 & R2 & LT & BT & -> & TQ). cbn [bind more_blocks].
      exists T. eexists. split; [reflexivity|]. rewrite Nat.mul_1_r. split; [exact LT|]. split; [exact BT|]. split; [reflexivity|].
      intros q Hq. rewrite Nat.mod_small by exact Hq. exact (TQ q Hq).
    - destruct (group_run k tmp m d e HT Hm ltac:(nia)) as (T1 & regs' & tmp' & R1 & R2 & LT & BT & -> & TQ). cbn [bind more_blocks].
      set (o1 := xor_with (kbyte r st) (64 * (L * k)) T1).
      assert (O1 : length o1 = (64 * L)%nat) by (unfold o1; rewrite xor_with_length; exact LT).
      assert (B1 : bytes (put m d o1)).
      { apply put_bytes; [exact Hm|]. apply xor_with_bytes; [intros j; unfold kbyte; apply nth_byte, le_enc_bytes|exact BT]. }
      assert (LM : length (put m d o1) = length m) by (apply put_length; nia).
      rewrite (run_reload w st regs') by (try exact R1; unfold V; rewrite map_length, seq_length; reflexivity). cbn [bind].
      destruct (IH (S k) tmp' (put m d o1) (d + 64 * L)%nat e R2 B1 ltac:(rewrite LM; nia)) as (T2 & m' & E & L2 & BT2 & M & TQ2).
      replace (d + e + 64 * L)%nat with (d + 64 * L + e)%nat by lia.
      exists (T1 ++ T2), m'. split; [exact E|]. split; [rewrite app_length; nia|]. split; [apply bytes_app; split; assumption|]. split.
      + rewrite M. rewrite put_put; [|rewrite O1; reflexivity|rewrite O1, xor_with_length, L2; nia].
        f_equal. rewrite xor_with_app. unfold o1. f_equal. f_equal. lia.
      + intros q Hq. destruct (Nat.lt_ge_cases q (64 * L)) as [Q|Q].
        * rewrite Nat.mod_small by exact Q. rewrite app_nth1 by lia. rewrite (TQ q Q). destruct (late e q) eqn:LE; [|reflexivity].
          apply LATE in LE. rewrite app_nth1 by lia. reflexivity.
        * rewrite app_nth2 by lia. rewrite LT.
          replace (q mod (64 * L))%nat with ((q - 64 * L) mod (64 * L))%nat.
          2:{ replace q with (q - 64 * L + 1 * (64 * L))%nat at 2 by lia. rewrite Nat.mod_add by lia. reflexivity. }
          rewrite (TQ2 (q - 64 * L)%nat ltac:(nia)).
          destruct (late e ((q - 64 * L) mod (64 * L))) eqn:LE.
          -- rewrite app_nth2 by lia. rewrite LT. f_equal; [f_equal; lia|]. f_equal. nia.
          -- rewrite nth_put by (rewrite O1; nia). rewrite O1.
             destruct (Nat.ltb_spec (d + 64 * L + e + (q - 64 * L)) (d + 64 * L)); [lia|]. rewrite andb_false_r. f_equal. lia.
  Qed.
End GROUP.

(** *** The two routines *)
Section ROUTINE.
  Variables (w L : nat) (body : list instr).
  Hypothesis Hwidth : width w.
  Hypothesis HL : L = lanes w.
  Hypothesis Hbody : body = straight body ++ [AddDst (16 * w); AddSrc (16 * w)].
  Hypothesis Hsym : forall X f g t2 t3 t4 t5, exists regs' tmp', length regs' = 16%nat /\ length tmp' = 6%nat /\
    arun w true X (straight body)
      {| a_reg := V L f; a_tmp := [vreg L f 15; vreg L f 12; t2; t3; t4; t5]; a_base := V L g; a_out := repeat None 16 |}
    = Some {| a_reg := regs'; a_tmp := tmp'; a_base := V L (step_base L g);
              a_out := map Some (chunks L 16 (fun j => N.lxor (out_word L f g j) (X j))) |}.
  Hypothesis NDs : NoDup (srcs w (straight body)).
  Hypothesis NDd : NoDup (dsts w (straight body)).
  Hypothesis Alls : forall k, (k < 16)%nat -> In k (srcs w (straight body)).
  Lemma routine_move jr jt jb rounds n st m d e : junk_ok jr jt jb -> length st = 16%nat -> words 32 st -> bytes m ->
    (d + e + 64 * L * n <= length m)%nat ->
    exists T, length T = (64 * L * n)%nat /\ bytes T /\
      routine w body jr jt jb rounds n st m d (d + e) = Some (put m d (xor_with (kbyte (times rounds) st) 0 T), (L * n)%nat) /\
      forall q, (q < 64 * L * n)%nat -> nth q T 0 =
        if late w body e (q mod (64 * L)) then N.lxor (nth (q + e) T 0) (kbyte (times rounds) st (q + e)) else nth (d + e + q) m 0.
  Proof.
    intros (J1 & J2 & J3) Hst Wst Hm HE. unfold routine.
    assert (RET : ((if (w =? 32)%nat then 8 else 4) * n = L * n)%nat) by (rewrite HL; destruct Hwidth as [->| ->]; reflexivity).
    rewrite RET. destruct n as [|n].
    - rewrite !Nat.mul_0_r. exists []. split; [reflexivity|]. split; [constructor|]. split; [cbn [xor_with]; rewrite put_nil; reflexivity|]. intros q Hq. lia.
    - assert (INIT : run w (blocks_init w) (mk jr jt jb m d (d + e) st) = Some (mk (V L (G L st 0)) jt (V L (G L st 0)) m d (d + e) st)).
      { rewrite HL. destruct Hwidth as [->| ->]; [apply init_16|apply init_32]; assumption. }
      unfold mk in INIT at 1. rewrite INIT. cbn [bind].
      destruct (groups_run w L body Hwidth HL Hbody Hsym NDs NDd Alls rounds st Hst Wst n 0 jt m d e J2 Hm HE) as (T & m' & E & LT & BT & M & TQ).
      exists T. split; [exact LT|]. split; [exact BT|]. split.
      + destruct (one_block w body rounds _) as [m1|]; [|discriminate]. cbn [bind] in *. rewrite E. cbn [bind]. rewrite M.
        rewrite !Nat.mul_0_r. reflexivity.
      + intros q Hq. rewrite (TQ q Hq). rewrite !Nat.mul_0_r. reflexivity.
  Qed.
End ROUTINE.
