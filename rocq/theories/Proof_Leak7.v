(** The codecs: the instrumented code is the code, and its traces depend on sizes and kinds of characters only. *)
From Verif Require Import Base BaseLemmas Spec_Bytes Spec_Codec Model_Container Model_Codec Model_Leak Model_Leak3 Spec_Leak Spec_Leak3 Proof_Leak Proof_Leak2.
Local Open Scope N_scope.

(** *** Same values *)
Lemma e_test b : erase (l_test b) = Some b. Proof. reflexivity. Qed.
Lemma e_or x y a b : erase x = Some a -> erase y = Some b -> erase (l_or x y) = Some (a || b).
Proof. intros H K. unfold l_or. rewrite erase_bind, H. cbn [bind]. destruct a; [reflexivity|exact K]. Qed.
Lemma e_and x y a b : erase x = Some a -> erase y = Some b -> erase (l_and x y) = Some (a && b).
Proof. intros H K. unfold l_and. rewrite erase_bind, H. cbn [bind]. destruct a; [exact K|reflexivity]. Qed.
Ltac ors := repeat first [apply e_or | apply e_and | apply e_test].
Lemma erase_known {A B} (m : L A) (f : A -> L B) a : erase m = Some a -> erase (lbind m f) = erase (f a).
Proof. intros H. rewrite erase_bind, H. reflexivity. Qed.

Lemma e_b16_encode_loop : forall from i to off, erase (l_b16_encode_loop i from to off) = b16_encode_loop from to off.
Proof. induction from as [|b from IH]; intros i to off; cbn [l_b16_encode_loop b16_encode_loop]; er; try apply IH. Qed.
Lemma e_b16_encode from to : erase (l_b16_encode from to) = b16_encode from to.
Proof. unfold l_b16_encode, b16_encode. er; try apply e_b16_encode_loop. Qed.
Lemma e_b16_decode_loop sg from : forall n to i fp tb, erase (l_b16_decode_loop sg from to n i fp tb) = b16_decode_loop sg from to n i fp tb.
Proof.
  induction n as [|n IH]; intros to i fp tb; cbn [l_b16_decode_loop b16_decode_loop]; [reflexivity|].
  rewrite erase_emit, erase_bind. apply bind_ext2; [apply e_lrd|intros c0]. rewrite erase_bind. apply bind_ext2; [apply e_lrd|intros c1].
  cbv zeta. erewrite erase_known by (ors). destruct (_ || _); [reflexivity|]. rewrite erase_bind. apply bind_ext2; [apply e_lwr|intros to']. apply IH.
Qed.
Lemma e_b16_decode sg from to e : erase (l_b16_decode sg from to e) = b16_decode sg from to e.
Proof.
  unfold l_b16_decode, b16_decode. cbv zeta. rewrite erase_lif.
  assert (Lp : forall to fp tb n i x y, erase (r <~ l_b16_decode_loop sg from to n i fp tb ;; match r with inl to => ret (to, x, y) | inr (to, size) => ret (to, size, err_codec_base_16_decode) end)
    = (r <- b16_decode_loop sg from to n i fp tb ;; match r with inl to => Some (to, x, y) | inr (to, size) => Some (to, size, err_codec_base_16_decode) end)).
  { intros. rewrite erase_bind. apply bind_ext2; [apply e_b16_decode_loop|intros [t|[t s]]; reflexivity]. }
  destruct (Nat.odd (length from)); [|apply Lp].
  rewrite erase_bind. apply bind_ext2; [apply e_lrd|intros c0]. erewrite erase_known by apply e_test.
  destruct (char_eq_u8 _ _ _); [reflexivity|]. rewrite erase_bind. apply bind_ext2; [apply e_lwr|intros to']. apply Lp.
Qed.
Lemma e_b64_encode_loop from : forall n to fp tp, erase (l_b64_encode_loop from to n fp tp) = b64_encode_loop from to n fp tp.
Proof. induction n as [|n IH]; intros to fp tp; cbn [l_b64_encode_loop b64_encode_loop]; er; try apply IH. Qed.
Lemma e_b64_encode from to : erase (l_b64_encode from to) = b64_encode from to.
Proof.
  unfold l_b64_encode, b64_encode. cbv zeta. rewrite erase_bind. apply bind_ext2; [apply e_b64_encode_loop|intros [[t fp] tp]].
  rewrite erase_lif. destruct (_ =? 0)%nat; [reflexivity|]. er.
Qed.
Lemma e_b64_decode_loop sg from : forall n to fp tp, erase (l_b64_decode_loop sg from to n fp tp) = b64_decode_loop sg from to n fp tp.
Proof.
  induction n as [|n IH]; intros to fp tp; cbn [l_b64_decode_loop b64_decode_loop]; [reflexivity|].
  rewrite erase_emit. do 4 (rewrite erase_bind; apply bind_ext2; [apply e_lrd|intros ?]).
  cbv zeta. erewrite erase_known by ors. destruct (_ || _); [reflexivity|].
  do 3 (rewrite erase_bind; apply bind_ext2; [apply e_lwr|intros ?]). apply IH.
Qed.
Lemma e_b64_decode sg from to e : erase (l_b64_decode sg from to e) = b64_decode sg from to e.
Proof.
  unfold l_b64_decode, b64_decode. cbv zeta. rewrite erase_lif. destruct (negb _); [reflexivity|].
  rewrite erase_bind. apply bind_ext2; [apply e_b64_decode_loop|]. intros [[[t fp] tp]|[t s]]; [|reflexivity].
  rewrite erase_lif. destruct (0 <? _)%nat; [|reflexivity].
  do 4 (rewrite erase_bind; apply bind_ext2; [apply e_lrd|intros ?]).
  erewrite erase_known by ors. destruct (_ || _); [reflexivity|].
  rewrite erase_bind; apply bind_ext2; [apply e_lwr|intros ?].
  rewrite erase_bind; apply bind_ext2; [rewrite erase_lif; destruct (negb _); [apply e_lwr|reflexivity]|intros ?].
  rewrite erase_bind; apply bind_ext2; [rewrite erase_lif; destruct (negb _); [apply e_lwr|reflexivity]|intros ?]. reflexivity.
Qed.
Lemma e_b64_decode_size from : erase (l_b64_decode_size from) = b64_decode_size from.
Proof.
  unfold l_b64_decode_size, b64_decode_size. rewrite erase_bind. apply bind_ext2; [|reflexivity].
  unfold l_b64_decode_size_z, b64_decode_size_z. cbv zeta. rewrite erase_lif. destruct (1 <? _)%nat; [|reflexivity].
  rewrite erase_bind. apply bind_ext2; [apply e_lrd|intros c]. rewrite erase_lif. destruct (c =? _); [|reflexivity].
  rewrite erase_lif. destruct (2 <? _)%nat; [|reflexivity]. rewrite erase_bind. apply bind_ext2; [apply e_lrd|reflexivity].
Qed.

Record lok (k : lcodec) : Prop := {
  lo_encode : forall from to, erase (lc_encode k from to) = co_encode (lc_codec k) from to;
  lo_decode : forall from to e, erase (lc_decode k from to e) = co_decode (lc_codec k) from to e;
  lo_size : forall from, erase (lc_decode_size k from) = co_decode_size (lc_codec k) from
}.
Lemma lok_16 sg : lok (l_base_16 sg).
Proof. constructor; [exact e_b16_encode|exact (e_b16_decode sg)|reflexivity]. Qed.
Lemma lok_64 sg : lok (l_base_64 sg).
Proof. constructor; [exact e_b64_encode|exact (e_b64_decode sg)|exact e_b64_decode_size]. Qed.
Lemma erase_resize {B} c n (f : container -> L B) : erase (lbind (l_resize c n) f) = erase (f (fst (cresize c n))).
Proof. apply erase_known. destruct c; reflexivity. Qed.
Lemma e_apie_encode k from to : lok k -> erase (l_apie_encode k from to) = apie_encode (lc_codec k) from to.
Proof.
  intros K. unfold l_apie_encode, apie_encode. rewrite erase_resize. destruct (cresize to _) as [c z]. cbn [fst].
  rewrite erase_bind. apply bind_ext2; [apply (lo_encode _ K)|intros [d n]]. rewrite erase_resize. destruct (cresize (cset c d) n). reflexivity.
Qed.
Lemma e_apie_decode k from to e : lok k -> erase (l_apie_decode k from to e) = apie_decode (lc_codec k) from to e.
Proof.
  intros K. unfold l_apie_decode, apie_decode. rewrite erase_bind. apply bind_ext2; [apply (lo_size _ K)|intros s].
  rewrite erase_resize. destruct (cresize to _) as [c z]. cbn [fst].
  rewrite erase_bind. apply bind_ext2; [apply (lo_decode _ K)|intros [[d n] e']]. rewrite erase_resize. destruct (cresize (cset c d) n). reflexivity.
Qed.
Lemma e_apie_decode_throw k from to : lok k -> erase (l_apie_decode_throw k from to) = apie_decode_throw (lc_codec k) from to.
Proof.
  intros K. unfold l_apie_decode_throw, apie_decode_throw. rewrite erase_bind. apply bind_ext2; [apply (lo_size _ K)|intros s].
  rewrite erase_resize. destruct (cresize to _) as [c z]. cbn [fst].
  rewrite erase_bind. apply bind_ext2; [apply (lo_decode _ K)|intros [[d n] e']]. cbv zeta. rewrite erase_lif. destruct (err_bool e'); [reflexivity|].
  rewrite erase_resize. destruct (cresize (cset c d) n). reflexivity.
Qed.
