(** Key derivation objects that were not initialized. *)
From Verif Require Import Base BaseLemmas BytesLemmas Spec_Bytes Spec_Sha Spec_Hash Spec_Hmac Spec_Kdf Model_Memory Model_Update Model_Container
  Model_Sha Model_Mac Model_Hmac Model_Kdf Proof_Mac Proof_Hmac Proof_Kdf Proof_Kdf2 Proof_Kdf3.
Local Open Scope N_scope.

Section Kdf.
  Context {M : mac_alg} {cx : ctx} {T : list N -> list N -> list N}
    {eqv : ma_obj M -> ma_obj M -> Prop} {hold : list N -> list N -> ma_obj M -> Prop}
    {out : ma_obj M -> list N} (OK : mac_ok M cx chunk T eqv hold out).
  Let es := ma_digest_size M.
  Context (Hes : (0 < es <= 64)%nat) (TB : forall k m, bytes k -> bytes m -> bytes (T k m) /\ length (T k m) = es).

  Lemma zeros_ok : bytes (repeat 0 es) /\ length (repeat 0 es) = es.
  Proof. split; [apply bytes_zeros|apply repeat_length]. Qed.
  Lemma nil_chunk : chunk [].
  Proof. split; [constructor|reflexivity]. Qed.

  Lemma hk_default env key n : bytes key -> (n <= length key)%nat ->
    exists o, hk_derive cx M env (hk_new M) key n = Some (o, hkdf_expand T es (repeat 0 es) [] n ++ skipn n key, n).
  Proof.
    intros Hk Hn.
    assert (W : hkwf (eqv := eqv) env [] (hk_new M)).
    { constructor; cbn [hk_new hk_mac hk_info hk_counter hk_prk hk_buffer hk_size]; fold es.
      - apply (mo_new _ _ _ _ _ _ _ OK).
      - reflexivity.
      - exact nil_chunk.
      - reflexivity.
      - exact zeros_ok.
      - exact zeros_ok.
      - lia. }
    pose proof (hderive_spec OK Hes TB env [] (hk_new M) key n W Hk Hn) as D. cbn zeta in D.
    cbn [hk_new hk_size hk_prk hk_counter hk_buffer] in D. unfold hbeg in D. cbn [hk_new hk_counter] in D.
    rewrite Nat.min_0_r, Nat.sub_0_r in D. change (1 =? 1) with true in D. cbn iota in D. fold es in D.
    destruct D as (o & E & _). exists o. rewrite E. rewrite !Nat.sub_0_r. rewrite firstn_O. cbn [app].
    match goal with |- Some (_, ?a ++ _, _) = Some (_, ?b ++ _, _) => assert (X : a = b); [|rewrite X; reflexivity] end.
    pose proof (hkdf_T_ok TB (repeat 0 es) [] (proj1 zeros_ok) (Forall_nil _)) as TO. fold es in TO.
    unfold hkdf_expand. rewrite (stream_blocks_for _ es n) by (lia || (intros i; apply TO)).
    destruct (n =? 0)%nat eqn:Z.
    - apply Nat.eqb_eq in Z. subst n. reflexivity.
    - set (k := S (n / es)). change (hchain (T := T) (repeat 0 es) [] [] 1 k) with (hchain (T := T) (repeat 0 es) [] (hkdf_T T (repeat 0 es) [] 0) (N.of_nat 1 mod 256) k).
      rewrite (hchain_T (M := M) (T := T) Hes). rewrite <- flat_map_concat_map. rewrite (sseg_blocks _ es) by (lia || (intros i; apply TO)).
      rewrite Nat.mul_0_l. apply sseg_firstn. unfold k. pose proof (Nat.div_mod n es ltac:(lia)). pose proof (Nat.mod_upper_bound n es ltac:(lia)). nia.
  Qed.

  Lemma pb_default env sizes : exists o ps, derive_pieces cx (kdf_pbkdf_2 M) env (pb_new M) sizes = Some (o, ps) /\
    map (@length N) ps = sizes /\ concat ps = pbkdf2 T es [] [] 1 (total sizes).
  Proof.
    assert (H : Proof_Kdf2.phold (M := M) (T := T) (eqv := eqv) ([], [], 0) 0 (pb_new M)).
    { constructor; cbn [pb_new pb_mac pb_iterations pb_counter pb_buffer pb_size fst snd]; fold es.
      - apply (mo_new _ _ _ _ _ _ _ OK).
      - split; exact nil_chunk.
      - reflexivity.
      - exact zeros_ok.
      - lia.
      - exists 0%nat. split; [reflexivity|]. split; [lia|]. intros X. lia. }
    assert (A : pargv env (((0%nat, 0%nat), (0%nat, 0%nat)), 0) (([], []), 0)).
    { repeat split; cbn; lia || (try constructor). }
    destruct (kpieces (pbkdf2_ok OK Hes TB) env _ _ A sizes 0%nat (pb_new M) H) as (o & ps & E & L & C).
    - split; reflexivity.
    - intros. exact I.
    - exists o, ps. split; [exact E|]. split; [exact L|]. rewrite C. reflexivity.
  Qed.
End Kdf.
