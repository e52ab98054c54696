(** Properties C35-C38, C48 and the KDF part of C19, C20, C45. *)
From Verif Require Import Base Spec_Bytes Spec_Sha Spec_Hash Spec_Hmac Spec_Kdf Model_Memory Model_Container Model_Sha Model_Mac Model_Hmac
  Model_Kdf Proof_Hmac Proof_Kdf Proof_Kdf2 Proof_Kdf3.
Local Open Scope N_scope.

(** HMAC with the FIPS 180-4 hash [a], truncated to [dsz] bytes (all of them by default). *)
Definition prf (a : sha) (dsz : nat) (key text : list N) : list N := firstn dsz (hmac (fips a) (sha_block_size a) key text).
Definition HKDF (a : sha) (dsz : nat) : kdf_alg := kdf_hkdf (mac_hmac (milo_hash a) dsz).
Definition PBKDF2 (a : sha) (dsz : nat) : kdf_alg := kdf_pbkdf_2 (mac_hmac (milo_hash a) dsz).
(** The caller's memory [env] holds ikm, salt and info in the ranges [r]. *)
Definition holds3 (env : list N) (r : range * range * range) (ikm salt info : list N) : Prop :=
  let '(ri, rs, rf) := r in has env ri ikm /\ has env rs salt /\ has env rf info /\ chunk ikm /\ chunk salt /\ chunk info.
Definition holds2 (env : list N) (r : range * range * N) (password salt : list N) : Prop :=
  let '(rp, rs, _) := r in has env rp password /\ has env rs salt /\ chunk password /\ chunk salt.
(** Arguments of [initialize] that are there. *)
Definition arg3 (env : list N) (r : range * range * range) : Prop := exists ikm salt info, holds3 env r ikm salt info.
Definition arg2 (env : list N) (r : range * range * N) : Prop := exists password salt, holds2 env r password salt.

Lemma h3 env r ikm salt info : holds3 env r ikm salt info -> hargv env r (ikm, salt, info).
Proof. destruct r as [[ri rs] rf]. intros H. exact H. Qed.
Lemma h2 env r p s : holds2 env r p s -> pargv env r (p, s, snd r).
Proof. destruct r as [[rp rs] c]. intros (H1 & H2 & H3 & H4). repeat split; try apply H1; try apply H2; try apply H3; apply H4. Qed.
Definition hok cx a dsz (H : (1 <= dsz <= sha_digest_size a)%nat) :=
  hkdf_ok (milo_hmac_ok cx a dsz (proj2 H)) (hmac_es a dsz H) (hmac_tag_ok a dsz (proj2 H)).
Definition pok cx a dsz (H : (1 <= dsz <= sha_digest_size a)%nat) :=
  pbkdf2_ok (milo_hmac_ok cx a dsz (proj2 H)) (hmac_es a dsz H) (hmac_tag_ok a dsz (proj2 H)).

(** A memory with ikm at 0..2, salt at 3..4 and info at 5..8. *)
Definition mem9 : list N := [1; 2; 3; 4; 5; 6; 7; 8; 9].
Definition r9 : range * range * range := ((0%nat, 3%nat), (3%nat, 2%nat), (5%nat, 4%nat)).
Lemma has9 : holds3 mem9 r9 [1; 2; 3] [4; 5] [6; 7; 8; 9].
Proof. unfold holds3, r9, mem9, has, chunk, bytes, is_byte. cbn. repeat split; try lia; try (repeat constructor; lia). Qed.
Definition p9 : range * range * N := ((0%nat, 3%nat), (3%nat, 2%nat), 4096).
Lemma has9p : holds2 mem9 p9 [1; 2; 3] [4; 5].
Proof. unfold holds2, p9, mem9, has, chunk, bytes, is_byte. cbn. repeat split; try lia; try (repeat constructor; lia). Qed.

(** *** C35 *)
Theorem C35_hkdf : forall cx a dsz env r ikm salt info,
  (1 <= dsz <= sha_digest_size a)%nat -> holds3 env r ikm salt info ->
  kdf_returns cx (HKDF a dsz) env r (fun L => (L <= 255 * dsz)%nat) (hkdf (prf a dsz) dsz ikm salt info).
Proof. intros cx a dsz env r ikm salt info Hd H. exact (kreturns (hok cx a dsz Hd) env r (ikm, salt, info) (fun L => (L <= 255 * dsz)%nat) (h3 _ _ _ _ _ H) (fun n Hn => Hn)). Qed.
Print Assumptions C35_hkdf.
Example C35_case : (1 <= 32 <= sha_digest_size SHA256)%nat /\ holds3 mem9 r9 [1; 2; 3] [4; 5] [6; 7; 8; 9].
Proof. split; [cbn; lia|exact has9]. Qed.

(** *** C36: any sequence of reads into ranges and containers sees consecutive pieces of the one key stream. *)
Theorem C36_hkdf : forall cx a dsz env r ikm salt info calls,
  (1 <= dsz <= sha_digest_size a)%nat -> holds3 env r ikm salt info ->
  Forall is_derive calls -> Forall (kcall_ok (arg3 env)) calls -> (requested calls <= 255 * dsz)%nat ->
  exists o o', kapie_new cx (HKDF a dsz) env r = Some o /\
    kdf_run cx (HKDF a dsz) env o calls = Some (o', kanswers (hkdf (prf a dsz) dsz ikm salt info) 0 calls).
Proof.
  intros cx a dsz env r ikm salt info calls Hd H Hc Hk HL.
  apply (khistory (hok cx a dsz Hd) env r (ikm, salt, info) calls (h3 _ _ _ _ _ H)).
  - apply lims_total. cbn [Nat.add]. intros p n Hp. exact (Nat.le_trans _ _ _ Hp HL).
  - exact (shapes (K := HKDF a dsz) calls _ Hc Hk).
Qed.
Print Assumptions C36_hkdf.
Theorem C36_pbkdf2 : forall cx a dsz env r password salt calls,
  (1 <= dsz <= sha_digest_size a)%nat -> holds2 env r password salt -> (1 <= snd r < 2 ^ 32) ->
  Forall is_derive calls -> Forall (kcall_ok (arg2 env)) calls ->
  exists o o', kapie_new cx (PBKDF2 a dsz) env r = Some o /\
    kdf_run cx (PBKDF2 a dsz) env o calls
    = Some (o', kanswers (pbkdf2 (prf a dsz) dsz password salt (N.to_nat (snd r))) 0 calls).
Proof.
  intros cx a dsz env r p s calls Hd H Hc Hk Hs. replace (N.to_nat (snd r)) with (Nat.max 1 (N.to_nat (snd r))) by lia.
  apply (khistory (pok cx a dsz Hd) env r (p, s, snd r) calls (h2 _ _ _ _ H)).
  - apply lims_total. intros. exact I.
  - exact (shapes (K := PBKDF2 a dsz) calls _ Hk Hs).
Qed.
Print Assumptions C36_pbkdf2.
(** The concatenation of the pieces is what one call for the total length returns (C35, C38). *)
Theorem C36_hkdf_concat : forall cx a dsz env r ikm salt info sizes,
  (1 <= dsz <= sha_digest_size a)%nat -> holds3 env r ikm salt info -> (total sizes <= 255 * dsz)%nat ->
  exists o o' pieces, kapie_new cx (HKDF a dsz) env r = Some o /\
    derive_pieces cx (HKDF a dsz) env o sizes = Some (o', pieces) /\ map (@length N) pieces = sizes /\
    concat pieces = hkdf (prf a dsz) dsz ikm salt info (total sizes).
Proof.
  intros cx a dsz env r ikm salt info sizes Hd H HL.
  exact (kpieces_new (hok cx a dsz Hd) env r (ikm, salt, info) sizes (h3 _ _ _ _ _ H) (fun p n Hp => Nat.le_trans _ _ _ Hp HL)).
Qed.
Print Assumptions C36_hkdf_concat.
Theorem C36_pbkdf2_concat : forall cx a dsz env r password salt sizes,
  (1 <= dsz <= sha_digest_size a)%nat -> holds2 env r password salt -> (1 <= snd r < 2 ^ 32) ->
  exists o o' pieces, kapie_new cx (PBKDF2 a dsz) env r = Some o /\
    derive_pieces cx (PBKDF2 a dsz) env o sizes = Some (o', pieces) /\ map (@length N) pieces = sizes /\
    concat pieces = pbkdf2 (prf a dsz) dsz password salt (N.to_nat (snd r)) (total sizes).
Proof.
  intros cx a dsz env r p s sizes Hd H Hc. replace (N.to_nat (snd r)) with (Nat.max 1 (N.to_nat (snd r))) by lia.
  exact (kpieces_new (pok cx a dsz Hd) env r (p, s, snd r) sizes (h2 _ _ _ _ H) (fun p n _ => I)).
Qed.
Print Assumptions C36_pbkdf2_concat.
Example C36_case : let calls := [KDerive (repeat 0 70) 64; KDeriveC (Dynamic [1]) 3; KDeriveC (Static [1; 2]) 9; KDerive [] 0] in
  Forall is_derive calls /\ Forall (kcall_ok (arg3 mem9)) calls /\ (requested calls <= 255 * 32)%nat.
Proof.
  cbn zeta. split; [repeat constructor|]. split; [|cbn; lia].
  constructor; [split; [apply bytes_zeros|cbn; lia]|].
  constructor; [repeat constructor|]. constructor; [repeat constructor|]. constructor; [split; [constructor|cbn; lia]|constructor].
Qed.

(** *** C37: refuted.  HKDF does not refuse more than 255 blocks: one call returns any number of bytes, continuing with
    a counter octet that has wrapped to 0 ([hkdf_T] takes [i mod 256]) ... *)
Theorem C37_no_limit_refuted : forall cx a dsz env r ikm salt info key n,
  (1 <= dsz <= sha_digest_size a)%nat -> holds3 env r ikm salt info -> bytes key -> (255 * dsz < n <= length key)%nat ->
  kdf_free cx (HKDF a dsz) env r key n = Some (hkdf (prf a dsz) dsz ikm salt info n ++ skipn n key, n).
Proof.
  intros cx a dsz env r ikm salt info key n Hd H Hk Hn.
  exact (hkdf_first (milo_hmac_ok cx a dsz (proj2 Hd)) (hmac_es a dsz Hd) (hmac_tag_ok a dsz (proj2 Hd)) env r (ikm, salt, info) key n
           (h3 _ _ _ _ _ H) Hk (proj2 Hn)).
Qed.
Print Assumptions C37_no_limit_refuted.
(** ... and after 255 blocks and one more block, every later read returns the key stream from its beginning again. *)
Theorem C37_repeats_refuted : forall cx a dsz env r ikm salt info,
  (1 <= dsz <= sha_digest_size a)%nat -> holds3 env r ikm salt info ->
  let K := HKDF a dsz in let S := hkdf (prf a dsz) dsz ikm salt info in
  exists o o1 o2 block256, kapie_new cx K env r = Some o /\
    kapie_derive_new cx K env o (255 * dsz) = Some (o1, S (255 * dsz)%nat) /\
    kapie_derive_new cx K env o1 dsz = Some (o2, block256) /\
    forall n, exists o3, kapie_derive_new cx K env o2 n = Some (o3, S n).
Proof.
  intros cx a dsz env r ikm salt info Hd H K S.
  destruct (hkdf_wraps (milo_hmac_ok cx a dsz (proj2 Hd)) (hmac_es a dsz Hd) (hmac_tag_ok a dsz (proj2 Hd)) env r (ikm, salt, info) (h3 _ _ _ _ _ H))
    as (o & o1 & o2 & H1 & H2 & H3 & H4).
  exists o, o1, o2. eexists. split; [exact H1|]. split; [exact H2|]. split; [exact H3|exact H4].
Qed.
Print Assumptions C37_repeats_refuted.
Example C37_case : (1 <= 20 <= sha_digest_size SHA1)%nat /\ holds3 mem9 r9 [1; 2; 3] [4; 5] [6; 7; 8; 9] /\
  bytes (repeat 0 (256 * 20)) /\ (255 * 20 < 256 * 20 <= length (repeat 0 (256 * 20)))%nat.
Proof. split; [cbn; lia|]. split; [exact has9|]. split; [apply bytes_zeros|rewrite repeat_length; lia]. Qed.

(** *** C38.  RFC 8018 defines the result for up to [(2^32 - 1) * hLen] bytes. *)
Theorem C38_pbkdf2 : forall cx a dsz env r password salt,
  (1 <= dsz <= sha_digest_size a)%nat -> holds2 env r password salt -> (1 <= snd r < 2 ^ 32) ->
  kdf_returns cx (PBKDF2 a dsz) env r (fun L => N.of_nat L <= (2 ^ 32 - 1) * N.of_nat dsz)
    (pbkdf2 (prf a dsz) dsz password salt (N.to_nat (snd r))).
Proof.
  intros cx a dsz env r p s Hd H Hc. replace (N.to_nat (snd r)) with (Nat.max 1 (N.to_nat (snd r))) by lia.
  exact (kreturns (pok cx a dsz Hd) env r (p, s, snd r) (fun L => N.of_nat L <= (2 ^ 32 - 1) * N.of_nat dsz) (h2 _ _ _ _ H) (fun n _ => I)).
Qed.
Print Assumptions C38_pbkdf2.
(** An iteration count of 0, which RFC 8018 excludes, is not refused: it counts as 1. *)
Theorem C38_zero_iterations : forall cx a dsz env rp rs password salt,
  (1 <= dsz <= sha_digest_size a)%nat -> holds2 env (rp, rs, 0) password salt ->
  kdf_returns cx (PBKDF2 a dsz) env (rp, rs, 0) (fun _ => True) (pbkdf2 (prf a dsz) dsz password salt 1).
Proof. intros cx a dsz env rp rs p s Hd H. exact (kreturns (pok cx a dsz Hd) env (rp, rs, 0) (p, s, 0) (fun _ => True) (h2 _ _ _ _ H) (fun n _ => I)). Qed.
Print Assumptions C38_zero_iterations.
Example C38_case : (1 <= 20 <= sha_digest_size SHA1)%nat /\ holds2 mem9 p9 [1; 2; 3] [4; 5] /\ (1 <= snd p9 < 2 ^ 32).
Proof. split; [cbn; lia|]. split; [exact has9p|cbn; lia]. Qed.

(** *** C19, C20 *)
Theorem C19_hkdf : forall cx a dsz env r before r' later,
  (1 <= dsz <= sha_digest_size a)%nat -> arg3 env r -> arg3 env r' ->
  Forall (kcall_ok (arg3 env)) before -> Forall (kcall_ok (arg3 env)) later ->
  let K := HKDF a dsz in
  exists o o1 outs0 o2 o3 o4 o5 outs,
    kapie_new cx K env r = Some o /\ kdf_run cx K env o before = Some (o1, outs0) /\
    ka_initialize K cx env o1 r' = Some o2 /\ kdf_run cx K env o2 later = Some (o3, outs) /\
    kapie_new cx K env r' = Some o4 /\ kdf_run cx K env o4 later = Some (o5, outs).
Proof.
  intros cx a dsz env r before r' later Hd A A' Hb Hl K.
  assert (Q : forall q, arg3 env q -> argok (K := K) (argv := hargv) env q).
  { intros q (i & s & f & H). exists (i, s, f). exact (h3 _ _ _ _ _ H). }
  assert (C : forall l, Forall (kcall_ok (arg3 env)) l -> Forall (kcall_ok (argok (K := K) (argv := hargv) env)) l).
  { intros l. apply Forall_impl. intros [x|k s|c s]; cbn [kcall_ok]; [apply Q|auto|auto]. }
  exact (krun_reinit (hok cx a dsz Hd) env r before r' later (Q _ A) (Q _ A') (C _ Hb) (C _ Hl)).
Qed.
Print Assumptions C19_hkdf.
Theorem C19_pbkdf2 : forall cx a dsz env r before r' later,
  (1 <= dsz <= sha_digest_size a)%nat -> arg2 env r -> arg2 env r' ->
  Forall (kcall_ok (arg2 env)) before -> Forall (kcall_ok (arg2 env)) later ->
  let K := PBKDF2 a dsz in
  exists o o1 outs0 o2 o3 o4 o5 outs,
    kapie_new cx K env r = Some o /\ kdf_run cx K env o before = Some (o1, outs0) /\
    ka_initialize K cx env o1 r' = Some o2 /\ kdf_run cx K env o2 later = Some (o3, outs) /\
    kapie_new cx K env r' = Some o4 /\ kdf_run cx K env o4 later = Some (o5, outs).
Proof.
  intros cx a dsz env r before r' later Hd A A' Hb Hl K.
  assert (Q : forall q, arg2 env q -> argok (K := K) (argv := pargv) env q).
  { intros q (p & s & H). exists (p, s, snd q). exact (h2 _ _ _ _ H). }
  assert (C : forall l, Forall (kcall_ok (arg2 env)) l -> Forall (kcall_ok (argok (K := K) (argv := pargv) env)) l).
  { intros l. apply Forall_impl. intros [x|k s|c s]; cbn [kcall_ok]; [apply Q|auto|auto]. }
  exact (krun_reinit (pok cx a dsz Hd) env r before r' later (Q _ A) (Q _ A') (C _ Hb) (C _ Hl)).
Qed.
Print Assumptions C19_pbkdf2.
Theorem C20_kdf : forall cx a dsz env, (1 <= dsz <= sha_digest_size a)%nat ->
  (forall r calls, arg3 env r -> Forall (kcall_ok (arg3 env)) calls ->
     exists o x, kapie_new cx (HKDF a dsz) env r = Some o /\ kdf_run cx (HKDF a dsz) env o calls = Some x) /\
  (forall r calls, arg2 env r -> Forall (kcall_ok (arg2 env)) calls ->
     exists o x, kapie_new cx (PBKDF2 a dsz) env r = Some o /\ kdf_run cx (PBKDF2 a dsz) env o calls = Some x).
Proof.
  intros cx a dsz env Hd. split; intros r calls A Hc.
  - destruct (C19_hkdf cx a dsz env r calls r [] Hd A A Hc (Forall_nil _)) as (o & o1 & xs & _ & _ & _ & _ & _ & H1 & H2 & _).
    exists o, (o1, xs). auto.
  - destruct (C19_pbkdf2 cx a dsz env r calls r [] Hd A A Hc (Forall_nil _)) as (o & o1 & xs & _ & _ & _ & _ & _ & H1 & H2 & _).
    exists o, (o1, xs). auto.
Qed.
Print Assumptions C20_kdf.
Example C19_C20_kdf_case : arg3 mem9 r9 /\ arg2 mem9 p9 /\
  Forall (kcall_ok (arg3 mem9)) [KDerive (repeat 0 70) 64; KInit r9; KDeriveC (Static [1; 2]) 9].
Proof.
  assert (A : arg3 mem9 r9) by (exists [1; 2; 3], [4; 5], [6; 7; 8; 9]; exact has9).
  split; [exact A|]. split; [exists [1; 2; 3], [4; 5]; exact has9p|].
  constructor; [split; [apply bytes_zeros|cbn; lia]|]. constructor; [exact A|]. constructor; [repeat constructor|constructor].
Qed.

(** *** C48.  The caller's memory may be any memory during each later call.  In constant evaluation nothing of it matters;
    at run time HKDF needs the bytes of info, and PBKDF2 the bytes of password and salt, to be still there. *)
Theorem C48_hkdf : forall cx a dsz env r ikm salt info calls,
  (1 <= dsz <= sha_digest_size a)%nat -> holds3 env r ikm salt info ->
  Forall (fun p => cx_ce cx = true \/ has (fst p) (snd r) info) calls ->
  Forall is_derive (map snd calls) -> Forall (kcall_ok (arg3 env)) (map snd calls) -> (requested (map snd calls) <= 255 * dsz)%nat ->
  exists o o', kapie_new cx (HKDF a dsz) env r = Some o /\
    kdf_run_in cx (HKDF a dsz) o calls = Some (o', kanswers (hkdf (prf a dsz) dsz ikm salt info) 0 (map snd calls)).
Proof.
  intros cx a dsz env r ikm salt info calls Hd H Hv Hc Hk HL.
  apply (khistory_in (hok cx a dsz Hd) env r (ikm, salt, info) calls (h3 _ _ _ _ _ H)).
  - exact Hv.
  - apply lims_total. cbn [Nat.add]. intros p n Hp. exact (Nat.le_trans _ _ _ Hp HL).
  - exact (shapes (K := HKDF a dsz) _ _ Hc Hk).
Qed.
Print Assumptions C48_hkdf.
Theorem C48_pbkdf2 : forall cx a dsz env r password salt calls,
  (1 <= dsz <= sha_digest_size a)%nat -> holds2 env r password salt -> (1 <= snd r < 2 ^ 32) ->
  Forall (fun p => cx_ce cx = true \/ has (fst p) (fst (fst r)) password /\ has (fst p) (snd (fst r)) salt) calls ->
  Forall is_derive (map snd calls) -> Forall (kcall_ok (arg2 env)) (map snd calls) ->
  exists o o', kapie_new cx (PBKDF2 a dsz) env r = Some o /\
    kdf_run_in cx (PBKDF2 a dsz) o calls
    = Some (o', kanswers (pbkdf2 (prf a dsz) dsz password salt (N.to_nat (snd r))) 0 (map snd calls)).
Proof.
  intros cx a dsz env r p s calls Hd H Hi Hv Hc Hk. replace (N.to_nat (snd r)) with (Nat.max 1 (N.to_nat (snd r))) by lia.
  apply (khistory_in (pok cx a dsz Hd) env r (p, s, snd r) calls (h2 _ _ _ _ H)).
  - exact Hv.
  - apply lims_total. intros. exact I.
  - exact (shapes (K := PBKDF2 a dsz) _ _ Hc Hk).
Qed.
Print Assumptions C48_pbkdf2.
(** These buffers are needed at run time: a changed one changes the key, a freed one is read. *)
Theorem C48_hkdf_needed : forall cx a dsz env r ikm salt info env' o,
  (1 <= dsz <= sha_digest_size a)%nat -> cx_ce cx = false -> holds3 env r ikm salt info ->
  kapie_new cx (HKDF a dsz) env r = Some o ->
  (forall info' key n, has env' (snd r) info' -> chunk info' -> bytes key -> (n <= length key)%nat ->
     exists o', ka_derive (HKDF a dsz) cx env' o key n = Some (o', hkdf (prf a dsz) dsz ikm salt info' n ++ skipn n key, n)) /\
  (forall key n, (0 < length info)%nat -> (length env' < fst (snd r) + length info)%nat -> bytes key -> (0 < n)%nat ->
     ka_derive (HKDF a dsz) cx env' o key n = None).
Proof.
  intros cx a dsz env r ikm salt info env' o Hd Hce H I. split.
  - intros info' key n B C. exact (hkdf_late (milo_hmac_ok cx a dsz (proj2 Hd)) (hmac_es a dsz Hd) (hmac_tag_ok a dsz (proj2 Hd))
      env r ikm salt info env' info' o key n Hce (h3 _ _ _ _ _ H) B C I).
  - intros key n. exact (hkdf_gone (milo_hmac_ok cx a dsz (proj2 Hd)) (hmac_es a dsz Hd) (hmac_tag_ok a dsz (proj2 Hd))
      env r ikm salt info env' o key n Hce (h3 _ _ _ _ _ H) I).
Qed.
Print Assumptions C48_hkdf_needed.
Theorem C48_pbkdf2_needed : forall cx a dsz env r password salt env' o,
  (1 <= dsz <= sha_digest_size a)%nat -> cx_ce cx = false -> holds2 env r password salt -> (1 <= snd r < 2 ^ 32) ->
  kapie_new cx (PBKDF2 a dsz) env r = Some o ->
  (forall password' salt' key n, has env' (fst (fst r)) password' -> has env' (snd (fst r)) salt' -> chunk password' -> chunk salt' ->
     bytes key -> (n <= length key)%nat ->
     exists o', ka_derive (PBKDF2 a dsz) cx env' o key n
       = Some (o', pbkdf2 (prf a dsz) dsz password' salt' (N.to_nat (snd r)) n ++ skipn n key, n)) /\
  (forall key n, (0 < length password)%nat -> (length env' < fst (fst (fst r)) + length password)%nat -> bytes key -> (0 < n)%nat ->
     ka_derive (PBKDF2 a dsz) cx env' o key n = None).
Proof.
  intros cx a dsz env r p s env' o Hd Hce H Hi I. split.
  - intros p' s' key n B1 B2 C1 C2 Hk Hn. replace (N.to_nat (snd r)) with (Nat.max 1 (N.to_nat (snd r))) by lia.
    exact (pbkdf2_late (milo_hmac_ok cx a dsz (proj2 Hd)) (hmac_es a dsz Hd) (hmac_tag_ok a dsz (proj2 Hd))
      env r (p, s, snd r) env' p' s' o key n Hce (h2 _ _ _ _ H) B1 B2 C1 C2 I Hk Hn).
  - intros key n L1 L2. exact (pbkdf2_gone (M := mac_hmac (milo_hash a) dsz) (T := hmac_tag a dsz) (hmac_es a dsz Hd) (hmac_tag_ok a dsz (proj2 Hd))
      env r (p, s, snd r) env' o key n Hce (h2 _ _ _ _ H) I (conj L1 L2)).
Qed.
Print Assumptions C48_pbkdf2_needed.
(** The same run sees two different keys: the one byte of info is changed between the calls. *)
Example C48_case : has [1; 2; 3; 4; 5; 6; 7; 8; 0] (snd r9) [6; 7; 8; 0] /\ (length [1; 2; 3] < fst (snd r9) + length [6; 7; 8; 9])%nat /\
  hkdf (prf SHA1 20) 20 [1; 2; 3] [4; 5] [6; 7; 8; 9] 20 <> hkdf (prf SHA1 20) 20 [1; 2; 3] [4; 5] [6; 7; 8; 0] 20.
Proof.
  split; [unfold has; cbn; repeat split; lia|]. split; [cbn; lia|].
  intros E. apply (f_equal (fun l => nth 0 l 0)) in E. vm_compute in E. discriminate E.
Qed.
