(** C62: a key derived into the memory that holds its inputs. The documentation (doc/reference_kdf.md:45-56) names the inputs that must
    stay as they are while the object is used: info for HKDF, ikm and salt for PBKDF2. *)
From Verif Require Import Base Spec_Bytes Spec_Range Spec_Sha Spec_Hash Spec_Hmac Spec_Kdf Spec_KdfMem Model_Memory Model_Container Model_Sha Model_Mac
  Model_Hmac Model_Kdf Model_KdfMem Proof_Hmac Proof_Kdf Proof_Kdf2 Proof_Kdf3 Proof_KdfMem Prop_Kdf Spec_Range.
Local Open Scope N_scope.

(** Any number of reads into any ranges of the memory, over ikm and salt and over each other too, as long as - at run time -
    none touches info: each range gets the next piece of the key. *)
Theorem C62_hkdf : forall cx a dsz m r ikm salt info reads,
  (1 <= dsz <= sha_digest_size a)%nat -> holds3 m r ikm salt info -> bytes m -> Forall (inside m) reads ->
  Forall (fun o => cx_ce cx = true \/ avoids o (snd r)) reads -> (total (map snd reads) <= 255 * dsz)%nat ->
  exists o o', kapie_new cx (HKDF a dsz) m r = Some o /\
    derive_run_at (hk_derive_at cx (mac_hmac (milo_hash a) dsz)) o m reads = Some (o', laid (hkdf (prf a dsz) dsz ikm salt info) 0 reads m).
Proof.
  intros cx a dsz m r ikm salt info reads Hd H Bm HI HA HL.
  exact (hkdf_into (milo_hmac_ok cx a dsz (proj2 Hd)) (hmac_es a dsz Hd) (hmac_tag_ok a dsz (proj2 Hd)) m r (ikm, salt, info) reads (h3 _ _ _ _ _ H) Bm HI HA HL).
Qed.
Print Assumptions C62_hkdf.
(** The same for PBKDF2, where password and salt have to stay. *)
Theorem C62_pbkdf2 : forall cx a dsz m r password salt reads,
  (1 <= dsz <= sha_digest_size a)%nat -> holds2 m r password salt -> (1 <= snd r < 2 ^ 32) -> bytes m -> Forall (inside m) reads ->
  Forall (fun o => cx_ce cx = true \/ avoids o (fst (fst r)) /\ avoids o (snd (fst r))) reads ->
  exists o o', kapie_new cx (PBKDF2 a dsz) m r = Some o /\
    derive_run_at (pb_derive_at cx (mac_hmac (milo_hash a) dsz)) o m reads
    = Some (o', laid (pbkdf2 (prf a dsz) dsz password salt (N.to_nat (snd r))) 0 reads m).
Proof.
  intros cx a dsz m r p s reads Hd H Hi Bm HI HA. replace (N.to_nat (snd r)) with (Nat.max 1 (N.to_nat (snd r))) by lia.
  exact (pbkdf2_into (milo_hmac_ok cx a dsz (proj2 Hd)) (hmac_es a dsz Hd) (hmac_tag_ok a dsz (proj2 Hd)) m r (p, s, snd r) reads (h2 _ _ _ _ H) Bm HI HA).
Qed.
Print Assumptions C62_pbkdf2.
(** A key of at most one block may go anywhere. *)
Theorem C62_one_block : forall cx a dsz m d n,
  (1 <= dsz <= sha_digest_size a)%nat -> bytes m -> (d + n <= length m)%nat -> (n <= dsz)%nat ->
  (forall ri rs rf ikm salt info, holds3 m (ri, rs, rf) ikm salt info ->
     hkdf_free_at cx (mac_hmac (milo_hash a) dsz) m ri rs rf d n = Some (put m d (hkdf (prf a dsz) dsz ikm salt info n), n)) /\
  (forall rp rs c password salt, holds2 m (rp, rs, c) password salt -> (1 <= c < 2 ^ 32) ->
     pbkdf_2_free_at cx (mac_hmac (milo_hash a) dsz) m rp rs c d n = Some (put m d (pbkdf2 (prf a dsz) dsz password salt (N.to_nat c) n), n)).
Proof.
  intros cx a dsz m d n Hd Bm Hm Hn. split.
  - intros ri rs rf ikm salt info H.
    exact (hkdf_first_block (milo_hmac_ok cx a dsz (proj2 Hd)) (hmac_es a dsz Hd) (hmac_tag_ok a dsz (proj2 Hd)) m (ri, rs, rf) (ikm, salt, info) d n (h3 _ _ _ _ _ H) Bm Hm Hn).
  - intros rp rs c p s H Hc. replace (N.to_nat c) with (Nat.max 1 (N.to_nat c)) by lia.
    exact (pbkdf2_first_block (milo_hmac_ok cx a dsz (proj2 Hd)) (hmac_es a dsz Hd) (hmac_tag_ok a dsz (proj2 Hd)) m (rp, rs, c) (p, s, c) d n (h2 _ _ _ _ H) Bm Hm Hn).
Qed.
Print Assumptions C62_one_block.
(** At run time and for two blocks those conditions are needed: the second block of PBKDF2 is computed from the password and salt [password'], [salt'] that the
    first block left in their place, and the second block of HKDF from the info that it left. *)
Theorem C62_pbkdf2_needed : forall cx a dsz m rp rs c password salt d password' salt',
  (1 <= dsz <= sha_digest_size a)%nat -> cx_ce cx = false -> holds2 m (rp, rs, c) password salt -> (1 <= c < 2 ^ 32) -> bytes m ->
  (d + 2 * dsz <= length m)%nat ->
  let m1 := put m d (pbkdf2 (prf a dsz) dsz password salt (N.to_nat c) dsz) in holds2 m1 (rp, rs, c) password' salt' ->
  pbkdf_2_free_at cx (mac_hmac (milo_hash a) dsz) m rp rs c d (2 * dsz)
  = Some (put m1 (d + dsz) (pb_T (prf a dsz) password' salt' 2 (N.to_nat c)), (2 * dsz)%nat).
Proof.
  intros cx a dsz m rp rs c p s d p' s' Hd CE H Hc Bm Hm m1 H1. unfold m1 in *. replace (N.to_nat c) with (Nat.max 1 (N.to_nat c)) in * by lia. destruct H1 as (B1 & B2 & D1 & D2).
  exact (pbkdf2_two (milo_hmac_ok cx a dsz (proj2 Hd)) (hmac_es a dsz Hd) (hmac_tag_ok a dsz (proj2 Hd)) m (rp, rs, c) (p, s, c) d p' s' CE (h2 _ _ _ _ H) Bm Hm B1 B2 D1 D2).
Qed.
Print Assumptions C62_pbkdf2_needed.
Theorem C62_hkdf_needed : forall cx a dsz m ri rs rf ikm salt info d info',
  (1 <= dsz <= sha_digest_size a)%nat -> cx_ce cx = false -> holds3 m (ri, rs, rf) ikm salt info -> bytes m -> (d + 2 * dsz <= length m)%nat ->
  let first := hkdf (prf a dsz) dsz ikm salt info dsz in let m1 := put m d first in has m1 rf info' -> chunk info' ->
  hkdf_free_at cx (mac_hmac (milo_hash a) dsz) m ri rs rf d (2 * dsz)
  = Some (put m1 (d + dsz) (prf a dsz (hkdf_extract (prf a dsz) salt ikm) (first ++ info' ++ [2])), (2 * dsz)%nat).
Proof.
  intros cx a dsz m ri rs rf ikm salt info d info' Hd CE H Bm Hm first m1 B D.
  exact (hkdf_two (milo_hmac_ok cx a dsz (proj2 Hd)) (hmac_es a dsz Hd) (hmac_tag_ok a dsz (proj2 Hd)) m (ri, rs, rf) (ikm, salt, info) d info' CE (h3 _ _ _ _ _ H) Bm Hm B D).
Qed.
Print Assumptions C62_hkdf_needed.

(** A memory of 60 bytes with the password (ikm) at 0, the salt at 3, the info at 5.  The ranges of the reads avoid info and overlap
    ikm, salt and each other; and with the output at 0 the second block is wrong. *)
Definition mem60 : list N := mem9 ++ repeat 0 51.
Example C62_case :
  holds3 mem60 r9 [1; 2; 3] [4; 5] [6; 7; 8; 9] /\ bytes mem60 /\
  (let reads := [(0, 5); (10, 30); (2, 3); (20, 40)]%nat in Forall (inside mem60) reads /\ Forall (fun o => avoids o (snd r9)) reads /\
     (total (map snd reads) <= 255 * 20)%nat) /\
  (let f := prf SHA1 20 in
   (exists p' s', holds2 (put mem60 0 (pbkdf2 f 20 [1; 2; 3] [4; 5] 1 20)) ((0, 3)%nat, (3, 2)%nat, 1) p' s' /\
     pb_T f p' s' 2 1 <> pb_T f [1; 2; 3] [4; 5] 2 1) /\
   (let first := hkdf f 20 [1; 2; 3] [4; 5] [6; 7; 8; 9] 20 in exists i', has (put mem60 0 first) (snd r9) i' /\ chunk i' /\
     f (f [4; 5] [1; 2; 3]) (first ++ i' ++ [2]) <> hkdf_T f (f [4; 5] [1; 2; 3]) [6; 7; 8; 9] 2)).
Proof.
  assert (BY : forall l, forallb (fun x => x <? 256) l = true -> bytes l).
  { intros l H. apply Forall_forall. intros x Hx. apply N.ltb_lt. exact (proj1 (forallb_forall _ l) H x Hx). }
  assert (CH : forall l, forallb (fun x => x <? 256) l = true -> N.of_nat (length l) <? 2 ^ 64 = true -> chunk l).
  { intros l H1 H2. split; [apply BY, H1|apply N.ltb_lt, H2]. }
  split. { unfold holds3, r9, has. cbn [fst snd length]. repeat (split; [(split; [vm_compute; lia|split; reflexivity]) || (apply CH; vm_compute; reflexivity)|]). apply CH; vm_compute; reflexivity. }
  split. { apply BY. vm_compute. reflexivity. }
  split. { cbn zeta. split; [|split].
    - repeat (constructor; [unfold inside; vm_compute; lia|]). constructor.
    - repeat (constructor; [unfold avoids, r9; cbn [fst snd]; lia|]). constructor.
    - vm_compute. lia. }
  cbn zeta. split.
  - set (k := put mem60 0 (pbkdf2 (prf SHA1 20) 20 [1; 2; 3] [4; 5] 1 20)).
    exists (firstn 3 k), (firstn 2 (skipn 3 k)). split.
    + unfold holds2, has. cbn [fst snd].
      split; [|split; [|split]]; [| |apply CH; vm_compute; reflexivity|apply CH; vm_compute; reflexivity]; vm_compute; repeat split; lia.
    + vm_compute. discriminate.
  - set (k := put mem60 0 (hkdf (prf SHA1 20) 20 [1; 2; 3] [4; 5] [6; 7; 8; 9] 20)).
    exists (firstn 4 (skipn 5 k)). split; [|split].
    + unfold has. vm_compute. repeat split; lia.
    + apply CH; vm_compute; reflexivity.
    + vm_compute. discriminate.
Qed.
