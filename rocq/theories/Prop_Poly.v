(** Properties C23 and C24 and the Poly1305 parts of C18, C19, C20, C21 and C46.
    Specifications: [Spec_Poly] (RFC 8439 section 2.5) and [Spec_Mac].
    [mac_poly dsz] is milo::primitive::mac::poly_1305 with digest_size option [dsz] (default 16).
    [mac_poly_ov false dsz] is the same code in which an arithmetic result that does not fit its C++ type is an
    error instead of wrapping. *)
From Verif Require Import Base BaseLemmas Spec_Bytes Spec_Poly Model_Memory Model_Container Model_Sha
  Model_Mac Model_Poly Spec_Hash Spec_Mac Proof_Mac Proof_Poly Prop_Sha.
Local Open Scope N_scope.

Lemma poly_on ov cx dsz : (dsz <= 16)%nat ->
  mac_ok (mac_poly_ov ov dsz) cx bytes (fun k m => firstn dsz (poly1305_on (cx_big cx) (pad_to 32 k) m)) peq
    (fun k m o => phold (host_key (cx_big cx) k) m o) (fun o => flat_map (le_enc 4) (po_acc o)).
Proof.
  intros Hd. destruct (poly_host ov cx dsz Hd) as [a b c d e f g h i j k].
  constructor; try assumption. intros key m o o' H E. rewrite (f key m o o' H E).
  unfold poly_tag, poly1305_on. rewrite host_pad. reflexivity.
Qed.

(** *** C23 on every host, exactly: every overload, every key length, every partition of the message. On a little-endian
    host [poly1305_on] is RFC 8439's Poly1305 ([C23_little_endian]); on a big-endian one each 4-byte group of the key is
    reversed first. *)
Theorem C23_any_host : forall cx dsz key ms, (dsz <= 16)%nat -> bytes key -> Forall chunk ms ->
  mreturns cx (mac_poly dsz) key ms (firstn dsz (poly1305_on (cx_big cx) (pad_to 32 key) (concat ms))).
Proof. exact (fun cx dsz key ms Hd => mstream_returns (poly_on true cx dsz Hd) key ms). Qed.
Print Assumptions C23_any_host.
Theorem C23_free_any_host : forall cx dsz key msg, (dsz <= 16)%nat -> bytes key -> chunk msg ->
  mfree_returns cx (mac_poly dsz) key msg (firstn dsz (poly1305_on (cx_big cx) (pad_to 32 key) msg)).
Proof. exact (fun cx dsz key msg Hd => mfree_all (poly_on true cx dsz Hd) key msg). Qed.
Print Assumptions C23_free_any_host.
Theorem C23_little_endian : forall key msg, poly1305_on false key msg = poly1305 key msg.
Proof. reflexivity. Qed.
Print Assumptions C23_little_endian.

(** *** C23, on little-endian hosts: every overload, every partition of the message. *)
Theorem C23_poly1305_partial : forall cx dsz key ms,
  cx_big cx = false -> (dsz <= 16)%nat -> bytes key -> length key = 32%nat -> Forall chunk ms ->
  mreturns cx (mac_poly dsz) key ms (firstn dsz (poly1305 key (concat ms))).
Proof.
  intros cx dsz key ms Hc Hd Hk Hl Hm.
  rewrite <- (pad_to_same 32 key Hl) at 2. exact (mstream_returns (poly_ok true cx dsz Hc Hd) key ms Hk Hm).
Qed.
Print Assumptions C23_poly1305_partial.
Theorem C23_poly1305_free_partial : forall cx dsz key msg,
  cx_big cx = false -> (dsz <= 16)%nat -> bytes key -> length key = 32%nat -> chunk msg ->
  mfree_returns cx (mac_poly dsz) key msg (firstn dsz (poly1305 key msg)).
Proof.
  intros cx dsz key msg Hc Hd Hk Hl Hm.
  rewrite <- (pad_to_same 32 key Hl) at 2. exact (mfree_all (poly_ok true cx dsz Hc Hd) key msg Hk Hm).
Qed.
Print Assumptions C23_poly1305_free_partial.
(** A key of another length is cut or zero-padded to 32 bytes. *)
Theorem C23_key_sizes : forall cx dsz key ms,
  cx_big cx = false -> (dsz <= 16)%nat -> bytes key -> Forall chunk ms ->
  mreturns cx (mac_poly dsz) key ms (firstn dsz (poly1305 (pad_to 32 key) (concat ms))).
Proof. exact (fun cx dsz key ms Hc Hd => mstream_returns (poly_ok true cx dsz Hc Hd) key ms). Qed.
Print Assumptions C23_key_sizes.
Theorem C23_size : forall key msg, length (poly1305 key msg) = 16%nat.
Proof. exact poly1305_length. Qed.
Print Assumptions C23_size.

(** RFC 8439 section 2.5.2. *)
Definition poly_key_example : list N :=
  be_enc 32 0x85d6be7857556d337f4452fe42d506a80103808afb0db2fd4abff6af4149f51b.
Definition poly_msg_example : list (list N) :=
  [be_enc 3 0x437279; []; be_enc 31 0x70746f6772617068696320466f72756d2052657365617263682047726f7570].
Example C23_case : bytes poly_key_example /\ length poly_key_example = 32%nat /\ Forall chunk poly_msg_example /\
  be_dec (poly1305 poly_key_example (concat poly_msg_example)) = 0xa8061dc1305136c6c22b8baf0c0127a9 /\
  option_map be_dec (mac_free_digest_new host (mac_poly 16) poly_key_example (concat poly_msg_example) 99)
  = Some 0xa8061dc1305136c6c22b8baf0c0127a9.
Proof.
  split; [apply BytesLemmas.be_enc_bytes|]. split; [reflexivity|]. split.
  - unfold poly_msg_example, chunk. repeat constructor; try apply BytesLemmas.be_enc_bytes; vm_compute; reflexivity.
  - vm_compute. split; reflexivity.
Qed.

(** On a big-endian host the key words are read in the wrong order, so that the tag is not RFC 8439's. *)
Example C23_any_host_case : poly1305_on true (map N.of_nat (seq 0 32)) [7]
  = poly1305 [3;2;1;0; 7;6;5;4; 11;10;9;8; 15;14;13;12; 19;18;17;16; 23;22;21;20; 27;26;25;24; 31;30;29;28] [7].
Proof. reflexivity. Qed.
Theorem C23_big_endian_refuted : exists key msg,
  bytes key /\ length key = 32%nat /\ chunk msg /\
  mac_free_digest_new {| cx_big := true; cx_ce := false |} (mac_poly 16) key msg 16 <> Some (poly1305 key msg).
Proof.
  exists poly_key_example, [1]. split; [apply BytesLemmas.be_enc_bytes|]. split; [reflexivity|]. split.
  - unfold chunk, bytes, is_byte. repeat constructor; cbn; lia.
  - vm_compute. discriminate.
Qed.
Print Assumptions C23_big_endian_refuted.

(** *** C24: whatever the calls, the overflow-checked code never fails and gives what the real code gives. *)
Theorem C24_no_overflow : forall cx dsz key calls,
  (dsz <= 16)%nat -> bytes key -> Forall (mcall_ok bytes dsz) calls ->
  exists p p1 outs q q1,
    mapie_new cx (mac_poly_ov false dsz) key = Some p /\
    mac_run cx (mac_poly_ov false dsz) p calls = Some (p1, outs) /\
    mapie_new cx (mac_poly dsz) key = Some q /\ mac_run cx (mac_poly dsz) q calls = Some (q1, outs).
Proof. exact no_overflow. Qed.
Print Assumptions C24_no_overflow.
(** The checks are not idle: the same limb code with an unclamped r overflows. *)
Example C24_case : poly_process false host (repeat 0xffffffff 8) 1 1 (repeat 0xffffffff 5) (repeat 255 16) = None /\
  Forall (mcall_ok bytes 16) [MUpdate (repeat 255 40); MDigest (repeat 0 16) 16; MUpdate [1]; MDigestC (Dynamic []) 4].
Proof. split; [vm_compute; reflexivity|]. unfold mcall_ok, chunk, bytes, is_byte. repeat constructor; cbn; lia. Qed.

(** *** C18, C19, C20, C46 (Poly1305) *)
Theorem C18_poly : forall cx dsz key before calls,
  (dsz <= 16)%nat -> bytes key ->
  Forall (mcall_ok bytes dsz) before -> Forall mis_digest calls -> Forall (mcall_ok bytes dsz) calls ->
  let M := mac_poly dsz in
  exists p p1 outs D p2, mapie_new cx M key = Some p /\ mac_run cx M p before = Some (p1, outs) /\
    length D = dsz /\ mac_run cx M p1 calls = Some (p2, map (mprefix D) calls).
Proof. exact (fun cx dsz k b c Hd => mdigests_after (poly_on true cx dsz Hd) k b c). Qed.
Print Assumptions C18_poly.
Theorem C19_poly : forall cx dsz key before key' later,
  (dsz <= 16)%nat -> bytes key -> bytes key' ->
  Forall (mcall_ok bytes dsz) before -> Forall (mcall_ok bytes dsz) later ->
  let M := mac_poly dsz in
  exists p p1 outs0 p2 p3 p4 p5 outs,
    mapie_new cx M key = Some p /\ mac_run cx M p before = Some (p1, outs0) /\
    mapie_initialize cx M p1 key' = Some p2 /\ mac_run cx M p2 later = Some (p3, outs) /\
    mapie_new cx M key' = Some p4 /\ mac_run cx M p4 later = Some (p5, outs).
Proof. exact (fun cx dsz k b k' l Hd => mrun_init (poly_on true cx dsz Hd) k b k' l). Qed.
Print Assumptions C19_poly.
Theorem C20_poly : forall cx dsz key calls,
  (dsz <= 16)%nat -> bytes key -> Forall (mcall_ok bytes dsz) calls ->
  let M := mac_poly dsz in
  exists p r, mapie_new cx M key = Some p /\ mac_run cx M p calls = Some r.
Proof.
  intros cx dsz k c Hd Hk Hcs M.
  destruct (mrun_total (poly_on true cx dsz Hd) k c Hk Hcs) as (p & r & E & R & _). exists p, r. exact (conj E R).
Qed.
Print Assumptions C20_poly.
Theorem C46_poly : forall cx dsz key calls,
  (dsz <= 16)%nat -> bytes key -> Forall (mcall_ok bytes dsz) calls -> morderly false calls = true ->
  let M := mac_poly dsz in
  exists p p', mapie_new cx M key = Some p /\
    mac_run cx M p calls = Some (p', mexpected (fun k m => firstn dsz (poly1305_on (cx_big cx) (pad_to 32 k) m)) key [] calls).
Proof. exact (fun cx dsz k c Hd => morderly_new (poly_on true cx dsz Hd) k c). Qed.
Print Assumptions C46_poly.
Example C18_C46_poly_case : Forall (mcall_ok bytes 16)
    [MUpdate [1]; MDigest (repeat 0 64) 64; MDigest [] 0; MInit [4]; MUpdate [3]; MDigestC (Dynamic []) 9] /\
  morderly false [MUpdate [1]; MDigest (repeat 0 64) 64; MDigest [] 0; MInit [4]; MUpdate [3]; MDigestC (Dynamic []) 9] = true.
Proof. split; [|reflexivity]. unfold mcall_ok, chunk, bytes, is_byte. repeat constructor; cbn; lia. Qed.

(** *** C21 (Poly1305): a digest_size option above 16 is accepted; up to 20 the tag is followed by a word of
    the internal accumulator, above 20 [digest] reads outside the object's accumulator. *)
Theorem C21_poly_refuted : exists key msg,
  bytes key /\ chunk msg /\
  mac_free_digest_new host (mac_poly 20) key msg 20 = Some (poly1305 (pad_to 32 key) msg ++ [1; 0; 0; 0]) /\
  mac_free_digest_new host (mac_poly 24) key msg 24 = None.
Proof.
  exists (repeat 255 32), (repeat 255 32). unfold chunk, bytes, is_byte.
  split; [|split; [split|]].
  - apply Forall_forall. intros x Hx. apply repeat_spec in Hx. subst. lia.
  - apply Forall_forall. intros x Hx. apply repeat_spec in Hx. subst. lia.
  - vm_compute. reflexivity.
  - vm_compute. split; reflexivity.
Qed.
Print Assumptions C21_poly_refuted.
