(** Property C51.  Instrumented code: [Model_Leak] (each branch and each access leaves an event).
    Specification: [Spec_Leak] ([same_trace], and [shape]: a call without the bytes). *)
From Verif Require Import Base BaseLemmas Spec_Bytes Model_Memory Model_Dispatch Model_Container Model_Cipher Spec_Cipher Model_Aead Spec_Aead
  Model_X86 Model_ChaChaAsm Spec_ChaChaAsm Model_Leak Spec_Leak Proof_Leak Proof_Leak2 Proof_Leak3.
Local Open Scope N_scope.

(** The instrumented code is the code: same results, undefined in the same cases. *)
Theorem C51_same_model : forall B cx dsz p calls, shipped B ->
  erase (l_aead_run B cx dsz p calls) = aead_run (lb_bk B) cx dsz p calls.
Proof. intros B cx dsz p calls HB. apply e_aead_run. apply shipped_ok. exact HB. Qed.
Print Assumptions C51_same_model.
Theorem C51_same_match : forall cx pa pb p q a b,
  (forall n, erase (l_match cx pa pb p q a b n) = mem_match cx pa pb a b n) /\
  erase (l_match_c cx pa pb p q a b) = mem_match_c cx pa pb a b.
Proof. intros. split; [intros; apply e_match|apply e_match_c]. Qed.
Print Assumptions C51_same_match.

(** The comparison: equal lengths, equal trace, wherever the first difference is. *)
Theorem C51_memory_match : forall cx pa pb p q a b a' b',
  (forall n t r t' r', l_match cx pa pb p q a b n = Some (t, r) -> l_match cx pa pb p q a' b' n = Some (t', r') -> t = t') /\
  (length a = length a' -> length b = length b' ->
   forall t r t' r', l_match_c cx pa pb p q a b = Some (t, r) -> l_match_c cx pa pb p q a' b' = Some (t', r') -> t = t').
Proof.
  intros. split.
  - intros n t r t' r' E E'. exact (match_ct _ _ _ _ _ _ _ _ _ _ _ _ _ _ E E').
  - intros La Lb t r t' r' E E'. exact (match_c_ct _ _ _ _ _ _ _ _ _ _ _ _ _ La Lb E E').
Qed.
Print Assumptions C51_memory_match.

(** Valid histories: both runs are defined and look the same, whatever keys, nonces, texts, tags and old contents are. *)
Theorem C51_aead : forall cx B dsz key1 iv1 calls1 key2 iv2 calls2,
  shipped B -> (dsz <= 16)%nat ->
  bytes key1 -> bytes iv1 -> bytes key2 -> bytes iv2 -> Forall (acall_ok dsz) calls1 -> Forall (acall_ok dsz) calls2 ->
  length key1 = length key2 -> length iv1 = length iv2 -> map shape calls1 = map shape calls2 ->
  exists t1 p1 outs1 t2 p2 outs2,
    l_aead_run B cx dsz aead_fresh (AInit key1 iv1 :: calls1) = Some (t1, (p1, outs1)) /\
    l_aead_run B cx dsz aead_fresh (AInit key2 iv2 :: calls2) = Some (t2, (p2, outs2)) /\ same_trace t1 t2.
Proof. exact aead_ct_total. Qed.
Print Assumptions C51_aead.
(** Any two objects and histories of the same shape, on any host, in any order of calls. *)
Theorem C51_aead_any : forall cx B dsz p1 p2 calls1 calls2 t1 r1 t2 r2,
  shipped B -> aead_shape p1 = aead_shape p2 -> map shape calls1 = map shape calls2 ->
  l_aead_run B cx dsz p1 calls1 = Some (t1, r1) -> l_aead_run B cx dsz p2 calls2 = Some (t2, r2) -> same_trace t1 t2.
Proof. exact aead_ct. Qed.
Print Assumptions C51_aead_any.

(** A case: other key, nonce, data, text and tag, other output. *)
Definition le : ctx := {| cx_big := false; cx_ce := false |}.
Definition hist (k : list N) (n aad t mac : list N) : list aead_call :=
  [AInit k n; AAad aad; ACryptC Encrypt t (Dynamic []); AVerify (repeat 9 16) mac].
Example C51_case :
  let k1 := map N.of_nat (seq 0 32) in let k2 := map N.of_nat (seq 90 32) in
  let h1 := hist k1 (repeat 1 12) [1; 2; 3] [4; 5] (repeat 0 16) in
  let h2 := hist k2 (repeat 3 12) [7; 7; 7] [0; 255] (repeat 255 16) in
  map shape h1 = map shape h2 /\ h1 <> h2 /\
  match l_aead_run lbk_sw le 16 aead_fresh h1, l_aead_run lbk_sw le 16 aead_fresh h2 with
  | Some (t1, (_, o1)), Some (t2, (_, o2)) => same_trace t1 t2 /\ (1000 <? length t1)%nat = true /\ o1 <> o2
  | _, _ => False
  end.
Proof.
  cbv zeta. split; [vm_compute; reflexivity|]. split; [vm_compute; intros H; discriminate H|].
  vm_compute. split; [reflexivity|]. split; [reflexivity|]. intros H; discriminate H.
Qed.
(** The other comparison in memory.h, which verify does not use, is not of this kind: its compile-time loop stops early
    (at run time it is std::memcmp). *)
Example C51_memory_equal_differs :
  let p := (Arg 0, 0%nat) in let q := (Arg 1, 0%nat) in
  exists t t' r r', l_equal_loop le 1 1 p q [1; 2] [1; 2] 0 2 = Some (t, r) /\ l_equal_loop le 1 1 p q [3; 2] [1; 2] 0 2 = Some (t', r') /\ t <> t'.
Proof.
  cbv zeta. eexists _, _, _, _. split; [vm_compute; reflexivity|]. split; [vm_compute; reflexivity|]. intros H; discriminate H.
Qed.
