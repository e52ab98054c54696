(** What an observer of timing may learn. *)
From Verif Require Import Base Model_Container Model_Cipher Model_Poly Model_Aead Model_Leak Model_X86 Model_ChaChaAsm Spec_ChaChaAsm. (* types of objects, calls and events only *)
Local Open Scope N_scope.

(** The verdict of verify is not a secret. *)
Definition hide (e : leak) : leak := match e with Verdict _ => Verdict true | e => e end.
(** The same accesses and branches, in the same order, but for the verdict. *)
Definition same_trace (t1 t2 : list leak) : Prop := map hide t1 = map hide t2.

(** Forgetting the bytes, not how many there are. *)
Definition blank (l : list N) : list N := repeat 0 (length l).
Definition blank_c (c : container) : container := match c with Dynamic l => Dynamic (blank l) | Static l => Static (blank l) end.
(** A call without the bytes: which function, with how many bytes where. *)
Definition shape (c : aead_call) : aead_call :=
  match c with
  | AInit k v => AInit (blank k) (blank v)
  | AAad d => AAad (blank d)
  | ACrypt dir m src size dst => ACrypt dir (blank m) src size dst
  | ACryptC dir t c => ACryptC dir (blank t) (blank_c c)
  | ACryptSame dir c => ACryptSame dir (blank_c c)
  | ADigest d s => ADigest (blank d) s
  | ADigestC c s => ADigestC (blank_c c) s
  | AVerify j m => AVerify (blank j) (blank m)
  end.
(** Objects that differ in key, key stream, hash state and buffered bytes only. *)
Definition cc_shape (o : cc_obj) : cc_obj := {| cc_state := blank (cc_state o); cc_buffer := blank (cc_buffer o); cc_size := cc_size o |}.
Definition poly_shape (o : poly_obj) : poly_obj :=
  {| po_r := blank (po_r o); po_s := blank (po_s o); po_acc := blank (po_acc o); po_buffer := blank (po_buffer o); po_size := po_size o |}.
Definition aead_shape (p : aead_apie) : aead_apie :=
  {| ap_impl := {| ao_cipher := cc_shape (ao_cipher (ap_impl p)); ao_mac := poly_shape (ao_mac (ap_impl p));
                   ao_aad := ao_aad (ap_impl p); ao_edd := ao_edd (ap_impl p) |};
     ap_aad_done := ap_aad_done p; ap_done := ap_done p |}.

(** The three backends of ChaCha: portable C++, and the assembly for SSSE3 and AVX2 (whatever the registers hold). *)
Definition shipped (B : lbackend) : Prop :=
  B = lbk_sw \/ exists regs temp base, junk_ok regs temp base /\ (B = lbk_asm (bk_ssse_3 regs temp base) \/ B = lbk_asm (bk_avx_2 regs temp base)).
