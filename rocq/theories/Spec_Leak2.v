(** Calls and objects without the bytes, for the hashes, the MACs, the cipher and the key derivation functions. *)
From Verif Require Import Base Spec_Sha Model_Container Model_Sha Model_Mac Model_Hmac Model_Poly Model_Cipher Model_Kdf Model_X86 Model_Leak Model_Leak2 Spec_Leak. (* types of objects and calls only *)
Local Open Scope N_scope.

Definition hash_shape (c : hash_call) : hash_call :=
  match c with
  | HInit => HInit
  | HUpdate m => HUpdate (blank m)
  | HDigest d s => HDigest (blank d) s
  | HDigestC c s => HDigestC (blank_c c) s
  end.
Definition mac_shape (c : mac_call) : mac_call :=
  match c with
  | MInit k => MInit (blank k)
  | MUpdate m => MUpdate (blank m)
  | MDigest d s => MDigest (blank d) s
  | MDigestC c s => MDigestC (blank_c c) s
  end.
Definition cipher_shape (c : cipher_call) : cipher_call :=
  match c with
  | CInit k v => CInit (blank k) (blank v)
  | CCrypt dir m src size dst => CCrypt dir (blank m) src size dst
  | CCryptC dir t c => CCryptC dir (blank t) (blank_c c)
  | CCryptSame dir c => CCryptSame dir (blank_c c)
  end.
(** Where keys, salts and info lie in the caller's memory, and the number of iterations, are public; what is there is not. *)
Definition kdf_shape {A} (c : list N * kdf_call A) : list N * kdf_call A :=
  (blank (fst c), match snd c with
                  | KInit a => KInit a
                  | KDerive k s => KDerive (blank k) s
                  | KDeriveC c s => KDeriveC (blank_c c) s
                  end).
(** Hash objects that differ in state, byte count and buffered bytes only. *)
Definition hapie_shape (p : hash_apie) : hash_apie :=
  {| hp_impl := {| ho_state := blank (ho_state (hp_impl p)); ho_count := []; ho_buffer := blank (ho_buffer (hp_impl p)); ho_size := ho_size (hp_impl p) |};
     hp_finalized := hp_finalized p |}.

(** The seven hashes, portable or with the SHA instructions (whatever the registers hold), and what is built on them. *)
Definition shipped_hash (a : sha) (dsz : nat) (H : lhash) : Prop :=
  H = lh_sw a dsz \/ exists j, (forall n st src, length (j n st src) = 16%nat) /\ H = lh_ni a j dsz.
