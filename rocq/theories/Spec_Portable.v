(** Call histories in which every call has its own circumstances: evaluated at compile time or at run time, on a host of
    either byte order, and with its own backend. *)
From Verif Require Import Base Model_Memory Model_Cipher Spec_Cipher Model_Aead Spec_Aead.

(** Each call comes with the circumstances [E] it is evaluated in; the object goes through all of them. *)
Fixpoint run_in {E O C R} (step : E -> O -> C -> option (O * R)) (o : O) (calls : list (E * C)) : option (O * list R) :=
  match calls with
  | [] => Some (o, [])
  | (e, c) :: calls =>
      '(o, r) <- step e o c ;;
      '(o, rs) <- run_in step o calls ;;
      Some (o, r :: rs)
  end.

(** The circumstances of a cipher call: its backend and its context. *)
Definition cipher_in (e : backend * ctx) : cc_obj -> cipher_call -> option (cc_obj * cipher_out) := cipher_step (fst e) (snd e).
(** The number of blocks that the backend handles at a time changes only where all key stream bytes that the former
    backend has made are used up: [q] bytes have been encrypted since the backend with [r] blocks was put to use. *)
Fixpoint smooth (r q : nat) (calls : list ((backend * ctx) * cipher_call)) : Prop :=
  match calls with
  | [] => True
  | ((B, _), CInit _ _) :: calls => smooth (bk_ratio B) 0 calls
  | ((B, _), c) :: calls =>
      (bk_ratio B = r /\ smooth r (q + ctext c) calls) \/
      ((q mod (64 * r) = 0)%nat /\ smooth (bk_ratio B) (ctext c) calls)
  end.

(** The same for ChaCha20-Poly1305; [initialize] uses the first 64 bytes of the key stream, and only encrypt and decrypt
    use more. *)
Definition aead_in (dsz : nat) (e : backend * ctx) : aead_apie -> aead_call -> option (aead_apie * aead_out) := aead_step (fst e) (snd e) dsz.
Fixpoint asmooth (r q : nat) (calls : list ((backend * ctx) * aead_call)) : Prop :=
  match calls with
  | [] => True
  | ((B, _), AInit _ _) :: calls => asmooth (bk_ratio B) 64 calls
  | (_, AAad _) :: calls | (_, ADigest _ _) :: calls | (_, ADigestC _ _) :: calls | (_, AVerify _ _) :: calls => asmooth r q calls
  | ((B, _), c) :: calls =>
      (bk_ratio B = r /\ asmooth r (q + length (atext_in c)) calls) \/
      ((q mod (64 * r) = 0)%nat /\ asmooth (bk_ratio B) (length (atext_in c)) calls)
  end.
