(** What the cipher API promises, in terms of call histories, and what it expects from a backend. *)
From Verif Require Import Base Spec_Bytes Spec_ChaCha Spec_Range Model_Memory Model_Container Model_Cipher.
Local Open Scope N_scope.

(** *** Backends: byte [j] of the key stream that starts at a 16-word input state *)
Definition at_ctr (st : list N) (i : N) : list N := upd st 12 ((nth 12 st 0 + i) mod 2 ^ 32).
Definition st_byte (st : list N) (j : nat) : N := nth (j mod 64) (core_block (at_ctr st (N.of_nat (j / 64)))) 0.
Definition stream_bytes (f : nat -> N) (p n : nat) : list N := map f (seq p n).

(** A backend that handles [bk_ratio] RFC 8439 blocks at a time. *)
Record backend_ok (cx : ctx) (B : backend) : Prop := {
  bo_ratio : (1 <= bk_ratio B <= 8)%nat;
  bo_transform : forall n st m d s, length st = 16%nat -> words 32 st -> bytes m ->
    (d + bk_block B * n <= length m)%nat -> (s + bk_block B * n <= length m)%nat -> apart d s (bk_block B * n) ->
    bk_transform B cx n st m d s
    = Some (put m d (xor_with (st_byte st) 0 (slice m s (bk_block B * n))), (bk_ratio B * n)%nat);
  bo_generate : forall st buf, length st = 16%nat -> words 32 st -> bytes buf -> (bk_block B <= length buf)%nat ->
    bk_generate B cx 1%nat st buf = Some (put buf 0 (stream_bytes (st_byte st) 0 (bk_block B)), bk_ratio B)
}.

(** *** Calls a correct program may make: ranges inside the memory, destination equal to or apart from the source,
    a fixed-size destination container at least as large as the text. *)
Definition ccall_ok (c : cipher_call) : Prop :=
  match c with
  | CInit k v => bytes k /\ bytes v
  | CCrypt _ m s n d => bytes m /\ (s + n <= length m)%nat /\ (d + n <= length m)%nat /\ apart d s n
  | CCryptC _ t c => bytes t /\ bytes (cdata c) /\
      match c with Dynamic _ => True | Static l => (length t <= length l)%nat end
  | CCryptSame _ c => bytes (cdata c)
  end.

(** The key stream selected by the arguments of [initialize]: 32 key bytes, a 4-byte little-endian block counter and
    a 12-byte nonce (other lengths are cut or zero-padded). *)
Definition iv_counter (iv : list N) : N := le_dec (firstn 4 (pad_to 16 iv)).
Definition iv_nonce (iv : list N) : list N := skipn 4 (pad_to 16 iv).
Definition api_byte (key iv : list N) (j : nat) : N := chacha20_byte (pad_to 32 key) (iv_counter iv) (iv_nonce iv) j.

(** Every call xors the next piece of the key stream; nothing outside the destination range changes. *)
Definition cout (f : nat -> N) (pos : nat) (c : cipher_call) : cipher_out :=
  match c with
  | CInit _ _ => CNone
  | CCrypt _ m s n d => CMem (put m d (xor_with f pos (slice m s n))) n
  | CCryptC _ t (Dynamic _) => CCon (Dynamic (xor_with f pos t)) (length t)
  | CCryptC _ t (Static l) => CCon (Static (xor_with f pos t ++ skipn (length t) l)) (length t)
  | CCryptSame _ c => CCon (cset c (xor_with f pos (cdata c))) (length (cdata c))
  end.
Definition ctext (c : cipher_call) : nat :=
  match c with
  | CInit _ _ => 0%nat
  | CCrypt _ _ _ n _ => n
  | CCryptC _ t _ => length t
  | CCryptSame _ c => length (cdata c)
  end.
Fixpoint cexpected (key iv : list N) (pos : nat) (calls : list cipher_call) : list cipher_out :=
  match calls with
  | [] => []
  | CInit k v :: calls => CNone :: cexpected k v 0 calls
  | c :: calls => cout (api_byte key iv) pos c :: cexpected key iv (pos + ctext c) calls
  end.

(** Processing the pieces [ts] of a text one after the other, each into a new container. *)
Fixpoint crypt_pieces (dir : direction) (B : backend) (cx : ctx) (o : cc_obj) (ts : list (list N))
  : option (cc_obj * list (list N)) :=
  match ts with
  | [] => Some (o, [])
  | t :: ts =>
      '(o, r) <- capie_crypt_new dir B cx o t ;;
      '(o, rs) <- crypt_pieces dir B cx o ts ;;
      Some (o, r :: rs)
  end.
