(** What the library leaves behind: destructors of the composite objects, and the local variables of the functions
    that handle secrets, as they are when the function returns ("frame").  Nothing in these functions writes to a
    local after its last use, so what it holds at the return stays in the dead stack memory.

    The frame versions [..._f] are the functions of Model_Cipher, Model_Aead and Model_Kdf with the locals of interest
    added to the result; Proof_Erase shows that they are otherwise the same functions. *)
From Verif Require Import Base Model_Memory Model_Update Model_Container Model_Sha Model_Mac Model_Hmac Model_Poly Model_Cipher
  Model_Aead Model_Kdf.
Local Open Scope N_scope.

(** chacha_20_poly_1305.h:62: the defaulted destructor destroys m_mac and m_cipher; the two byte counts stay. *)
Definition aead_destroy (o : aead_obj) : option aead_obj :=
  h <- poly_destroy (ao_mac o) ;;
  c <- cc_destroy (ao_cipher o) ;;
  Some {| ao_cipher := c; ao_mac := h; ao_aad := ao_aad o; ao_edd := ao_edd o |}.

(** hkdf.h:57-63 and pbkdf_2.h:59-65, then the HMAC member (hmac.h:63-66). *)
Definition hk_destroy_hmac (al : hash_alg) (dsz : nat) (o : hk_obj (mac_hmac al dsz)) : option (hk_obj (mac_hmac al dsz)) :=
  o <- hk_destroy (mac_hmac al dsz) o ;;
  h <- hmac_destroy (hk_mac o) ;;
  Some (Build_hk_obj (mac_hmac al dsz) h (hk_info o) (hk_counter o) (hk_prk o) (hk_buffer o) (hk_size o)).
Definition pb_destroy_hmac (al : hash_alg) (dsz : nat) (o : pb_obj (mac_hmac al dsz)) : option (pb_obj (mac_hmac al dsz)) :=
  o <- pb_destroy (mac_hmac al dsz) o ;;
  h <- hmac_destroy (pb_mac o) ;;
  Some (Build_pb_obj (mac_hmac al dsz) h (pb_ikm o) (pb_salt o) (pb_iterations o) (pb_counter o) (pb_buffer o) (pb_size o)).

(** chacha_impl_sw.h:56-138 [stream] with its locals state_base and state_eval at the return; [ev] is state_eval
    before the loop (indeterminate).  In the transform operation state_eval is finally xored with the source word by
    word (lines 113-119); here it is given before that. *)
Fixpoint cc_blocks_f (cx : ctx) (out : list N -> list N -> nat -> nat -> option (list N))
  (n : nat) (base ev m : list N) (dst src : nat) : option (list N * (list N * list N)) :=
  match n with
  | O => Some (m, (base, ev))
  | S n =>
      ev <- cc_rounds 10 base ;;
      ev <- cc_add ev base 0 16 ;;
      m <- out ev m dst src ;;
      c <- rd base 12 ;; base <- wr base 12 (wadd 32 c 1) ;;
      cc_blocks_f cx out n base ev m (dst + 64) (src + 64)
  end.
Definition cc_transform_f (cx : ctx) (n : nat) (st ev m : list N) (dst src : nat)
  : option (list N * nat * (list N * list N)) :=
  base <- rds st 0 16 ;;
  '(m, f) <- cc_blocks_f cx (fun ev m d s => cc_out_transform cx ev m d s 0 16) n base ev m dst src ;;
  Some (m, n, f).
Definition cc_generate_f (cx : ctx) (n : nat) (st ev buf : list N) : option (list N * nat * (list N * list N)) :=
  base <- rds st 0 16 ;;
  '(buf, f) <- cc_blocks_f cx (fun ev m d _ => cc_out_generate cx ev m d 0 16) n base ev buf 0 0 ;;
  Some (buf, n, f).

(** chacha_20_poly_1305.h:78-122 [initialize] with its local init_mac_key. *)
Definition aead_initialize_f (B : backend) (cx : ctx) (o : aead_obj) (key iv : list N) : option (aead_obj * list N) :=
  let init_cipher_iv := repeat 0 16 in
  let init_mac_key := repeat 0 64 in
  init_cipher_iv <- at_off init_cipher_iv 4 (fun p => mem_init cx 1 1 p iv) ;;
  c <- cc_initialize cx (ao_cipher o) key init_cipher_iv ;;
  '(c, init_mac_key, _) <- cc_encrypt B cx c init_mac_key 0 64 0 ;;
  h <- poly_initialize true cx (ao_mac o) init_mac_key ;;
  Some ({| ao_cipher := c; ao_mac := h; ao_aad := 0; ao_edd := 0 |}, init_mac_key).

(** pbkdf_2.h:79-145 [expand] with its local buffer_1. *)
Definition pb_expand_f (cx : ctx) (M : mac_alg) (env : list N) (h : ma_obj M) (vi vs : view) (iterations counter : N)
  (dst : list N) (off : nat) : option (ma_obj M * list N * list N) :=
  let es := ma_digest_size M in
  bc <- mem_stor_be cx 4 1 (repeat 0 4) 0 counter ;;
  ikm <- view_read env vi ;;
  salt <- view_read env vs ;;
  '(h, buffer_0) <- mac_once cx M h ikm [salt; bc] (repeat 0 es) 0 ;;
  buffer_1 <- mem_copy cx 1 1 (repeat 0 es) buffer_0 es ;;
  '(h, buffer_1) <- pb_loop cx M env vi h buffer_0 buffer_1 (N.to_nat iterations - 1) ;;
  dst <- at_off dst off (fun p => mem_copy cx 1 1 p buffer_1 es) ;;
  Some (h, dst, buffer_1).
