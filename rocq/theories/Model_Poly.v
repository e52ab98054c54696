(** Model of src/milo/primitive/detail/mac/poly/poly_1305.h and poly_1305_impl_sw.h.

    Unsigned arithmetic that could exceed its type is written with an overflow policy: with [ov = true] it
    wraps, as in C++; with [ov = false] a value that does not fit is an error ([None]).  The program is the
    instance [true]; the instance [false] serves to state that nothing ever wraps.  Conversions the code uses
    on purpose to split a word ([uint32_t(t_0)] next to [t_0 >> 32]) are [trunc] in both. *)
From Verif Require Import Base Model_Memory Model_Update Model_Sha Model_Mac Model_Hmac.
Local Open Scope N_scope.

Definition fits (ov : bool) (w x : N) : option N :=
  if ov then Some (x mod 2 ^ w) else if x <? 2 ^ w then Some x else None.
Definition uadd ov w x y : option N := fits ov w (x + y).
Definition umul ov w x y : option N := fits ov w (x * y).

(** uint64_t acc[5] *)
Definition limbs : Type := N * N * N * N * N.

(** [k0 * x0 + k1 * x1 + k2 * x2 + k3 * x3 + k4 * x4] in uint64_t (poly_1305_impl_sw.h:72-86). *)
Definition dot5 ov (k0 x0 k1 x1 k2 x2 k3 x3 k4 x4 : N) : option N :=
  p0 <- umul ov 64 k0 x0 ;; p1 <- umul ov 64 k1 x1 ;; s <- uadd ov 64 p0 p1 ;;
  p2 <- umul ov 64 k2 x2 ;; s <- uadd ov 64 s p2 ;;
  p3 <- umul ov 64 k3 x3 ;; s <- uadd ov 64 s p3 ;;
  p4 <- umul ov 64 k4 x4 ;; uadd ov 64 s p4.

(** poly_1305_impl_sw.h:60-69: the block is added to the accumulator. *)
Definition poly_add_block ov (t_0 t_1 t_2 t_3 add : N) (acc : limbs) : option limbs :=
  let '(a0, a1, a2, a3, a4) := acc in
  t_0 <- uadd ov 64 t_0 a0 ;;
  x <- uadd ov 64 a1 (N.shiftr t_0 32) ;; t_1 <- uadd ov 64 t_1 x ;;
  x <- uadd ov 64 a2 (N.shiftr t_1 32) ;; t_2 <- uadd ov 64 t_2 x ;;
  x <- uadd ov 64 a3 (N.shiftr t_2 32) ;; t_3 <- uadd ov 64 t_3 x ;;
  top <- fits ov 32 (N.shiftr t_3 32) ;;
  top <- uadd ov 32 top add ;;
  a4 <- uadd ov 64 a4 top ;;
  Some (trunc 32 t_0, trunc 32 t_1, trunc 32 t_2, trunc 32 t_3, a4).

(** poly_1305_impl_sw.h:71-100: multiplication by r and partial reduction. *)
Definition poly_mul ov (key : list N) (acc : limbs) : option limbs :=
  let '(a0, a1, a2, a3, a4) := acc in
  k0 <- rd key 0 ;; k1 <- rd key 1 ;; k2 <- rd key 2 ;; k3 <- rd key 3 ;;
  k4 <- rd key 4 ;; k5 <- rd key 5 ;; k6 <- rd key 6 ;; k7 <- rd key 7 ;;
  t_0 <- dot5 ov k0 a0 k7 a1 k6 a2 k5 a3 k4 a4 ;;
  t_1 <- dot5 ov k1 a0 k0 a1 k7 a2 k6 a3 k5 a4 ;;
  t_2 <- dot5 ov k2 a0 k1 a1 k0 a2 k7 a3 k6 a4 ;;
  t_3 <- dot5 ov k3 a0 k2 a1 k1 a2 k0 a3 k7 a4 ;;
  x <- umul ov 64 (N.land k0 3) a4 ;;
  c <- uadd ov 64 x (N.shiftr t_3 32) ;;
  y <- umul ov 64 (N.shiftr c 2) 5 ;;
  b0 <- uadd ov 64 (trunc 32 t_0) y ;;
  b1 <- uadd ov 64 (trunc 32 t_1) (N.shiftr b0 32) ;; b1 <- uadd ov 64 b1 (N.shiftr t_0 32) ;;
  b2 <- uadd ov 64 (trunc 32 t_2) (N.shiftr b1 32) ;; b2 <- uadd ov 64 b2 (N.shiftr t_1 32) ;;
  b3 <- uadd ov 64 (trunc 32 t_3) (N.shiftr b2 32) ;; b3 <- uadd ov 64 b3 (N.shiftr t_2 32) ;;
  b4 <- uadd ov 64 (N.shiftr b3 32) (N.land c 3) ;;
  b4 <- fits ov 32 b4 ;;
  Some (trunc 32 b0, trunc 32 b1, trunc 32 b2, trunc 32 b3, b4).

(** poly_1305_impl_sw.h:41-101: the loop. *)
Fixpoint poly_blocks ov (cx : ctx) (key : list N) (add : N) (n : nat) (acc : limbs) (src : list N)
  : option limbs :=
  match n with
  | O => Some acc
  | S n =>
      t_0 <- mem_load_le cx 4 1 src 0 ;; t_1 <- mem_load_le cx 4 1 src 1 ;;
      t_2 <- mem_load_le cx 4 1 src 2 ;; t_3 <- mem_load_le cx 4 1 src 3 ;;
      acc <- poly_add_block ov t_0 t_1 t_2 t_3 add acc ;;
      acc <- poly_mul ov key acc ;;
      poly_blocks ov cx key add n acc (skipn 16 src)
  end.

(** poly_1305_impl_sw.h:25-109 [process]: [acc] is the array a_acc_ptr. *)
Definition poly_process ov (cx : ctx) (key : list N) (add : N) (n : nat) (acc src : list N) : option (list N) :=
  a0 <- rd acc 0 ;; a1 <- rd acc 1 ;; a2 <- rd acc 2 ;; a3 <- rd acc 3 ;; a4 <- rd acc 4 ;;
  '(a0, a1, a2, a3, a4) <- poly_blocks ov cx key add n (a0, a1, a2, a3, a4) src ;;
  a0 <- fits ov 32 a0 ;; a1 <- fits ov 32 a1 ;; a2 <- fits ov 32 a2 ;; a3 <- fits ov 32 a3 ;;
  a4 <- fits ov 32 a4 ;;
  acc <- wr acc 0 a0 ;; acc <- wr acc 1 a1 ;; acc <- wr acc 2 a2 ;; acc <- wr acc 3 a3 ;; wr acc 4 a4.

(** Members m_key_r, m_key_s, m_acc, m_buffer, m_buffer_size (poly_1305.h:65-73). *)
Record poly_obj := {
  po_r : list N; po_s : list N; po_acc : list N; po_buffer : list N; po_size : nat }.

Definition poly_new : poly_obj :=
  {| po_r := repeat 0 8; po_s := repeat 0 4; po_acc := repeat 0 5; po_buffer := repeat 0 16; po_size := 0 |}.

(** poly_1305.h:105-134 [initialize]; the key is loaded in host byte order (memory_init, not memory_init_le). *)
Definition poly_initialize ov (cx : ctx) (o : poly_obj) (key : list N) : option poly_obj :=
  r <- mem_init cx 4 1 (po_r o) key ;;
  x <- rd r 0 ;; r <- wr r 0 (N.land x 0x0fffffff) ;;
  x <- rd r 1 ;; r <- wr r 1 (N.land x 0x0ffffffc) ;;
  x <- rd r 2 ;; r <- wr r 2 (N.land x 0x0ffffffc) ;;
  x <- rd r 3 ;; r <- wr r 3 (N.land x 0x0ffffffc) ;;
  x <- rd r 4 ;; s <- wr (po_s o) 0 x ;;
  x <- rd r 5 ;; s <- wr s 1 x ;;
  x <- rd r 6 ;; s <- wr s 2 x ;;
  x <- rd r 7 ;; s <- wr s 3 x ;;
  x <- rd r 0 ;; x <- umul ov 32 (N.shiftr x 2) 5 ;; r <- wr r 4 x ;;
  x <- rd r 1 ;; x <- umul ov 32 (N.shiftr x 2) 5 ;; r <- wr r 5 x ;;
  x <- rd r 2 ;; x <- umul ov 32 (N.shiftr x 2) 5 ;; r <- wr r 6 x ;;
  x <- rd r 3 ;; x <- umul ov 32 (N.shiftr x 2) 5 ;; r <- wr r 7 x ;;
  a <- wr (po_acc o) 0 0 ;; a <- wr a 1 0 ;; a <- wr a 2 0 ;; a <- wr a 3 0 ;; a <- wr a 4 0 ;;
  Some {| po_r := r; po_s := s; po_acc := a; po_buffer := po_buffer o; po_size := 0 |}.

(** poly_1305.h:140-156 [update]. *)
Definition poly_update ov (cx : ctx) (o : poly_obj) (msg : list N) : option poly_obj :=
  '(b, n, a) <- update_block_soak 16 (poly_process ov cx (po_r o) 1) (po_buffer o) (po_size o) msg (po_acc o) ;;
  Some {| po_r := po_r o; po_s := po_s o; po_acc := a; po_buffer := b; po_size := n |}.

(** poly_1305.h:162-179: the last, incomplete block. *)
Definition poly_last ov (cx : ctx) (o : poly_obj) : option (list N * list N) :=
  if (0 <? po_size o)%nat then
    b <- wr (po_buffer o) (po_size o) 1 ;;
    b <- at_off b (po_size o + 1) (fun p => mem_set cx 1 p 0 (16 - po_size o - 1)) ;;
    a <- poly_process ov cx (po_r o) 0 1 (po_acc o) b ;;
    Some (b, a)
  else Some (po_buffer o, po_acc o).

(** poly_1305.h:181-207: reduction modulo 2^130 - 5 and addition of s. *)
Definition poly_finish ov (s acc : list N) : option (list N) :=
  a0 <- rd acc 0 ;; a1 <- rd acc 1 ;; a2 <- rd acc 2 ;; a3 <- rd acc 3 ;; a4 <- rd acc 4 ;;
  t_0 <- uadd ov 64 a0 5 ;;
  t_1 <- uadd ov 64 a1 (N.shiftr t_0 32) ;;
  t_2 <- uadd ov 64 a2 (N.shiftr t_1 32) ;;
  t_3 <- uadd ov 64 a3 (N.shiftr t_2 32) ;;
  x <- uadd ov 64 a4 (N.shiftr t_3 32) ;;
  let mask := wneg 64 (N.shiftr x 2) in
  let mask_neg := wnot 64 mask in
  let t_0 := N.lor (N.land t_0 mask) (N.land a0 mask_neg) in
  let t_1 := N.lor (N.land t_1 mask) (N.land a1 mask_neg) in
  let t_2 := N.lor (N.land t_2 mask) (N.land a2 mask_neg) in
  let t_3 := N.lor (N.land t_3 mask) (N.land a3 mask_neg) in
  let t_0 := N.land t_0 0xffffffff in
  let t_1 := N.land t_1 0xffffffff in
  let t_2 := N.land t_2 0xffffffff in
  let t_3 := N.land t_3 0xffffffff in
  s0 <- rd s 0 ;; s1 <- rd s 1 ;; s2 <- rd s 2 ;; s3 <- rd s 3 ;;
  t_0 <- uadd ov 64 t_0 s0 ;;
  x <- uadd ov 64 s1 (N.shiftr t_0 32) ;; t_1 <- uadd ov 64 t_1 x ;;
  x <- uadd ov 64 s2 (N.shiftr t_1 32) ;; t_2 <- uadd ov 64 t_2 x ;;
  x <- uadd ov 64 s3 (N.shiftr t_2 32) ;; t_3 <- uadd ov 64 t_3 x ;;
  acc <- wr acc 0 (trunc 32 t_0) ;; acc <- wr acc 1 (trunc 32 t_1) ;;
  acc <- wr acc 2 (trunc 32 t_2) ;; wr acc 3 (trunc 32 t_3).

(** poly_1305.h:158-208 [finalize]. *)
Definition poly_finalize ov (cx : ctx) (o : poly_obj) : option poly_obj :=
  '(b, a) <- poly_last ov cx o ;;
  a <- poly_finish ov (po_s o) a ;;
  Some {| po_r := po_r o; po_s := po_s o; po_acc := a; po_buffer := b; po_size := po_size o |}.

(** poly_1305.h:210-231 [digest]; [dsz] is the digest_size option (default 16). *)
Definition poly_digest (cx : ctx) (dsz : nat) (o : poly_obj) (dst : list N) (size : nat) : option (list N * nat) :=
  let n := Nat.min size dsz in
  dst <- mem_copy_le cx 1 4 dst (po_acc o) n ;;
  Some (dst, n).

(** Destructor (poly_1305.h:83-90). *)
Definition poly_destroy (o : poly_obj) : option poly_obj :=
  r <- mem_erase (po_r o) (length (po_r o)) ;;
  s <- mem_erase (po_s o) (length (po_s o)) ;;
  a <- mem_erase (po_acc o) (length (po_acc o)) ;;
  b <- mem_erase (po_buffer o) (length (po_buffer o)) ;;
  Some {| po_r := r; po_s := s; po_acc := a; po_buffer := b; po_size := 0 |}.

Definition mac_poly_ov (ov : bool) (dsz : nat) : mac_alg := {|
  ma_obj := poly_obj;
  ma_new := poly_new;
  ma_initialize := poly_initialize ov;
  ma_update := poly_update ov;
  ma_finalize := poly_finalize ov;
  ma_digest := fun cx => poly_digest cx dsz;
  ma_digest_size := dsz |}.

(** milo::primitive::mac::poly_1305 with digest_size option [dsz]. *)
Definition mac_poly (dsz : nat) : mac_alg := mac_poly_ov true dsz.
