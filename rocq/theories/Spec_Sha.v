(** FIPS 180-4 over byte strings, written from the standard.  The constants are not copied: they are
    computed from their definition (fractional parts of roots of the first primes). *)
From Verif Require Import Base Spec_Bytes.
Local Open Scope N_scope.

(** *** Constants (FIPS 180-4 section 4.2 and 5.3) *)

Definition is_prime (p : nat) : bool :=
  forallb (fun d => negb (p mod d =? 0)%nat) (seq 2 (p - 2)).
(** The first 80 primes: all primes up to 409. *)
Definition primes : list N := map N.of_nat (filter is_prime (seq 2 408)).

(** Largest [x] below [2^n] with [x^3 <= a], by bisection from the top bit. *)
Fixpoint icbrt (n : nat) (a x : N) : N :=
  match n with
  | O => x
  | S m => let y := x + 2 ^ N.of_nat m in icbrt m a (if y * y * y <=? a then y else x)
  end.

(** The first [w] bits of the fractional part of the cube (square) root of [p]. *)
Definition frac_cbrt (w p : N) : N := icbrt (N.to_nat w + 8) (p * 2 ^ (3 * w)) 0 mod 2 ^ w.
Definition frac_sqrt (w p : N) : N := N.sqrt (p * 2 ^ (2 * w)) mod 2 ^ w.

(** *** Word operations on [w]-bit words (section 2.2.2, 3.2) *)
Definition add (w x y : N) : N := (x + y) mod 2 ^ w.
Definition sum (w : N) (l : list N) : N := fold_left (add w) l 0.
Definition ROTR (w n x : N) : N := x / 2 ^ n + (x mod 2 ^ n) * 2 ^ (w - n).
Definition ROTL (w n x : N) : N := ROTR w (w - n) x.
Definition SHR (n x : N) : N := x / 2 ^ n.
Definition compl (w x : N) : N := 2 ^ w - 1 - x.
Definition Ch (w x y z : N) : N := N.lxor (N.land x y) (N.land (compl w x) z).
Definition Maj (x y z : N) : N := N.lxor (N.lxor (N.land x y) (N.land x z)) (N.land y z).
Definition Parity (x y z : N) : N := N.lxor (N.lxor x y) z.

(** *** Padding and parsing (section 5): [lenb] is the size of the length field in bytes. *)
Definition pad_zeros (bs lenb len : nat) : nat := ((bs - (len + 1 + lenb) mod bs) mod bs)%nat.
Definition sha_pad (bs lenb : nat) (msg : list N) : list N :=
  msg ++ [128] ++ repeat 0 (pad_zeros bs lenb (length msg))
      ++ be_enc lenb (8 * N.of_nat (length msg)).

(** The iteration over the blocks of a padded message. *)
Fixpoint iter_blocks {A : Type} (bs n : nat) (f : A -> list N -> A) (st : A) (l : list N) : A :=
  match n with
  | O => st
  | S n => iter_blocks bs n f (f st (firstn bs l)) (skipn bs l)
  end.

(** *** SHA-1 (section 6.1.2) *)
Fixpoint sha1_schedule (n : nat) (w : list N) : list N :=
  match n with
  | O => w
  | S n =>
      let t := length w in
      let W i := nth (t - i) w 0 in
      sha1_schedule n (w ++ [ROTL 32 1 (N.lxor (N.lxor (N.lxor (W 3%nat) (W 8%nat)) (W 14%nat)) (W 16%nat))])
  end.

Definition sha1_f (t : nat) (x y z : N) : N :=
  if (t <? 20)%nat then Ch 32 x y z
  else if (t <? 40)%nat then Parity x y z
  else if (t <? 60)%nat then Maj x y z
  else Parity x y z.

(** The four constants are [2^30] times the square roots of 2, 3, 5 and 10. *)
Definition sha1_K (t : nat) : N :=
  N.sqrt ((if (t <? 20)%nat then 2 else if (t <? 40)%nat then 3 else if (t <? 60)%nat then 5 else 10) * 2 ^ 60).

Definition sha1_round (W : list N) (v : N * N * N * N * N) (t : nat) : N * N * N * N * N :=
  let '(a, b, c, d, e) := v in
  (sum 32 [ROTL 32 5 a; sha1_f t b c d; e; sha1_K t; nth t W 0], a, ROTL 32 30 b, c, d).

Definition sha1_compress (H : list N) (block : list N) : list N :=
  let W := sha1_schedule 64 (be_words 4 16 block) in
  let '(a, b, c, d, e) :=
    fold_left (sha1_round W) (seq 0 80) (nth 0 H 0, nth 1 H 0, nth 2 H 0, nth 3 H 0, nth 4 H 0) in
  [add 32 a (nth 0 H 0); add 32 b (nth 1 H 0); add 32 c (nth 2 H 0); add 32 d (nth 3 H 0); add 32 e (nth 4 H 0)].

Definition sha1_iv : list N := [0x67452301; 0xefcdab89; 0x98badcfe; 0x10325476; 0xc3d2e1f0].

(** *** SHA-2 (sections 6.2.2 and 6.4.2), for 32-bit and 64-bit words *)
Record sha2 := {
  s2_w : N;            (* word size in bits *)
  s2_b : nat;          (* word size in bytes *)
  s2_rounds : nat;
  s2_S0 : N * N * N; s2_S1 : N * N * N;    (* Sigma0, Sigma1 *)
  s2_s0 : N * N * N; s2_s1 : N * N * N     (* sigma0, sigma1: two rotations and a shift *)
}.
Definition sha2_32 : sha2 :=
  {| s2_w := 32; s2_b := 4; s2_rounds := 64;
     s2_S0 := (2, 13, 22); s2_S1 := (6, 11, 25); s2_s0 := (7, 18, 3); s2_s1 := (17, 19, 10) |}.
Definition sha2_64 : sha2 :=
  {| s2_w := 64; s2_b := 8; s2_rounds := 80;
     s2_S0 := (28, 34, 39); s2_S1 := (14, 18, 41); s2_s0 := (1, 8, 7); s2_s1 := (19, 61, 6) |}.

Definition Sigma (w : N) (r : N * N * N) (x : N) : N :=
  let '(a, b, c) := r in N.lxor (N.lxor (ROTR w a x) (ROTR w b x)) (ROTR w c x).
Definition sigma (w : N) (r : N * N * N) (x : N) : N :=
  let '(a, b, c) := r in N.lxor (N.lxor (ROTR w a x) (ROTR w b x)) (SHR c x).

Fixpoint sha2_schedule (p : sha2) (n : nat) (w : list N) : list N :=
  match n with
  | O => w
  | S n =>
      let t := length w in
      let W i := nth (t - i) w 0 in
      sha2_schedule p n
        (w ++ [sum (s2_w p) [sigma (s2_w p) (s2_s1 p) (W 2%nat); W 7%nat;
                             sigma (s2_w p) (s2_s0 p) (W 15%nat); W 16%nat]])
  end.

Definition sha2_K (p : sha2) (t : nat) : N := frac_cbrt (s2_w p) (nth t primes 0).

Definition sha2_round (p : sha2) (W : list N) (v : N * N * N * N * N * N * N * N) (t : nat)
  : N * N * N * N * N * N * N * N :=
  let w := s2_w p in
  let '(a, b, c, d, e, f, g, h) := v in
  let T1 := sum w [h; Sigma w (s2_S1 p) e; Ch w e f g; sha2_K p t; nth t W 0] in
  let T2 := add w (Sigma w (s2_S0 p) a) (Maj a b c) in
  (add w T1 T2, a, b, c, add w d T1, e, f, g).

Definition sha2_compress (p : sha2) (H : list N) (block : list N) : list N :=
  let W := sha2_schedule p (s2_rounds p - 16) (be_words (s2_b p) 16 block) in
  let '(a, b, c, d, e, f, g, h) :=
    fold_left (sha2_round p W) (seq 0 (s2_rounds p))
      (nth 0 H 0, nth 1 H 0, nth 2 H 0, nth 3 H 0, nth 4 H 0, nth 5 H 0, nth 6 H 0, nth 7 H 0) in
  [add (s2_w p) a (nth 0 H 0); add (s2_w p) b (nth 1 H 0); add (s2_w p) c (nth 2 H 0);
   add (s2_w p) d (nth 3 H 0); add (s2_w p) e (nth 4 H 0); add (s2_w p) f (nth 5 H 0);
   add (s2_w p) g (nth 6 H 0); add (s2_w p) h (nth 7 H 0)].

(** Initial values (section 5.3). *)
Definition iv256 : list N := map (frac_sqrt 32) (firstn 8 primes).
Definition iv512 : list N := map (frac_sqrt 64) (firstn 8 primes).
Definition iv384 : list N := map (frac_sqrt 64) (firstn 8 (skipn 8 primes)).
(** SHA-224: the second 32 bits of the same fractional parts. *)
Definition iv224 : list N := map (fun x => x mod 2 ^ 32) iv384.

(** The hash of a message: [bs] block bytes, [lenb] length-field bytes, [b] word bytes. *)
Definition sha_final (bs lenb : nat) (compress : list N -> list N -> list N) (iv msg : list N) : list N :=
  let m := sha_pad bs lenb msg in iter_blocks bs (length m / bs) compress iv m.
Definition sha_out (bs lenb b : nat) (compress : list N -> list N -> list N) (iv msg : list N) : list N :=
  flat_map (be_enc b) (sha_final bs lenb compress iv msg).

(** SHA-512/t initial values (section 5.3.6): SHA-512 with a modified initial value, applied to the
    ASCII text "SHA-512/t". *)
Definition iv512t (digits : list N) : list N :=
  sha_final 128 16 (sha2_compress sha2_64)
    (map (fun x => N.lxor x 0xa5a5a5a5a5a5a5a5) iv512)
    ([0x53; 0x48; 0x41; 0x2d; 0x35; 0x31; 0x32; 0x2f] ++ digits).
Definition iv512_224 : list N := iv512t [0x32; 0x32; 0x34].
Definition iv512_256 : list N := iv512t [0x32; 0x35; 0x36].

(** The seven algorithms of the library. *)
Inductive sha := SHA1 | SHA224 | SHA256 | SHA384 | SHA512 | SHA512_224 | SHA512_256.

Definition sha_block_size (a : sha) : nat :=
  match a with SHA1 | SHA224 | SHA256 => 64 | _ => 128 end.
Definition sha_len_size (a : sha) : nat :=
  match a with SHA1 | SHA224 | SHA256 => 8 | _ => 16 end.
Definition sha_word_size (a : sha) : nat :=
  match a with SHA1 | SHA224 | SHA256 => 4 | _ => 8 end.
Definition sha_digest_size (a : sha) : nat :=
  match a with
  | SHA1 => 20 | SHA224 => 28 | SHA256 => 32 | SHA384 => 48 | SHA512 => 64
  | SHA512_224 => 28 | SHA512_256 => 32
  end.
Definition sha_iv (a : sha) : list N :=
  match a with
  | SHA1 => sha1_iv | SHA224 => iv224 | SHA256 => iv256 | SHA384 => iv384 | SHA512 => iv512
  | SHA512_224 => iv512_224 | SHA512_256 => iv512_256
  end.
Definition sha_compress (a : sha) : list N -> list N -> list N :=
  match a with
  | SHA1 => sha1_compress
  | SHA224 | SHA256 => sha2_compress sha2_32
  | _ => sha2_compress sha2_64
  end.
(** Messages the standard admits: fewer than 2^64 (2^128) bits. *)
Definition sha_limit (a : sha) : N := 2 ^ (8 * N.of_nat (sha_len_size a) - 3).

(** All output words as bytes, and the digest proper (truncated on the left-most bytes). *)
Definition fips_full (a : sha) (msg : list N) : list N :=
  sha_out (sha_block_size a) (sha_len_size a) (sha_word_size a) (sha_compress a) (sha_iv a) msg.
Definition fips (a : sha) (msg : list N) : list N := firstn (sha_digest_size a) (fips_full a msg).
