(** Model of the codecs: src/milo/primitive/detail/codec/base_16.h, base_64.h,
    src/milo/primitive/codec/apie.h, and the pieces of src/milo/error.h and
    src/milo/internal/utility.h they use.

    Characters are represented by their byte value 0..255.  Whether plain [char] is signed is
    implementation defined; the boolean [sg] says so ([true] on x86 gcc/clang/msvc). *)
From Verif Require Import Base.
From Verif Require Export Model_Container.
Local Open Scope N_scope.

(** Integer value of a plain [char] with byte representation [c] (integral promotion to int). *)
Definition char_val (sg : bool) (c : N) : Z :=
  if sg && (128 <=? c) then (Z.of_N c - 256)%Z else Z.of_N c.

(** [uintptr_t(z)] for an int [z], and [-uintptr_t(b)] for a bool [b] (64-bit uintptr_t). *)
Definition uptr (z : Z) : Z := (z mod 2 ^ 64)%Z.
Definition mask64 (b : bool) : N := if b then 2 ^ 64 - 1 else 0.

(** 8-bit compound assignment [t -= v], [t += v] (v of type uintptr_t). *)
Definition sub8 (t v : N) : N := (t + 256 - v mod 256) mod 256.
Definition add8 (t v : N) : N := (t + v) mod 256.

(** The comparison [c == b] of a [char] with a [uint8_t]: both promoted to int. *)
Definition char_eq_u8 (sg : bool) (c b : N) : bool := (char_val sg c =? Z.of_N b)%Z.

(** *** base_16.h *)

(** base_16.h:37-46 private [encode(uint8_t)]. *)
Definition b16_enc (a : N) : N :=
  add8 a (N.lor (N.land 0x30 (mask64 (a <? 10))) (N.land 0x57 (mask64 (10 <=? a)))).

(** base_16.h:50-61 private [decode(char)]. *)
Definition b16_dec (sg : bool) (c : N) : N :=
  let v := char_val sg c in
  let t := c in
  let t := sub8 t (N.land 0x30 (mask64 (uptr (v - 0x30) <=? 0x09)%Z)) in
  let t := sub8 t (N.land 0x37 (mask64 (uptr (v - 0x41) <=? 0x05)%Z)) in
  sub8 t (N.land 0x57 (mask64 (uptr (v - 0x61) <=? 0x05)%Z)).

(** base_16.h:71-91 [encode]: the loop over the source bytes; [off] is [to_ptr - a_to_ptr]. *)
Fixpoint b16_encode_loop (from : list N) (to : list N) (off : nat) : option (list N) :=
  match from with
  | [] => Some to
  | b :: rest =>
      to <- wr to off (b16_enc (N.shiftr b 4)) ;;
      to <- wr to (off + 1)%nat (b16_enc (N.land b 15)) ;;
      b16_encode_loop rest to (off + 2)%nat
  end.

Definition b16_encode (from to : list N) : option (list N * nat) :=
  to <- b16_encode_loop from to 0 ;; Some (to, (length from * 2)%nat).

(** base_16.h:98-105 [encode_size] (as size_t, hence the wrap). *)
Definition b16_encode_size (n : N) : N := (n * 2) mod 2 ^ 64.

(** base_16.h:146-163: the loop [for (i = last_size; i < full_size; ++i)] with [n] iterations left;
    [fp] is [from_ptr - a_from_ptr], [tb] is [to_ptr - a_to_ptr].
    The inner result is [inl bytes] when the loop ends, [inr (bytes, size)] when it returns early. *)
Fixpoint b16_decode_loop (sg : bool) (from to : list N) (n i fp tb : nat)
  : option (list N + list N * nat) :=
  match n with
  | O => Some (inl to)
  | S n =>
      c0 <- rd from fp ;;
      c1 <- rd from (fp + 1)%nat ;;
      let b0 := b16_dec sg c0 in
      let b1 := b16_dec sg c1 in
      if char_eq_u8 sg c0 b0 || char_eq_u8 sg c1 b1 then Some (inr (to, fp))
      else
        to <- wr to (tb + i)%nat (N.lor (N.shiftl b0 4) b1 mod 256) ;;
        b16_decode_loop sg from to n (i + 1) (fp + 2)%nat tb
  end.

(** base_16.h:113-166 [decode]. Result: destination, returned size, error code. *)
Definition b16_decode (sg : bool) (from to : list N) (e : errcode)
  : option (list N * nat * errcode) :=
  let full := Nat.div2 (length from) in
  let last := if Nat.odd (length from) then 1%nat else 0%nat in
  let e := err_clear e in
  let loop to fp tb :=
    r <- b16_decode_loop sg from to (full - last) last fp tb ;;
    match r with
    | inl to => Some (to, (full + last)%nat, e)
    | inr (to, size) => Some (to, size, err_codec_base_16_decode)
    end in
  if Nat.odd (length from) then
    c0 <- rd from 0 ;;
    let b0 := b16_dec sg c0 in
    if char_eq_u8 sg c0 b0 then Some (to, 0%nat, err_codec_base_16_decode)
    else to <- wr to 0 b0 ;; loop to 1%nat 1%nat
  else loop to 0%nat 0%nat.

(** base_16.h:173-180 [decode_size]. *)
Definition b16_decode_size (from : list N) : nat :=
  (Nat.div2 (length from) + (if Nat.odd (length from) then 1 else 0))%nat.

(** *** base_64.h *)

(** base_64.h:37-52 private [encode(uint8_t)]. *)
Definition b64_enc (a : N) : N :=
  let z := Z.of_N a in
  add8 a
    (N.lor (N.land (mask64 (a <? 0x1a)) 0x41)
    (N.lor (N.land (mask64 (uptr (z - 0x1a) <? 0x1a)%Z) 0x47)
    (N.lor (N.land (mask64 (uptr (z - 0x34) <? 0x0a)%Z) 0xfc)
    (N.lor (N.land (mask64 (a =? 0x3e)) 0xed)
           (N.land (mask64 (a =? 0x3f)) 0xf0))))).

(** base_64.h:56-71 private [decode(char)]. *)
Definition b64_dec (sg : bool) (c : N) : N :=
  let v := char_val sg c in
  sub8 c
    (N.lor (N.land (mask64 (uptr (v - 0x41) <=? 0x19)%Z) 0x41)
    (N.lor (N.land (mask64 (uptr (v - 0x61) <=? 0x19)%Z) 0x47)
    (N.lor (N.land (mask64 (uptr (v - 0x30) <=? 0x09)%Z) 0xfc)
    (N.lor (N.land (mask64 (v =? 0x2b)%Z) 0xed)
           (N.land (mask64 (v =? 0x2f)%Z) 0xf0))))).

(** base_64.h:93-110: [full] iterations over 3-byte groups.
    Returns the destination and the advanced offsets. *)
Fixpoint b64_encode_loop (from to : list N) (n fp tp : nat) : option (list N * nat * nat) :=
  match n with
  | O => Some (to, fp, tp)
  | S n =>
      b0 <- rd from fp ;;
      b1 <- rd from (fp + 1)%nat ;;
      b2 <- rd from (fp + 2)%nat ;;
      let c0 := b64_enc (N.shiftr b0 2) in
      let c1 := b64_enc (N.lor (N.shiftl (N.land b0 3) 4) (N.shiftr b1 4)) in
      let c2 := b64_enc (N.lor (N.shiftl (N.land b1 15) 2) (N.shiftr b2 6)) in
      let c3 := b64_enc (N.land b2 63) in
      to <- wr to tp c0 ;;
      to <- wr to (tp + 1)%nat c1 ;;
      to <- wr to (tp + 2)%nat c2 ;;
      to <- wr to (tp + 3)%nat c3 ;;
      b64_encode_loop from to n (fp + 3)%nat (tp + 4)%nat
  end.

(** base_64.h:81-134 [encode].  The last-group masks [mask = -last], [mask_neg = ~mask] are 64 bit. *)
Definition b64_encode (from to : list N) : option (list N * nat) :=
  let full := (length from / 3)%nat in
  let lasts := (length from mod 3)%nat in
  '(to, fp, tp) <- b64_encode_loop from to full 0 0 ;;
  if (lasts =? 0)%nat then Some (to, (full * 4)%nat)
  else
    let last := if (lasts =? 2)%nat then 1%nat else 0%nat in
    let mask := mask64 (lasts =? 2)%nat in
    let mask_neg := mask64 (negb (lasts =? 2)%nat) in
    b0 <- rd from fp ;;
    b1 <- rd from (fp + (0 + last))%nat ;;
    let b1 := N.land b1 mask mod 256 in
    let c0 := b64_enc (N.shiftr b0 2) in
    let c1 := b64_enc (N.lor (N.shiftl (N.land b0 3) 4) (N.shiftr b1 4)) in
    let c2 := N.lor (N.land (b64_enc (N.shiftl (N.land b1 15) 2)) mask) (N.land 0x3d mask_neg) in
    let c3 := 0x3d in
    to <- wr to tp c0 ;;
    to <- wr to (tp + 1)%nat c1 ;;
    to <- wr to (tp + 2)%nat (c2 mod 256) ;;
    to <- wr to (tp + 3)%nat c3 ;;
    Some (to, ((full + 1) * 4)%nat).

(** base_64.h:141-148 [encode_size]: [(n * 4 / 3 + 3) & ~0b11] in size_t. *)
Definition b64_encode_size (n : N) : N :=
  N.land ((((n * 4) mod 2 ^ 64) / 3 + 3) mod 2 ^ 64) (2 ^ 64 - 4).

(** base_64.h:178-206: the loop over all groups but the last; [inr] is the early error return. *)
Fixpoint b64_decode_loop (sg : bool) (from to : list N) (n fp tp : nat)
  : option (list N * nat * nat + list N * nat) :=
  match n with
  | O => Some (inl (to, fp, tp))
  | S n =>
      c0 <- rd from fp ;;
      c1 <- rd from (fp + 1)%nat ;;
      c2 <- rd from (fp + 2)%nat ;;
      c3 <- rd from (fp + 3)%nat ;;
      let b0 := b64_dec sg c0 in
      let b1 := b64_dec sg c1 in
      let b2 := b64_dec sg c2 in
      let b3 := b64_dec sg c3 in
      if char_eq_u8 sg c0 b0 || char_eq_u8 sg c1 b1 || char_eq_u8 sg c2 b2 || char_eq_u8 sg c3 b3
      then Some (inr (to, tp))
      else
        to <- wr to tp (N.lor (N.shiftl b0 2) (N.shiftr b1 4) mod 256) ;;
        to <- wr to (tp + 1)%nat (N.lor (N.shiftl b1 4) (N.shiftr b2 2) mod 256) ;;
        to <- wr to (tp + 2)%nat (N.lor (N.shiftl b2 6) b3 mod 256) ;;
        b64_decode_loop sg from to n (fp + 4)%nat (tp + 3)%nat
  end.

(** base_64.h:156-249 [decode]. *)
Definition b64_decode (sg : bool) (from to : list N) (e : errcode)
  : option (list N * nat * errcode) :=
  let full := (length from / 4)%nat in
  let last := (length from mod 4)%nat in
  let e := err_clear e in
  if negb (last =? 0)%nat then Some (to, 0%nat, err_codec_base_64_decode)
  else
    r <- b64_decode_loop sg from to (full - 1) 0 0 ;;
    match r with
    | inr (to, size) => Some (to, size, err_codec_base_64_decode)
    | inl (to, fp, tp) =>
        if (0 <? full)%nat then
          c0 <- rd from fp ;;
          c1 <- rd from (fp + 1)%nat ;;
          c2 <- rd from (fp + 2)%nat ;;
          c3 <- rd from (fp + 3)%nat ;;
          let b0 := b64_dec sg c0 in
          let b1 := b64_dec sg c1 in
          let b2 := b64_dec sg c2 in
          let b3 := b64_dec sg c3 in
          let p0 := c2 =? 0x3d in
          let p1 := c3 =? 0x3d in
          if char_eq_u8 sg c0 b0 || char_eq_u8 sg c1 b1 || (p0 && negb p1)
             || (char_eq_u8 sg c2 b2 && negb p0) || (char_eq_u8 sg c3 b3 && negb p1)
          then Some (to, tp, err_codec_base_64_decode)
          else
            to <- wr to tp (N.lor (N.shiftl b0 2) (N.shiftr b1 4) mod 256) ;;
            to <- (if negb p0
                   then wr to (tp + 1)%nat (N.lor (N.shiftl b1 4) (N.shiftr b2 2) mod 256)
                   else Some to) ;;
            to <- (if negb p1
                   then wr to (tp + 2)%nat (N.lor (N.shiftl b2 6) b3 mod 256)
                   else Some to) ;;
            Some (to, (tp + 3 - (if p0 then 1 else 0) - (if p1 then 1 else 0))%nat, e)
        else Some (to, 0%nat, e)
    end.

(** base_64.h:256-271 [decode_size]; [Z] so that a wrap below zero would be visible. *)
Definition b64_decode_size_z (from : list N) : option Z :=
  let n := length from in
  let size := (Z.of_nat n * 3 / 4)%Z in
  if (1 <? n)%nat then
    c <- rd from (n - 1)%nat ;;
    if c =? 0x3d then
      let size := (size - 1)%Z in
      if (2 <? n)%nat then
        d <- rd from (n - 2)%nat ;;
        Some (if d =? 0x3d then (size - 1)%Z else size)
      else Some size
    else Some size
  else Some size.

Definition b64_decode_size (from : list N) : option nat :=
  z <- b64_decode_size_z from ;; Some (Z.to_nat (z mod 2 ^ 64)).

(** *** Containers and the codec interface *)

(** A codec implementation as seen by codec/apie.h. *)
Record codec := {
  co_encode : list N -> list N -> option (list N * nat);
  co_encode_size : list N -> nat;
  co_decode : list N -> list N -> errcode -> option (list N * nat * errcode);
  co_decode_size : list N -> option nat
}.

Definition base_16 (sg : bool) : codec := {|
  co_encode := b16_encode;
  co_encode_size := fun from => N.to_nat (b16_encode_size (N.of_nat (length from)));
  co_decode := b16_decode sg;
  co_decode_size := fun from => Some (b16_decode_size from) |}.

Definition base_64 (sg : bool) : codec := {|
  co_encode := b64_encode;
  co_encode_size := fun from => N.to_nat (b64_encode_size (N.of_nat (length from)));
  co_decode := b64_decode sg;
  co_decode_size := b64_decode_size |}.

(** codec/apie.h:91-113 [encode(from, to)]. *)
Definition apie_encode (k : codec) (from : list N) (to : container) : option (container * nat) :=
  let '(to, _) := cresize to (co_encode_size k from) in
  '(d, size) <- co_encode k from (cdata to) ;;
  let '(to, _) := cresize (cset to d) size in
  Some (to, size).

(** codec/apie.h:312-336 [decode(from, to, error)]. *)
Definition apie_decode (k : codec) (from : list N) (to : container) (e : errcode)
  : option (container * nat * errcode) :=
  dsz <- co_decode_size k from ;;
  let '(to, _) := cresize to dsz in
  '(d, size, e) <- co_decode k from (cdata to) e ;;
  let '(to, _) := cresize (cset to d) size in
  Some (to, size, e).

(** codec/apie.h:266-288 and 358-380 [decode(from, to)], [noexcept(false)]; the second component is
    the container as the caller sees it afterwards. *)
Definition apie_decode_throw (k : codec) (from : list N) (to : container)
  : option (outcome nat * container) :=
  dsz <- co_decode_size k from ;;
  let '(to, _) := cresize to dsz in
  '(d, size, e) <- co_decode k from (cdata to) err_none ;;
  let to := cset to d in
  if err_bool e then Some (Throws e, to)
  else let '(to, _) := cresize to size in Some (Returns size, to).

(** codec/apie.h:133-150 and 400-417: functions returning a fresh resizable container. *)
Definition apie_encode_new (k : codec) (from : list N) : option (list N) :=
  '(c, _) <- apie_encode k from (Dynamic []) ;; Some (cdata c).

Definition apie_decode_new (k : codec) (from : list N) : option (outcome (list N)) :=
  '(r, c) <- apie_decode_throw k from (Dynamic []) ;;
  match r with
  | Returns _ => Some (Returns (cdata c))
  | Throws e => Some (Throws e)
  | Terminates => Some Terminates
  end.
