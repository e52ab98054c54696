(** The codecs of src/milo/primitive/detail/codec/base_16.h and base_64.h on a platform with [w]-bit [size_t] and [uintptr_t]
    ([w] = 32 or 64).  The definitions are those of [Model_Codec] (which is the case [w] = 64) with the width made a parameter. *)
From Verif Require Import Base Model_Container Model_Codec.
Local Open Scope N_scope.

Definition uptr_w (w : Z) (z : Z) : Z := (z mod 2 ^ w)%Z.
Definition mask_w (w : Z) (b : bool) : N := if b then 2 ^ Z.to_N w - 1 else 0.

(** base_16.h:37-46. *)
Definition b16_enc_w (w : Z) (a : N) : N :=
  add8 a (N.lor (N.land 0x30 (mask_w w (a <? 10))) (N.land 0x57 (mask_w w (10 <=? a)))).
(** base_16.h:50-61. *)
Definition b16_dec_w (w : Z) (sg : bool) (c : N) : N :=
  let v := char_val sg c in
  let t := c in
  let t := sub8 t (N.land 0x30 (mask_w w (uptr_w w (v - 0x30) <=? 0x09)%Z)) in
  let t := sub8 t (N.land 0x37 (mask_w w (uptr_w w (v - 0x41) <=? 0x05)%Z)) in
  sub8 t (N.land 0x57 (mask_w w (uptr_w w (v - 0x61) <=? 0x05)%Z)).
(** base_16.h:71-91. *)
Fixpoint b16_encode_loop_w (w : Z) (from : list N) (to : list N) (off : nat) : option (list N) :=
  match from with
  | [] => Some to
  | b :: rest =>
      to <- wr to off (b16_enc_w w (N.shiftr b 4)) ;;
      to <- wr to (off + 1)%nat (b16_enc_w w (N.land b 15)) ;;
      b16_encode_loop_w w rest to (off + 2)%nat
  end.
(** base_16.h:91 returns [a_from_size * 2] in size_t; the number is kept exact here, as nothing depends on it once memory has been written. *)
Definition b16_encode_w (w : Z) (from to : list N) : option (list N * nat) :=
  to <- b16_encode_loop_w w from to 0 ;; Some (to, (length from * 2)%nat).
(** base_16.h:98-105 [encode_size]. *)
Definition b16_encode_size_w (w : Z) (n : N) : N := (n * 2) mod 2 ^ Z.to_N w.
(** base_16.h:146-163. *)
Fixpoint b16_decode_loop_w (w : Z) (sg : bool) (from to : list N) (n i fp tb : nat) : option (list N + list N * nat) :=
  match n with
  | O => Some (inl to)
  | S n =>
      c0 <- rd from fp ;;
      c1 <- rd from (fp + 1)%nat ;;
      let b0 := b16_dec_w w sg c0 in
      let b1 := b16_dec_w w sg c1 in
      if char_eq_u8 sg c0 b0 || char_eq_u8 sg c1 b1 then Some (inr (to, fp))
      else
        to <- wr to (tb + i)%nat (N.lor (N.shiftl b0 4) b1 mod 256) ;;
        b16_decode_loop_w w sg from to n (i + 1) (fp + 2)%nat tb
  end.
(** base_16.h:113-166. *)
Definition b16_decode_w (w : Z) (sg : bool) (from to : list N) (e : errcode) : option (list N * nat * errcode) :=
  let full := Nat.div2 (length from) in
  let last := if Nat.odd (length from) then 1%nat else 0%nat in
  let e := err_clear e in
  let loop to fp tb :=
    r <- b16_decode_loop_w w sg from to (full - last) last fp tb ;;
    match r with
    | inl to => Some (to, (full + last)%nat, e)
    | inr (to, size) => Some (to, size, err_codec_base_16_decode)
    end in
  if Nat.odd (length from) then
    c0 <- rd from 0 ;;
    let b0 := b16_dec_w w sg c0 in
    if char_eq_u8 sg c0 b0 then Some (to, 0%nat, err_codec_base_16_decode)
    else to <- wr to 0 b0 ;; loop to 1%nat 1%nat
  else loop to 0%nat 0%nat.

(** base_64.h:37-52. *)
Definition b64_enc_w (w : Z) (a : N) : N :=
  let z := Z.of_N a in
  add8 a
    (N.lor (N.land (mask_w w (a <? 0x1a)) 0x41)
    (N.lor (N.land (mask_w w (uptr_w w (z - 0x1a) <? 0x1a)%Z) 0x47)
    (N.lor (N.land (mask_w w (uptr_w w (z - 0x34) <? 0x0a)%Z) 0xfc)
    (N.lor (N.land (mask_w w (a =? 0x3e)) 0xed)
           (N.land (mask_w w (a =? 0x3f)) 0xf0))))).
(** base_64.h:56-71. *)
Definition b64_dec_w (w : Z) (sg : bool) (c : N) : N :=
  let v := char_val sg c in
  sub8 c
    (N.lor (N.land (mask_w w (uptr_w w (v - 0x41) <=? 0x19)%Z) 0x41)
    (N.lor (N.land (mask_w w (uptr_w w (v - 0x61) <=? 0x19)%Z) 0x47)
    (N.lor (N.land (mask_w w (uptr_w w (v - 0x30) <=? 0x09)%Z) 0xfc)
    (N.lor (N.land (mask_w w (v =? 0x2b)%Z) 0xed)
           (N.land (mask_w w (v =? 0x2f)%Z) 0xf0))))).
(** base_64.h:93-110. *)
Fixpoint b64_encode_loop_w (w : Z) (from to : list N) (n fp tp : nat) : option (list N * nat * nat) :=
  match n with
  | O => Some (to, fp, tp)
  | S n =>
      b0 <- rd from fp ;;
      b1 <- rd from (fp + 1)%nat ;;
      b2 <- rd from (fp + 2)%nat ;;
      let c0 := b64_enc_w w (N.shiftr b0 2) in
      let c1 := b64_enc_w w (N.lor (N.shiftl (N.land b0 3) 4) (N.shiftr b1 4)) in
      let c2 := b64_enc_w w (N.lor (N.shiftl (N.land b1 15) 2) (N.shiftr b2 6)) in
      let c3 := b64_enc_w w (N.land b2 63) in
      to <- wr to tp c0 ;;
      to <- wr to (tp + 1)%nat c1 ;;
      to <- wr to (tp + 2)%nat c2 ;;
      to <- wr to (tp + 3)%nat c3 ;;
      b64_encode_loop_w w from to n (fp + 3)%nat (tp + 4)%nat
  end.
(** base_64.h:81-134. *)
Definition b64_encode_w (w : Z) (from to : list N) : option (list N * nat) :=
  let full := (length from / 3)%nat in
  let lasts := (length from mod 3)%nat in
  '(to, fp, tp) <- b64_encode_loop_w w from to full 0 0 ;;
  if (lasts =? 0)%nat then Some (to, (full * 4)%nat)
  else
    let last := if (lasts =? 2)%nat then 1%nat else 0%nat in
    let mask := mask_w w (lasts =? 2)%nat in
    let mask_neg := mask_w w (negb (lasts =? 2)%nat) in
    b0 <- rd from fp ;;
    b1 <- rd from (fp + (0 + last))%nat ;;
    let b1 := N.land b1 mask mod 256 in
    let c0 := b64_enc_w w (N.shiftr b0 2) in
    let c1 := b64_enc_w w (N.lor (N.shiftl (N.land b0 3) 4) (N.shiftr b1 4)) in
    let c2 := N.lor (N.land (b64_enc_w w (N.shiftl (N.land b1 15) 2)) mask) (N.land 0x3d mask_neg) in
    let c3 := 0x3d in
    to <- wr to tp c0 ;;
    to <- wr to (tp + 1)%nat c1 ;;
    to <- wr to (tp + 2)%nat (c2 mod 256) ;;
    to <- wr to (tp + 3)%nat c3 ;;
    Some (to, ((full + 1) * 4)%nat).
(** base_64.h:141-148 [encode_size]: [(n * 4 / 3 + 3) & ~0b11] in size_t. *)
Definition b64_encode_size_w (w : Z) (n : N) : N :=
  N.land ((((n * 4) mod 2 ^ Z.to_N w) / 3 + 3) mod 2 ^ Z.to_N w) (2 ^ Z.to_N w - 4).
(** base_64.h:178-206. *)
Fixpoint b64_decode_loop_w (w : Z) (sg : bool) (from to : list N) (n fp tp : nat) : option (list N * nat * nat + list N * nat) :=
  match n with
  | O => Some (inl (to, fp, tp))
  | S n =>
      c0 <- rd from fp ;;
      c1 <- rd from (fp + 1)%nat ;;
      c2 <- rd from (fp + 2)%nat ;;
      c3 <- rd from (fp + 3)%nat ;;
      let b0 := b64_dec_w w sg c0 in
      let b1 := b64_dec_w w sg c1 in
      let b2 := b64_dec_w w sg c2 in
      let b3 := b64_dec_w w sg c3 in
      if char_eq_u8 sg c0 b0 || char_eq_u8 sg c1 b1 || char_eq_u8 sg c2 b2 || char_eq_u8 sg c3 b3
      then Some (inr (to, tp))
      else
        to <- wr to tp (N.lor (N.shiftl b0 2) (N.shiftr b1 4) mod 256) ;;
        to <- wr to (tp + 1)%nat (N.lor (N.shiftl b1 4) (N.shiftr b2 2) mod 256) ;;
        to <- wr to (tp + 2)%nat (N.lor (N.shiftl b2 6) b3 mod 256) ;;
        b64_decode_loop_w w sg from to n (fp + 4)%nat (tp + 3)%nat
  end.
(** base_64.h:156-249. *)
Definition b64_decode_w (w : Z) (sg : bool) (from to : list N) (e : errcode) : option (list N * nat * errcode) :=
  let full := (length from / 4)%nat in
  let last := (length from mod 4)%nat in
  let e := err_clear e in
  if negb (last =? 0)%nat then Some (to, 0%nat, err_codec_base_64_decode)
  else
    r <- b64_decode_loop_w w sg from to (full - 1) 0 0 ;;
    match r with
    | inr (to, size) => Some (to, size, err_codec_base_64_decode)
    | inl (to, fp, tp) =>
        if (0 <? full)%nat then
          c0 <- rd from fp ;;
          c1 <- rd from (fp + 1)%nat ;;
          c2 <- rd from (fp + 2)%nat ;;
          c3 <- rd from (fp + 3)%nat ;;
          let b0 := b64_dec_w w sg c0 in
          let b1 := b64_dec_w w sg c1 in
          let b2 := b64_dec_w w sg c2 in
          let b3 := b64_dec_w w sg c3 in
          let p0 := c2 =? 0x3d in
          let p1 := c3 =? 0x3d in
          if char_eq_u8 sg c0 b0 || char_eq_u8 sg c1 b1 || (p0 && negb p1)
             || (char_eq_u8 sg c2 b2 && negb p0) || (char_eq_u8 sg c3 b3 && negb p1)
          then Some (to, tp, err_codec_base_64_decode)
          else
            to <- wr to tp (N.lor (N.shiftl b0 2) (N.shiftr b1 4) mod 256) ;;
            to <- (if negb p0
                   then wr to (tp + 1)%nat (N.lor (N.shiftl b1 4) (N.shiftr b2 2) mod 256)
                   else Some to) ;;
            to <- (if negb p1
                   then wr to (tp + 2)%nat (N.lor (N.shiftl b2 6) b3 mod 256)
                   else Some to) ;;
            Some (to, (tp + 3 - (if p0 then 1 else 0) - (if p1 then 1 else 0))%nat, e)
        else Some (to, 0%nat, e)
    end.
(** base_64.h:256-271 [decode_size], in size_t. *)
Definition b64_decode_size_w (w : Z) (from : list N) : option nat :=
  let n := length from in
  let size := ((Z.of_nat n * 3) mod 2 ^ w / 4)%Z in
  z <- (if (1 <? n)%nat then
          c <- rd from (n - 1)%nat ;;
          if c =? 0x3d then
            let size := (size - 1)%Z in
            if (2 <? n)%nat then
              d <- rd from (n - 2)%nat ;;
              Some (if d =? 0x3d then (size - 1)%Z else size)
            else Some size
          else Some size
        else Some size) ;;
  Some (Z.to_nat (z mod 2 ^ w)).

Definition base_16_w (w : Z) (sg : bool) : codec := {|
  co_encode := b16_encode_w w;
  co_encode_size := fun from => N.to_nat (b16_encode_size_w w (N.of_nat (length from)));
  co_decode := b16_decode_w w sg;
  co_decode_size := fun from => Some (b16_decode_size from) |}.
Definition base_64_w (w : Z) (sg : bool) : codec := {|
  co_encode := b64_encode_w w;
  co_encode_size := fun from => N.to_nat (b64_encode_size_w w (N.of_nat (length from)));
  co_decode := b64_decode_w w sg;
  co_decode_size := b64_decode_size_w w |}.
