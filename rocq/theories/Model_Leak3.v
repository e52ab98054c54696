(** What an observer of timing sees of the codecs: Model_Codec statement by statement, with every branch decision and every accessed address
    recorded as in Model_Leak.

    The source is array Arg 0, the destination Arg 1.  A comparison whose result is an operand of arithmetic (the masks of the private
    [encode] and [decode], base_16.h:44, 55-57, base_64.h:42-50, 60-68; [size_t(p_0)], base_64.h:245; [size_t(last_size == 2)], line 114; line 267)
    is taken to be computed without a branch, like the other arithmetic; the operands of || and && that are evaluated are branches.
    A [resize] is recorded with its size, as a write of that many elements, when the container can be resized. *)
From Verif Require Import Base Model_Container Model_Codec Model_Leak.
Local Open Scope N_scope.

Definition src : ptr := (Arg 0, 0%nat).
Definition dst : ptr := (Arg 1, 0%nat).
Definition l_test (b : bool) : L bool := _ <~ emit [Br b] ;; ret b.
Definition l_or (x y : L bool) : L bool := b <~ x ;; if b then ret true else y.
Definition l_and (x y : L bool) : L bool := b <~ x ;; if b then y else ret false.

(** base_16.h:80-88 *)
Fixpoint l_b16_encode_loop (i : nat) (from to : list N) (off : nat) : L (list N) :=
  match from with
  | [] => _ <~ emit [Br false] ;; ret to
  | b :: rest =>
      _ <~ emit [Br true; Rd (Arg 0) i] ;;
      to <~ lwr dst to off (b16_enc (N.shiftr b 4)) ;;
      to <~ lwr dst to (off + 1)%nat (b16_enc (N.land b 15)) ;;
      l_b16_encode_loop (S i) rest to (off + 2)%nat
  end.
(** base_16.h:71-91 *)
Definition l_b16_encode (from to : list N) : L (list N * nat) :=
  to <~ l_b16_encode_loop 0 from to 0 ;; ret (to, (length from * 2)%nat).

(** base_16.h:146-163 *)
Fixpoint l_b16_decode_loop (sg : bool) (from to : list N) (n i fp tb : nat) : L (list N + list N * nat) :=
  match n with
  | O => _ <~ emit [Br false] ;; ret (inl to)
  | S n =>
      _ <~ emit [Br true] ;;
      c0 <~ lrd src from fp ;;
      c1 <~ lrd src from (fp + 1)%nat ;;
      let b0 := b16_dec sg c0 in
      let b1 := b16_dec sg c1 in
      bad <~ l_or (l_test (char_eq_u8 sg c0 b0)) (l_test (char_eq_u8 sg c1 b1)) ;;
      if bad then ret (inr (to, fp))
      else
        to <~ lwr dst to (tb + i)%nat (N.lor (N.shiftl b0 4) b1 mod 256) ;;
        l_b16_decode_loop sg from to n (i + 1) (fp + 2)%nat tb
  end.
(** base_16.h:113-166 *)
Definition l_b16_decode (sg : bool) (from to : list N) (e : errcode) : L (list N * nat * errcode) :=
  let full := Nat.div2 (length from) in
  let last := if Nat.odd (length from) then 1%nat else 0%nat in
  let e := err_clear e in
  let loop to fp tb :=
    r <~ l_b16_decode_loop sg from to (full - last) last fp tb ;;
    match r with
    | inl to => ret (to, (full + last)%nat, e)
    | inr (to, size) => ret (to, size, err_codec_base_16_decode)
    end in
  lif (Nat.odd (length from))
    (c0 <~ lrd src from 0 ;;
     let b0 := b16_dec sg c0 in
     bad <~ l_test (char_eq_u8 sg c0 b0) ;;
     if bad then ret (to, 0%nat, err_codec_base_16_decode)
     else to <~ lwr dst to 0 b0 ;; loop to 1%nat 1%nat)
    (loop to 0%nat 0%nat).

(** base_64.h:93-110 *)
Fixpoint l_b64_encode_loop (from to : list N) (n fp tp : nat) : L (list N * nat * nat) :=
  match n with
  | O => _ <~ emit [Br false] ;; ret (to, fp, tp)
  | S n =>
      _ <~ emit [Br true] ;;
      b0 <~ lrd src from fp ;;
      b1 <~ lrd src from (fp + 1)%nat ;;
      b2 <~ lrd src from (fp + 2)%nat ;;
      let c0 := b64_enc (N.shiftr b0 2) in
      let c1 := b64_enc (N.lor (N.shiftl (N.land b0 3) 4) (N.shiftr b1 4)) in
      let c2 := b64_enc (N.lor (N.shiftl (N.land b1 15) 2) (N.shiftr b2 6)) in
      let c3 := b64_enc (N.land b2 63) in
      to <~ lwr dst to tp c0 ;;
      to <~ lwr dst to (tp + 1)%nat c1 ;;
      to <~ lwr dst to (tp + 2)%nat c2 ;;
      to <~ lwr dst to (tp + 3)%nat c3 ;;
      l_b64_encode_loop from to n (fp + 3)%nat (tp + 4)%nat
  end.
(** base_64.h:81-134 *)
Definition l_b64_encode (from to : list N) : L (list N * nat) :=
  let full := (length from / 3)%nat in
  let lasts := (length from mod 3)%nat in
  '(to, fp, tp) <~ l_b64_encode_loop from to full 0 0 ;;
  lif (lasts =? 0)%nat (ret (to, (full * 4)%nat))
    (let last := if (lasts =? 2)%nat then 1%nat else 0%nat in
     let mask := mask64 (lasts =? 2)%nat in
     let mask_neg := mask64 (negb (lasts =? 2)%nat) in
     b0 <~ lrd src from fp ;;
     b1 <~ lrd src from (fp + (0 + last))%nat ;;
     let b1 := N.land b1 mask mod 256 in
     let c0 := b64_enc (N.shiftr b0 2) in
     let c1 := b64_enc (N.lor (N.shiftl (N.land b0 3) 4) (N.shiftr b1 4)) in
     let c2 := N.lor (N.land (b64_enc (N.shiftl (N.land b1 15) 2)) mask) (N.land 0x3d mask_neg) in
     let c3 := 0x3d in
     to <~ lwr dst to tp c0 ;;
     to <~ lwr dst to (tp + 1)%nat c1 ;;
     to <~ lwr dst to (tp + 2)%nat (c2 mod 256) ;;
     to <~ lwr dst to (tp + 3)%nat c3 ;;
     ret (to, ((full + 1) * 4)%nat)).

(** base_64.h:178-206 *)
Fixpoint l_b64_decode_loop (sg : bool) (from to : list N) (n fp tp : nat) : L (list N * nat * nat + list N * nat) :=
  match n with
  | O => _ <~ emit [Br false] ;; ret (inl (to, fp, tp))
  | S n =>
      _ <~ emit [Br true] ;;
      c0 <~ lrd src from fp ;;
      c1 <~ lrd src from (fp + 1)%nat ;;
      c2 <~ lrd src from (fp + 2)%nat ;;
      c3 <~ lrd src from (fp + 3)%nat ;;
      let b0 := b64_dec sg c0 in
      let b1 := b64_dec sg c1 in
      let b2 := b64_dec sg c2 in
      let b3 := b64_dec sg c3 in
      bad <~ l_or (l_or (l_or (l_test (char_eq_u8 sg c0 b0)) (l_test (char_eq_u8 sg c1 b1))) (l_test (char_eq_u8 sg c2 b2))) (l_test (char_eq_u8 sg c3 b3)) ;;
      if bad then ret (inr (to, tp))
      else
        to <~ lwr dst to tp (N.lor (N.shiftl b0 2) (N.shiftr b1 4) mod 256) ;;
        to <~ lwr dst to (tp + 1)%nat (N.lor (N.shiftl b1 4) (N.shiftr b2 2) mod 256) ;;
        to <~ lwr dst to (tp + 2)%nat (N.lor (N.shiftl b2 6) b3 mod 256) ;;
        l_b64_decode_loop sg from to n (fp + 4)%nat (tp + 3)%nat
  end.
(** base_64.h:156-249 *)
Definition l_b64_decode (sg : bool) (from to : list N) (e : errcode) : L (list N * nat * errcode) :=
  let full := (length from / 4)%nat in
  let last := (length from mod 4)%nat in
  let e := err_clear e in
  lif (negb (last =? 0)%nat) (ret (to, 0%nat, err_codec_base_64_decode))
    (r <~ l_b64_decode_loop sg from to (full - 1) 0 0 ;;
     match r with
     | inr (to, size) => ret (to, size, err_codec_base_64_decode)
     | inl (to, fp, tp) =>
         lif (0 <? full)%nat
           (c0 <~ lrd src from fp ;;
            c1 <~ lrd src from (fp + 1)%nat ;;
            c2 <~ lrd src from (fp + 2)%nat ;;
            c3 <~ lrd src from (fp + 3)%nat ;;
            let b0 := b64_dec sg c0 in
            let b1 := b64_dec sg c1 in
            let b2 := b64_dec sg c2 in
            let b3 := b64_dec sg c3 in
            let p0 := c2 =? 0x3d in
            let p1 := c3 =? 0x3d in
            bad <~ l_or (l_or (l_or (l_or (l_test (char_eq_u8 sg c0 b0)) (l_test (char_eq_u8 sg c1 b1))) (l_and (l_test p0) (l_test (negb p1))))
                     (l_and (l_test (char_eq_u8 sg c2 b2)) (l_test (negb p0)))) (l_and (l_test (char_eq_u8 sg c3 b3)) (l_test (negb p1))) ;;
            if bad then ret (to, tp, err_codec_base_64_decode)
            else
              to <~ lwr dst to tp (N.lor (N.shiftl b0 2) (N.shiftr b1 4) mod 256) ;;
              to <~ lif (negb p0) (lwr dst to (tp + 1)%nat (N.lor (N.shiftl b1 4) (N.shiftr b2 2) mod 256)) (ret to) ;;
              to <~ lif (negb p1) (lwr dst to (tp + 2)%nat (N.lor (N.shiftl b2 6) b3 mod 256)) (ret to) ;;
              ret (to, (tp + 3 - (if p0 then 1 else 0) - (if p1 then 1 else 0))%nat, e))
           (ret (to, 0%nat, e))
     end).
(** base_64.h:256-271 *)
Definition l_b64_decode_size_z (from : list N) : L Z :=
  let n := length from in
  let size := (Z.of_nat n * 3 / 4)%Z in
  lif (1 <? n)%nat
    (c <~ lrd src from (n - 1)%nat ;;
     lif (c =? 0x3d)
       (let size := (size - 1)%Z in
        lif (2 <? n)%nat
          (d <~ lrd src from (n - 2)%nat ;; ret (if d =? 0x3d then (size - 1)%Z else size))
          (ret size))
       (ret size))
    (ret size).
Definition l_b64_decode_size (from : list N) : L nat := z <~ l_b64_decode_size_z from ;; ret (Z.to_nat (z mod 2 ^ 64)).

(** *** codec/apie.h *)
Record lcodec := {
  lc_codec : codec;
  lc_encode : list N -> list N -> L (list N * nat);
  lc_decode : list N -> list N -> errcode -> L (list N * nat * errcode);
  lc_decode_size : list N -> L nat
}.
(** base_16.h:98-105, 173-180: sizes only *)
Definition l_base_16 (sg : bool) : lcodec := {|
  lc_codec := base_16 sg; lc_encode := l_b16_encode; lc_decode := l_b16_decode sg; lc_decode_size := fun from => ret (b16_decode_size from) |}.
Definition l_base_64 (sg : bool) : lcodec := {|
  lc_codec := base_64 sg; lc_encode := l_b64_encode; lc_decode := l_b64_decode sg; lc_decode_size := l_b64_decode_size |}.
(** internal/utility.h [resize] *)
Definition l_resize (c : container) (n : nat) : L container :=
  _ <~ emit (match c with Dynamic _ => [WrN (Arg 1) 0 n] | Static _ => [] end) ;; ret (fst (cresize c n)).
(** codec/apie.h:91-113 *)
Definition l_apie_encode (k : lcodec) (from : list N) (to : container) : L (container * nat) :=
  to <~ l_resize to (co_encode_size (lc_codec k) from) ;;
  '(d, size) <~ lc_encode k from (cdata to) ;;
  to <~ l_resize (cset to d) size ;;
  ret (to, size).
(** codec/apie.h:312-336 *)
Definition l_apie_decode (k : lcodec) (from : list N) (to : container) (e : errcode) : L (container * nat * errcode) :=
  dsz <~ lc_decode_size k from ;;
  to <~ l_resize to dsz ;;
  '(d, size, e) <~ lc_decode k from (cdata to) e ;;
  to <~ l_resize (cset to d) size ;;
  ret (to, size, e).
(** codec/apie.h:266-288 and 358-380 *)
Definition l_apie_decode_throw (k : lcodec) (from : list N) (to : container) : L (outcome nat * container) :=
  dsz <~ lc_decode_size k from ;;
  to <~ l_resize to dsz ;;
  '(d, size, e) <~ lc_decode k from (cdata to) err_none ;;
  let to := cset to d in
  lif (err_bool e) (ret (Throws e, to)) (to <~ l_resize to size ;; ret (Returns size, to)).
