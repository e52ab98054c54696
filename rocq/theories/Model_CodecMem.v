(** The codec functions of src/milo/primitive/detail/codec/base_16.h and base_64.h again, with text and bytes in one memory: the
    pointers of the caller may overlap, and the container overloads of src/milo/primitive/codec/apie.h may be given one
    container twice.  [m] is the whole memory, [s] the offset of [a_from_ptr], [n] is [a_from_size], [d] the offset of [a_to_ptr].
    The order of the reads and writes is that of the sources; the definitions are those of [Model_Codec] with the two
    lists made one. *)
From Verif Require Import Base Model_Container Model_Codec.
Local Open Scope N_scope.

(** base_16.h:71-91 [encode]: [k] iterations left, [fp] is [i], [tp] is [to_ptr - a_to_ptr]. *)
Fixpoint b16_encode_loop_at (m : list N) (s d k fp tp : nat) : option (list N) :=
  match k with
  | O => Some m
  | S k =>
      b <- rd m (s + fp)%nat ;;
      m <- wr m (d + tp)%nat (b16_enc (N.shiftr b 4)) ;;
      m <- wr m (d + (tp + 1))%nat (b16_enc (N.land b 15)) ;;
      b16_encode_loop_at m s d k (fp + 1)%nat (tp + 2)%nat
  end.
Definition b16_encode_at (m : list N) (s n d : nat) : option (list N * nat) :=
  m <- b16_encode_loop_at m s d n 0 0 ;; Some (m, (n * 2)%nat).

(** base_16.h:146-163. *)
Fixpoint b16_decode_loop_at (sg : bool) (m : list N) (s d k i fp tb : nat) : option (list N + list N * nat) :=
  match k with
  | O => Some (inl m)
  | S k =>
      c0 <- rd m (s + fp)%nat ;;
      c1 <- rd m (s + (fp + 1))%nat ;;
      let b0 := b16_dec sg c0 in
      let b1 := b16_dec sg c1 in
      if char_eq_u8 sg c0 b0 || char_eq_u8 sg c1 b1 then Some (inr (m, fp))
      else
        m <- wr m (d + (tb + i))%nat (N.lor (N.shiftl b0 4) b1 mod 256) ;;
        b16_decode_loop_at sg m s d k (i + 1) (fp + 2)%nat tb
  end.
(** base_16.h:113-166 [decode]. *)
Definition b16_decode_at (sg : bool) (m : list N) (s n d : nat) (e : errcode) : option (list N * nat * errcode) :=
  let full := Nat.div2 n in
  let last := if Nat.odd n then 1%nat else 0%nat in
  let e := err_clear e in
  let loop m fp tb :=
    r <- b16_decode_loop_at sg m s d (full - last) last fp tb ;;
    match r with
    | inl m => Some (m, (full + last)%nat, e)
    | inr (m, size) => Some (m, size, err_codec_base_16_decode)
    end in
  if Nat.odd n then
    c0 <- rd m (s + 0)%nat ;;
    let b0 := b16_dec sg c0 in
    if char_eq_u8 sg c0 b0 then Some (m, 0%nat, err_codec_base_16_decode)
    else m <- wr m (d + 0)%nat b0 ;; loop m 1%nat 1%nat
  else loop m 0%nat 0%nat.

(** base_64.h:93-110. *)
Fixpoint b64_encode_loop_at (m : list N) (s d k fp tp : nat) : option (list N * nat * nat) :=
  match k with
  | O => Some (m, fp, tp)
  | S k =>
      b0 <- rd m (s + fp)%nat ;;
      b1 <- rd m (s + (fp + 1))%nat ;;
      b2 <- rd m (s + (fp + 2))%nat ;;
      let c0 := b64_enc (N.shiftr b0 2) in
      let c1 := b64_enc (N.lor (N.shiftl (N.land b0 3) 4) (N.shiftr b1 4)) in
      let c2 := b64_enc (N.lor (N.shiftl (N.land b1 15) 2) (N.shiftr b2 6)) in
      let c3 := b64_enc (N.land b2 63) in
      m <- wr m (d + tp)%nat c0 ;;
      m <- wr m (d + (tp + 1))%nat c1 ;;
      m <- wr m (d + (tp + 2))%nat c2 ;;
      m <- wr m (d + (tp + 3))%nat c3 ;;
      b64_encode_loop_at m s d k (fp + 3)%nat (tp + 4)%nat
  end.
(** base_64.h:81-134 [encode]. *)
Definition b64_encode_at (m : list N) (s n d : nat) : option (list N * nat) :=
  let full := (n / 3)%nat in
  let lasts := (n mod 3)%nat in
  '(m, fp, tp) <- b64_encode_loop_at m s d full 0 0 ;;
  if (lasts =? 0)%nat then Some (m, (full * 4)%nat)
  else
    let last := if (lasts =? 2)%nat then 1%nat else 0%nat in
    let mask := mask64 (lasts =? 2)%nat in
    let mask_neg := mask64 (negb (lasts =? 2)%nat) in
    b0 <- rd m (s + fp)%nat ;;
    b1 <- rd m (s + (fp + (0 + last)))%nat ;;
    let b1 := N.land b1 mask mod 256 in
    let c0 := b64_enc (N.shiftr b0 2) in
    let c1 := b64_enc (N.lor (N.shiftl (N.land b0 3) 4) (N.shiftr b1 4)) in
    let c2 := N.lor (N.land (b64_enc (N.shiftl (N.land b1 15) 2)) mask) (N.land 0x3d mask_neg) in
    let c3 := 0x3d in
    m <- wr m (d + tp)%nat c0 ;;
    m <- wr m (d + (tp + 1))%nat c1 ;;
    m <- wr m (d + (tp + 2))%nat (c2 mod 256) ;;
    m <- wr m (d + (tp + 3))%nat c3 ;;
    Some (m, ((full + 1) * 4)%nat).

(** base_64.h:178-206. *)
Fixpoint b64_decode_loop_at (sg : bool) (m : list N) (s d k fp tp : nat) : option (list N * nat * nat + list N * nat) :=
  match k with
  | O => Some (inl (m, fp, tp))
  | S k =>
      c0 <- rd m (s + fp)%nat ;;
      c1 <- rd m (s + (fp + 1))%nat ;;
      c2 <- rd m (s + (fp + 2))%nat ;;
      c3 <- rd m (s + (fp + 3))%nat ;;
      let b0 := b64_dec sg c0 in
      let b1 := b64_dec sg c1 in
      let b2 := b64_dec sg c2 in
      let b3 := b64_dec sg c3 in
      if char_eq_u8 sg c0 b0 || char_eq_u8 sg c1 b1 || char_eq_u8 sg c2 b2 || char_eq_u8 sg c3 b3
      then Some (inr (m, tp))
      else
        m <- wr m (d + tp)%nat (N.lor (N.shiftl b0 2) (N.shiftr b1 4) mod 256) ;;
        m <- wr m (d + (tp + 1))%nat (N.lor (N.shiftl b1 4) (N.shiftr b2 2) mod 256) ;;
        m <- wr m (d + (tp + 2))%nat (N.lor (N.shiftl b2 6) b3 mod 256) ;;
        b64_decode_loop_at sg m s d k (fp + 4)%nat (tp + 3)%nat
  end.
(** base_64.h:156-249 [decode]. *)
Definition b64_decode_at (sg : bool) (m : list N) (s n d : nat) (e : errcode) : option (list N * nat * errcode) :=
  let full := (n / 4)%nat in
  let last := (n mod 4)%nat in
  let e := err_clear e in
  if negb (last =? 0)%nat then Some (m, 0%nat, err_codec_base_64_decode)
  else
    r <- b64_decode_loop_at sg m s d (full - 1) 0 0 ;;
    match r with
    | inr (m, size) => Some (m, size, err_codec_base_64_decode)
    | inl (m, fp, tp) =>
        if (0 <? full)%nat then
          c0 <- rd m (s + fp)%nat ;;
          c1 <- rd m (s + (fp + 1))%nat ;;
          c2 <- rd m (s + (fp + 2))%nat ;;
          c3 <- rd m (s + (fp + 3))%nat ;;
          let b0 := b64_dec sg c0 in
          let b1 := b64_dec sg c1 in
          let b2 := b64_dec sg c2 in
          let b3 := b64_dec sg c3 in
          let p0 := c2 =? 0x3d in
          let p1 := c3 =? 0x3d in
          if char_eq_u8 sg c0 b0 || char_eq_u8 sg c1 b1 || (p0 && negb p1)
             || (char_eq_u8 sg c2 b2 && negb p0) || (char_eq_u8 sg c3 b3 && negb p1)
          then Some (m, tp, err_codec_base_64_decode)
          else
            m <- wr m (d + tp)%nat (N.lor (N.shiftl b0 2) (N.shiftr b1 4) mod 256) ;;
            m <- (if negb p0
                  then wr m (d + (tp + 1))%nat (N.lor (N.shiftl b1 4) (N.shiftr b2 2) mod 256)
                  else Some m) ;;
            m <- (if negb p1
                  then wr m (d + (tp + 2))%nat (N.lor (N.shiftl b2 6) b3 mod 256)
                  else Some m) ;;
            Some (m, (tp + 3 - (if p0 then 1 else 0) - (if p1 then 1 else 0))%nat, e)
        else Some (m, 0%nat, e)
    end.

(** A codec whose pointer functions work in one memory, with the rest of it as before. *)
Record codec_at := {
  ca_codec : codec;
  ca_encode : list N -> nat -> nat -> nat -> option (list N * nat);
  ca_decode : list N -> nat -> nat -> nat -> errcode -> option (list N * nat * errcode)
}.
Definition base_16_at (sg : bool) : codec_at := {|
  ca_codec := base_16 sg; ca_encode := b16_encode_at; ca_decode := b16_decode_at sg |}.
Definition base_64_at (sg : bool) : codec_at := {|
  ca_codec := base_64 sg; ca_encode := b64_encode_at; ca_decode := b64_decode_at sg |}.

(** codec/apie.h:91-113 [encode(c, c)]: [a_from] and [a_to] are the same container, so that [a_from.data()] and
    [a_from.size()] (lines 102-103) are those of the container as resized in lines 96-99. *)
Definition apie_encode_same (k : codec_at) (c : container) : option (container * nat) :=
  let '(c, _) := cresize c (co_encode_size (ca_codec k) (cdata c)) in
  '(d, size) <- ca_encode k (cdata c) 0 (length (cdata c)) 0 ;;
  let '(c, _) := cresize (cset c d) size in
  Some (c, size).
(** codec/apie.h:312-336 [decode(c, c, error)]. *)
Definition apie_decode_same (k : codec_at) (c : container) (e : errcode) : option (container * nat * errcode) :=
  dsz <- co_decode_size (ca_codec k) (cdata c) ;;
  let '(c, _) := cresize c dsz in
  '(d, size, e) <- ca_decode k (cdata c) 0 (length (cdata c)) 0 e ;;
  let '(c, _) := cresize (cset c d) size in
  Some (c, size, e).
