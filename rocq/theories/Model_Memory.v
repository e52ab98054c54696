(** Model of src/milo/internal/memory.h, src/milo/internal/endian.h and src/milo/internal/bit.h.

    Every function takes a context: the byte order of the host and whether the call is evaluated at
    compile time ([MILO_INTERNAL_CONSTEVAL]) or at run time.  An array of [ps]-byte unsigned integers is
    the list of its values; [arr_bytes] is its object representation, which is what [std::memcpy] sees.
    Simplification: the template parameters are unsigned types (the code converts signed ones to
    unsigned first). *)
From Verif Require Import Base Spec_Bytes.
Local Open Scope N_scope.

Record ctx := { cx_big : bool; cx_ce : bool }.

Definition bits (n : nat) : N := 8 * N.of_nat n.

(** Object representation of an [n]-byte unsigned integer on the host, and back. *)
Definition obj_bytes (big : bool) (n : nat) (x : N) : list N := if big then be_enc n x else le_enc n x.
Definition obj_value (big : bool) (l : list N) : N := if big then be_dec l else le_dec l.

Definition arr_bytes (big : bool) (ps : nat) (arr : list N) : list N := flat_map (obj_bytes big ps) arr.

(** The array of [k] [ps]-byte integers with a given representation. *)
Fixpoint arr_of_bytes (big : bool) (ps k : nat) (l : list N) : list N :=
  match k with
  | O => []
  | S k => obj_value big (firstn ps l) :: arr_of_bytes big ps k (skipn ps l)
  end.

(** *** endian.h *)

(** endian.h:18-61 [endian_swap_sw]. *)
Definition endian_swap_sw (n : nat) (x : N) : N :=
  if (n =? 1)%nat then x
  else if (n =? 2)%nat then N.lor (N.shiftl x 8) (N.shiftr x 8) mod 2 ^ 16
  else if (n =? 4)%nat then
    N.lor (N.lor (N.lor (N.shiftr x 24) (wshl 32 x 24))
      (N.shiftr (N.land x 0x00ff0000) 8)) (wshl 32 (N.land x 0x0000ff00) 8)
  else
    N.lor (N.lor (N.lor (N.lor (N.lor (N.lor (N.lor (N.shiftr x 56) (wshl 64 x 56))
      (N.shiftr (N.land x 0x00ff000000000000) 40)) (wshl 64 (N.land x 0x000000000000ff00) 40))
      (N.shiftr (N.land x 0x0000ff0000000000) 24)) (wshl 64 (N.land x 0x0000000000ff0000) 24))
      (N.shiftr (N.land x 0x000000ff00000000) 8)) (wshl 64 (N.land x 0x00000000ff000000) 8).

(** endian.h:63-108 [endian_swap_bi]: the compiler's byte-swap builtin. *)
Definition endian_swap_bi (n : nat) (x : N) : N := be_dec (le_enc n x).

(** endian.h:110-138 [endian_swap]. *)
Definition endian_swap (cx : ctx) (n : nat) (x : N) : N :=
  if cx_ce cx then endian_swap_sw n x else endian_swap_bi n x.

(** endian.h:156-187 [endian_bigof], [endian_littleof]. *)
Definition endian_bigof (cx : ctx) (n : nat) (x : N) : N := if cx_big cx then x else endian_swap cx n x.
Definition endian_littleof (cx : ctx) (n : nat) (x : N) : N := if cx_big cx then endian_swap cx n x else x.

(** bit.h:29-57 [bit_rotl], [bit_rotr] on [w]-bit words. *)
Definition rotl (w x n : N) : N := N.lor (wshl w x n) (N.shiftr x (w - n)).
Definition rotr (w x n : N) : N := N.lor (N.shiftr x n) (wshl w x (w - n)).

(** *** memory_load *)

(** Loops of memory.h:74-88 and 173-187: [is] is the list of visited indices. *)
Fixpoint load_loop (vs ps : nat) (arr : list N) (seg : nat) (is : list nat) (val : N) : option N :=
  match is with
  | [] => Some val
  | i :: is =>
      w <- rd arr (seg + i)%nat ;;
      load_loop vs ps arr seg is
        (N.lor (wshl (bits vs) val (bits ps)) (N.land (trunc (bits vs) w) (2 ^ bits ps - 1)))
  end.

(** Visiting order: descending on a little-endian host, ascending on a big-endian one. *)
Definition load_order (cx : ctx) (n : nat) : list nat :=
  if cx_big cx then seq 0 n else rev (seq 0 n).

(** The bit offset of memory.h:55-60, 149-154, 344-349, 441-446. *)
Definition part_bits (cx : ctx) (vs ps o : nat) : N :=
  if cx_big cx then bits ps - bits o - bits vs else bits o.

(** memory.h:17-107 [memory_load<t_val>(ptr, off)]. *)
Definition mem_load (cx : ctx) (vs ps : nat) (arr : list N) (off : nat) : option N :=
  if (vs =? ps)%nat then rd arr off
  else if cx_ce cx then
    let bse := (off * vs)%nat in
    let seg := (bse / ps)%nat in
    let o := (bse mod ps)%nat in
    if (0 <? vs mod ps)%nat then
      w <- rd arr seg ;; Some (trunc (bits vs) (N.shiftr w (part_bits cx vs ps o)))
    else load_loop vs ps arr seg (load_order cx (vs / ps)) 0
  else
    l <- rds (arr_bytes (cx_big cx) ps arr) (off * vs) vs ;; Some (obj_value (cx_big cx) l).

(** memory.h:109-215 [memory_load<t_val>(ptr, off, size)]: at most [n] elements are read. *)
Definition mem_load_n (cx : ctx) (vs ps : nat) (arr : list N) (off n : nat) : option N :=
  if cx_ce cx then
    let bse := (off * vs)%nat in
    let seg := (bse / ps)%nat in
    let o := (bse mod ps)%nat in
    if (n =? 0)%nat then Some 0
    else if (vs =? ps)%nat then rd arr off
    else if (0 <? vs mod ps)%nat then
      w <- rd arr seg ;; Some (trunc (bits vs) (N.shiftr w (part_bits cx vs ps o)))
    else
      let todo := Nat.min n (vs / ps) in
      v <- load_loop vs ps arr seg (load_order cx todo) 0 ;;
      Some (if cx_big cx then wshl (bits vs) v (bits (ps * (vs / ps - todo))) else v)
  else
    let k := Nat.min vs (ps * n) in
    l <- rds (arr_bytes (cx_big cx) ps arr) (off * vs) k ;;
    Some (obj_value (cx_big cx) (l ++ repeat 0 (vs - k))).

(** memory.h:217-303. *)
Definition mem_load_be cx vs ps arr off := v <- mem_load cx vs ps arr off ;; Some (endian_bigof cx vs v).
Definition mem_load_le cx vs ps arr off := v <- mem_load cx vs ps arr off ;; Some (endian_littleof cx vs v).
Definition mem_load_be_n cx vs ps arr off n :=
  v <- mem_load_n cx vs ps arr off n ;; Some (endian_bigof cx vs v).
Definition mem_load_le_n cx vs ps arr off n :=
  v <- mem_load_n cx vs ps arr off n ;; Some (endian_littleof cx vs v).

(** *** memory_stor *)

(** memory.h:355-376 and 456-482. *)
Fixpoint stor_loop (ps : nat) (arr : list N) (seg : nat) (is : list nat) (val : N) : option (list N) :=
  match is with
  | [] => Some arr
  | i :: is =>
      arr <- wr arr (seg + i)%nat (trunc (bits ps) val) ;;
      stor_loop ps arr seg is (N.shiftr val (bits ps))
  end.

Definition stor_order (cx : ctx) (n : nat) : list nat :=
  if cx_big cx then rev (seq 0 n) else seq 0 n.

(** memory.h:351 and 448: [(a & ~(mask << bits)) | (val << bits)] converted to the element type. *)
Definition stor_part (vs ps : nat) (w val b : N) : N :=
  trunc (bits ps)
    (N.lor (N.land w (wnot (bits ps) (N.shiftl (2 ^ bits vs - 1) b))) (N.shiftl val b)).

(** memcpy of [l] over the object representation of [arr] at byte [off]. *)
Definition stor_bytes (cx : ctx) (ps : nat) (arr : list N) (off : nat) (l : list N) : option (list N) :=
  b <- wrs (arr_bytes (cx_big cx) ps arr) off l ;;
  Some (arr_of_bytes (cx_big cx) ps (length arr) b).

(** memory.h:305-391 [memory_stor(ptr, off, val)]. *)
Definition mem_stor (cx : ctx) (vs ps : nat) (arr : list N) (off : nat) (val : N) : option (list N) :=
  if (vs =? ps)%nat then wr arr off val
  else if cx_ce cx then
    let bse := (off * vs)%nat in
    let seg := (bse / ps)%nat in
    let o := (bse mod ps)%nat in
    if (0 <? vs mod ps)%nat then
      w <- rd arr seg ;; wr arr seg (stor_part vs ps w val (part_bits cx vs ps o))
    else stor_loop ps arr seg (stor_order cx (vs / ps)) val
  else stor_bytes cx ps arr (off * vs) (obj_bytes (cx_big cx) vs val).

(** memory.h:393-496 [memory_stor(ptr, off, val, size)]. *)
Definition mem_stor_n (cx : ctx) (vs ps : nat) (arr : list N) (off : nat) (val : N) (n : nat)
  : option (list N) :=
  if cx_ce cx then
    let bse := (off * vs)%nat in
    let seg := (bse / ps)%nat in
    let o := (bse mod ps)%nat in
    if (n =? 0)%nat then Some arr
    else if (vs =? ps)%nat then wr arr off val
    else if (0 <? vs mod ps)%nat then
      w <- rd arr seg ;; wr arr seg (stor_part vs ps w val (part_bits cx vs ps o))
    else
      let todo := Nat.min n (vs / ps) in
      let val := if cx_big cx then N.shiftr val (bits (ps * (vs / ps - todo))) else val in
      stor_loop ps arr seg (stor_order cx todo) val
  else
    stor_bytes cx ps arr (off * vs) (firstn (Nat.min vs (ps * n)) (obj_bytes (cx_big cx) vs val)).

(** memory.h:498-580. *)
Definition mem_stor_be cx vs ps arr off val := mem_stor cx vs ps arr off (endian_bigof cx vs val).
Definition mem_stor_le cx vs ps arr off val := mem_stor cx vs ps arr off (endian_littleof cx vs val).
Definition mem_stor_be_n cx vs ps arr off val n := mem_stor_n cx vs ps arr off (endian_bigof cx vs val) n.
Definition mem_stor_le_n cx vs ps arr off val n := mem_stor_n cx vs ps arr off (endian_littleof cx vs val) n.

(** *** Block functions *)

(** memory.h:595-607: the compile-time byte loop, [n] iterations left. *)
Fixpoint copy_loop (cx : ctx) (pd ps : nat) (dst src : list N) (i n : nat) : option (list N) :=
  match n with
  | O => Some dst
  | S n =>
      v <- mem_load cx 1 ps src i ;;
      dst <- mem_stor cx 1 pd dst i v ;;
      copy_loop cx pd ps dst src (S i) n
  end.

(** memory.h:582-615 [memory_copy] of [n] bytes between distinct arrays. *)
Definition mem_copy (cx : ctx) (pd ps : nat) (dst src : list N) (n : nat) : option (list N) :=
  if cx_ce cx then copy_loop cx pd ps dst src 0 n
  else
    l <- rds (arr_bytes (cx_big cx) ps src) 0 n ;; stor_bytes cx pd dst 0 l.

(** memory.h:617-683 [memory_copy_be], [memory_copy_le]: [n] destination bytes from [ss]-byte words. *)
Fixpoint copy_words (stor : list N -> nat -> N -> option (list N)) (dst src : list N) (i n : nat)
  : option (list N) :=
  match n with
  | O => Some dst
  | S n =>
      w <- rd src i ;;
      dst <- stor dst i w ;;
      copy_words stor dst src (S i) n
  end.

Definition mem_copy_be (cx : ctx) (pd ss : nat) (dst src : list N) (n : nat) : option (list N) :=
  let full := (n / ss)%nat in
  let last := (n mod ss)%nat in
  dst <- copy_words (fun d i w => mem_stor_be cx ss pd d i w) dst src 0 full ;;
  if (0 <? last)%nat then
    w <- rd src full ;; mem_stor_be_n cx ss pd dst full w last
  else Some dst.

Definition mem_copy_le (cx : ctx) (pd ss : nat) (dst src : list N) (n : nat) : option (list N) :=
  let full := (n / ss)%nat in
  let last := (n mod ss)%nat in
  dst <- copy_words (fun d i w => mem_stor_le cx ss pd d i w) dst src 0 full ;;
  if (0 <? last)%nat then
    w <- rd src full ;; mem_stor_le_n cx ss pd dst full w last
  else Some dst.

(** memory.h:685-715 [memory_set]. *)
Fixpoint set_loop (cx : ctx) (ps : nat) (arr : list N) (v : N) (i n : nat) : option (list N) :=
  match n with
  | O => Some arr
  | S n => arr <- mem_stor cx 1 ps arr i v ;; set_loop cx ps arr v (S i) n
  end.
Definition mem_set (cx : ctx) (ps : nat) (arr : list N) (v : N) (n : nat) : option (list N) :=
  if cx_ce cx then set_loop cx ps arr v 0 n else stor_bytes cx ps arr 0 (repeat v n).

(** memory.h:717-744 [memory_xor]; three distinct arrays (in-place use is [Model_Update]). *)
Fixpoint xor_loop (cx : ctx) (pd p0 p1 : nat) (dst a b : list N) (i n : nat) : option (list N) :=
  match n with
  | O => Some dst
  | S n =>
      x <- mem_load cx 1 p0 a i ;;
      y <- mem_load cx 1 p1 b i ;;
      dst <- mem_stor cx 1 pd dst i (N.lxor x y) ;;
      xor_loop cx pd p0 p1 dst a b (S i) n
  end.
Definition mem_xor cx pd p0 p1 dst a b n := xor_loop cx pd p0 p1 dst a b 0 n.

(** memory.h:746-783 [memory_equal]. *)
Fixpoint equal_loop (cx : ctx) (pa pb : nat) (a b : list N) (i n : nat) : option bool :=
  match n with
  | O => Some true
  | S n =>
      x <- mem_load cx 1 pa a i ;;
      y <- mem_load cx 1 pb b i ;;
      if x =? y then equal_loop cx pa pb a b (S i) n else Some false
  end.
Definition mem_equal (cx : ctx) (pa pb : nat) (a b : list N) (n : nat) : option bool :=
  if cx_ce cx then equal_loop cx pa pb a b 0 n
  else
    x <- rds (arr_bytes (cx_big cx) pa a) 0 n ;;
    y <- rds (arr_bytes (cx_big cx) pb b) 0 n ;;
    Some (if list_eq_dec N.eq_dec x y then true else false).

(** memory.h:785-812 [memory_equal] of containers. *)
Definition mem_equal_c (cx : ctx) (pa pb : nat) (a b : list N) : option bool :=
  if (length a * pa =? length b * pb)%nat then mem_equal cx pa pb a b (length b * pb) else Some false.

(** memory.h:814-839 [memory_match]. *)
Fixpoint match_loop (cx : ctx) (pa pb : nat) (a b : list N) (i n : nat) (tmp : N) : option N :=
  match n with
  | O => Some tmp
  | S n =>
      x <- mem_load cx 1 pa a i ;;
      y <- mem_load cx 1 pb b i ;;
      match_loop cx pa pb a b (S i) n (N.lor tmp (N.lxor x y))
  end.
Definition mem_match (cx : ctx) (pa pb : nat) (a b : list N) (n : nat) : option bool :=
  t <- match_loop cx pa pb a b 0 n 0 ;; Some (t =? 0).

(** memory.h:841-875 [memory_match] of containers (non-short-circuit [&]). *)
Definition mem_match_c (cx : ctx) (pa pb : nat) (a b : list N) : option bool :=
  r <- mem_match cx pa pb a b (Nat.min (length a * pa) (length b * pb)) ;;
  Some ((length a * pa =? length b * pb)%nat && r).

(** memory.h:877-905 [memory_zero], 907-967 [memory_erase]: [n] elements. *)
Fixpoint zero_loop (arr : list N) (i n : nat) : option (list N) :=
  match n with O => Some arr | S n => arr <- wr arr i 0 ;; zero_loop arr (S i) n end.
Definition mem_zero (arr : list N) (n : nat) : option (list N) := zero_loop arr 0 n.
Definition mem_erase (arr : list N) (n : nat) : option (list N) := zero_loop arr 0 n.

(** memory.h:969-1014 [memory_init]: the whole destination array from [src_size] source elements. *)
Definition mem_init (cx : ctx) (pd ps : nat) (dst src : list N) : option (list N) :=
  dst <- mem_zero dst (length dst) ;;
  mem_copy cx pd ps dst src (Nat.min (length dst * pd) (length src * ps)).

(** memory.h:1016-1064 [memory_init_be]. *)
Definition mem_init_be (cx : ctx) (pd ps : nat) (dst src : list N) : option (list N) :=
  dst <- mem_init cx pd ps dst src ;;
  Some (if negb (pd =? 1)%nat && negb (cx_big cx) then map (endian_bigof cx pd) dst else dst).

(** memory.h:1066-1114 [memory_init_le]. *)
Definition mem_init_le (cx : ctx) (pd ps : nat) (dst src : list N) : option (list N) :=
  dst <- mem_init cx pd ps dst src ;;
  Some (if negb (pd =? 1)%nat && cx_big cx then map (endian_littleof cx pd) dst else dst).
