(** What an observer of timing sees: the run-time code paths of Model_Memory, Model_Update, Model_Cipher, Model_Poly and
    Model_Aead, statement by statement, with every branch decision and every accessed address recorded.

    Recorded: each condition of an if, a loop and ?:, each element of an array that is read or written (its index), each
    range passed to memcpy and memset.  Not recorded: conditions of if constexpr and of "is constant evaluated" (decided
    by the compiler); accesses to scalars; [min], which only sees sizes.  Arithmetic is taken to have operand-independent
    time.  Each definition has the lines of the definition it instruments; the theorem C51_same_model says that the
    values are those of that definition. *)
From Verif Require Import Base Model_Memory Model_Update Model_Container Model_Sha Model_Mac Model_Hmac Model_Poly Model_Cipher Model_Aead.
Local Open Scope N_scope.

(** Arrays: the caller's memory, arguments in order, members of the object, local variables. *)
Inductive arr := Mem | Arg (k : nat) | Member (k : nat) | Local (k : nat).
Inductive leak :=
| Rd (a : arr) (i : nat) | Wr (a : arr) (i : nat)              (* element i *)
| RdN (a : arr) (off n : nat) | WrN (a : arr) (off n : nat)    (* n bytes from byte off *)
| Br (b : bool)
| Verdict (b : bool)                                           (* the branch on the verdict of verify *)
| Call (f : nat) (args : list nat).                            (* an assembly function, see C50 *)

(** Computations that may be undefined and leave a trace. *)
Definition L (A : Type) : Type := option (list leak * A).
Definition ret {A} (a : A) : L A := Some ([], a).
Definition lbind {A B} (m : L A) (f : A -> L B) : L B :=
  match m with
  | Some (t, a) => match f a with Some (t', b) => Some (t ++ t', b) | None => None end
  | None => None
  end.
Notation "x <~ e1 ;; e2" := (lbind e1 (fun x => e2)) (at level 100, e1 at next level, right associativity).
Notation "' p <~ e1 ;; e2" := (lbind e1 (fun p => e2)) (at level 100, p strict pattern, e1 at next level, right associativity).
Definition emit (t : list leak) : L unit := Some (t, tt).
Definition lift {A} (x : option A) : L A := match x with Some a => Some ([], a) | None => None end.
Definition lif {A} (b : bool) (x y : L A) : L A := _ <~ emit [Br b] ;; if b then x else y.
(** The value, without the trace. *)
Definition erase {A} (m : L A) : option A := match m with Some (_, a) => Some a | None => None end.

(** A pointer: an array and an index; what it points to is passed separately, as in the other models. *)
Definition ptr : Type := arr * nat.
Definition padd (p : ptr) (n : nat) : ptr := (fst p, (snd p + n)%nat).
Definition lrd (p : ptr) (l : list N) (i : nat) : L N := _ <~ emit [Rd (fst p) (snd p + i)] ;; lift (rd l i).
Definition lwr (p : ptr) (l : list N) (i : nat) (v : N) : L (list N) := _ <~ emit [Wr (fst p) (snd p + i)] ;; lift (wr l i v).
(** Byte arrays: memcpy from and to. *)
Definition lrds (p : ptr) (l : list N) (off n : nat) : L (list N) := _ <~ emit [RdN (fst p) (snd p + off) n] ;; lift (rds l off n).
Definition lwrs (p : ptr) (l : list N) (off : nat) (v : list N) : L (list N) :=
  _ <~ emit [WrN (fst p) (snd p + off) (length v)] ;; lift (wrs l off v).
(** Passing a sub-array (no access by itself). *)
Definition lat (p : ptr) (l : list N) (off : nat) (f : ptr -> list N -> L (list N)) : L (list N) :=
  if (off <=? length l)%nat then t <~ f (padd p off) (skipn off l) ;; ret (firstn off l ++ t) else None.

(** *** memory.h *)
(** memory.h:74-88 *)
Fixpoint l_load_loop (vs ps : nat) (p : ptr) (a : list N) (seg : nat) (is : list nat) (val : N) : L N :=
  match is with
  | [] => _ <~ emit [Br false] ;; ret val
  | i :: is =>
      _ <~ emit [Br true] ;;
      w <~ lrd p a (seg + i)%nat ;;
      l_load_loop vs ps p a seg is
        (N.lor (wshl (bits vs) val (bits ps)) (N.land (trunc (bits vs) w) (2 ^ bits ps - 1)))
  end.
(** memory.h:17-107 *)
Definition l_load (cx : ctx) (vs ps : nat) (p : ptr) (a : list N) (off : nat) : L N :=
  if (vs =? ps)%nat then lrd p a off
  else if cx_ce cx then
    let bse := (off * vs)%nat in
    let seg := (bse / ps)%nat in
    let o := (bse mod ps)%nat in
    if (0 <? vs mod ps)%nat then
      w <~ lrd p a seg ;; ret (trunc (bits vs) (N.shiftr w (part_bits cx vs ps o)))
    else l_load_loop vs ps p a seg (load_order cx (vs / ps)) 0
  else
    _ <~ emit [RdN (fst p) (snd p * ps + off * vs) vs] ;;
    l <~ lift (rds (arr_bytes (cx_big cx) ps a) (off * vs) vs) ;; ret (obj_value (cx_big cx) l).
(** memory.h:217-303 *)
Definition l_load_le cx vs ps p a off : L N := v <~ l_load cx vs ps p a off ;; ret (endian_littleof cx vs v).
Definition l_load_be cx vs ps p a off : L N := v <~ l_load cx vs ps p a off ;; ret (endian_bigof cx vs v).

(** memory.h:355-376 and 456-482 *)
Fixpoint l_stor_loop (ps : nat) (p : ptr) (a : list N) (seg : nat) (is : list nat) (val : N) : L (list N) :=
  match is with
  | [] => _ <~ emit [Br false] ;; ret a
  | i :: is =>
      _ <~ emit [Br true] ;;
      a <~ lwr p a (seg + i)%nat (trunc (bits ps) val) ;;
      l_stor_loop ps p a seg is (N.shiftr val (bits ps))
  end.
(** memcpy over the object representation *)
Definition l_stor_bytes (cx : ctx) (ps : nat) (p : ptr) (a : list N) (off : nat) (l : list N) : L (list N) :=
  _ <~ emit [WrN (fst p) (snd p * ps + off) (length l)] ;; lift (stor_bytes cx ps a off l).
(** memory.h:305-391 *)
Definition l_stor (cx : ctx) (vs ps : nat) (p : ptr) (a : list N) (off : nat) (val : N) : L (list N) :=
  if (vs =? ps)%nat then lwr p a off val
  else if cx_ce cx then
    let bse := (off * vs)%nat in
    let seg := (bse / ps)%nat in
    let o := (bse mod ps)%nat in
    if (0 <? vs mod ps)%nat then
      w <~ lrd p a seg ;; lwr p a seg (stor_part vs ps w val (part_bits cx vs ps o))
    else l_stor_loop ps p a seg (stor_order cx (vs / ps)) val
  else l_stor_bytes cx ps p a (off * vs) (obj_bytes (cx_big cx) vs val).
(** memory.h:393-496 *)
Definition l_stor_n (cx : ctx) (vs ps : nat) (p : ptr) (a : list N) (off : nat) (val : N) (n : nat) : L (list N) :=
  if cx_ce cx then
    let bse := (off * vs)%nat in
    let seg := (bse / ps)%nat in
    let o := (bse mod ps)%nat in
    lif (n =? 0)%nat (ret a)
    (if (vs =? ps)%nat then lwr p a off val
    else if (0 <? vs mod ps)%nat then
      w <~ lrd p a seg ;; lwr p a seg (stor_part vs ps w val (part_bits cx vs ps o))
    else
      let todo := Nat.min n (vs / ps) in
      let val := if cx_big cx then N.shiftr val (bits (ps * (vs / ps - todo))) else val in
      l_stor_loop ps p a seg (stor_order cx todo) val)
  else
    l_stor_bytes cx ps p a (off * vs) (firstn (Nat.min vs (ps * n)) (obj_bytes (cx_big cx) vs val)).
(** memory.h:498-580 *)
Definition l_stor_le cx vs ps p a off val := l_stor cx vs ps p a off (endian_littleof cx vs val).
Definition l_stor_be cx vs ps p a off val := l_stor cx vs ps p a off (endian_bigof cx vs val).
Definition l_stor_le_n cx vs ps p a off val n := l_stor_n cx vs ps p a off (endian_littleof cx vs val) n.
Definition l_stor_be_n cx vs ps p a off val n := l_stor_n cx vs ps p a off (endian_bigof cx vs val) n.

(** memory.h:595-607 *)
Fixpoint l_copy_loop (cx : ctx) (pd ps : nat) (p q : ptr) (dst src : list N) (i n : nat) : L (list N) :=
  match n with
  | O => _ <~ emit [Br false] ;; ret dst
  | S n =>
      _ <~ emit [Br true] ;;
      v <~ l_load cx 1 ps q src i ;;
      dst <~ l_stor cx 1 pd p dst i v ;;
      l_copy_loop cx pd ps p q dst src (S i) n
  end.
(** memory.h:582-615; [p]: the destination, [q]: the source *)
Definition l_copy (cx : ctx) (pd ps : nat) (p q : ptr) (dst src : list N) (n : nat) : L (list N) :=
  if cx_ce cx then l_copy_loop cx pd ps p q dst src 0 n
  else
    _ <~ emit [RdN (fst q) (snd q * ps) n] ;;
    l <~ lift (rds (arr_bytes (cx_big cx) ps src) 0 n) ;; l_stor_bytes cx pd p dst 0 l.
(** memory.h:617-683 *)
Fixpoint l_copy_words (stor : list N -> nat -> N -> L (list N)) (q : ptr) (dst src : list N) (i n : nat) : L (list N) :=
  match n with
  | O => _ <~ emit [Br false] ;; ret dst
  | S n =>
      _ <~ emit [Br true] ;;
      w <~ lrd q src i ;;
      dst <~ stor dst i w ;;
      l_copy_words stor q dst src (S i) n
  end.
Definition l_copy_be (cx : ctx) (pd ss : nat) (p q : ptr) (dst src : list N) (n : nat) : L (list N) :=
  let full := (n / ss)%nat in
  let last := (n mod ss)%nat in
  dst <~ l_copy_words (fun d i w => l_stor_be cx ss pd p d i w) q dst src 0 full ;;
  lif (0 <? last)%nat (w <~ lrd q src full ;; l_stor_be_n cx ss pd p dst full w last) (ret dst).
Definition l_copy_le (cx : ctx) (pd ss : nat) (p q : ptr) (dst src : list N) (n : nat) : L (list N) :=
  let full := (n / ss)%nat in
  let last := (n mod ss)%nat in
  dst <~ l_copy_words (fun d i w => l_stor_le cx ss pd p d i w) q dst src 0 full ;;
  lif (0 <? last)%nat (w <~ lrd q src full ;; l_stor_le_n cx ss pd p dst full w last) (ret dst).

(** memory.h:685-715 *)
Fixpoint l_set_loop (cx : ctx) (ps : nat) (p : ptr) (a : list N) (v : N) (i n : nat) : L (list N) :=
  match n with
  | O => _ <~ emit [Br false] ;; ret a
  | S n => _ <~ emit [Br true] ;; a <~ l_stor cx 1 ps p a i v ;; l_set_loop cx ps p a v (S i) n
  end.
Definition l_set (cx : ctx) (ps : nat) (p : ptr) (a : list N) (v : N) (n : nat) : L (list N) :=
  if cx_ce cx then l_set_loop cx ps p a v 0 n else l_stor_bytes cx ps p a 0 (repeat v n).

(** memory.h:814-839 [memory_match] *)
Fixpoint l_match_loop (cx : ctx) (pa pb : nat) (p q : ptr) (a b : list N) (i n : nat) (tmp : N) : L N :=
  match n with
  | O => _ <~ emit [Br false] ;; ret tmp
  | S n =>
      _ <~ emit [Br true] ;;
      x <~ l_load cx 1 pa p a i ;;
      y <~ l_load cx 1 pb q b i ;;
      l_match_loop cx pa pb p q a b (S i) n (N.lor tmp (N.lxor x y))
  end.
Definition l_match (cx : ctx) (pa pb : nat) (p q : ptr) (a b : list N) (n : nat) : L bool :=
  t <~ l_match_loop cx pa pb p q a b 0 n 0 ;; ret (t =? 0).
(** memory.h:841-875 *)
Definition l_match_c (cx : ctx) (pa pb : nat) (p q : ptr) (a b : list N) : L bool :=
  r <~ l_match cx pa pb p q a b (Nat.min (length a * pa) (length b * pb)) ;;
  ret ((length a * pa =? length b * pb)%nat && r).
(** memory.h:746-783 [memory_equal], for comparison: the loop it runs at compile time stops at the first
    difference (at run time it calls std::memcmp, which may do so). *)
Fixpoint l_equal_loop (cx : ctx) (pa pb : nat) (p q : ptr) (a b : list N) (i n : nat) : L bool :=
  match n with
  | O => _ <~ emit [Br false] ;; ret true
  | S n =>
      _ <~ emit [Br true] ;;
      x <~ l_load cx 1 pa p a i ;;
      y <~ l_load cx 1 pb q b i ;;
      _ <~ emit [Br (negb (x =? y))] ;;
      if x =? y then l_equal_loop cx pa pb p q a b (S i) n else ret false
  end.

(** memory.h:877-905 *)
Fixpoint l_zero_loop (p : ptr) (a : list N) (i n : nat) : L (list N) :=
  match n with
  | O => _ <~ emit [Br false] ;; ret a
  | S n => _ <~ emit [Br true] ;; a <~ lwr p a i 0 ;; l_zero_loop p a (S i) n
  end.
(** memory.h:969-1014 *)
Definition l_init (cx : ctx) (pd ps : nat) (p q : ptr) (dst src : list N) : L (list N) :=
  dst <~ l_zero_loop p dst 0 (length dst) ;;
  l_copy cx pd ps p q dst src (Nat.min (length dst * pd) (length src * ps)).
(** memory.h:1066-1114: the last loop rewrites each element in place. *)
Definition l_init_le (cx : ctx) (pd ps : nat) (p q : ptr) (dst src : list N) : L (list N) :=
  dst <~ l_init cx pd ps p q dst src ;;
  if negb (pd =? 1)%nat && cx_big cx then
    _ <~ emit (flat_map (fun i => [Br true; Rd (fst p) (snd p + i); Wr (fst p) (snd p + i)]) (seq 0 (length dst)) ++ [Br false]) ;;
    ret (map (endian_littleof cx pd) dst)
  else ret dst.

(** *** update.h *)
(** update.h:14-95.  [invoke n st ptr bytes]; [p]: the buffer, [q]: the source. *)
Definition l_soak {St : Type} (block_size : nat) (invoke : nat -> St -> ptr -> list N -> L St) (p q : ptr)
  (buf : list N) (buf_size : nat) (src : list N) (st : St) : L (list N * nat * St) :=
  let blocks_and_tail buf q src st :=
    let full_blks := (length src / block_size)%nat in
    let last_size := (length src mod block_size)%nat in
    '(st, q, src) <~ lif (0 <? full_blks)%nat
                   (st <~ invoke full_blks st q src ;; ret (st, padd q (full_blks * block_size), skipn (full_blks * block_size) src))
                   (ret (st, q, src)) ;;
    buf <~ lif (0 <? last_size)%nat (l <~ lrds q src 0 last_size ;; lwrs p buf 0 l) (ret buf) ;;
    ret (buf, last_size, st) in
  lif (0 <? buf_size)%nat
    (if (block_size <? buf_size)%nat then None else
     let left_size := (block_size - buf_size)%nat in
     let todo_size := Nat.min left_size (length src) in
     l <~ lrds q src 0 todo_size ;;
     buf <~ lwrs p buf buf_size l ;;
     lif (todo_size <? left_size)%nat (ret (buf, (buf_size + todo_size)%nat, st))
       (st <~ invoke 1%nat st p buf ;;
        blocks_and_tail buf (padd q todo_size) (skipn todo_size src) st))
    (blocks_and_tail buf q src st).

(** memory.h:717-744 [memory_xor] in the flat memory; [p]: the key stream *)
Fixpoint l_mxor_loop (p : ptr) (m : list N) (dst src : nat) (key : list N) (koff : nat) (i n : nat) : L (list N) :=
  match n with
  | O => _ <~ emit [Br false] ;; ret m
  | S n =>
      _ <~ emit [Br true] ;;
      x <~ lrd (Mem, 0%nat) m (src + i)%nat ;;
      y <~ lrd p key (koff + i)%nat ;;
      m <~ lwr (Mem, 0%nat) m (dst + i)%nat (N.lxor x y) ;;
      l_mxor_loop p m dst src key koff (S i) n
  end.

(** *** Cipher backends *)
Record lbackend := {
  lb_bk : backend;   (* the backend it instruments *)
  lb_transform : ctx -> nat -> list N -> list N -> nat -> nat -> L (list N * nat);
  lb_generate : ctx -> nat -> list N -> list N -> L (list N * nat)
}.
(** Arrays of the cipher object: m_state, m_buffer. *)
Definition p_state : ptr := (Member 0, 0%nat).
Definition p_buffer : ptr := (Member 1, 0%nat).

(** update.h:97-194 *)
Definition l_prod_xor (B : lbackend) (cx : ctx) (cb : list N -> nat -> L (list N))
  (buf : list N) (buf_size : nat) (m : list N) (dst src size : nat) (st : list N) : L (list N * nat * list N * list N) :=
  let block_size := bk_block (lb_bk B) in
  let blocks_and_tail m dst src size :=
    let full_blks := (size / block_size)%nat in
    let last_size := (size mod block_size)%nat in
    '(st, m, dst, src) <~
      lif (0 <? full_blks)%nat
        ('(m, done) <~ lb_transform B cx full_blks st m dst src ;;
         st <~ cb st done ;;
         ret (st, m, (dst + full_blks * block_size)%nat, (src + full_blks * block_size)%nat))
        (ret (st, m, dst, src)) ;;
    lif (0 <? last_size)%nat
      ('(buf, done) <~ lb_generate B cx 1%nat st buf ;;
       st <~ cb st done ;;
       m <~ l_mxor_loop p_buffer m dst src buf 0 0 last_size ;;
       ret (buf, last_size, st, m))
      (ret (buf, last_size, st, m)) in
  lif (0 <? buf_size)%nat
    (if (block_size <? buf_size)%nat then None else
     let left_size := (block_size - buf_size)%nat in
     let todo_size := Nat.min left_size size in
     m <~ l_mxor_loop p_buffer m dst src buf buf_size 0 todo_size ;;
     lif (todo_size <? left_size)%nat (ret (buf, (buf_size + todo_size)%nat, st, m))
       (blocks_and_tail m (dst + todo_size)%nat (src + todo_size)%nat (size - todo_size)%nat))
    (blocks_and_tail m dst src size).

(** *** chacha_impl_sw.h: state_base and state_eval are local arrays. *)
Definition p_base : ptr := (Local 0, 0%nat).
Definition p_eval : ptr := (Local 1, 0%nat).
(** chacha_impl_sw.h:66-74 *)
Definition l_cc_round (a b c d : nat) (s : list N) : L (list N) :=
  let r := lrd p_eval in
  let w := lwr p_eval in
  x <~ r s a ;; y <~ r s b ;; s <~ w s a (wadd 32 x y) ;;
  x <~ r s d ;; y <~ r s a ;; s <~ w s d (rotl 32 (N.lxor x y) 16) ;;
  x <~ r s c ;; y <~ r s d ;; s <~ w s c (wadd 32 x y) ;;
  x <~ r s b ;; y <~ r s c ;; s <~ w s b (rotl 32 (N.lxor x y) 12) ;;
  x <~ r s a ;; y <~ r s b ;; s <~ w s a (wadd 32 x y) ;;
  x <~ r s d ;; y <~ r s a ;; s <~ w s d (rotl 32 (N.lxor x y) 8) ;;
  x <~ r s c ;; y <~ r s d ;; s <~ w s c (wadd 32 x y) ;;
  x <~ r s b ;; y <~ r s c ;; w s b (rotl 32 (N.lxor x y) 7).
(** chacha_impl_sw.h:87-104 *)
Definition l_cc_double (s : list N) : L (list N) :=
  s <~ l_cc_round 0 4 8 12 s ;; s <~ l_cc_round 1 5 9 13 s ;;
  s <~ l_cc_round 2 6 10 14 s ;; s <~ l_cc_round 3 7 11 15 s ;;
  s <~ l_cc_round 0 5 10 15 s ;; s <~ l_cc_round 1 6 11 12 s ;;
  s <~ l_cc_round 2 7 8 13 s ;; l_cc_round 3 4 9 14 s.
Fixpoint l_cc_rounds (n : nat) (s : list N) : L (list N) :=
  match n with
  | O => _ <~ emit [Br false] ;; ret s
  | S n => _ <~ emit [Br true] ;; s <~ l_cc_double s ;; l_cc_rounds n s
  end.
(** chacha_impl_sw.h:106-109 *)
Fixpoint l_cc_add (ev base : list N) (i n : nat) : L (list N) :=
  match n with
  | O => _ <~ emit [Br false] ;; ret ev
  | S n =>
      _ <~ emit [Br true] ;;
      x <~ lrd p_eval ev i ;; y <~ lrd p_base base i ;; ev <~ lwr p_eval ev i (wadd 32 x y) ;; l_cc_add ev base (S i) n
  end.
(** chacha_impl_sw.h:111-127 *)
Fixpoint l_cc_out_transform (cx : ctx) (ev m : list N) (dst src i n : nat) : L (list N) :=
  match n with
  | O => _ <~ emit [Br false] ;; ret m
  | S n =>
      _ <~ emit [Br true] ;;
      x <~ lrd p_eval ev i ;;
      w <~ (if (src <=? length m)%nat then l_load_le cx 4 1 (Mem, src) (skipn src m) i else None) ;;
      m <~ lat (Mem, 0%nat) m dst (fun p l => l_stor_le cx 4 1 p l i (N.lxor x w)) ;;
      l_cc_out_transform cx ev m dst src (S i) n
  end.
Fixpoint l_cc_out_generate (cx : ctx) (p : ptr) (ev m : list N) (dst i n : nat) : L (list N) :=
  match n with
  | O => _ <~ emit [Br false] ;; ret m
  | S n =>
      _ <~ emit [Br true] ;;
      x <~ lrd p_eval ev i ;;
      m <~ lat p m dst (fun p l => l_stor_le cx 4 1 p l i x) ;;
      l_cc_out_generate cx p ev m dst (S i) n
  end.
(** chacha_impl_sw.h:78-138; lines 82-85 copy the state. *)
Fixpoint l_cc_blocks (cx : ctx) (out : list N -> list N -> nat -> nat -> L (list N))
  (n : nat) (base m : list N) (dst src : nat) : L (list N) :=
  match n with
  | O => _ <~ emit [Br false] ;; ret m
  | S n =>
      _ <~ emit [Br true] ;;
      _ <~ emit (flat_map (fun i => [Br true; Rd (Local 0) i; Wr (Local 1) i]) (seq 0 16) ++ [Br false]) ;;
      ev <~ l_cc_rounds 10 base ;;
      ev <~ l_cc_add ev base 0 16 ;;
      m <~ out ev m dst src ;;
      c <~ lrd p_base base 12 ;; base <~ lwr p_base base 12 (wadd 32 c 1) ;;
      l_cc_blocks cx out n base m (dst + 64) (src + 64)
  end.
(** chacha_impl_sw.h:43-138; lines 59-62 copy the argument. *)
Definition copied (a b : arr) (n : nat) : list leak := flat_map (fun i => [Br true; Rd a i; Wr b i]) (seq 0 n) ++ [Br false].
Definition l_cc_transform (cx : ctx) (n : nat) (st m : list N) (dst src : nat) : L (list N * nat) :=
  _ <~ emit (copied (Member 0) (Local 0) 16) ;;
  base <~ lift (rds st 0 16) ;;
  m <~ l_cc_blocks cx (fun ev m d s => l_cc_out_transform cx ev m d s 0 16) n base m dst src ;;
  ret (m, n).
Definition l_cc_generate (cx : ctx) (n : nat) (st buf : list N) : L (list N * nat) :=
  _ <~ emit (copied (Member 0) (Local 0) 16) ;;
  base <~ lift (rds st 0 16) ;;
  buf <~ l_cc_blocks cx (fun ev m d _ => l_cc_out_generate cx p_buffer ev m d 0 16) n base buf 0 0 ;;
  ret (buf, n).
Definition lbk_sw : lbackend := {| lb_bk := bk_sw; lb_transform := l_cc_transform; lb_generate := l_cc_generate |}.
(** A backend in assembly: what its functions access depends on their arguments only (C50_chacha_constant_time). *)
Definition lbk_asm (B : backend) : lbackend := {|
  lb_bk := B;
  lb_transform := fun cx n st m dst src => _ <~ emit [Call 0 [n; dst; src]] ;; lift (bk_transform B cx n st m dst src);
  lb_generate := fun cx n st buf => _ <~ emit [Call 1 [n]] ;; lift (bk_generate B cx n st buf) |}.

(** *** chacha.h *)
(** chacha.h:95-127 *)
Definition l_cc_initialize (cx : ctx) (o : cc_obj) (pk pv : ptr) (key iv : list N) : L cc_obj :=
  s <~ lwr p_state (cc_state o) 0 0x61707865 ;; s <~ lwr p_state s 1 0x3320646e ;;
  s <~ lwr p_state s 2 0x79622d32 ;; s <~ lwr p_state s 3 0x6b206574 ;;
  k <~ lift (rds s 4 8) ;; k <~ l_init_le cx 4 1 (padd p_state 4) pk k key ;; s <~ lift (wrs s 4 k) ;;
  v <~ lift (rds s 12 4) ;; v <~ l_init_le cx 4 1 (padd p_state 12) pv v iv ;; s <~ lift (wrs s 12 v) ;;
  ret {| cc_state := s; cc_buffer := cc_buffer o; cc_size := 0 |}.
(** chacha.h:147-153 *)
Definition l_cc_count (st : list N) (blocks : nat) : L (list N) :=
  c <~ lrd p_state st 12 ;; lwr p_state st 12 ((c + N.of_nat blocks) mod 2 ^ 32).
(** chacha.h:129-158 and 173-202 *)
Definition l_cc_crypt (B : lbackend) (cx : ctx) (o : cc_obj) (m : list N) (src size dst : nat) : L (cc_obj * list N * nat) :=
  '(b, n, s, m) <~ l_prod_xor B cx l_cc_count (cc_buffer o) (cc_size o) m dst src size (cc_state o) ;;
  ret ({| cc_state := s; cc_buffer := b; cc_size := n |}, m, size).

(** *** poly_1305_impl_sw.h; arrays of the object: m_key_r, m_key_s, m_acc, m_buffer *)
Definition p_r : ptr := (Member 2, 0%nat).
Definition p_s : ptr := (Member 3, 0%nat).
Definition p_acc : ptr := (Member 4, 0%nat).
Definition p_pbuf : ptr := (Member 5, 0%nat).
(** poly_1305_impl_sw.h:71-100; [poly_mul] on the key words read does no further access and has no branch. *)
Definition l_poly_mul (key : list N) (acc : limbs) : L limbs :=
  k0 <~ lrd p_r key 0 ;; k1 <~ lrd p_r key 1 ;; k2 <~ lrd p_r key 2 ;; k3 <~ lrd p_r key 3 ;;
  k4 <~ lrd p_r key 4 ;; k5 <~ lrd p_r key 5 ;; k6 <~ lrd p_r key 6 ;; k7 <~ lrd p_r key 7 ;;
  lift (poly_mul true [k0; k1; k2; k3; k4; k5; k6; k7] acc).
(** poly_1305_impl_sw.h:41-101; [poly_add_block] has no access and no branch. *)
Fixpoint l_poly_blocks (cx : ctx) (key : list N) (add : N) (n : nat) (acc : limbs) (q : ptr) (src : list N) : L limbs :=
  match n with
  | O => _ <~ emit [Br false] ;; ret acc
  | S n =>
      _ <~ emit [Br true] ;;
      t_0 <~ l_load_le cx 4 1 q src 0 ;; t_1 <~ l_load_le cx 4 1 q src 1 ;;
      t_2 <~ l_load_le cx 4 1 q src 2 ;; t_3 <~ l_load_le cx 4 1 q src 3 ;;
      acc <~ lift (poly_add_block true t_0 t_1 t_2 t_3 add acc) ;;
      acc <~ l_poly_mul key acc ;;
      l_poly_blocks cx key add n acc (padd q 16) (skipn 16 src)
  end.
(** poly_1305_impl_sw.h:25-109 *)
Definition l_poly_process (cx : ctx) (key : list N) (add : N) (n : nat) (acc : list N) (q : ptr) (src : list N) : L (list N) :=
  a0 <~ lrd p_acc acc 0 ;; a1 <~ lrd p_acc acc 1 ;; a2 <~ lrd p_acc acc 2 ;; a3 <~ lrd p_acc acc 3 ;; a4 <~ lrd p_acc acc 4 ;;
  '(a0, a1, a2, a3, a4) <~ l_poly_blocks cx key add n (a0, a1, a2, a3, a4) q src ;;
  a0 <~ lift (fits true 32 a0) ;; a1 <~ lift (fits true 32 a1) ;; a2 <~ lift (fits true 32 a2) ;; a3 <~ lift (fits true 32 a3) ;;
  a4 <~ lift (fits true 32 a4) ;;
  acc <~ lwr p_acc acc 0 a0 ;; acc <~ lwr p_acc acc 1 a1 ;; acc <~ lwr p_acc acc 2 a2 ;; acc <~ lwr p_acc acc 3 a3 ;; lwr p_acc acc 4 a4.
(** poly_1305.h:105-134 *)
Definition l_poly_initialize (cx : ctx) (o : poly_obj) (pk : ptr) (key : list N) : L poly_obj :=
  let rr := lrd p_r in
  let wr := lwr p_r in
  r <~ l_init cx 4 1 p_r pk (po_r o) key ;;
  x <~ rr r 0%nat ;; r <~ wr r 0%nat (N.land x 0x0fffffff) ;;
  x <~ rr r 1%nat ;; r <~ wr r 1%nat (N.land x 0x0ffffffc) ;;
  x <~ rr r 2%nat ;; r <~ wr r 2%nat (N.land x 0x0ffffffc) ;;
  x <~ rr r 3%nat ;; r <~ wr r 3%nat (N.land x 0x0ffffffc) ;;
  x <~ rr r 4%nat ;; s <~ lwr p_s (po_s o) 0 x ;;
  x <~ rr r 5%nat ;; s <~ lwr p_s s 1 x ;;
  x <~ rr r 6%nat ;; s <~ lwr p_s s 2 x ;;
  x <~ rr r 7%nat ;; s <~ lwr p_s s 3 x ;;
  x <~ rr r 0%nat ;; x <~ lift (umul true 32 (N.shiftr x 2) 5) ;; r <~ wr r 4%nat x ;;
  x <~ rr r 1%nat ;; x <~ lift (umul true 32 (N.shiftr x 2) 5) ;; r <~ wr r 5%nat x ;;
  x <~ rr r 2%nat ;; x <~ lift (umul true 32 (N.shiftr x 2) 5) ;; r <~ wr r 6%nat x ;;
  x <~ rr r 3%nat ;; x <~ lift (umul true 32 (N.shiftr x 2) 5) ;; r <~ wr r 7%nat x ;;
  a <~ lwr p_acc (po_acc o) 0 0 ;; a <~ lwr p_acc a 1 0 ;; a <~ lwr p_acc a 2 0 ;; a <~ lwr p_acc a 3 0 ;; a <~ lwr p_acc a 4 0 ;;
  ret {| po_r := r; po_s := s; po_acc := a; po_buffer := po_buffer o; po_size := 0 |}.
(** poly_1305.h:140-156 *)
Definition l_poly_update (cx : ctx) (o : poly_obj) (q : ptr) (msg : list N) : L poly_obj :=
  '(b, n, a) <~ l_soak 16 (l_poly_process cx (po_r o) 1) p_pbuf q (po_buffer o) (po_size o) msg (po_acc o) ;;
  ret {| po_r := po_r o; po_s := po_s o; po_acc := a; po_buffer := b; po_size := n |}.
(** poly_1305.h:162-179 *)
Definition l_poly_last (cx : ctx) (o : poly_obj) : L (list N * list N) :=
  lif (0 <? po_size o)%nat
    (b <~ lwr p_pbuf (po_buffer o) (po_size o) 1 ;;
     b <~ lat p_pbuf b (po_size o + 1) (fun p l => l_set cx 1 p l 0 (16 - po_size o - 1)) ;;
     a <~ l_poly_process cx (po_r o) 0 1 (po_acc o) p_pbuf b ;;
     ret (b, a))
    (ret (po_buffer o, po_acc o)).
(** poly_1305.h:181-207: the selection between h and h - p is done with masks, not with a branch. *)
Definition l_poly_finish (s acc : list N) : L (list N) :=
  a0 <~ lrd p_acc acc 0 ;; a1 <~ lrd p_acc acc 1 ;; a2 <~ lrd p_acc acc 2 ;; a3 <~ lrd p_acc acc 3 ;; a4 <~ lrd p_acc acc 4 ;;
  t_0 <~ lift (uadd true 64 a0 5) ;;
  t_1 <~ lift (uadd true 64 a1 (N.shiftr t_0 32)) ;;
  t_2 <~ lift (uadd true 64 a2 (N.shiftr t_1 32)) ;;
  t_3 <~ lift (uadd true 64 a3 (N.shiftr t_2 32)) ;;
  x <~ lift (uadd true 64 a4 (N.shiftr t_3 32)) ;;
  let mask := wneg 64 (N.shiftr x 2) in
  let mask_neg := wnot 64 mask in
  let t_0 := N.lor (N.land t_0 mask) (N.land a0 mask_neg) in
  let t_1 := N.lor (N.land t_1 mask) (N.land a1 mask_neg) in
  let t_2 := N.lor (N.land t_2 mask) (N.land a2 mask_neg) in
  let t_3 := N.lor (N.land t_3 mask) (N.land a3 mask_neg) in
  let t_0 := N.land t_0 0xffffffff in
  let t_1 := N.land t_1 0xffffffff in
  let t_2 := N.land t_2 0xffffffff in
  let t_3 := N.land t_3 0xffffffff in
  s0 <~ lrd p_s s 0 ;; s1 <~ lrd p_s s 1 ;; s2 <~ lrd p_s s 2 ;; s3 <~ lrd p_s s 3 ;;
  t_0 <~ lift (uadd true 64 t_0 s0) ;;
  x <~ lift (uadd true 64 s1 (N.shiftr t_0 32)) ;; t_1 <~ lift (uadd true 64 t_1 x) ;;
  x <~ lift (uadd true 64 s2 (N.shiftr t_1 32)) ;; t_2 <~ lift (uadd true 64 t_2 x) ;;
  x <~ lift (uadd true 64 s3 (N.shiftr t_2 32)) ;; t_3 <~ lift (uadd true 64 t_3 x) ;;
  acc <~ lwr p_acc acc 0 (trunc 32 t_0) ;; acc <~ lwr p_acc acc 1 (trunc 32 t_1) ;;
  acc <~ lwr p_acc acc 2 (trunc 32 t_2) ;; lwr p_acc acc 3 (trunc 32 t_3).
(** poly_1305.h:158-208 *)
Definition l_poly_finalize (cx : ctx) (o : poly_obj) : L poly_obj :=
  '(b, a) <~ l_poly_last cx o ;;
  a <~ l_poly_finish (po_s o) a ;;
  ret {| po_r := po_r o; po_s := po_s o; po_acc := a; po_buffer := b; po_size := po_size o |}.
(** poly_1305.h:210-231 *)
Definition l_poly_digest (cx : ctx) (dsz : nat) (o : poly_obj) (p : ptr) (dst : list N) (size : nat) : L (list N * nat) :=
  let n := Nat.min size dsz in
  dst <~ l_copy_le cx 1 4 p p_acc dst (po_acc o) n ;;
  ret (dst, n).

(** *** chacha_20_poly_1305.h; the arguments key and iv are [Arg 0] and [Arg 1], other arguments [Arg 2] *)
(** Lines 78-122 *)
Definition l_aead_initialize (B : lbackend) (cx : ctx) (o : aead_obj) (key iv : list N) : L aead_obj :=
  v <~ lat (Local 2, 0%nat) (repeat 0 16) 4 (fun p l => l_init cx 1 1 p (Arg 1, 0%nat) l iv) ;;
  c <~ l_cc_initialize cx (ao_cipher o) (Arg 0, 0%nat) (Local 2, 0%nat) key v ;;
  '(c, k, _) <~ l_cc_crypt B cx c (repeat 0 64) 0 64 0 ;;    (* the memory here is the local init_mac_key *)
  h <~ l_poly_initialize cx (ao_mac o) (Local 3, 0%nat) k ;;
  ret {| ao_cipher := c; ao_mac := h; ao_aad := 0; ao_edd := 0 |}.
(** Lines 128-139 *)
Definition l_aead_aad (cx : ctx) (o : aead_obj) (data : list N) : L aead_obj :=
  h <~ l_poly_update cx (ao_mac o) (Arg 2, 0%nat) data ;;
  ret {| ao_cipher := ao_cipher o; ao_mac := h; ao_aad := wadd 64 (ao_aad o) (N.of_nat (length data)); ao_edd := ao_edd o |}.
(** Lines 141-152 *)
Definition l_aead_aadover (cx : ctx) (o : aead_obj) : L aead_obj :=
  z <~ lift (aead_zeros (ao_aad o)) ;;
  h <~ l_poly_update cx (ao_mac o) (Local 4, 0%nat) z ;;
  ret {| ao_cipher := ao_cipher o; ao_mac := h; ao_aad := ao_aad o; ao_edd := ao_edd o |}.
(** Lines 158-178 *)
Definition l_aead_encrypt (B : lbackend) (cx : ctx) (o : aead_obj) (m : list N) (src size dst : nat) : L (aead_obj * list N * nat) :=
  '(c, m, n) <~ l_cc_crypt B cx (ao_cipher o) m src size dst ;;
  ct <~ lift (rds m dst n) ;;
  h <~ l_poly_update cx (ao_mac o) (Mem, dst) ct ;;
  ret ({| ao_cipher := c; ao_mac := h; ao_aad := ao_aad o; ao_edd := wadd 64 (ao_edd o) (N.of_nat n) |}, m, n).
(** Lines 199-219 *)
Definition l_aead_decrypt (B : lbackend) (cx : ctx) (o : aead_obj) (m : list N) (src size dst : nat) : L (aead_obj * list N * nat) :=
  ct <~ lift (rds m src size) ;;
  h <~ l_poly_update cx (ao_mac o) (Mem, src) ct ;;
  '(c, m, n) <~ l_cc_crypt B cx (ao_cipher o) m src size dst ;;
  ret ({| ao_cipher := c; ao_mac := h; ao_aad := ao_aad o; ao_edd := wadd 64 (ao_edd o) (N.of_nat n) |}, m, n).
(** Lines 236-268 *)
Definition l_aead_finalize (cx : ctx) (o : aead_obj) : L aead_obj :=
  z <~ lift (aead_zeros (ao_edd o)) ;;
  h <~ l_poly_update cx (ao_mac o) (Local 4, 0%nat) z ;;
  b <~ l_stor_le cx 8 1 (Local 5, 0%nat) (repeat 0 16) 0 (ao_aad o) ;;
  b <~ l_stor_le cx 8 1 (Local 5, 0%nat) b 1 (ao_edd o) ;;
  h <~ l_poly_update cx h (Local 5, 0%nat) b ;;
  h <~ l_poly_finalize cx h ;;
  ret {| ao_cipher := ao_cipher o; ao_mac := h; ao_aad := ao_aad o; ao_edd := ao_edd o |}.

(** *** aead/apie.h *)
(** apie.h:179-195 and 214-225 *)
Definition l_aapie_initialize (B : lbackend) (cx : ctx) (p : aead_apie) (key iv : list N) : L aead_apie :=
  o <~ l_aead_initialize B cx (ap_impl p) key iv ;; ret {| ap_impl := o; ap_aad_done := false; ap_done := false |}.
(** apie.h:130-154 *)
Definition l_aapie_finalize_aad (cx : ctx) (p : aead_apie) : L aead_apie :=
  lif (ap_aad_done p) (ret p)
    (o <~ l_aead_aadover cx (ap_impl p) ;; ret {| ap_impl := o; ap_aad_done := true; ap_done := ap_done p |}).
Definition l_aapie_finalize (cx : ctx) (p : aead_apie) : L aead_apie :=
  lif (ap_done p) (ret p)
    (o <~ l_aead_finalize cx (ap_impl p) ;; ret {| ap_impl := o; ap_aad_done := ap_aad_done p; ap_done := true |}).
(** apie.h:241-272 *)
Definition l_aapie_aad (cx : ctx) (p : aead_apie) (data : list N) : L aead_apie :=
  o <~ l_aead_aad cx (ap_impl p) data ;; ret {| ap_impl := o; ap_aad_done := ap_aad_done p; ap_done := ap_done p |}.
(** apie.h:295-308 and 461-474 *)
Definition l_aapie_crypt (dir : direction) (B : lbackend) (cx : ctx) (p : aead_apie) (m : list N) (src size dst : nat)
  : L (aead_apie * list N * nat) :=
  p <~ l_aapie_finalize_aad cx p ;;
  '(o, m, n) <~ match dir with
                | Encrypt => l_aead_encrypt B cx (ap_impl p) m src size dst
                | Decrypt => l_aead_decrypt B cx (ap_impl p) m src size dst
                end ;;
  ret ({| ap_impl := o; ap_aad_done := ap_aad_done p; ap_done := ap_done p |}, m, n).
(** apie.h:329-351 and 495-517 *)
Definition l_aapie_crypt_c (dir : direction) (B : lbackend) (cx : ctx) (p : aead_apie) (text : list N) (c : container)
  : L (aead_apie * container * nat) :=
  let '(c, _) := cresize c (aapie_size dir (length text)) in
  '(p, m, n) <~ l_aapie_crypt dir B cx p (text ++ cdata c) 0 (length text) (length text) ;;
  let c := cset c (skipn (length text) m) in
  let '(c, _) := cresize c n in
  ret (p, c, n).
Definition l_aapie_crypt_same (dir : direction) (B : lbackend) (cx : ctx) (p : aead_apie) (c : container)
  : L (aead_apie * container * nat) :=
  let '(c, _) := cresize c (aapie_size dir (length (cdata c))) in
  '(p, m, n) <~ l_aapie_crypt dir B cx p (cdata c) 0 (length (cdata c)) 0 ;;
  let c := cset c m in
  let '(c, _) := cresize c n in
  ret (p, c, n).
(** apie.h:622-633 and 651-672; [q]: the destination *)
Definition l_aapie_digest (cx : ctx) (dsz : nat) (p : aead_apie) (q : ptr) (dst : list N) (size : nat)
  : L (aead_apie * list N * nat) :=
  p <~ l_aapie_finalize cx p ;;
  '(dst, n) <~ l_poly_digest cx dsz (ao_mac (ap_impl p)) q dst size ;;
  ret (p, dst, n).
Definition l_aapie_digest_c (cx : ctx) (dsz : nat) (p : aead_apie) (q : ptr) (c : container) (size : nat)
  : L (aead_apie * container * nat) :=
  p <~ l_aapie_finalize cx p ;;
  let size := Nat.min size dsz in
  let '(c, size) := cresize c size in
  '(p, dst, n) <~ l_aapie_digest cx dsz p q (cdata c) size ;;
  ret (p, cset c dst, n).
(** apie.h:719-735 *)
Definition l_aapie_digest_static (cx : ctx) (dsz : nat) (p : aead_apie) (junk : list N) : L (aead_apie * list N) :=
  '(p, c, _) <~ l_aapie_digest_c cx dsz p (Local 6, 0%nat) (Static junk) (length junk) ;; ret (p, cdata c).
(** apie.h:753-769 and 818-828; line 759 is the ?: on the verdict *)
Definition l_aapie_verify (cx : ctx) (dsz : nat) (p : aead_apie) (junk mac : list N) : L (aead_apie * errcode) :=
  '(p, d) <~ l_aapie_digest_static cx dsz p junk ;;
  b <~ l_match_c cx 1 1 (Local 6, 0%nat) (Arg 3, 0%nat) d mac ;;
  _ <~ emit [Verdict b] ;;
  ret (p, if b then err_none else err_aead_verify).

(** *** Call sequences on one object *)
Definition l_aead_step (B : lbackend) (cx : ctx) (dsz : nat) (p : aead_apie) (c : aead_call) : L (aead_apie * aead_out) :=
  match c with
  | AInit k v => p <~ l_aapie_initialize B cx p k v ;; ret (p, ANone)
  | AAad d => p <~ l_aapie_aad cx p d ;; ret (p, ANone)
  | ACrypt dir m s n d => '(p, m, n) <~ l_aapie_crypt dir B cx p m s n d ;; ret (p, AMem m n)
  | ACryptC dir t c => '(p, c, n) <~ l_aapie_crypt_c dir B cx p t c ;; ret (p, ACon c n)
  | ACryptSame dir c => '(p, c, n) <~ l_aapie_crypt_same dir B cx p c ;; ret (p, ACon c n)
  | ADigest d s => '(p, d, n) <~ l_aapie_digest cx dsz p (Arg 3, 0%nat) d s ;; ret (p, ATag d n)
  | ADigestC c s => '(p, c, n) <~ l_aapie_digest_c cx dsz p (Arg 3, 0%nat) c s ;; ret (p, ATagC c n)
  | AVerify j m => '(p, e) <~ l_aapie_verify cx dsz p j m ;; ret (p, AErr e)
  end.
Fixpoint l_aead_run (B : lbackend) (cx : ctx) (dsz : nat) (p : aead_apie) (calls : list aead_call)
  : L (aead_apie * list aead_out) :=
  match calls with
  | [] => ret (p, [])
  | c :: calls =>
      '(p, o) <~ l_aead_step B cx dsz p c ;;
      '(p, os) <~ l_aead_run B cx dsz p calls ;;
      ret (p, o :: os)
  end.
(** A new object, before [initialize] (apie.h:85-126, as in Model_Aead.aapie_new). *)
Definition aead_fresh : aead_apie := {| ap_impl := aead_new 0 0; ap_aad_done := false; ap_done := false |}.
