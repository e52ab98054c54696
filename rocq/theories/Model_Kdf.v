(** Model of src/milo/primitive/detail/kdf/hkdf.h, detail/kdf/pbkdf_2.h and src/milo/primitive/kdf/apie.h over any MAC class.

    The caller's memory from which ikm, salt and info are taken is one flat array [env]; it may differ from call to
    call (the caller may write to it or, making it shorter, free it).  The output is a separate range given by the
    bytes it holds.  A view into a caller's range is [VPtr]; at compile time it is a copy. *)
From Verif Require Import Base Model_Memory Model_Update Model_Container Model_Sha Model_Mac Model_Hmac Model_Cipher.
Local Open Scope N_scope.

(** *** memory.h:1116-1282 [memory_bytes_const_view] *)
Inductive view := VPtr (off size : nat) | VCopy (l : list N).
(** Lines 1129-1133: a null pointer and size 0. *)
Definition view_null : view := VCopy [].
(** A range of the caller's memory. *)
Definition range : Type := nat * nat.
(** Lines 1187-1211: the constructor from a range; dereferences only at compile time.  Moves and copies
    (lines 1135-1177 and 1213-1263) keep the bytes (compile time) or the pointer (run time). *)
Definition view_of (cx : ctx) (env : list N) (r : range) : option view :=
  if cx_ce cx then l <- rds env (fst r) (snd r) ;; Some (VCopy l) else Some (VPtr (fst r) (snd r)).
(** Reading the bytes a view denotes now; an empty range is not dereferenced. *)
Definition view_read (env : list N) (v : view) : option (list N) :=
  match v with
  | VPtr _ O => Some []
  | VPtr o n => rds env o n
  | VCopy l => Some l
  end.
(** Reading the bytes behind a pointer and a size. *)
Definition range_read (env : list N) (r : range) : option (list N) :=
  match snd r with O => Some [] | n => rds env (fst r) n end.

(** One MAC computation: initialize, updates, finalize, digest to [off] in [dst] (a whole digest). *)
Definition mac_once (cx : ctx) (M : mac_alg) (h : ma_obj M) (key : list N) (msgs : list (list N)) (dst : list N) (off : nat)
  : option (ma_obj M * list N) :=
  h <- ma_initialize M cx h key ;;
  h <- foldM (ma_update M cx) msgs h ;;
  h <- ma_finalize M cx h ;;
  dst <- at_off dst off (fun p => '(p, _) <- ma_digest M cx h p (ma_digest_size M) ;; Some p) ;;
  Some (h, dst).

(** *** hkdf.h *)
(** m_hmac, m_info, m_counter, m_prk, m_buffer, m_buffer_size (lines 37-48). *)
Record hk_obj (M : mac_alg) := {
  hk_mac : ma_obj M; hk_info : view; hk_counter : N; hk_prk : list N; hk_buffer : list N; hk_size : nat }.
Arguments hk_mac {M} _.
Arguments hk_info {M} _.
Arguments hk_counter {M} _.
Arguments hk_prk {M} _.
Arguments hk_buffer {M} _.
Arguments hk_size {M} _.
Definition hk_new (M : mac_alg) : hk_obj M :=
  {| hk_mac := ma_new M; hk_info := view_null; hk_counter := 1; hk_prk := repeat 0 (ma_digest_size M);
     hk_buffer := repeat 0 (ma_digest_size M); hk_size := 0 |}.

(** Lines 114-144 [initialize]. *)
Definition hk_initialize (cx : ctx) (M : mac_alg) (env : list N) (o : hk_obj M) (ikm salt info : range) : option (hk_obj M) :=
  v <- view_of cx env info ;;
  ikm <- range_read env ikm ;;
  salt <- range_read env salt ;;
  '(h, prk) <- mac_once cx M (hk_mac o) salt [ikm] (hk_prk o) 0 ;;
  Some {| hk_mac := h; hk_info := v; hk_counter := 1; hk_prk := prk; hk_buffer := hk_buffer o; hk_size := 0 |}.

(** Lines 77-104 [expand]: [prev] is the previous block, the result goes to [off] in [dst]. *)
Definition hk_expand (cx : ctx) (M : mac_alg) (env : list N) (h : ma_obj M) (prk : list N) (v : view)
  (counter : N) (prev dst : list N) (off : nat) : option (ma_obj M * list N) :=
  info <- view_read env v ;;
  mac_once cx M h prk [prev; info; [counter]] dst off.

(** Lines 204-217: blocks [i = 1 .. full_size - 1], each from the block before it in [key].
    State: the MAC object, counter, [key], and the offset of [tmp_ptr]; [key_ptr] is one block further. *)
Fixpoint hk_loop (cx : ctx) (M : mac_alg) (env : list N) (prk : list N) (v : view) (h : ma_obj M) (counter : N)
  (key : list N) (tmp : nat) (n : nat) : option (ma_obj M * N * list N * nat) :=
  match n with
  | O => Some (h, counter, key, tmp)
  | S n =>
      let es := ma_digest_size M in
      prev <- rds key tmp es ;;
      '(h, key) <- hk_expand cx M env h prk v counter prev key (tmp + es) ;;
      hk_loop cx M env prk v h (wadd 8 counter 1) key (tmp + es) n
  end.

(** Lines 149-249 [derive].  Division by an expand size of 0 is [None]. *)
Definition hk_derive (cx : ctx) (M : mac_alg) (env : list N) (o : hk_obj M) (key : list N) (a_size : nat)
  : option (hk_obj M * list N * nat) :=
  let es := ma_digest_size M in
  let copy := if (0 <? hk_size o)%nat then Nat.min a_size (hk_size o) else 0%nat in
  key <- (if (0 <? hk_size o)%nat
          then at_off key 0 (fun p => mem_copy cx 1 1 p (skipn (es - hk_size o) (hk_buffer o)) copy) else Some key) ;;
  let size := (hk_size o - copy)%nat in
  let left := (a_size - copy)%nat in
  if (left =? 0)%nat
  then Some ({| hk_mac := hk_mac o; hk_info := hk_info o; hk_counter := hk_counter o; hk_prk := hk_prk o;
                hk_buffer := hk_buffer o; hk_size := size |}, key, a_size)
  else if (es =? 0)%nat then None
  else
    let full := (left / es)%nat in
    let last := (left mod es)%nat in
    let beg := if hk_counter o =? 1 then [] else hk_buffer o in
    '(h, c, key, buf, at_) <-
      (if (full =? 0)%nat
       then '(h, buf) <- hk_expand cx M env (hk_mac o) (hk_prk o) (hk_info o) (hk_counter o) beg (hk_buffer o) 0 ;;
            Some (h, wadd 8 (hk_counter o) 1, key, buf, copy)
       else '(h, key) <- hk_expand cx M env (hk_mac o) (hk_prk o) (hk_info o) (hk_counter o) beg key copy ;;
            '(h, c, key, tmp) <- hk_loop cx M env (hk_prk o) (hk_info o) h (wadd 8 (hk_counter o) 1) key copy (full - 1) ;;
            prev <- rds key tmp es ;;
            '(h, buf) <- hk_expand cx M env h (hk_prk o) (hk_info o) c prev (hk_buffer o) 0 ;;
            Some (h, wadd 8 c 1, key, buf, (tmp + es)%nat)) ;;
    key <- at_off key at_ (fun p => mem_copy cx 1 1 p buf last) ;;
    Some ({| hk_mac := h; hk_info := hk_info o; hk_counter := c; hk_prk := hk_prk o;
             hk_buffer := buf; hk_size := (es - last)%nat |}, key, a_size).

(** *** pbkdf_2.h *)
(** m_prf, m_ikm, m_salt, m_iterations, m_counter, m_buffer, m_buffer_size (lines 37-49). *)
Record pb_obj (M : mac_alg) := {
  pb_mac : ma_obj M; pb_ikm : view; pb_salt : view; pb_iterations : N; pb_counter : N; pb_buffer : list N; pb_size : nat }.
Arguments pb_mac {M} _.
Arguments pb_ikm {M} _.
Arguments pb_salt {M} _.
Arguments pb_iterations {M} _.
Arguments pb_counter {M} _.
Arguments pb_buffer {M} _.
Arguments pb_size {M} _.
Definition pb_new (M : mac_alg) : pb_obj M :=
  {| pb_mac := ma_new M; pb_ikm := view_null; pb_salt := view_null; pb_iterations := 0; pb_counter := 1;
     pb_buffer := repeat 0 (ma_digest_size M); pb_size := 0 |}.

(** Lines 154-174 [initialize]. *)
Definition pb_initialize (cx : ctx) (M : mac_alg) (env : list N) (o : pb_obj M) (ikm salt : range) (iterations : N)
  : option (pb_obj M) :=
  vi <- view_of cx env ikm ;;
  vs <- view_of cx env salt ;;
  Some {| pb_mac := pb_mac o; pb_ikm := vi; pb_salt := vs; pb_iterations := iterations; pb_counter := 1;
          pb_buffer := pb_buffer o; pb_size := 0 |}.

(** Lines 117-138: the loop [i = iterations; i > 1; i -= 1]. *)
Fixpoint pb_loop (cx : ctx) (M : mac_alg) (env : list N) (vi : view) (h : ma_obj M) (buffer_0 buffer_1 : list N) (n : nat)
  : option (ma_obj M * list N) :=
  match n with
  | O => Some (h, buffer_1)
  | S n =>
      ikm <- view_read env vi ;;
      '(h, buffer_0) <- mac_once cx M h ikm [buffer_0] buffer_0 0 ;;
      buffer_1 <- mxor_loop buffer_1 0 0 buffer_0 0 0 (ma_digest_size M) ;;
      pb_loop cx M env vi h buffer_0 buffer_1 n
  end.

(** Lines 79-145 [expand]; the local buffers are uninitialised and then wholly written. *)
Definition pb_expand (cx : ctx) (M : mac_alg) (env : list N) (h : ma_obj M) (vi vs : view) (iterations counter : N)
  (dst : list N) (off : nat) : option (ma_obj M * list N) :=
  let es := ma_digest_size M in
  bc <- mem_stor_be cx 4 1 (repeat 0 4) 0 counter ;;
  ikm <- view_read env vi ;;
  salt <- view_read env vs ;;
  '(h, buffer_0) <- mac_once cx M h ikm [salt; bc] (repeat 0 es) 0 ;;
  buffer_1 <- mem_copy cx 1 1 (repeat 0 es) buffer_0 es ;;
  '(h, buffer_1) <- pb_loop cx M env vi h buffer_0 buffer_1 (N.to_nat iterations - 1) ;;
  dst <- at_off dst off (fun p => mem_copy cx 1 1 p buffer_1 es) ;;
  Some (h, dst).

(** Lines 214-225: [n] full blocks. *)
Fixpoint pb_blocks (cx : ctx) (M : mac_alg) (env : list N) (vi vs : view) (iterations : N) (h : ma_obj M) (counter : N)
  (key : list N) (off : nat) (n : nat) : option (ma_obj M * N * list N * nat) :=
  match n with
  | O => Some (h, counter, key, off)
  | S n =>
      '(h, key) <- pb_expand cx M env h vi vs iterations counter key off ;;
      pb_blocks cx M env vi vs iterations h (wadd 32 counter 1) key (off + ma_digest_size M) n
  end.

(** Lines 180-254 [derive]. *)
Definition pb_derive (cx : ctx) (M : mac_alg) (env : list N) (o : pb_obj M) (key : list N) (a_size : nat)
  : option (pb_obj M * list N * nat) :=
  let es := ma_digest_size M in
  let copy := if (0 <? pb_size o)%nat then Nat.min a_size (pb_size o) else 0%nat in
  key <- (if (0 <? pb_size o)%nat
          then at_off key 0 (fun p => mem_copy cx 1 1 p (skipn (es - pb_size o) (pb_buffer o)) copy) else Some key) ;;
  let size := (pb_size o - copy)%nat in
  let left := (a_size - copy)%nat in
  if (left =? 0)%nat
  then Some ({| pb_mac := pb_mac o; pb_ikm := pb_ikm o; pb_salt := pb_salt o; pb_iterations := pb_iterations o;
                pb_counter := pb_counter o; pb_buffer := pb_buffer o; pb_size := size |}, key, a_size)
  else if (es =? 0)%nat then None
  else
    let full := (left / es)%nat in
    let last := (left mod es)%nat in
    '(h, c, key, off) <- pb_blocks cx M env (pb_ikm o) (pb_salt o) (pb_iterations o) (pb_mac o) (pb_counter o) key copy full ;;
    if (0 <? last)%nat then
      '(h, buf) <- pb_expand cx M env h (pb_ikm o) (pb_salt o) (pb_iterations o) c (pb_buffer o) 0 ;;
      key <- at_off key off (fun p => mem_copy cx 1 1 p buf last) ;;
      Some ({| pb_mac := h; pb_ikm := pb_ikm o; pb_salt := pb_salt o; pb_iterations := pb_iterations o;
               pb_counter := wadd 32 c 1; pb_buffer := buf; pb_size := (es - last)%nat |}, key, a_size)
    else
      Some ({| pb_mac := h; pb_ikm := pb_ikm o; pb_salt := pb_salt o; pb_iterations := pb_iterations o;
               pb_counter := c; pb_buffer := pb_buffer o; pb_size := 0 |}, key, a_size).

(** *** kdf/apie.h: the class only forwards, so it is its [m_impl]. *)
Record kdf_alg := {
  ka_obj : Type;
  ka_arg : Type;
  ka_new : ka_obj;
  ka_initialize : ctx -> list N -> ka_obj -> ka_arg -> option ka_obj;
  ka_derive : ctx -> list N -> ka_obj -> list N -> nat -> option (ka_obj * list N * nat)
}.
Definition kdf_hkdf (M : mac_alg) : kdf_alg := {|
  ka_obj := hk_obj M;
  ka_arg := range * range * range;                    (* ikm, salt, info *)
  ka_new := hk_new M;
  ka_initialize := fun cx env o a => hk_initialize cx M env o (fst (fst a)) (snd (fst a)) (snd a);
  ka_derive := fun cx => hk_derive cx M |}.
Definition kdf_pbkdf_2 (M : mac_alg) : kdf_alg := {|
  ka_obj := pb_obj M;
  ka_arg := range * range * N;                        (* ikm, salt, iterations *)
  ka_new := pb_new M;
  ka_initialize := fun cx env o a => pb_initialize cx M env o (fst (fst a)) (snd (fst a)) (snd a);
  ka_derive := fun cx => pb_derive cx M |}.

(** kdf/apie.h:72-230: constructors; [initialize] (lines 257-420) forwards. *)
Definition kapie_new (cx : ctx) (K : kdf_alg) (env : list N) (a : ka_arg K) : option (ka_obj K) :=
  ka_initialize K cx env (ka_new K) a.
(** kdf/apie.h:461-479 [derive](container, size); lines 434-447 forward. *)
Definition kapie_derive_c (cx : ctx) (K : kdf_alg) (env : list N) (o : ka_obj K) (c : container) (size : nat)
  : option (ka_obj K * container * nat) :=
  let '(c, size) := cresize c size in
  '(o, key, n) <- ka_derive K cx env o (cdata c) size ;;
  Some (o, cset c key, n).
(** kdf/apie.h:491-512 and 522-542; [junk] is the uninitialised array. *)
Definition kapie_derive_new (cx : ctx) (K : kdf_alg) (env : list N) (o : ka_obj K) (size : nat) : option (ka_obj K * list N) :=
  '(o, c, _) <- kapie_derive_c cx K env o (Dynamic []) size ;; Some (o, cdata c).
Definition kapie_derive_static (cx : ctx) (K : kdf_alg) (env : list N) (o : ka_obj K) (junk : list N)
  : option (ka_obj K * list N) :=
  '(o, c, _) <- kapie_derive_c cx K env o (Static junk) (length junk) ;; Some (o, cdata c).

(** kdf/apie.h:577-609, 637-663, 689-713, 737-758 (HKDF) and 788-817, 843-868, 892-915, 937-957 (PBKDF2): the free
    [derive] functions. *)
Definition kdf_free (cx : ctx) (K : kdf_alg) (env : list N) (a : ka_arg K) (key : list N) (size : nat) : option (list N * nat) :=
  o <- kapie_new cx K env a ;; '(_, key, n) <- ka_derive K cx env o key size ;; Some (key, n).
Definition kdf_free_c (cx : ctx) (K : kdf_alg) (env : list N) (a : ka_arg K) (c : container) (size : nat)
  : option (container * nat) :=
  o <- kapie_new cx K env a ;; '(_, c, n) <- kapie_derive_c cx K env o c size ;; Some (c, n).
Definition kdf_free_new (cx : ctx) (K : kdf_alg) (env : list N) (a : ka_arg K) (size : nat) : option (list N) :=
  o <- kapie_new cx K env a ;; '(_, d) <- kapie_derive_new cx K env o size ;; Some d.
Definition kdf_free_static (cx : ctx) (K : kdf_alg) (env : list N) (a : ka_arg K) (junk : list N) : option (list N) :=
  o <- kapie_new cx K env a ;; '(_, d) <- kapie_derive_static cx K env o junk ;; Some d.

(** *** Call sequences on one object; [env] is the caller's memory during the calls *)
Inductive kdf_call (A : Type) :=
| KInit (a : A)
| KDerive (key : list N) (size : nat)
| KDeriveC (c : container) (size : nat).
Arguments KInit {A} a.
Arguments KDerive {A} key size.
Arguments KDeriveC {A} c size.
Inductive kdf_out := KNone | KKey (key : list N) (size : nat) | KCon (c : container) (size : nat).
Definition kdf_step (cx : ctx) (K : kdf_alg) (env : list N) (o : ka_obj K) (c : kdf_call (ka_arg K))
  : option (ka_obj K * kdf_out) :=
  match c with
  | KInit a => o <- ka_initialize K cx env o a ;; Some (o, KNone)
  | KDerive k s => '(o, k, n) <- ka_derive K cx env o k s ;; Some (o, KKey k n)
  | KDeriveC c s => '(o, c, n) <- kapie_derive_c cx K env o c s ;; Some (o, KCon c n)
  end.
Fixpoint kdf_run (cx : ctx) (K : kdf_alg) (env : list N) (o : ka_obj K) (calls : list (kdf_call (ka_arg K)))
  : option (ka_obj K * list kdf_out) :=
  match calls with
  | [] => Some (o, [])
  | c :: calls =>
      '(o, x) <- kdf_step cx K env o c ;;
      '(o, xs) <- kdf_run cx K env o calls ;;
      Some (o, x :: xs)
  end.

(** Destructors: hkdf.h:58-64 and pbkdf_2.h:59-65 (the MAC object has its own). *)
Definition hk_destroy (M : mac_alg) (o : hk_obj M) : option (hk_obj M) :=
  p <- mem_erase (hk_prk o) (length (hk_prk o)) ;;
  b <- mem_erase (hk_buffer o) (length (hk_buffer o)) ;;
  Some {| hk_mac := hk_mac o; hk_info := hk_info o; hk_counter := 0; hk_prk := p; hk_buffer := b; hk_size := 0 |}.
Definition pb_destroy (M : mac_alg) (o : pb_obj M) : option (pb_obj M) :=
  b <- mem_erase (pb_buffer o) (length (pb_buffer o)) ;;
  Some {| pb_mac := pb_mac o; pb_ikm := pb_ikm o; pb_salt := pb_salt o; pb_iterations := 0; pb_counter := 0;
          pb_buffer := b; pb_size := 0 |}.

(** The same with the caller's memory at each call. *)
Fixpoint kdf_run_in (cx : ctx) (K : kdf_alg) (o : ka_obj K) (calls : list (list N * kdf_call (ka_arg K)))
  : option (ka_obj K * list kdf_out) :=
  match calls with
  | [] => Some (o, [])
  | (env, c) :: calls =>
      '(o, x) <- kdf_step cx K env o c ;;
      '(o, xs) <- kdf_run_in cx K o calls ;;
      Some (o, x :: xs)
  end.
