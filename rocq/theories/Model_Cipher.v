(** Model of src/milo/internal/update.h:97-194, src/milo/primitive/detail/cipher/chacha/chacha_impl_sw.h,
    chacha.h, detail/cipher/impl.h and src/milo/primitive/cipher/apie.h.

    The caller's data live in one flat memory [m : list N] (a list of bytes); a pointer is an offset into it,
    so that source and destination may be the same range.  The object's own arrays are separate. *)
From Verif Require Import Base Model_Memory Model_Update Model_Container Model_Hmac.
Local Open Scope N_scope.

(** *** Backends (detail/cipher/impl.h): what [invoke<0>], [invoke<1>], [invoke<2>] call *)
Record backend := {
  bk_ratio : nat;    (* block_ratio; [invoke<0>] is block_size * block_ratio *)
  bk_transform : ctx -> nat -> list N -> list N -> nat -> nat -> option (list N * nat);
                     (* blocks, state, memory, dst, src *)
  bk_generate : ctx -> nat -> list N -> list N -> option (list N * nat)
                     (* blocks, state, destination buffer *)
}.
Definition bk_block (B : backend) : nat := (64 * bk_ratio B)%nat.

(** memory.h:717-744 [memory_xor](dst, src, key, n) with dst and src in the flat memory. *)
Fixpoint mxor_loop (m : list N) (dst src : nat) (key : list N) (koff : nat) (i n : nat) : option (list N) :=
  match n with
  | O => Some m
  | S n =>
      x <- rd m (src + i)%nat ;;
      y <- rd key (koff + i)%nat ;;
      m <- wr m (dst + i)%nat (N.lxor x y) ;;
      mxor_loop m dst src key koff (S i) n
  end.

(** update.h:97-194 [update_block_prod_xor]; [cb] is the state callback.  Result: buffer, returned buffer size,
    state, memory.  A buffer size above the block size (line 126 would wrap) is [None]. *)
Definition update_block_prod_xor (B : backend) (cx : ctx) (cb : list N -> nat -> option (list N))
  (buf : list N) (buf_size : nat) (m : list N) (dst src size : nat) (st : list N)
  : option (list N * nat * list N * list N) :=
  let block_size := bk_block B in
  let blocks_and_tail m dst src size :=
    let full_blks := (size / block_size)%nat in
    let last_size := (size mod block_size)%nat in
    '(st, m, dst, src) <-
      (if (0 <? full_blks)%nat then
         '(m, done) <- bk_transform B cx full_blks st m dst src ;;
         st <- cb st done ;;
         Some (st, m, (dst + full_blks * block_size)%nat, (src + full_blks * block_size)%nat)
       else Some (st, m, dst, src)) ;;
    if (0 <? last_size)%nat then
      '(buf, done) <- bk_generate B cx 1%nat st buf ;;
      st <- cb st done ;;
      m <- mxor_loop m dst src buf 0 0 last_size ;;
      Some (buf, last_size, st, m)
    else Some (buf, last_size, st, m) in
  if (0 <? buf_size)%nat then
    if (block_size <? buf_size)%nat then None else
    let left_size := (block_size - buf_size)%nat in
    let todo_size := Nat.min left_size size in
    m <- mxor_loop m dst src buf buf_size 0 todo_size ;;
    if (todo_size <? left_size)%nat then Some (buf, (buf_size + todo_size)%nat, st, m)
    else blocks_and_tail m (dst + todo_size)%nat (src + todo_size)%nat (size - todo_size)%nat
  else blocks_and_tail m dst src size.

(** *** chacha_impl_sw.h *)

(** chacha_impl_sw.h:66-74, the round macro on the array state_eval. *)
Definition cc_round (a b c d : nat) (s : list N) : option (list N) :=
  x <- rd s a ;; y <- rd s b ;; s <- wr s a (wadd 32 x y) ;;
  x <- rd s d ;; y <- rd s a ;; s <- wr s d (rotl 32 (N.lxor x y) 16) ;;
  x <- rd s c ;; y <- rd s d ;; s <- wr s c (wadd 32 x y) ;;
  x <- rd s b ;; y <- rd s c ;; s <- wr s b (rotl 32 (N.lxor x y) 12) ;;
  x <- rd s a ;; y <- rd s b ;; s <- wr s a (wadd 32 x y) ;;
  x <- rd s d ;; y <- rd s a ;; s <- wr s d (rotl 32 (N.lxor x y) 8) ;;
  x <- rd s c ;; y <- rd s d ;; s <- wr s c (wadd 32 x y) ;;
  x <- rd s b ;; y <- rd s c ;; wr s b (rotl 32 (N.lxor x y) 7).

(** chacha_impl_sw.h:87-104, one iteration. *)
Definition cc_double (s : list N) : option (list N) :=
  s <- cc_round 0 4 8 12 s ;; s <- cc_round 1 5 9 13 s ;;
  s <- cc_round 2 6 10 14 s ;; s <- cc_round 3 7 11 15 s ;;
  s <- cc_round 0 5 10 15 s ;; s <- cc_round 1 6 11 12 s ;;
  s <- cc_round 2 7 8 13 s ;; cc_round 3 4 9 14 s.
Fixpoint cc_rounds (n : nat) (s : list N) : option (list N) :=
  match n with O => Some s | S n => s <- cc_double s ;; cc_rounds n s end.

(** chacha_impl_sw.h:106-109: state_eval[j] += state_base[j], j from [i]. *)
Fixpoint cc_add (ev base : list N) (i n : nat) : option (list N) :=
  match n with
  | O => Some ev
  | S n => x <- rd ev i ;; y <- rd base i ;; ev <- wr ev i (wadd 32 x y) ;; cc_add ev base (S i) n
  end.

(** chacha_impl_sw.h:111-127 with operation::transform. *)
Fixpoint cc_out_transform (cx : ctx) (ev m : list N) (dst src i n : nat) : option (list N) :=
  match n with
  | O => Some m
  | S n =>
      x <- rd ev i ;;
      w <- (if (src <=? length m)%nat then mem_load_le cx 4 1 (skipn src m) i else None) ;;
      m <- at_off m dst (fun p => mem_stor_le cx 4 1 p i (N.lxor x w)) ;;
      cc_out_transform cx ev m dst src (S i) n
  end.
(** The same with operation::generate. *)
Fixpoint cc_out_generate (cx : ctx) (ev m : list N) (dst i n : nat) : option (list N) :=
  match n with
  | O => Some m
  | S n =>
      x <- rd ev i ;;
      m <- at_off m dst (fun p => mem_stor_le cx 4 1 p i x) ;;
      cc_out_generate cx ev m dst (S i) n
  end.

(** chacha_impl_sw.h:78-138, the loop over blocks.  (state_eval is wholly overwritten at lines 82-85, so its
    indeterminate initial content is not represented.) *)
Fixpoint cc_blocks (cx : ctx) (out : list N -> list N -> nat -> nat -> option (list N))
  (n : nat) (base m : list N) (dst src : nat) : option (list N) :=
  match n with
  | O => Some m
  | S n =>
      ev <- cc_rounds 10 base ;;
      ev <- cc_add ev base 0 16 ;;
      m <- out ev m dst src ;;
      c <- rd base 12 ;; base <- wr base 12 (wadd 32 c 1) ;;
      cc_blocks cx out n base m (dst + 64) (src + 64)
  end.

(** chacha_impl_sw.h:43-138 [stream]: lines 59-62 copy the 16 state words. *)
Definition cc_transform (cx : ctx) (n : nat) (st m : list N) (dst src : nat) : option (list N * nat) :=
  base <- rds st 0 16 ;;
  m <- cc_blocks cx (fun ev m d s => cc_out_transform cx ev m d s 0 16) n base m dst src ;;
  Some (m, n).
Definition cc_generate (cx : ctx) (n : nat) (st buf : list N) : option (list N * nat) :=
  base <- rds st 0 16 ;;
  buf <- cc_blocks cx (fun ev m d _ => cc_out_generate cx ev m d 0 16) n base buf 0 0 ;;
  Some (buf, n).

(** cipher_chacha_impl_sw_ietf. *)
Definition bk_sw : backend := {| bk_ratio := 1; bk_transform := cc_transform; bk_generate := cc_generate |}.

(** *** chacha.h *)

(** m_state, m_buffer, m_buffer_size (chacha.h:65-71). *)
Record cc_obj := { cc_state : list N; cc_buffer : list N; cc_size : nat }.
Definition cc_new : cc_obj := {| cc_state := repeat 0 16; cc_buffer := repeat 0 512; cc_size := 0 |}.

(** chacha.h:95-127 [initialize]. *)
Definition cc_initialize (cx : ctx) (o : cc_obj) (key iv : list N) : option cc_obj :=
  s <- wr (cc_state o) 0 0x61707865 ;; s <- wr s 1 0x3320646e ;;
  s <- wr s 2 0x79622d32 ;; s <- wr s 3 0x6b206574 ;;
  k <- rds s 4 8 ;; k <- mem_init_le cx 4 1 k key ;; s <- wrs s 4 k ;;
  v <- rds s 12 4 ;; v <- mem_init_le cx 4 1 v iv ;; s <- wrs s 12 v ;;
  Some {| cc_state := s; cc_buffer := cc_buffer o; cc_size := 0 |}.

(** chacha.h:147-153: the callback, m_state[12] += a_blocks. *)
Definition cc_count (st : list N) (blocks : nat) : option (list N) :=
  c <- rd st 12 ;; wr st 12 ((c + N.of_nat blocks) mod 2 ^ 32).

(** chacha.h:129-158 [encrypt] and 173-202 [decrypt]: (dst, src) in the flat memory. *)
Definition cc_encrypt (B : backend) (cx : ctx) (o : cc_obj) (m : list N) (src size dst : nat)
  : option (cc_obj * list N * nat) :=
  '(b, n, s, m) <- update_block_prod_xor B cx cc_count (cc_buffer o) (cc_size o) m dst src size (cc_state o) ;;
  Some ({| cc_state := s; cc_buffer := b; cc_size := n |}, m, size).
Definition cc_decrypt (B : backend) (cx : ctx) (o : cc_obj) (m : list N) (src size dst : nat)
  : option (cc_obj * list N * nat) :=
  '(b, n, s, m) <- update_block_prod_xor B cx cc_count (cc_buffer o) (cc_size o) m dst src size (cc_state o) ;;
  Some ({| cc_state := s; cc_buffer := b; cc_size := n |}, m, size).

(** chacha.h:160-171 and 204-215. *)
Definition cc_encrypt_size (size : nat) : nat := size.
Definition cc_decrypt_size (size : nat) : nat := size.

(** Destructor, chacha.h:81-86. *)
Definition cc_destroy (o : cc_obj) : option cc_obj :=
  s <- mem_erase (cc_state o) (length (cc_state o)) ;;
  b <- mem_erase (cc_buffer o) (length (cc_buffer o)) ;;
  Some {| cc_state := s; cc_buffer := b; cc_size := 0 |}.

(** *** cipher/apie.h.  The class has the implementation object as its only member, so the API object is [cc_obj]. *)
Inductive direction := Encrypt | Decrypt.

(** cipher/apie.h:72-86 and 106-154: constructor and [initialize]. *)
Definition capie_initialize (cx : ctx) (o : cc_obj) (key iv : list N) : option cc_obj := cc_initialize cx o key iv.
Definition capie_new (cx : ctx) (key iv : list N) : option cc_obj := capie_initialize cx cc_new key iv.

(** cipher/apie.h:172-188 and 336-352: the pointer overloads. *)
Definition capie_crypt (dir : direction) (B : backend) (cx : ctx) (o : cc_obj) (m : list N) (src size dst : nat)
  : option (cc_obj * list N * nat) :=
  match dir with
  | Encrypt => cc_encrypt B cx o m src size dst
  | Decrypt => cc_decrypt B cx o m src size dst
  end.

(** cipher/apie.h:204-231 and 368-395: a source container and another destination container.  The two arrays are
    laid out one after the other in the flat memory. *)
Definition capie_crypt_c (dir : direction) (B : backend) (cx : ctx) (o : cc_obj) (text : list N) (c : container)
  : option (cc_obj * container * nat) :=
  let '(c, _) := cresize c (match dir with Encrypt => cc_encrypt_size | Decrypt => cc_decrypt_size end (length text)) in
  '(o, m, size) <- capie_crypt dir B cx o (text ++ cdata c) 0 (length text) (length text) ;;
  let c := cset c (skipn (length text) m) in
  let '(c, _) := cresize c size in
  Some (o, c, size).

(** The same call with one container as source and destination. *)
Definition capie_crypt_same (dir : direction) (B : backend) (cx : ctx) (o : cc_obj) (c : container)
  : option (cc_obj * container * nat) :=
  let '(c, _) := cresize c (match dir with Encrypt => cc_encrypt_size | Decrypt => cc_decrypt_size end (length (cdata c))) in
  '(o, m, size) <- capie_crypt dir B cx o (cdata c) 0 (length (cdata c)) 0 ;;
  let c := cset c m in
  let '(c, _) := cresize c size in
  Some (o, c, size).

(** cipher/apie.h:245-267 and 409-431: into a new resizable container. *)
Definition capie_crypt_new (dir : direction) (B : backend) (cx : ctx) (o : cc_obj) (text : list N)
  : option (cc_obj * list N) :=
  '(o, c, _) <- capie_crypt_c dir B cx o text (Dynamic []) ;; Some (o, cdata c).

(** cipher/apie.h:571-595, 620-642 and 730-754, 778-800: free functions.  (The pointer overloads 515-545 and
    674-704 call a constructor with four arguments that apie does not have, so they cannot be instantiated.) *)
Definition cipher_free_c (dir : direction) (B : backend) (cx : ctx) (key iv text : list N) (c : container)
  : option (container * nat) :=
  o <- capie_new cx key iv ;; '(_, c, n) <- capie_crypt_c dir B cx o text c ;; Some (c, n).
Definition cipher_free_new (dir : direction) (B : backend) (cx : ctx) (key iv text : list N) : option (list N) :=
  o <- capie_new cx key iv ;; '(_, d) <- capie_crypt_new dir B cx o text ;; Some d.

(** *** Call sequences on one object *)
Inductive cipher_call :=
| CInit (key iv : list N)
| CCrypt (dir : direction) (m : list N) (src size dst : nat)
| CCryptC (dir : direction) (text : list N) (c : container)
| CCryptSame (dir : direction) (c : container).

Inductive cipher_out :=
| CNone
| CMem (m : list N) (size : nat)
| CCon (c : container) (size : nat).

Definition cipher_step (B : backend) (cx : ctx) (o : cc_obj) (call : cipher_call) : option (cc_obj * cipher_out) :=
  match call with
  | CInit k v => o <- capie_initialize cx o k v ;; Some (o, CNone)
  | CCrypt d m s n t => '(o, m, n) <- capie_crypt d B cx o m s n t ;; Some (o, CMem m n)
  | CCryptC d t c => '(o, c, n) <- capie_crypt_c d B cx o t c ;; Some (o, CCon c n)
  | CCryptSame d c => '(o, c, n) <- capie_crypt_same d B cx o c ;; Some (o, CCon c n)
  end.
Fixpoint cipher_run (B : backend) (cx : ctx) (o : cc_obj) (calls : list cipher_call)
  : option (cc_obj * list cipher_out) :=
  match calls with
  | [] => Some (o, [])
  | c :: calls =>
      '(o, r) <- cipher_step B cx o c ;;
      '(o, rs) <- cipher_run B cx o calls ;;
      Some (o, r :: rs)
  end.
