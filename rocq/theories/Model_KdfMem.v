(** The derive functions of src/milo/primitive/detail/kdf/hkdf.h and detail/kdf/pbkdf_2.h again, now with the output range in
    the same memory as the inputs: at run time the views of hkdf.h:39 and pbkdf_2.h:39-41 are pointers that are read again
    for every block (hkdf.h:77-104, pbkdf_2.h:79-145), so a block that is written over them changes what follows.
    [m] is the whole memory, [d] the offset of the output.  Everything else is [Model_Kdf]: the definitions here are those of
    the same name there with [env] and [key] made one. *)
From Verif Require Import Base Model_Memory Model_Update Model_Container Model_Sha Model_Mac Model_Hmac Model_Cipher Model_Kdf.
Local Open Scope N_scope.

(** hkdf.h:204-217. *)
Fixpoint hk_loop_at (cx : ctx) (M : mac_alg) (prk : list N) (v : view) (h : ma_obj M) (counter : N) (m : list N) (tmp : nat) (n : nat)
  : option (ma_obj M * N * list N * nat) :=
  match n with
  | O => Some (h, counter, m, tmp)
  | S n =>
      let es := ma_digest_size M in
      prev <- rds m tmp es ;;
      '(h, m) <- hk_expand cx M m h prk v counter prev m (tmp + es) ;;
      hk_loop_at cx M prk v h (wadd 8 counter 1) m (tmp + es) n
  end.
(** hkdf.h:149-249 [derive]. *)
Definition hk_derive_at (cx : ctx) (M : mac_alg) (o : hk_obj M) (m : list N) (d a_size : nat) : option (hk_obj M * list N * nat) :=
  let es := ma_digest_size M in
  let copy := if (0 <? hk_size o)%nat then Nat.min a_size (hk_size o) else 0%nat in
  m <- (if (0 <? hk_size o)%nat
        then at_off m d (fun p => mem_copy cx 1 1 p (skipn (es - hk_size o) (hk_buffer o)) copy) else Some m) ;;
  let size := (hk_size o - copy)%nat in
  let left := (a_size - copy)%nat in
  if (left =? 0)%nat
  then Some ({| hk_mac := hk_mac o; hk_info := hk_info o; hk_counter := hk_counter o; hk_prk := hk_prk o;
                hk_buffer := hk_buffer o; hk_size := size |}, m, a_size)
  else if (es =? 0)%nat then None
  else
    let full := (left / es)%nat in
    let last := (left mod es)%nat in
    let beg := if hk_counter o =? 1 then [] else hk_buffer o in
    '(h, c, m, buf, at_) <-
      (if (full =? 0)%nat
       then '(h, buf) <- hk_expand cx M m (hk_mac o) (hk_prk o) (hk_info o) (hk_counter o) beg (hk_buffer o) 0 ;;
            Some (h, wadd 8 (hk_counter o) 1, m, buf, (d + copy)%nat)
       else '(h, m) <- hk_expand cx M m (hk_mac o) (hk_prk o) (hk_info o) (hk_counter o) beg m (d + copy) ;;
            '(h, c, m, tmp) <- hk_loop_at cx M (hk_prk o) (hk_info o) h (wadd 8 (hk_counter o) 1) m (d + copy) (full - 1) ;;
            prev <- rds m tmp es ;;
            '(h, buf) <- hk_expand cx M m h (hk_prk o) (hk_info o) c prev (hk_buffer o) 0 ;;
            Some (h, wadd 8 c 1, m, buf, (tmp + es)%nat)) ;;
    m <- at_off m at_ (fun p => mem_copy cx 1 1 p buf last) ;;
    Some ({| hk_mac := h; hk_info := hk_info o; hk_counter := c; hk_prk := hk_prk o;
             hk_buffer := buf; hk_size := (es - last)%nat |}, m, a_size).

(** pbkdf_2.h:214-225. *)
Fixpoint pb_blocks_at (cx : ctx) (M : mac_alg) (vi vs : view) (iterations : N) (h : ma_obj M) (counter : N)
  (m : list N) (off : nat) (n : nat) : option (ma_obj M * N * list N * nat) :=
  match n with
  | O => Some (h, counter, m, off)
  | S n =>
      '(h, m) <- pb_expand cx M m h vi vs iterations counter m off ;;
      pb_blocks_at cx M vi vs iterations h (wadd 32 counter 1) m (off + ma_digest_size M) n
  end.
(** pbkdf_2.h:180-254 [derive]. *)
Definition pb_derive_at (cx : ctx) (M : mac_alg) (o : pb_obj M) (m : list N) (d a_size : nat) : option (pb_obj M * list N * nat) :=
  let es := ma_digest_size M in
  let copy := if (0 <? pb_size o)%nat then Nat.min a_size (pb_size o) else 0%nat in
  m <- (if (0 <? pb_size o)%nat
        then at_off m d (fun p => mem_copy cx 1 1 p (skipn (es - pb_size o) (pb_buffer o)) copy) else Some m) ;;
  let size := (pb_size o - copy)%nat in
  let left := (a_size - copy)%nat in
  if (left =? 0)%nat
  then Some ({| pb_mac := pb_mac o; pb_ikm := pb_ikm o; pb_salt := pb_salt o; pb_iterations := pb_iterations o;
                pb_counter := pb_counter o; pb_buffer := pb_buffer o; pb_size := size |}, m, a_size)
  else if (es =? 0)%nat then None
  else
    let full := (left / es)%nat in
    let last := (left mod es)%nat in
    '(h, c, m, off) <- pb_blocks_at cx M (pb_ikm o) (pb_salt o) (pb_iterations o) (pb_mac o) (pb_counter o) m (d + copy) full ;;
    if (0 <? last)%nat then
      '(h, buf) <- pb_expand cx M m h (pb_ikm o) (pb_salt o) (pb_iterations o) c (pb_buffer o) 0 ;;
      m <- at_off m off (fun p => mem_copy cx 1 1 p buf last) ;;
      Some ({| pb_mac := h; pb_ikm := pb_ikm o; pb_salt := pb_salt o; pb_iterations := pb_iterations o;
               pb_counter := wadd 32 c 1; pb_buffer := buf; pb_size := (es - last)%nat |}, m, a_size)
    else
      Some ({| pb_mac := h; pb_ikm := pb_ikm o; pb_salt := pb_salt o; pb_iterations := pb_iterations o;
               pb_counter := c; pb_buffer := pb_buffer o; pb_size := 0 |}, m, a_size).

(** kdf/apie.h: [derive] calls on one object, into ranges (offset and size) of the memory it was initialised from. *)
Fixpoint derive_run_at {O : Type} (derive : O -> list N -> nat -> nat -> option (O * list N * nat)) (o : O) (m : list N) (reads : list range)
  : option (O * list N) :=
  match reads with
  | [] => Some (o, m)
  | (d, n) :: reads => '(o, m, _) <- derive o m d n ;; derive_run_at derive o m reads
  end.
(** kdf/apie.h:577-609: the free [derive] of HKDF, with pointers. *)
Definition hkdf_free_at (cx : ctx) (M : mac_alg) (m : list N) (ikm salt info : range) (d size : nat) : option (list N * nat) :=
  o <- kapie_new cx (kdf_hkdf M) m (ikm, salt, info) ;; '(_, m, n) <- hk_derive_at cx M o m d size ;; Some (m, n).
(** kdf/apie.h:788-817: the free [derive] of PBKDF2, with pointers. *)
Definition pbkdf_2_free_at (cx : ctx) (M : mac_alg) (m : list N) (ikm salt : range) (iterations : N) (d size : nat) : option (list N * nat) :=
  o <- kapie_new cx (kdf_pbkdf_2 M) m (ikm, salt, iterations) ;; '(_, m, n) <- pb_derive_at cx M o m d size ;; Some (m, n).
