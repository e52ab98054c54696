(** Model of src/milo/internal/update.h.

    A pointer argument is the list of bytes from the pointer to the end of the object it points into;
    advancing it is [skipn].  [memory_copy] between byte ranges is the checked copy [rds]/[wrs]
    (theorem C13_copy shows that is what memory_copy does, at compile time and at run time). *)
From Verif Require Import Base.

(** Loops in the outcome monad. *)
Fixpoint foldM {A B : Type} (f : A -> B -> option A) (l : list B) (a : A) : option A :=
  match l with [] => Some a | x :: l => a <- f a x ;; foldM f l a end.

(** update.h:14-95 [update_block_soak]: [invoke n st ptr] processes [n] blocks at [ptr].  The result is
    the buffer, the returned buffer size and the state.  A buffer size above the block size, for which
    the size_t subtraction of line 36 would wrap, is [None]. *)
Definition update_block_soak {St : Type} (block_size : nat)
  (invoke : nat -> St -> list N -> option St)
  (buf : list N) (buf_size : nat) (src : list N) (st : St) : option (list N * nat * St) :=
  (* lines 65-94 *)
  let blocks_and_tail buf src st :=
    let full_blks := (length src / block_size)%nat in
    let last_size := (length src mod block_size)%nat in
    '(st, src) <- (if (0 <? full_blks)%nat
                   then st <- invoke full_blks st src ;; Some (st, skipn (full_blks * block_size) src)
                   else Some (st, src)) ;;
    buf <- (if (0 <? last_size)%nat
            then l <- rds src 0 last_size ;; wrs buf 0 l
            else Some buf) ;;
    Some (buf, last_size, st) in
  if (0 <? buf_size)%nat then
    if (block_size <? buf_size)%nat then None else
    let left_size := (block_size - buf_size)%nat in
    let todo_size := Nat.min left_size (length src) in
    l <- rds src 0 todo_size ;;
    buf <- wrs buf buf_size l ;;
    if (todo_size <? left_size)%nat then Some (buf, (buf_size + todo_size)%nat, st)
    else
      st <- invoke 1%nat st buf ;;
      blocks_and_tail buf (skipn todo_size src) st
  else blocks_and_tail buf src st.
