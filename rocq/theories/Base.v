(** Base notions shared by models, specifications and proofs.
    Bytes and machine words are values of type [N]; lengths and indices are [nat].
    [option] is the outcome monad: [None] stands for undefined behaviour
    (an access outside a C++ object). *)
From Coq Require Export List Arith NArith ZArith Lia Bool.
Export ListNotations.

Definition bind {A B : Type} (x : option A) (f : A -> option B) : option B :=
  match x with Some a => f a | None => None end.

Notation "x <- e1 ;; e2" := (bind e1 (fun x => e2))
  (at level 100, e1 at next level, right associativity).
Notation "' p <- e1 ;; e2" := (bind e1 (fun p => e2))
  (at level 100, p strict pattern, e1 at next level, right associativity).

(** A byte string: every element is below 256. *)
Definition is_byte (b : N) : Prop := (b < 256)%N.
Definition bytes (l : list N) : Prop := Forall is_byte l.

(** Words of [w] bits. *)
Definition is_word (w : N) (x : N) : Prop := (x < 2 ^ w)%N.
Definition words (w : N) (l : list N) : Prop := Forall (is_word w) l.

(** C++ array reads and writes with bounds: [rd b i] is [b[i]], [rds b off n] is the range
    [b+off, b+off+n), [wr]/[wrs] the corresponding stores. *)
Definition rd {A} (b : list A) (i : nat) : option A := nth_error b i.

Definition rds {A} (b : list A) (off n : nat) : option (list A) :=
  if (off + n <=? length b)%nat then Some (firstn n (skipn off b)) else None.

Definition wrs {A} (b : list A) (off : nat) (l : list A) : option (list A) :=
  if (off + length l <=? length b)%nat
  then Some (firstn off b ++ l ++ skipn (off + length l) b) else None.

Definition wr {A} (b : list A) (i : nat) (v : A) : option (list A) := wrs b i [v].

(** Unsigned C++ operators on [w]-bit words. *)
Definition wadd (w x y : N) : N := ((x + y) mod 2 ^ w)%N.
Definition wmul (w x y : N) : N := ((x * y) mod 2 ^ w)%N.
Definition wshl (w x n : N) : N := (N.shiftl x n mod 2 ^ w)%N.
Definition wneg (w x : N) : N := ((2 ^ w - x mod 2 ^ w) mod 2 ^ w)%N.
Definition wnot (w x : N) : N := N.lxor (x mod 2 ^ w)%N (2 ^ w - 1)%N.
Definition trunc (w x : N) : N := (x mod 2 ^ w)%N.
