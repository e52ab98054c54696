(** Byte strings as numbers: little endian and big endian, [n] bytes. *)
From Verif Require Import Base.
Local Open Scope N_scope.

Fixpoint le_enc (n : nat) (x : N) : list N :=
  match n with O => [] | S n => x mod 256 :: le_enc n (x / 256) end.
Fixpoint le_dec (l : list N) : N :=
  match l with [] => 0 | b :: r => b + 256 * le_dec r end.
Definition be_enc (n : nat) (x : N) : list N := rev (le_enc n x).
Definition be_dec (l : list N) : N := fold_left (fun a b => a * 256 + b) l 0.

(** A byte string cut into [k] words of [ps] bytes, in either byte order. *)
Fixpoint le_words (ps k : nat) (l : list N) : list N :=
  match k with O => [] | S k => le_dec (firstn ps l) :: le_words ps k (skipn ps l) end.
Fixpoint be_words (ps k : nat) (l : list N) : list N :=
  match k with O => [] | S k => be_dec (firstn ps l) :: be_words ps k (skipn ps l) end.

(** The first [n] bytes, zero-padded on the right if there are fewer. *)
Definition pad_to (n : nat) (l : list N) : list N := firstn n l ++ repeat 0 (n - length l).

(** Sizes in bytes of the fixed-width unsigned integer types. *)
Definition int_size (n : nat) : Prop := n = 1%nat \/ n = 2%nat \/ n = 4%nat \/ n = 8%nat.
