(** Results of a size known beforehand put into an object of any type.  Specification for C69. *)
From Verif Require Import Base Model_Traits.

(** The result [r] was put into an object of type [t] that held [l]: a type with a resize function holds exactly [r] afterwards; another one
    keeps its size, gets as much of [r] as it has room for and keeps its other bytes.  [n] is the number of bytes written. *)
Definition given (t : ctype) (l r l' : list N) (n : nat) : Prop :=
  if ct_resize t then l' = r /\ n = length r
  else n = Nat.min (length r) (length l) /\ l' = firstn n r ++ skipn n l.

(** The types of the standard library: those with resize have reserve too and know const. *)
Definition usual (t : ctype) : Prop := ct_resize t = true -> ct_reserve t = true /\ ct_const t = true.
(** Types with resize that lack one of these. *)
Definition unusual (t : ctype) : Prop := ct_resize t = true /\ (ct_reserve t = false \/ ct_const t = false).
