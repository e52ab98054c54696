(** Ranges of a flat memory. *)
From Verif Require Import Base.
Local Open Scope nat_scope.

(** The [n] elements from [s] on, and overwriting the elements from [d] on. *)
Definition slice {A} (m : list A) (s n : nat) : list A := firstn n (skipn s m).
Definition put {A} (m : list A) (d : nat) (l : list A) : list A := firstn d m ++ l ++ skipn (d + length l) m.
(** Two ranges of [n] elements that are the same or disjoint. *)
Definition apart (d s n : nat) : Prop := d = s \/ d + n <= s \/ s + n <= d.
