(** Keys and nonces of another size than the algorithm's (C63). *)
From Verif Require Import Base Spec_Bytes.
Local Open Scope nat_scope.

(** [l'] is a different input of another size: [l] with zeros behind it, or, when [l] has [n] bytes or more, with anything behind it. *)
Definition longer (n : nat) (l l' : list N) : Prop :=
  (length l <= n /\ exists k, l' = l ++ repeat 0%N (S k)) \/ (n <= length l /\ exists x, x <> [] /\ l' = l ++ x).
