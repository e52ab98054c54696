(** What is said of the decimal fractions that the benchmark tool prints. *)
From Verif Require Import Base Spec_App.
Local Open Scope N_scope.

(** The text [t] is [k] millionths, written with six decimal places. *)
Definition millionths (t : list N) (k : N) : Prop :=
  exists i f p q, t = i ++ [46] ++ f /\ decimal i p /\ decimal f q /\ length f = 6%nat /\ k = 1000000 * p + q.
(** [k / 10^6] is [a / b] up to half a millionth and to [2^-51] of [a / b] itself. *)
Definition close (k a b : N) : Prop :=
  (2 * 2 ^ 51 * Z.abs (Z.of_N k * Z.of_N b - 1000000 * Z.of_N a) <= 2 ^ 51 * Z.of_N b + 2 * 1000000 * Z.of_N a)%Z.
(** The text [t] tells what [a / b] is. *)
Definition tells (t : list N) (a b : N) : Prop := exists k, millionths t k /\ close k a b.
