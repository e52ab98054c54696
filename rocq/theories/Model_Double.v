(** The numbers that the benchmark tool prints: conversion of unsigned 64-bit integers to double, division of doubles, and
    std::to_string of a double.

    Double is IEEE 754 binary64 with rounding to nearest, ties to even; its operations are those of the standard library's
    SpecFloat with 53 bits of precision.  That the platform's double is binary64 is an assumption of this model (it is so
    on every platform the library has assembly for). *)
From Coq Require Import SpecFloat.
From Verif Require Import Base Model_App.
Local Open Scope Z_scope.

(** benchmark.h:214, 224-225, 236-237: [double(n)] of an unsigned integer. *)
Definition to_double (n : N) : spec_float := binary_normalize 53 1024 (Z.of_N n) 0 false.
(** benchmark.h:214, 224-225, 236-237: [x / y]. *)
Definition double_div (x y : spec_float) : spec_float := SFdiv 53 1024 x y.

(** type.h:341-344: std::to_string(double) is vsnprintf with "%f": the exact value, rounded to six decimal places. *)
(** [n / d] rounded to nearest, ties to even. *)
Definition nearest (n d : Z) : Z :=
  let q := n / d in
  match Z.compare (2 * (n mod d)) d with Lt => q | Eq => if Z.even q then q else q + 1 | Gt => q + 1 end.
(** [k] millionths. *)
Fixpoint digits_n (n : nat) (k : N) : list N := match n with O => [] | S n => digits_n n (k / 10) ++ [(48 + k mod 10)%N] end.
Definition fixed6 (k : N) : list N := dec (k / 1000000) ++ [46%N] ++ digits_n 6 (k mod 1000000).
Definition minus (s : bool) : list N := if s then [45%N] else [].
Definition show_double (x : spec_float) : list N :=
  match x with
  | S754_zero s => minus s ++ fixed6 0
  | S754_infinity s => minus s ++ [105; 110; 102]%N
  | S754_nan => [110; 97; 110]%N      (* some platforms put a sign before it *)
  | S754_finite s m e => minus s ++ fixed6 (Z.to_N (nearest (Z.pos m * 1000000 * 2 ^ Z.max e 0) (2 ^ Z.max (- e) 0)))
  end.
(** The text printed for the quotient of two counters. *)
Definition show_ratio (a b : N) : list N := show_double (double_div (to_double a) (to_double b)).
