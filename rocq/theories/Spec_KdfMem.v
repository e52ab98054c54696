(** Key derivation into the memory that holds the inputs (C62). *)
From Verif Require Import Base Spec_Bytes Spec_Range Spec_Kdf Model_Memory Model_Kdf.
Local Open Scope nat_scope.

(** The range [d .. d+n-1] does not touch [r]. *)
Definition avoids (o r : range) : Prop := snd r = 0 \/ snd o = 0 \/ fst o + snd o <= fst r \/ fst r + snd r <= fst o.
Definition inside (m : list N) (o : range) : Prop := fst o + snd o <= length m.
(** Memory [m] after the reads: each range holds the next piece of the key stream [D] (later reads over earlier ones), all else is as it was. *)
Fixpoint laid (D : nat -> list N) (pos : nat) (reads : list range) (m : list N) : list N :=
  match reads with [] => m | (d, n) :: reads => laid D (pos + n) reads (put m d (piece D pos n)) end.
