(** literal.h: user-defined literals.  A literal is the list of its character codes; [sg]: plain char is signed. *)
From Verif Require Import Base Model_Container Model_Codec.
Local Open Scope N_scope.

(** literal.h:14-24 and 26-36: a copy of, and a view of, the characters as bytes. *)
Definition lit_b (t : list N) : list N := firstn (length t) t.
Definition lit_bv (t : list N) : list N := firstn (length t) t.
(** literal.h:38-48 and 50-60: the same as characters. *)
Definition lit_c (t : list N) : list N := firstn (length t) t.
Definition lit_cv (t : list N) : list N := firstn (length t) t.
(** literal.h:62-77 *)
Definition lit_base_16 (sg : bool) (t : list N) : option (outcome (list N)) := apie_decode_new (base_16 sg) (firstn (length t) t).
(** literal.h:79-94 *)
Definition lit_base_64 (sg : bool) (t : list N) : option (outcome (list N)) := apie_decode_new (base_64 sg) (firstn (length t) t).
