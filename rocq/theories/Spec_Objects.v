(** What a store of objects looks like after a call.  Specification for C70. *)
From Verif Require Import Base Model_Container Model_Objects.

(** A result [r] put into an object: a resizable one holds exactly [r] then, another one as much of [r] as fits, before its other bytes. *)
Definition filled (c : container) (r : list N) : container :=
  match c with Dynamic _ => Dynamic r | Static l => Static (firstn (length l) r ++ skipn (length r) l) end.
(** Room for a text, which a function that does not look at the size of its destination needs. *)
Definition roomy (c : container) (n : nat) : Prop := match c with Dynamic _ => True | Static l => (n <= length l)%nat end.
(** [st'] is [st] except that the object at [i] is [c]. *)
Definition becomes (st : store) (i : nat) (c : container) (st' : store) : Prop :=
  nth_error st' i = Some c /\ (forall k, k <> i -> nth_error st' k = nth_error st k) /\ length st' = length st.
