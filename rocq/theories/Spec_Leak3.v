(** What an observer of timing may learn from a call of a codec: the sizes, and where in a text to decode there is something else than a digit. *)
From Verif Require Import Base Spec_Codec.
Local Open Scope N_scope.

(** A digit of the alphabet, the padding character, a character that is not ASCII, anything else. *)
Inductive kind := Digit | Padding | High | Other.
Definition kind_16 (c : N) : kind :=
  match hex_value c with Some _ => Digit | None => if 128 <=? c then High else Other end.
Definition kind_64 (c : N) : kind :=
  match b64_value c with Some _ => Digit | None => if c =? pad_char then Padding else if 128 <=? c then High else Other end.
