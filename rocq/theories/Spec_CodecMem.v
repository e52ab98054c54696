(** Encoding and decoding within one memory (C65): where source and destination may lie. *)
From Verif Require Import Base Spec_Range.
Local Open Scope nat_scope.

(** Source of [n] characters at [s], destination at [d]. *)
Definition decode_place (s n d : nat) : Prop := d <= s \/ s + n <= d.
(** Encoding grows the text: the source has to lie behind the beginning of the destination by the growth. *)
Definition encode16_place (s n d : nat) : Prop := d + (n - 1) <= s \/ s + n <= d.
Definition encode64_place (s n d : nat) : Prop := d + ((n + 2) / 3 - 1) <= s \/ s + n <= d.
