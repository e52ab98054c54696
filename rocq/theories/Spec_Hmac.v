(** HMAC (RFC 2104, FIPS 198-1) over a hash function [H] with block size [bs]. *)
From Verif Require Import Base Spec_Bytes.
Local Open Scope N_scope.

(** The key brought to the size of a block: hashed first if it is longer, then zero padded. *)
Definition hmac_key (H : list N -> list N) (bs : nat) (key : list N) : list N :=
  pad_to bs (if (bs <? length key)%nat then H key else key).

Definition hmac (H : list N -> list N) (bs : nat) (key text : list N) : list N :=
  let K0 := hmac_key H bs key in
  H (map (N.lxor 0x5c) K0 ++ H (map (N.lxor 0x36) K0 ++ text)).
