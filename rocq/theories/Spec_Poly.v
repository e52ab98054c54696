(** Poly1305 (RFC 8439 section 2.5): an independent statement on byte strings and natural numbers. *)
From Verif Require Import Base Spec_Bytes.
Local Open Scope N_scope.

Definition poly_P : N := 2 ^ 130 - 5.

(** r: the first half of the key, clamped; s: the second half. *)
Definition poly_r (key : list N) : N := N.land (le_dec (firstn 16 key)) 0x0ffffffc0ffffffc0ffffffc0fffffff.
Definition poly_s (key : list N) : N := le_dec (firstn 16 (skipn 16 key)).

(** One step per 16-byte chunk, the last possibly shorter, each with a byte 1 appended. *)
Definition poly_step (r acc : N) (chunk : list N) : N := (acc + le_dec (chunk ++ [1])) * r mod poly_P.
Fixpoint poly_loop (fuel : nat) (r acc : N) (msg : list N) : N :=
  match fuel, msg with
  | S fuel, _ :: _ => poly_loop fuel r (poly_step r acc (firstn 16 msg)) (skipn 16 msg)
  | _, _ => acc
  end.

Definition poly1305 (key msg : list N) : list N :=
  le_enc 16 (poly_loop (length msg) (poly_r key) 0 msg + poly_s key).

(** What the library computes on a host with the given byte order: on a big-endian one ([big]) it reads the 32 bytes of
    the key as eight words in the order of the host, which is as if each group of four bytes were reversed. *)
Fixpoint swap_words (k : nat) (l : list N) : list N :=
  match k with O => [] | S k => rev (firstn 4 l) ++ swap_words k (skipn 4 l) end.
Definition host_key (big : bool) (key : list N) : list N := if big then swap_words 8 (pad_to 32 key) else key.
Definition poly1305_on (big : bool) (key msg : list N) : list N := poly1305 (host_key big key) msg.
