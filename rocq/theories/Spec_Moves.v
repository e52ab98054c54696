(** Calls that move the text to lower addresses while it is encrypted or decrypted. *)
From Verif Require Import Base Spec_Bytes Spec_Range Model_Memory Model_Cipher Spec_Cipher.
Local Open Scope N_scope.

(** The calls of a correct program (destination equal to or apart from the source), and also the ones whose
    destination begins [src - dst] bytes before the source and overlaps it, for the shifts in [shift]. *)
Definition move_ok (shift : nat -> Prop) (c : cipher_call) : Prop :=
  ccall_ok c \/
  match c with
  | CCrypt _ m src size dst => bytes m /\ (src + size <= length m)%nat /\ (dst <= src)%nat /\ shift (src - dst)%nat
  | _ => False
  end.
Definition any_shift (e : nat) : Prop := True.
(** The shifts with which the SSSE3 and the AVX2 routines work. *)
Definition ssse_shift (e : nat) : Prop := e = 0%nat \/ e = 64%nat \/ e = 128%nat \/ (192 <= e)%nat.
Definition avx_shift (e : nat) : Prop := e = 0%nat \/ e = 128%nat \/ e = 256%nat \/ e = 384%nat \/ (448 <= e)%nat.

(** Key, iv and position in the key stream after a history of calls. *)
Fixpoint stands (key iv : list N) (pos : nat) (calls : list cipher_call) : list N * list N * nat :=
  match calls with
  | [] => (key, iv, pos)
  | CInit k v :: calls => stands k v 0 calls
  | c :: calls => stands key iv (pos + ctext c) calls
  end.

(** The turn in which a routine reads and then writes byte [q] of a group (of 4 or 8 blocks): the SSSE3 routine handles
    the 16-byte columns of its four blocks from left to right, the AVX2 routine the 32-byte columns of its four pairs of
    blocks in the order 0, 2, 1, 3. *)
Definition ssse_turn (q : nat) : nat := ((q / 16) mod 4)%nat.
Definition avx_turn (q : nat) : nat := match ((q / 32) mod 4)%nat with 1 => 2 | 2 => 1 | k => k end%nat.
(** With the source [e] bytes after the destination, byte [q] of a group of [size] bytes is overwritten before it is
    read: byte [q + e] of the result goes to the same place and is written in an earlier turn. *)
Definition overtaken (size : nat) (turn : nat -> nat) (e q : nat) : bool :=
  ((q + e <? size) && (turn (q + e) <? turn q))%nat.
(** The text that a routine encrypts: the source, except that an overtaken byte is replaced by the byte of the result
    that was written over it. [f] is the key stream from the first byte of the text on. *)
Definition used_text (size : nat) (turn : nat -> nat) (f : nat -> N) (e : nat) (source text : list N) : Prop :=
  length text = length source /\
  forall q, (q < length source)%nat ->
    nth q text 0 = if overtaken size turn e (q mod size) then N.lxor (nth (q + e) text 0) (f (q + e)%nat) else nth q source 0.
