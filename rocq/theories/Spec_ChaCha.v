(** ChaCha20 (RFC 8439 sections 2.1 to 2.4): an independent statement on 32-bit words and byte strings. *)
From Verif Require Import Base Spec_Bytes.
Local Open Scope N_scope.

Definition add32 (x y : N) : N := (x + y) mod 2 ^ 32.
(** x <<< n *)
Definition rol32 (n x : N) : N := (x * 2 ^ n) mod 2 ^ 32 + x / 2 ^ (32 - n).

(** 2.1: the quarter round on four words *)
Definition quarter (a b c d : N) : N * N * N * N :=
  let a := add32 a b in let d := rol32 16 (N.lxor d a) in
  let c := add32 c d in let b := rol32 12 (N.lxor b c) in
  let a := add32 a b in let d := rol32 8 (N.lxor d a) in
  let c := add32 c d in let b := rol32 7 (N.lxor b c) in
  (a, b, c, d).

(** 2.2: QUARTERROUND(i, j, k, l) on the 16-word state *)
Definition upd (s : list N) (i : nat) (v : N) : list N := firstn i s ++ v :: skipn (S i) s.
Definition qround (i j k l : nat) (s : list N) : list N :=
  let '(a, b, c, d) := quarter (nth i s 0) (nth j s 0) (nth k s 0) (nth l s 0) in
  upd (upd (upd (upd s i a) j b) k c) l d.

(** 2.3: ten times a column round and a diagonal round *)
Definition inner_block (s : list N) : list N :=
  let s := qround 0 4 8 12 s in let s := qround 1 5 9 13 s in
  let s := qround 2 6 10 14 s in let s := qround 3 7 11 15 s in
  let s := qround 0 5 10 15 s in let s := qround 1 6 11 12 s in
  let s := qround 2 7 8 13 s in qround 3 4 9 14 s.

Fixpoint add_words (a b : list N) : list N :=
  match a, b with x :: a, y :: b => add32 x y :: add_words a b | _, _ => [] end.
Definition serialize (s : list N) : list N := flat_map (le_enc 4) s.
Definition core_block (s : list N) : list N := serialize (add_words s (Nat.iter 10 inner_block s)).

Definition chacha_constants : list N := [0x61707865; 0x3320646e; 0x79622d32; 0x6b206574].
Definition chacha20_state (key : list N) (counter : N) (nonce : list N) : list N :=
  chacha_constants ++ le_words 4 8 key ++ counter :: le_words 4 3 nonce.
Definition chacha20_block (key : list N) (counter : N) (nonce : list N) : list N :=
  core_block (chacha20_state key counter nonce).

(** 2.4: byte [j] of the text is xored with byte [j mod 64] of block number [j / 64]; the 32-bit block
    counter starts at [counter].  (The RFC leaves counters above 2^32 - 1 undefined; here they wrap.) *)
Definition chacha20_byte (key : list N) (counter : N) (nonce : list N) (j : nat) : N :=
  nth (j mod 64) (chacha20_block key ((counter + N.of_nat (j / 64)) mod 2 ^ 32) nonce) 0.

Fixpoint xor_with (stream : nat -> N) (pos : nat) (text : list N) : list N :=
  match text with [] => [] | b :: text => N.lxor b (stream pos) :: xor_with stream (S pos) text end.

Definition chacha20 (key : list N) (counter : N) (nonce text : list N) : list N :=
  xor_with (chacha20_byte key counter nonce) 0 text.
