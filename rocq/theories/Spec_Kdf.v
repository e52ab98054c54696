(** HKDF (RFC 5869) and PBKDF2 (RFC 8018), over a pseudo-random function [f key text] with results of [hl] bytes,
    and what the KDF API promises. *)
From Verif Require Import Base Spec_Bytes Model_Memory Model_Container Model_Kdf Spec_Hash.
Local Open Scope N_scope.

(** *** RFC 5869 *)
Definition hkdf_extract (f : list N -> list N -> list N) (salt ikm : list N) : list N := f salt ikm.
(** T(0) is empty, T(i) = f(PRK, T(i-1) | info | i), i one octet. *)
Fixpoint hkdf_T (f : list N -> list N -> list N) (prk info : list N) (i : nat) : list N :=
  match i with O => [] | S j => f prk (hkdf_T f prk info j ++ info ++ [N.of_nat i mod 256]) end.
(** The number of blocks of [hl] bytes needed for [L] bytes. *)
Definition blocks_for (hl L : nat) : nat := ((L + hl - 1) / hl)%nat.
Definition hkdf_expand (f : list N -> list N -> list N) (hl : nat) (prk info : list N) (L : nat) : list N :=
  firstn L (flat_map (hkdf_T f prk info) (seq 1 (blocks_for hl L))).
Definition hkdf (f : list N -> list N -> list N) (hl : nat) (ikm salt info : list N) (L : nat) : list N :=
  hkdf_expand f hl (hkdf_extract f salt ikm) info L.

(** *** RFC 8018, 5.2 *)
Fixpoint xor_lists (a b : list N) : list N :=
  match a, b with x :: a, y :: b => N.lxor x y :: xor_lists a b | _, _ => [] end.
(** U_1 = f(P, S | INT(i)), U_j = f(P, U_{j-1}). *)
Fixpoint pb_U (f : list N -> list N -> list N) (P S : list N) (i j : nat) : list N :=
  match j with
  | O => []
  | 1%nat => f P (S ++ be_enc 4 (N.of_nat i))
  | S j => f P (pb_U f P S i j)
  end.
(** T_i = U_1 xor ... xor U_c. *)
Fixpoint pb_T (f : list N -> list N -> list N) (P S : list N) (i c : nat) : list N :=
  match c with
  | O => []
  | 1%nat => pb_U f P S i 1
  | S c' => xor_lists (pb_T f P S i c') (pb_U f P S i c)
  end.
Definition pbkdf2 (f : list N -> list N -> list N) (hl : nat) (P S : list N) (c L : nat) : list N :=
  firstn L (flat_map (fun i => pb_T f P S i c) (seq 1 (blocks_for hl L))).

(** *** Histories *)
(** Pieces of the key read one after the other, each into a new container. *)
Fixpoint derive_pieces (cx : ctx) (K : kdf_alg) (env : list N) (o : ka_obj K) (sizes : list nat)
  : option (ka_obj K * list (list N)) :=
  match sizes with
  | [] => Some (o, [])
  | n :: sizes =>
      '(o, r) <- kapie_derive_new cx K env o n ;;
      '(o, rs) <- derive_pieces cx K env o sizes ;;
      Some (o, r :: rs)
  end.
Definition total (sizes : list nat) : nat := fold_right Nat.add 0%nat sizes.

(** The key material for each argument is one stream: [D L] is its first [L] bytes; the bytes [pos .. pos+n-1] of it. *)
Definition piece (D : nat -> list N) (pos n : nat) : list N := skipn pos (D (pos + n)%nat).
(** The number of bytes a call asks for, and what it has to answer after [pos] bytes of the stream. *)
Definition asked {A} (c : kdf_call A) : nat :=
  match c with
  | KInit _ => 0
  | KDerive _ s => s
  | KDeriveC (Dynamic _) s => s
  | KDeriveC (Static l) s => Nat.min s (length l)
  end.
Definition kanswer {A} (D : nat -> list N) (pos : nat) (c : kdf_call A) : kdf_out :=
  let n := asked c in
  match c with
  | KInit _ => KNone
  | KDerive k _ => KKey (piece D pos n ++ skipn n k) n
  | KDeriveC (Dynamic _) _ => KCon (Dynamic (piece D pos n)) n
  | KDeriveC (Static l) _ => KCon (Static (piece D pos n ++ skipn n l)) n
  end.
Fixpoint kanswers {A} (D : nat -> list N) (pos : nat) (calls : list (kdf_call A)) : list kdf_out :=
  match calls with [] => [] | c :: calls => kanswer D pos c :: kanswers D (pos + asked c) calls end.
Definition requested {A} (calls : list (kdf_call A)) : nat := total (map asked calls).
Definition is_derive {A} (c : kdf_call A) : Prop := match c with KInit _ => False | _ => True end.

(** Every member and free [derive] returns [D], for sizes in [lim]. *)
Definition kdf_returns (cx : ctx) (K : kdf_alg) (env : list N) (a : ka_arg K) (lim : nat -> Prop) (D : nat -> list N) : Prop :=
  (forall L key, lim L -> bytes key -> (L <= length key)%nat -> kdf_free cx K env a key L = Some (D L ++ skipn L key, L)) /\
  (forall L l, lim L -> bytes l -> kdf_free_c cx K env a (Dynamic l) L = Some (Dynamic (D L), L)) /\
  (forall L l, bytes l -> let n := Nat.min L (length l) in lim n ->
     kdf_free_c cx K env a (Static l) L = Some (Static (D n ++ skipn n l), n)) /\
  (forall L, lim L -> kdf_free_new cx K env a L = Some (D L)) /\
  (forall junk, lim (length junk) -> bytes junk -> kdf_free_static cx K env a junk = Some (D (length junk))) /\
  exists o, kapie_new cx K env a = Some o /\
  (forall L key, lim L -> bytes key -> (L <= length key)%nat ->
     exists o', ka_derive K cx env o key L = Some (o', D L ++ skipn L key, L)) /\
  (forall L l, lim L -> bytes l -> exists o', kapie_derive_c cx K env o (Dynamic l) L = Some (o', Dynamic (D L), L)) /\
  (forall L l, bytes l -> let n := Nat.min L (length l) in lim n ->
     exists o', kapie_derive_c cx K env o (Static l) L = Some (o', Static (D n ++ skipn n l), n)) /\
  (forall L, lim L -> exists o', kapie_derive_new cx K env o L = Some (o', D L)) /\
  (forall junk, lim (length junk) -> bytes junk ->
     exists o', kapie_derive_static cx K env o junk = Some (o', D (length junk))).

(** The bytes the caller's memory holds in a range; the range has to be there. *)
Definition has (env : list N) (r : range) (l : list N) : Prop := (fst r + length l <= length env)%nat /\ snd r = length l /\
  firstn (length l) (skipn (fst r) env) = l.

(** Calls a correct program may make. *)
Definition kcall_ok {A} (argok : A -> Prop) (c : kdf_call A) : Prop :=
  match c with
  | KInit a => argok a
  | KDerive k s => bytes k /\ (s <= length k)%nat
  | KDeriveC c s => bytes (cdata c)
  end.
