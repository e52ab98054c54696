(** What the hash API promises, in terms of call histories. *)
From Verif Require Import Base Model_Memory Model_Container Model_Sha.
Local Open Scope N_scope.

(** A chunk a caller can pass: bytes, with a size that fits size_t. *)
Definition chunk (m : list N) : Prop := bytes m /\ N.of_nat (length m) < 2 ^ 64.

(** A call a correct program may make: [digest] into a range must be given enough room. *)
Definition hcall_ok (al : hash_alg) (c : hash_call) : Prop :=
  match c with
  | HInit => True
  | HUpdate m => chunk m
  | HDigest d s => bytes d /\ (Nat.min s (ha_digest_size al) <= length d)%nat
  | HDigestC c s => bytes (cdata c)
  end.

(** The answer to a digest request when the full digest is [D]: its first bytes, as many as were asked
  for and fit, and nothing else written. *)
Definition hprefix (D : list N) (c : hash_call) : hash_out :=
  match c with
  | HDigest d s => ODigest (firstn s D ++ skipn (Nat.min s (length D)) d) (Nat.min s (length D))
  | HDigestC (Dynamic l) s => ODigestC (Dynamic (firstn s D)) (Nat.min s (length D))
  | HDigestC (Static l) s =>
      let n := Nat.min (Nat.min s (length D)) (length l) in
      ODigestC (Static (firstn n D ++ skipn n l)) n
  | _ => ONone
  end.
Definition is_digest (c : hash_call) : Prop :=
  match c with HDigest _ _ | HDigestC _ _ => True | _ => False end.

(** The digest of everything fed since the last [initialize], for histories that do not update a
    digested object. *)
Fixpoint expected (D : list N -> list N) (fed : list N) (calls : list hash_call) : list hash_out :=
  match calls with
  | [] => []
  | HInit :: calls => ONone :: expected D [] calls
  | HUpdate m :: calls => ONone :: expected D (fed ++ m) calls
  | c :: calls => hprefix (D fed) c :: expected D fed calls
  end.
Fixpoint orderly (digested : bool) (calls : list hash_call) : bool :=
  match calls with
  | [] => true
  | HInit :: calls => orderly false calls
  | HUpdate _ :: calls => negb digested && orderly digested calls
  | _ :: calls => orderly true calls
  end.


(** Every member and free digest function returns [D], from any way of feeding the message. *)
Definition returns (cx : ctx) (al : hash_alg) (ms : list (list N)) (D : list N) : Prop :=
  exists p, hash_stream cx al ms = Some p /\
  (forall dst size, bytes dst -> (Nat.min size (length D) <= length dst)%nat ->
     exists p', hapie_digest cx al p dst size
       = Some (p', firstn size D ++ skipn (Nat.min size (length D)) dst, Nat.min size (length D))) /\
  (forall l size, bytes l ->
     exists p', hapie_digest_c cx al p (Dynamic l) size
       = Some (p', Dynamic (firstn size D), Nat.min size (length D))) /\
  (forall l size, bytes l ->
     let n := Nat.min (Nat.min size (length D)) (length l) in
     exists p', hapie_digest_c cx al p (Static l) size = Some (p', Static (firstn n D ++ skipn n l), n)) /\
  (forall size, exists p', hapie_digest_new cx al p size = Some (p', firstn size D)) /\
  (forall junk, bytes junk ->
     exists p', hapie_digest_static cx al p junk
       = Some (p', firstn (length junk) D ++ skipn (length D) junk)).

Definition free_returns (cx : ctx) (al : hash_alg) (msg : list N) (D : list N) : Prop :=
  (forall dst size, bytes dst -> (Nat.min size (length D) <= length dst)%nat ->
     hash_free_digest cx al msg dst size
     = Some (firstn size D ++ skipn (Nat.min size (length D)) dst, Nat.min size (length D))) /\
  (forall l size, bytes l ->
     hash_free_digest_c cx al msg (Dynamic l) size = Some (Dynamic (firstn size D), Nat.min size (length D))) /\
  (forall l size, bytes l ->
     let n := Nat.min (Nat.min size (length D)) (length l) in
     hash_free_digest_c cx al msg (Static l) size = Some (Static (firstn n D ++ skipn n l), n)) /\
  (forall size, hash_free_digest_new cx al msg size = Some (firstn size D)) /\
  (forall junk, bytes junk ->
     hash_free_digest_static cx al msg junk = Some (firstn (length junk) D ++ skipn (length D) junk)).
