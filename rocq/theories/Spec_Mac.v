(** What the MAC API promises, in terms of call histories. *)
From Verif Require Import Base Model_Memory Model_Container Model_Sha Model_Mac Spec_Hash.
Local Open Scope N_scope.

(** Calls a correct program may make; [keyok] are the keys the algorithm is defined for. *)
Definition mcall_ok (keyok : list N -> Prop) (dsz : nat) (c : mac_call) : Prop :=
  match c with
  | MInit k => keyok k
  | MUpdate m => chunk m
  | MDigest d s => bytes d /\ (Nat.min s dsz <= length d)%nat
  | MDigestC c s => bytes (cdata c)
  end.

(** The answer to a digest request when the full tag is [D]. *)
Definition mprefix (D : list N) (c : mac_call) : hash_out :=
  match c with
  | MDigest d s => hprefix D (HDigest d s)
  | MDigestC c s => hprefix D (HDigestC c s)
  | _ => ONone
  end.
Definition mis_digest (c : mac_call) : Prop :=
  match c with MDigest _ _ | MDigestC _ _ => True | _ => False end.

(** The tag, under the last key, of everything fed since. *)
Fixpoint mexpected (T : list N -> list N -> list N) (key fed : list N) (calls : list mac_call) : list hash_out :=
  match calls with
  | [] => []
  | MInit k :: calls => ONone :: mexpected T k [] calls
  | MUpdate m :: calls => ONone :: mexpected T key (fed ++ m) calls
  | c :: calls => mprefix (T key fed) c :: mexpected T key fed calls
  end.
Fixpoint morderly (digested : bool) (calls : list mac_call) : bool :=
  match calls with
  | [] => true
  | MInit _ :: calls => morderly false calls
  | MUpdate _ :: calls => negb digested && morderly digested calls
  | _ :: calls => morderly true calls
  end.

(** Every member and free digest function returns [D]. *)
Definition mreturns (cx : ctx) (M : mac_alg) (key : list N) (ms : list (list N)) (D : list N) : Prop :=
  exists p, mac_stream cx M key ms = Some p /\
  (forall dst size, bytes dst -> (Nat.min size (length D) <= length dst)%nat ->
     exists p', mapie_digest cx M p dst size
       = Some (p', firstn size D ++ skipn (Nat.min size (length D)) dst, Nat.min size (length D))) /\
  (forall l size, bytes l ->
     exists p', mapie_digest_c cx M p (Dynamic l) size
       = Some (p', Dynamic (firstn size D), Nat.min size (length D))) /\
  (forall l size, bytes l ->
     let n := Nat.min (Nat.min size (length D)) (length l) in
     exists p', mapie_digest_c cx M p (Static l) size = Some (p', Static (firstn n D ++ skipn n l), n)) /\
  (forall size, exists p', mapie_digest_new cx M p size = Some (p', firstn size D)) /\
  (forall junk, bytes junk ->
     exists p', mapie_digest_static cx M p junk
       = Some (p', firstn (length junk) D ++ skipn (length D) junk)).

Definition mfree_returns (cx : ctx) (M : mac_alg) (key msg : list N) (D : list N) : Prop :=
  (forall dst size, bytes dst -> (Nat.min size (length D) <= length dst)%nat ->
     mac_free_digest cx M key msg dst size
     = Some (firstn size D ++ skipn (Nat.min size (length D)) dst, Nat.min size (length D))) /\
  (forall l size, bytes l ->
     mac_free_digest_c cx M key msg (Dynamic l) size = Some (Dynamic (firstn size D), Nat.min size (length D))) /\
  (forall l size, bytes l ->
     let n := Nat.min (Nat.min size (length D)) (length l) in
     mac_free_digest_c cx M key msg (Static l) size = Some (Static (firstn n D ++ skipn n l), n)) /\
  (forall size, mac_free_digest_new cx M key msg size = Some (firstn size D)) /\
  (forall junk, bytes junk ->
     mac_free_digest_static cx M key msg junk = Some (firstn (length junk) D ++ skipn (length D) junk)).
