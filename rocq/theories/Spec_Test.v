(** What the differential tests compare. *)
From Verif Require Import Base Model_Memory Model_Sha Model_Mac Spec_Hash Spec_Mac Model_Cipher Spec_Cipher Model_Kdf.
Local Open Scope N_scope.

(** The messages: [size] bytes, the first [i] of them 0, 1, 2, .., 255, 0, 1, .., the others 0. *)
Definition sample (size i : nat) : list N := map (fun k => if (k <? i)%nat then N.of_nat k mod 256 else 0) (seq 0 size).
(** A hash implementation that computes the function [F]: every history in which no object is updated after its digest was taken
    answers with [F] of what was fed. *)
Definition computes (cx : ctx) (al : hash_alg) (F : list N -> list N) : Prop :=
  (forall m, chunk m -> length (F m) = ha_digest_size al) /\
  forall calls, Forall (hcall_ok al) calls -> orderly false calls = true ->
  exists p, hash_run cx al (hapie_new al) calls = Some (p, expected F [] calls).
(** The same for a MAC implementation and a keyed function. *)
Definition mcomputes (cx : ctx) (M : mac_alg) (T : list N -> list N -> list N) : Prop :=
  (forall key m, chunk key -> chunk m -> length (T key m) = ma_digest_size M) /\
  forall key calls, chunk key -> Forall (mcall_ok chunk (ma_digest_size M)) calls -> morderly false calls = true ->
  exists p p', mapie_new cx M key = Some p /\ mac_run cx M p calls = Some (p', mexpected T key [] calls).
(** A cipher implementation that xors with the key stream [F key iv]. *)
Fixpoint sexpected (F : list N -> list N -> nat -> N) (key iv : list N) (pos : nat) (calls : list cipher_call) : list cipher_out :=
  match calls with
  | [] => []
  | CInit k v :: calls => CNone :: sexpected F k v 0 calls
  | c :: calls => cout (F key iv) pos c :: sexpected F key iv (pos + ctext c) calls
  end.
Definition streams (cx : ctx) (B : backend) (F : list N -> list N -> nat -> N) : Prop :=
  (forall key iv j, bytes key -> bytes iv -> F key iv j < 256) /\
  forall key iv calls, bytes key -> bytes iv -> Forall ccall_ok calls ->
  exists o, cipher_run B cx cc_new (CInit key iv :: calls) = Some (o, CNone :: sexpected F key iv 0 calls).
(** The keys and initialization vectors: [len] bytes in which the numbers 0, 1, .., i - 1 have been written round and round. *)
Definition rounds (len i : nat) : list N :=
  map (fun p => if (p <? i)%nat then N.of_nat (p + len * ((i - 1 - p) / len)) mod 256 else 0) (seq 0 len).
(** A key derivation implementation: for the [i]-th choice [args i] of the arguments and every content [env] of the memory (of [size] bytes) they point to,
    [n] bytes of key after an [initialize] are [D i env n].  [derive_all] uses one object again and again. *)
Fixpoint derive_all (cx : ctx) (K : kdf_alg) (args : nat -> ka_arg K) (o : ka_obj K) (uses : list (nat * list N * list N * nat)) : option (ka_obj K * list (list N)) :=
  match uses with
  | [] => Some (o, [])
  | (i, env, key, n) :: uses =>
      o <- ka_initialize K cx env o (args i) ;;
      '(o, key, _) <- ka_derive K cx env o key n ;;
      '(o, keys) <- derive_all cx K args o uses ;;
      Some (o, key :: keys)
  end.
Definition derives (cx : ctx) (K : kdf_alg) (size : nat) (args : nat -> ka_arg K) (D : nat -> list N -> nat -> list N) : Prop :=
  let use u := let '(i, env, key, n) := u in
    (i < size)%nat /\ bytes env /\ length env = size /\ bytes key /\ (n <= length key)%nat /\ (n < size)%nat in
  (forall i env key n, use (i, env, key, n) -> bytes (D i env n) /\ length (D i env n) = n) /\
  forall uses, Forall use uses -> exists o, derive_all cx K args (ka_new K) uses
    = Some (o, map (fun u => let '(i, env, key, n) := u in D i env n ++ skipn n key) uses).
