(** Model of src/milo/primitive/mac/apie.h, over any MAC class. *)
From Verif Require Import Base Model_Memory Model_Update Model_Container.
From Verif Require Import Model_Sha. (* only for the type [hash_out] of observations *)
Local Open Scope N_scope.

(** The members of a MAC class (directory detail/mac): see Model_Hmac and Model_Poly. *)
Record mac_alg := {
  ma_obj : Type;
  ma_new : ma_obj;                                                (* default constructor *)
  ma_initialize : ctx -> ma_obj -> list N -> option ma_obj;
  ma_update : ctx -> ma_obj -> list N -> option ma_obj;
  ma_finalize : ctx -> ma_obj -> option ma_obj;
  ma_digest : ctx -> ma_obj -> list N -> nat -> option (list N * nat);
  ma_digest_size : nat
}.

Record mac_apie (M : mac_alg) := { mp_impl : ma_obj M; mp_finalized : bool }.
Arguments mp_impl {M} _.
Arguments mp_finalized {M} _.

(** mac/apie.h:135-169 [initialize], both overloads. *)
Definition mapie_initialize (cx : ctx) (M : mac_alg) (p : mac_apie M) (key : list N) : option (mac_apie M) :=
  o <- ma_initialize M cx (mp_impl p) key ;; Some {| mp_impl := o; mp_finalized := false |}.

(** mac/apie.h:72-103: constructors from a key.  [m_finalized] has no initialiser; [initialize] sets it. *)
Definition mapie_new (cx : ctx) (M : mac_alg) (key : list N) : option (mac_apie M) :=
  mapie_initialize cx M {| mp_impl := ma_new M; mp_finalized := false |} key.

(** mac/apie.h:107-118 [do_finalize]. *)
Definition mapie_do_finalize (cx : ctx) (M : mac_alg) (p : mac_apie M) : option (mac_apie M) :=
  if mp_finalized p then Some p
  else o <- ma_finalize M cx (mp_impl p) ;; Some {| mp_impl := o; mp_finalized := true |}.

(** mac/apie.h:184-216 [update], both overloads. *)
Definition mapie_update (cx : ctx) (M : mac_alg) (p : mac_apie M) (msg : list N) : option (mac_apie M) :=
  o <- ma_update M cx (mp_impl p) msg ;; Some {| mp_impl := o; mp_finalized := mp_finalized p |}.

(** mac/apie.h:233-245 [digest(ptr, size)]. *)
Definition mapie_digest (cx : ctx) (M : mac_alg) (p : mac_apie M) (dst : list N) (size : nat)
  : option (mac_apie M * list N * nat) :=
  p <- mapie_do_finalize cx M p ;;
  '(dst, n) <- ma_digest M cx (mp_impl p) dst size ;;
  Some (p, dst, n).

(** mac/apie.h:262-284 [digest(container, size)]. *)
Definition mapie_digest_c (cx : ctx) (M : mac_alg) (p : mac_apie M) (c : container) (size : nat)
  : option (mac_apie M * container * nat) :=
  p <- mapie_do_finalize cx M p ;;
  let size := Nat.min size (ma_digest_size M) in
  let '(c, size) := cresize c size in
  '(p, dst, n) <- mapie_digest cx M p (cdata c) size ;;
  Some (p, cset c dst, n).

(** mac/apie.h:299-317 and 330-347: digest into a fresh container ([junk]: indeterminate std::array). *)
Definition mapie_digest_new (cx : ctx) (M : mac_alg) (p : mac_apie M) (size : nat)
  : option (mac_apie M * list N) :=
  '(p, c, _) <- mapie_digest_c cx M p (Dynamic []) size ;; Some (p, cdata c).
Definition mapie_digest_static (cx : ctx) (M : mac_alg) (p : mac_apie M) (junk : list N)
  : option (mac_apie M * list N) :=
  '(p, c, _) <- mapie_digest_c cx M p (Static junk) (length junk) ;; Some (p, cdata c).

(** mac/apie.h:382-406, 436-456, 484-502, 528-543: the free functions. *)
Definition mac_free_digest (cx : ctx) (M : mac_alg) (key msg dst : list N) (size : nat) : option (list N * nat) :=
  p <- mapie_new cx M key ;; p <- mapie_update cx M p msg ;;
  '(_, dst, n) <- mapie_digest cx M p dst size ;; Some (dst, n).
Definition mac_free_digest_c (cx : ctx) (M : mac_alg) (key msg : list N) (c : container) (size : nat)
  : option (container * nat) :=
  p <- mapie_new cx M key ;; p <- mapie_update cx M p msg ;;
  '(_, c, n) <- mapie_digest_c cx M p c size ;; Some (c, n).
Definition mac_free_digest_new (cx : ctx) (M : mac_alg) (key msg : list N) (size : nat) : option (list N) :=
  p <- mapie_new cx M key ;; p <- mapie_update cx M p msg ;;
  '(_, d) <- mapie_digest_new cx M p size ;; Some d.
Definition mac_free_digest_static (cx : ctx) (M : mac_alg) (key msg junk : list N) : option (list N) :=
  p <- mapie_new cx M key ;; p <- mapie_update cx M p msg ;;
  '(_, d) <- mapie_digest_static cx M p junk ;; Some d.

(** *** Call sequences on one object (how a program uses the class) *)
Definition mac_stream (cx : ctx) (M : mac_alg) (key : list N) (chunks : list (list N)) : option (mac_apie M) :=
  p <- mapie_new cx M key ;; foldM (mapie_update cx M) chunks p.

Inductive mac_call :=
| MInit (key : list N)
| MUpdate (msg : list N)
| MDigest (dst : list N) (size : nat)
| MDigestC (c : container) (size : nat).

Definition mac_step (cx : ctx) (M : mac_alg) (p : mac_apie M) (c : mac_call)
  : option (mac_apie M * hash_out) :=
  match c with
  | MInit k => p <- mapie_initialize cx M p k ;; Some (p, ONone)
  | MUpdate m => p <- mapie_update cx M p m ;; Some (p, ONone)
  | MDigest d s => '(p, d, n) <- mapie_digest cx M p d s ;; Some (p, ODigest d n)
  | MDigestC c s => '(p, c, n) <- mapie_digest_c cx M p c s ;; Some (p, ODigestC c n)
  end.

Fixpoint mac_run (cx : ctx) (M : mac_alg) (p : mac_apie M) (calls : list mac_call)
  : option (mac_apie M * list hash_out) :=
  match calls with
  | [] => Some (p, [])
  | c :: calls =>
      '(p, o) <- mac_step cx M p c ;;
      '(p, os) <- mac_run cx M p calls ;;
      Some (p, o :: os)
  end.
