(** Objects that were never initialized: the default constructors of mac/apie.h, aead/apie.h, cipher/apie.h, kdf/apie.h
    and hash/apie.h, and what the member functions do with the members those constructors leave without a value.

    The default constructors (mac/apie.h:42, aead/apie.h:47, cipher/apie.h:43, kdf/apie.h:32, chacha_20_poly_1305.h:56) are defaulted on their first
    declaration.  [T o;] therefore runs the member initialisers only, and a member without one has no value; [T o{};]
    zeroes the object first.  A member that may have no value is an [option] here; reading it then is undefined
    behaviour, like every other [None]. *)
From Verif Require Import Base Model_Memory Model_Update Model_Container Model_Sha Model_Mac Model_Hmac Model_Poly Model_Cipher Model_Aead.
Local Open Scope N_scope.

(** The two ways to declare an object without arguments. *)
Inductive declared := Plain (* [T o;] *) | Braces (* [T o{};] *).
Definition unset {A} (d : declared) (zero : A) : option A := match d with Plain => None | Braces => Some zero end.

(** A use of the object: a member function, or copying it and going on with the copy. *)
Inductive use (C : Type) := Call (c : C) | Copy.
Arguments Call {C} c.
Arguments Copy {C}.

(** *** mac/apie.h *)
(** Lines 36-42: [m_impl] (all members have initialisers, see Model_Hmac and Model_Poly) and [m_finalized] (has none). *)
Record dmac (M : mac_alg) := { dm_impl : ma_obj M; dm_finalized : option bool }.
Arguments dm_impl {M} _.
Arguments dm_finalized {M} _.
Definition dmac_new (M : mac_alg) (d : declared) : dmac M := {| dm_impl := ma_new M; dm_finalized := unset d false |}.
(** After a call that left all members with a value. *)
Definition dmac_set {M : mac_alg} (p : mac_apie M) : dmac M := {| dm_impl := mp_impl p; dm_finalized := Some (mp_finalized p) |}.
(** Lines 135-169 [initialize] reads no flag; 184-216 [update] reads and writes none; 233-284 [digest] first calls
    [do_finalize] (lines 107-118), whose first action is to read the flag.  Lines 44-55: the defaulted copy and move
    operations copy every member. *)
Definition dmac_step (cx : ctx) (M : mac_alg) (p : dmac M) (u : use mac_call) : option (dmac M * hash_out) :=
  match u with
  | Call (MInit k) =>
      o <- ma_initialize M cx (dm_impl p) k ;; Some ({| dm_impl := o; dm_finalized := Some false |}, ONone)
  | Call (MUpdate m) =>
      o <- ma_update M cx (dm_impl p) m ;; Some ({| dm_impl := o; dm_finalized := dm_finalized p |}, ONone)
  | Call (MDigest d s) =>
      f <- dm_finalized p ;;
      '(q, d, n) <- mapie_digest cx M {| mp_impl := dm_impl p; mp_finalized := f |} d s ;;
      Some (dmac_set q, ODigest d n)
  | Call (MDigestC c s) =>
      f <- dm_finalized p ;;
      '(q, c, n) <- mapie_digest_c cx M {| mp_impl := dm_impl p; mp_finalized := f |} c s ;;
      Some (dmac_set q, ODigestC c n)
  | Copy =>
      f <- dm_finalized p ;; Some ({| dm_impl := dm_impl p; dm_finalized := Some f |}, ONone)
  end.
Fixpoint dmac_run (cx : ctx) (M : mac_alg) (p : dmac M) (us : list (use mac_call)) : option (dmac M * list hash_out) :=
  match us with
  | [] => Some (p, [])
  | u :: us =>
      '(p, o) <- dmac_step cx M p u ;;
      '(p, os) <- dmac_run cx M p us ;;
      Some (p, o :: os)
  end.

(** *** aead/apie.h and chacha_20_poly_1305.h *)
(** aead/apie.h:39-47 ([m_finalized_aad], [m_finalized]: no initialiser) and chacha_20_poly_1305.h:46-56 ([m_cipher] and
    [m_mac] with initialised members; [m_aad_processed_size], [m_edd_processed_size]: no initialiser). *)
Record daead := {
  da_cipher : cc_obj; da_mac : poly_obj; da_aad : option N; da_edd : option N;
  da_aad_done : option bool; da_done : option bool }.
Definition daead_new (d : declared) : daead :=
  {| da_cipher := cc_new; da_mac := poly_new; da_aad := unset d 0; da_edd := unset d 0;
     da_aad_done := unset d false; da_done := unset d false |}.
Definition daead_set (p : aead_apie) : daead :=
  {| da_cipher := ao_cipher (ap_impl p); da_mac := ao_mac (ap_impl p); da_aad := Some (ao_aad (ap_impl p));
     da_edd := Some (ao_edd (ap_impl p)); da_aad_done := Some (ap_aad_done p); da_done := Some (ap_done p) |}.
(** All four members read. *)
Definition daead_get (p : daead) : option aead_apie :=
  a <- da_aad p ;; e <- da_edd p ;; f <- da_aad_done p ;; g <- da_done p ;;
  Some {| ap_impl := {| ao_cipher := da_cipher p; ao_mac := da_mac p; ao_aad := a; ao_edd := e |};
          ap_aad_done := f; ap_done := g |}.

(** apie.h:179-225, chacha_20_poly_1305.h:78-122 [initialize]: sets all four, reads none (the starting values given
    to [aapie_initialize] are not used by it). *)
Definition daead_initialize (B : backend) (cx : ctx) (p : daead) (key iv : list N) : option daead :=
  q <- aapie_initialize B cx {| ap_impl := {| ao_cipher := da_cipher p; ao_mac := da_mac p; ao_aad := 0; ao_edd := 0 |};
                                ap_aad_done := false; ap_done := false |} key iv ;;
  Some (daead_set q).
(** chacha_20_poly_1305.h:128-139 [aad]: [m_aad_processed_size += size] reads the counter. *)
Definition daead_aad (cx : ctx) (p : daead) (data : list N) : option daead :=
  h <- poly_update true cx (da_mac p) data ;;
  a <- da_aad p ;;
  Some {| da_cipher := da_cipher p; da_mac := h; da_aad := Some (wadd 64 a (N.of_nat (length data))); da_edd := da_edd p;
          da_aad_done := da_aad_done p; da_done := da_done p |}.
(** apie.h:130-141 [do_finalize_aad], chacha_20_poly_1305.h:141-152 [aadover]. *)
Definition daead_finalize_aad (cx : ctx) (p : daead) : option daead :=
  f <- da_aad_done p ;;
  if (f : bool) then Some p
  else
    a <- da_aad p ;; z <- aead_zeros a ;; h <- poly_update true cx (da_mac p) z ;;
    Some {| da_cipher := da_cipher p; da_mac := h; da_aad := da_aad p; da_edd := da_edd p;
            da_aad_done := Some true; da_done := da_done p |}.
(** apie.h:295-308 and 461-474, chacha_20_poly_1305.h:158-178 and 199-219: [encrypt] and [decrypt]. *)
Definition daead_crypt (dir : direction) (B : backend) (cx : ctx) (p : daead) (m : list N) (src size dst : nat)
  : option (daead * list N * nat) :=
  p <- daead_finalize_aad cx p ;;
  '(c, h, m, n) <- match dir with
    | Encrypt =>
        '(c, m, n) <- cc_encrypt B cx (da_cipher p) m src size dst ;;
        ct <- rds m dst n ;; h <- poly_update true cx (da_mac p) ct ;; Some (c, h, m, n)
    | Decrypt =>
        ct <- rds m src size ;; h <- poly_update true cx (da_mac p) ct ;;
        '(c, m, n) <- cc_decrypt B cx (da_cipher p) m src size dst ;; Some (c, h, m, n)
    end ;;
  e <- da_edd p ;;
  Some ({| da_cipher := c; da_mac := h; da_aad := da_aad p; da_edd := Some (wadd 64 e (N.of_nat n));
           da_aad_done := da_aad_done p; da_done := da_done p |}, m, n).
(** apie.h:329-351 and 495-517: containers. *)
Definition daead_crypt_c (dir : direction) (B : backend) (cx : ctx) (p : daead) (text : list N) (c : container)
  : option (daead * container * nat) :=
  let '(c, _) := cresize c (aapie_size dir (length text)) in
  '(p, m, n) <- daead_crypt dir B cx p (text ++ cdata c) 0 (length text) (length text) ;;
  let c := cset c (skipn (length text) m) in
  let '(c, _) := cresize c n in
  Some (p, c, n).
Definition daead_crypt_same (dir : direction) (B : backend) (cx : ctx) (p : daead) (c : container)
  : option (daead * container * nat) :=
  let '(c, _) := cresize c (aapie_size dir (length (cdata c))) in
  '(p, m, n) <- daead_crypt dir B cx p (cdata c) 0 (length (cdata c)) 0 ;;
  let c := cset c m in
  let '(c, _) := cresize c n in
  Some (p, c, n).
(** apie.h:143-154 [do_finalize]: reads the flag, then (chacha_20_poly_1305.h:236-268) both counters if it is not set. *)
Definition daead_finalize (cx : ctx) (p : daead) : option daead :=
  g <- da_done p ;;
  if (g : bool) then Some p
  else
    a <- da_aad p ;; e <- da_edd p ;;
    o <- aead_finalize cx {| ao_cipher := da_cipher p; ao_mac := da_mac p; ao_aad := a; ao_edd := e |} ;;
    Some {| da_cipher := da_cipher p; da_mac := ao_mac o; da_aad := Some a; da_edd := Some e;
            da_aad_done := da_aad_done p; da_done := Some true |}.
(** apie.h:622-633, 651-672, 719-735, 753-769: [digest] and [verify]. *)
Definition daead_digest (cx : ctx) (dsz : nat) (p : daead) (dst : list N) (size : nat) : option (daead * list N * nat) :=
  p <- daead_finalize cx p ;;
  '(dst, n) <- poly_digest cx dsz (da_mac p) dst size ;;
  Some (p, dst, n).
Definition daead_digest_c (cx : ctx) (dsz : nat) (p : daead) (c : container) (size : nat) : option (daead * container * nat) :=
  p <- daead_finalize cx p ;;
  let size := Nat.min size dsz in
  let '(c, size) := cresize c size in
  '(p, dst, n) <- daead_digest cx dsz p (cdata c) size ;;
  Some (p, cset c dst, n).
Definition daead_verify (cx : ctx) (dsz : nat) (p : daead) (junk mac : list N) : option (daead * errcode) :=
  '(p, c, _) <- daead_digest_c cx dsz p (Static junk) (length junk) ;;
  b <- mem_match_c cx 1 1 (cdata c) mac ;;
  Some (p, if b then err_none else err_aead_verify).

(** One use; lines 49-60 of aead/apie.h: the defaulted copy and move operations copy every member. *)
Definition daead_step (B : backend) (cx : ctx) (dsz : nat) (p : daead) (u : use aead_call) : option (daead * aead_out) :=
  match u with
  | Call (AInit k v) => p <- daead_initialize B cx p k v ;; Some (p, ANone)
  | Call (AAad d) => p <- daead_aad cx p d ;; Some (p, ANone)
  | Call (ACrypt dir m s n d) => '(p, m, n) <- daead_crypt dir B cx p m s n d ;; Some (p, AMem m n)
  | Call (ACryptC dir t c) => '(p, c, n) <- daead_crypt_c dir B cx p t c ;; Some (p, ACon c n)
  | Call (ACryptSame dir c) => '(p, c, n) <- daead_crypt_same dir B cx p c ;; Some (p, ACon c n)
  | Call (ADigest d s) => '(p, d, n) <- daead_digest cx dsz p d s ;; Some (p, ATag d n)
  | Call (ADigestC c s) => '(p, c, n) <- daead_digest_c cx dsz p c s ;; Some (p, ATagC c n)
  | Call (AVerify j m) => '(p, e) <- daead_verify cx dsz p j m ;; Some (p, AErr e)
  | Copy => q <- daead_get p ;; Some (daead_set q, ANone)
  end.
Fixpoint daead_run (B : backend) (cx : ctx) (dsz : nat) (p : daead) (us : list (use aead_call))
  : option (daead * list aead_out) :=
  match us with
  | [] => Some (p, [])
  | u :: us =>
      '(p, o) <- daead_step B cx dsz p u ;;
      '(p, os) <- daead_run B cx dsz p us ;;
      Some (p, o :: os)
  end.
