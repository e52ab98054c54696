(** The calls that may enlarge a container of the caller, when the allocator can fail at any of them.

    [heap] is what the allocator will answer: at each growth of a container its first element is consumed, [false]
    being a failure ([std::bad_alloc], or [std::length_error] for an impossible size), and once it is empty every
    allocation succeeds.  A growth within the capacity of a vector does not allocate at run time; the model lets it
    fail as well (more executions than there are).  A container that is not enlarged does not allocate.  Everything
    else in the library is free of allocation at run time, so these are all the points where memory can run out. *)
From Verif Require Import Base Model_Memory Model_Update Model_Container Model_Codec Model_Sha Model_Mac Model_Kdf
  Model_Cipher Model_Aead.
Local Open Scope N_scope.

Definition heap := list bool.

(** How a call ends: it does what the call does ([Done], which includes throwing milo::error), or the exception of the
    allocator reaches the caller, who finds the containers [y], or the program is terminated. *)
Inductive ended (X Y : Type) := Done (x : X) | NoMemory (y : Y) | Aborted.
Arguments Done {X Y} x.
Arguments NoMemory {X Y} y.
Arguments Aborted {X Y}.

(** utility.h:145-173 [internal::resize], [noexcept(meta::container_static)], and [std::vector::resize], which has no
    effect when it throws. *)
Definition aresize (h : heap) (c : container) (n : nat) : option (container * nat) * heap :=
  match c with
  | Static _ => (Some (cresize c n), h)
  | Dynamic l =>
      if (n <=? length l)%nat then (Some (cresize c n), h)
      else match h with
           | [] => (Some (cresize c n), [])
           | true :: h => (Some (cresize c n), h)
           | false :: h => (None, h)
           end
  end.

(** The exception of the allocator leaves a function whose exception specification is [noexcept(b)]. *)
Definition unwind {X Y} (b : bool) (y : Y) : ended X Y := if b then Aborted else NoMemory y.

(** *** Hash *)

(** hash/apie.h:178-202 [digest(container, size)], noexcept(container_static) in line 184. *)
Definition hapie_digest_a (cx : ctx) (al : hash_alg) (p : hash_apie) (c : container) (size : nat) (h : heap)
  : option (hash_apie * ended (container * nat) container * heap) :=
  p <- hapie_do_finalize cx al p ;;
  match aresize h c (Nat.min size (ha_digest_size al)) with
  | (None, h) => Some (p, unwind (is_static c) c, h)
  | (Some (c, size), h) =>
      '(p, dst, n) <- hapie_digest cx al p (cdata c) size ;; Some (p, Done (cset c dst, n), h)
  end.
Definition hash_step_a (cx : ctx) (al : hash_alg) (p : hash_apie) (c : hash_call) (h : heap)
  : option (hash_apie * ended hash_out container * heap) :=
  match c with
  | HDigestC c s =>
      '(p, r, h) <- hapie_digest_a cx al p c s h ;;
      Some (p, match r with Done (c, n) => Done (ODigestC c n) | NoMemory c => NoMemory c | Aborted => Aborted end, h)
  | _ => '(p, x) <- hash_step cx al p c ;; Some (p, Done x, h)
  end.
(** hash/apie.h:218-240 (noexcept(false), line 220): into a new container. *)
Definition hapie_digest_new_a (cx : ctx) (al : hash_alg) (p : hash_apie) (size : nat) (h : heap)
  : option (hash_apie * ended (list N) unit * heap) :=
  '(p, r, h) <- hapie_digest_a cx al p (Dynamic []) size h ;;
  Some (p, match r with Done (c, _) => Done (cdata c) | NoMemory _ => unwind false tt | Aborted => Aborted end, h).
(** hash/apie.h:336-357 (line 342) and 376-393 (line 381): the free functions. *)
Definition hash_free_digest_a (cx : ctx) (al : hash_alg) (msg : list N) (c : container) (size : nat) (h : heap)
  : option (ended (container * nat) container * heap) :=
  p <- hapie_update cx al (hapie_new al) msg ;;
  '(_, r, h) <- hapie_digest_a cx al p c size h ;;
  Some (match r with NoMemory y => unwind (is_static c) y | _ => r end, h).
Definition hash_free_digest_new_a (cx : ctx) (al : hash_alg) (msg : list N) (size : nat) (h : heap)
  : option (ended (list N) unit * heap) :=
  p <- hapie_update cx al (hapie_new al) msg ;;
  '(_, r, h) <- hapie_digest_new_a cx al p size h ;;
  Some (match r with NoMemory y => unwind false y | _ => r end, h).

(** *** MAC *)

(** mac/apie.h:262-284 (noexcept in line 266). *)
Definition mapie_digest_a (cx : ctx) (M : mac_alg) (p : mac_apie M) (c : container) (size : nat) (h : heap)
  : option (mac_apie M * ended (container * nat) container * heap) :=
  p <- mapie_do_finalize cx M p ;;
  match aresize h c (Nat.min size (ma_digest_size M)) with
  | (None, h) => Some (p, unwind (is_static c) c, h)
  | (Some (c, size), h) =>
      '(p, dst, n) <- mapie_digest cx M p (cdata c) size ;; Some (p, Done (cset c dst, n), h)
  end.
Definition mac_step_a (cx : ctx) (M : mac_alg) (p : mac_apie M) (c : mac_call) (h : heap)
  : option (mac_apie M * ended hash_out container * heap) :=
  match c with
  | MDigestC c s =>
      '(p, r, h) <- mapie_digest_a cx M p c s h ;;
      Some (p, match r with Done (c, n) => Done (ODigestC c n) | NoMemory c => NoMemory c | Aborted => Aborted end, h)
  | _ => '(p, x) <- mac_step cx M p c ;; Some (p, Done x, h)
  end.
(** mac/apie.h:299-317 (line 302). *)
Definition mapie_digest_new_a (cx : ctx) (M : mac_alg) (p : mac_apie M) (size : nat) (h : heap)
  : option (mac_apie M * ended (list N) unit * heap) :=
  '(p, r, h) <- mapie_digest_a cx M p (Dynamic []) size h ;;
  Some (p, match r with Done (c, _) => Done (cdata c) | NoMemory _ => unwind false tt | Aborted => Aborted end, h).
(** mac/apie.h:436-456 (line 442) and 484-502 (line 489). *)
Definition mac_free_digest_a (cx : ctx) (M : mac_alg) (key msg : list N) (c : container) (size : nat) (h : heap)
  : option (ended (container * nat) container * heap) :=
  p <- mapie_new cx M key ;; p <- mapie_update cx M p msg ;;
  '(_, r, h) <- mapie_digest_a cx M p c size h ;;
  Some (match r with NoMemory y => unwind (is_static c) y | _ => r end, h).
Definition mac_free_digest_new_a (cx : ctx) (M : mac_alg) (key msg : list N) (size : nat) (h : heap)
  : option (ended (list N) unit * heap) :=
  p <- mapie_new cx M key ;; p <- mapie_update cx M p msg ;;
  '(_, r, h) <- mapie_digest_new_a cx M p size h ;;
  Some (match r with NoMemory y => unwind false y | _ => r end, h).

(** *** Key derivation *)

(** kdf/apie.h:461-479 (noexcept in line 468). *)
Definition kapie_derive_a (cx : ctx) (K : kdf_alg) (env : list N) (o : ka_obj K) (c : container) (size : nat) (h : heap)
  : option (ka_obj K * ended (container * nat) container * heap) :=
  match aresize h c size with
  | (None, h) => Some (o, unwind (is_static c) c, h)
  | (Some (c, size), h) =>
      '(o, key, n) <- ka_derive K cx env o (cdata c) size ;; Some (o, Done (cset c key, n), h)
  end.
Definition kdf_step_a (cx : ctx) (K : kdf_alg) (env : list N) (o : ka_obj K) (c : kdf_call (ka_arg K)) (h : heap)
  : option (ka_obj K * ended kdf_out container * heap) :=
  match c with
  | KDeriveC c s =>
      '(o, r, h) <- kapie_derive_a cx K env o c s h ;;
      Some (o, match r with Done (c, n) => Done (KCon c n) | NoMemory c => NoMemory c | Aborted => Aborted end, h)
  | _ => '(o, x) <- kdf_step cx K env o c ;; Some (o, Done x, h)
  end.
(** kdf/apie.h:491-512 (line 497). *)
Definition kapie_derive_new_a (cx : ctx) (K : kdf_alg) (env : list N) (o : ka_obj K) (size : nat) (h : heap)
  : option (ka_obj K * ended (list N) unit * heap) :=
  '(o, r, h) <- kapie_derive_a cx K env o (Dynamic []) size h ;;
  Some (o, match r with Done (c, _) => Done (cdata c) | NoMemory _ => unwind false tt | Aborted => Aborted end, h).
(** kdf/apie.h:637-663 and 843-868 (lines 651 and 856), 689-713 and 892-915 (lines 702 and 904). *)
Definition kdf_free_a (cx : ctx) (K : kdf_alg) (env : list N) (a : ka_arg K) (c : container) (size : nat) (h : heap)
  : option (ended (container * nat) container * heap) :=
  o <- kapie_new cx K env a ;;
  '(_, r, h) <- kapie_derive_a cx K env o c size h ;;
  Some (match r with NoMemory y => unwind (is_static c) y | _ => r end, h).
Definition kdf_free_new_a (cx : ctx) (K : kdf_alg) (env : list N) (a : ka_arg K) (size : nat) (h : heap)
  : option (ended (list N) unit * heap) :=
  o <- kapie_new cx K env a ;;
  '(_, r, h) <- kapie_derive_new_a cx K env o size h ;;
  Some (match r with NoMemory y => unwind false y | _ => r end, h).

(** *** Codec *)

(** codec/apie.h:91-113 (line 94); the free function 531-545 (line 536) is noexcept under the same condition. *)
Definition apie_encode_a (k : codec) (from : list N) (to : container) (h : heap)
  : option (ended (container * nat) container * heap) :=
  match aresize h to (co_encode_size k from) with
  | (None, h) => Some (unwind (is_static to) to, h)
  | (Some (to, _), h) =>
      '(d, size) <- co_encode k from (cdata to) ;;
      match aresize h (cset to d) size with
      | (None, h) => Some (unwind (is_static to) (cset to d), h)
      | (Some (to, _), h) => Some (Done (to, size), h)
      end
  end.
(** codec/apie.h:133-150 (line 135) and 564-572 (line 567). *)
Definition apie_encode_new_a (k : codec) (from : list N) (h : heap) : option (ended (list N) unit * heap) :=
  '(r, h) <- apie_encode_a k from (Dynamic []) h ;;
  Some (match r with Done (c, _) => Done (cdata c) | NoMemory _ => unwind false tt | Aborted => Aborted end, h).
(** codec/apie.h:312-336 (line 316) and 676-688 (line 681): with an error object. *)
Definition apie_decode_a (k : codec) (from : list N) (to : container) (e : errcode) (h : heap)
  : option (ended (container * nat * errcode) (container * errcode) * heap) :=
  dsz <- co_decode_size k from ;;
  match aresize h to dsz with
  | (None, h) => Some (unwind (is_static to) (to, e), h)
  | (Some (to, _), h) =>
      '(d, size, e) <- co_decode k from (cdata to) e ;;
      match aresize h (cset to d) size with
      | (None, h) => Some (unwind (is_static to) (cset to d, e), h)
      | (Some (to, _), h) => Some (Done (to, size, e), h)
      end
  end.
(** codec/apie.h:358-380 (line 361) and 712-722 (line 716): noexcept(false). *)
Definition apie_decode_throw_a (k : codec) (from : list N) (to : container) (h : heap)
  : option (ended (outcome nat * container) container * heap) :=
  dsz <- co_decode_size k from ;;
  match aresize h to dsz with
  | (None, h) => Some (unwind false to, h)
  | (Some (to, _), h) =>
      '(d, size, e) <- co_decode k from (cdata to) err_none ;;
      let to := cset to d in
      if err_bool e then Some (Done (Throws e, to), h)
      else match aresize h to size with
           | (None, h) => Some (unwind false to, h)
           | (Some (to, _), h) => Some (Done (Returns size, to), h)
           end
  end.
(** codec/apie.h:400-417 (line 402) and 744-752 (line 747). *)
Definition apie_decode_new_a (k : codec) (from : list N) (h : heap)
  : option (ended (outcome (list N)) unit * heap) :=
  '(r, h) <- apie_decode_throw_a k from (Dynamic []) h ;;
  Some (match r with
        | Done (Returns _, c) => Done (Returns (cdata c))
        | Done (Throws e, _) => Done (Throws e)
        | Done (Terminates, _) => Done Terminates
        | NoMemory _ => unwind false tt
        | Aborted => Aborted
        end, h).

(** *** Cipher *)

(** cipher/apie.h:204-231 and 368-395 (lines 212 and 376): two containers, and one as source and destination. *)
Definition capie_crypt_a (dir : direction) (B : backend) (cx : ctx) (o : cc_obj) (text : list N) (c : container) (h : heap)
  : option (cc_obj * ended (container * nat) container * heap) :=
  match aresize h c (match dir with Encrypt => cc_encrypt_size | Decrypt => cc_decrypt_size end (length text)) with
  | (None, h) => Some (o, unwind (is_static c) c, h)
  | (Some (c, _), h) =>
      '(o, m, size) <- capie_crypt dir B cx o (text ++ cdata c) 0 (length text) (length text) ;;
      let c := cset c (skipn (length text) m) in
      match aresize h c size with
      | (None, h) => Some (o, unwind (is_static c) c, h)
      | (Some (c, _), h) => Some (o, Done (c, size), h)
      end
  end.
Definition capie_crypt_same_a (dir : direction) (B : backend) (cx : ctx) (o : cc_obj) (c : container) (h : heap)
  : option (cc_obj * ended (container * nat) container * heap) :=
  match aresize h c (match dir with Encrypt => cc_encrypt_size | Decrypt => cc_decrypt_size end (length (cdata c))) with
  | (None, h) => Some (o, unwind (is_static c) c, h)
  | (Some (c, _), h) =>
      '(o, m, size) <- capie_crypt dir B cx o (cdata c) 0 (length (cdata c)) 0 ;;
      let c := cset c m in
      match aresize h c size with
      | (None, h) => Some (o, unwind (is_static c) c, h)
      | (Some (c, _), h) => Some (o, Done (c, size), h)
      end
  end.
Definition cipher_step_a (B : backend) (cx : ctx) (o : cc_obj) (call : cipher_call) (h : heap)
  : option (cc_obj * ended cipher_out container * heap) :=
  let out r := match r with Done (c, n) => Done (CCon c n) | NoMemory c => NoMemory c | Aborted => Aborted end in
  match call with
  | CCryptC d t c => '(o, r, h) <- capie_crypt_a d B cx o t c h ;; Some (o, out r, h)
  | CCryptSame d c => '(o, r, h) <- capie_crypt_same_a d B cx o c h ;; Some (o, out r, h)
  | _ => '(o, x) <- cipher_step B cx o call ;; Some (o, Done x, h)
  end.
(** cipher/apie.h:245-267 and 409-431 (lines 252 and 416). *)
Definition capie_crypt_new_a (dir : direction) (B : backend) (cx : ctx) (o : cc_obj) (text : list N) (h : heap)
  : option (cc_obj * ended (list N) unit * heap) :=
  '(o, r, h) <- capie_crypt_a dir B cx o text (Dynamic []) h ;;
  Some (o, match r with Done (c, _) => Done (cdata c) | NoMemory _ => unwind false tt | Aborted => Aborted end, h).
(** cipher/apie.h:571-595 and 730-754 (lines 584 and 743), 620-642 and 778-800 (lines 632 and 790). *)
Definition cipher_free_a (dir : direction) (B : backend) (cx : ctx) (key iv text : list N) (c : container) (h : heap)
  : option (ended (container * nat) container * heap) :=
  o <- capie_new cx key iv ;;
  '(_, r, h) <- capie_crypt_a dir B cx o text c h ;;
  Some (match r with NoMemory y => unwind (is_static c) y | _ => r end, h).
Definition cipher_free_new_a (dir : direction) (B : backend) (cx : ctx) (key iv text : list N) (h : heap)
  : option (ended (list N) unit * heap) :=
  o <- capie_new cx key iv ;;
  '(_, r, h) <- capie_crypt_new_a dir B cx o text h ;;
  Some (match r with NoMemory y => unwind false y | _ => r end, h).

(** *** AEAD *)

(** aead/apie.h:329-351 and 495-517 (lines 332 and 498): two containers, and one as source and destination. *)
Definition aapie_crypt_a (dir : direction) (B : backend) (cx : ctx) (p : aead_apie) (text : list N) (c : container) (h : heap)
  : option (aead_apie * ended (container * nat) container * heap) :=
  match aresize h c (aapie_size dir (length text)) with
  | (None, h) => Some (p, unwind (is_static c) c, h)
  | (Some (c, _), h) =>
      '(p, m, n) <- aapie_crypt dir B cx p (text ++ cdata c) 0 (length text) (length text) ;;
      let c := cset c (skipn (length text) m) in
      match aresize h c n with
      | (None, h) => Some (p, unwind (is_static c) c, h)
      | (Some (c, _), h) => Some (p, Done (c, n), h)
      end
  end.
Definition aapie_crypt_same_a (dir : direction) (B : backend) (cx : ctx) (p : aead_apie) (c : container) (h : heap)
  : option (aead_apie * ended (container * nat) container * heap) :=
  match aresize h c (aapie_size dir (length (cdata c))) with
  | (None, h) => Some (p, unwind (is_static c) c, h)
  | (Some (c, _), h) =>
      '(p, m, n) <- aapie_crypt dir B cx p (cdata c) 0 (length (cdata c)) 0 ;;
      let c := cset c m in
      match aresize h c n with
      | (None, h) => Some (p, unwind (is_static c) c, h)
      | (Some (c, _), h) => Some (p, Done (c, n), h)
      end
  end.
(** aead/apie.h:651-672 (line 654). *)
Definition aapie_digest_a (cx : ctx) (dsz : nat) (p : aead_apie) (c : container) (size : nat) (h : heap)
  : option (aead_apie * ended (container * nat) container * heap) :=
  p <- aapie_finalize cx p ;;
  match aresize h c (Nat.min size dsz) with
  | (None, h) => Some (p, unwind (is_static c) c, h)
  | (Some (c, size), h) =>
      '(p, dst, n) <- aapie_digest cx dsz p (cdata c) size ;; Some (p, Done (cset c dst, n), h)
  end.
Definition aead_step_a (B : backend) (cx : ctx) (dsz : nat) (p : aead_apie) (call : aead_call) (h : heap)
  : option (aead_apie * ended aead_out container * heap) :=
  let out (f : container -> nat -> aead_out) r :=
    match r with Done (c, n) => Done (f c n) | NoMemory c => NoMemory c | Aborted => Aborted end in
  match call with
  | ACryptC d t c => '(p, r, h) <- aapie_crypt_a d B cx p t c h ;; Some (p, out ACon r, h)
  | ACryptSame d c => '(p, r, h) <- aapie_crypt_same_a d B cx p c h ;; Some (p, out ACon r, h)
  | ADigestC c s => '(p, r, h) <- aapie_digest_a cx dsz p c s h ;; Some (p, out ATagC r, h)
  | _ => '(p, x) <- aead_step B cx dsz p call ;; Some (p, Done x, h)
  end.
(** aead/apie.h:370-387 and 536-553 (lines 372 and 538). *)
Definition aapie_crypt_new_a (dir : direction) (B : backend) (cx : ctx) (p : aead_apie) (text : list N) (h : heap)
  : option (aead_apie * ended (list N) unit * heap) :=
  '(p, r, h) <- aapie_crypt_a dir B cx p text (Dynamic []) h ;;
  Some (p, match r with Done (c, _) => Done (cdata c) | NoMemory _ => unwind false tt | Aborted => Aborted end, h).

(** Free [encrypt] into two containers, aead/apie.h:985-1022; noexcept when both have a fixed size (lines 993-997).
    The caller finds the text container and the tag container. *)
Definition aead_free_encrypt_a (B : backend) (cx : ctx) (dsz : nat) (key iv aad text : list N) (c mac : container) (h : heap)
  : option (ended (container * container * nat * nat) (container * container) * heap) :=
  let b := (is_static c && is_static mac)%bool in
  p <- aapie_new B cx key iv ;; p <- aapie_aad cx p aad ;;
  '(p, r, h) <- aapie_crypt_a Encrypt B cx p text c h ;;
  match r with
  | NoMemory c => Some (unwind b (c, mac), h)
  | Aborted => Some (Aborted, h)
  | Done (c, n) =>
      '(_, r, h) <- aapie_digest_a cx dsz p mac dsz h ;;
      Some (match r with
            | NoMemory mac => unwind b (c, mac)
            | Aborted => Aborted
            | Done (mac, k) => Done (c, mac, n, k)
            end, h)
  end.
(** The same call with one container as plaintext and ciphertext. *)
Definition aead_free_encrypt_same_a (B : backend) (cx : ctx) (dsz : nat) (key iv aad : list N) (c mac : container) (h : heap)
  : option (ended (container * container * nat * nat) (container * container) * heap) :=
  let b := (is_static c && is_static mac)%bool in
  p <- aapie_new B cx key iv ;; p <- aapie_aad cx p aad ;;
  '(p, r, h) <- aapie_crypt_same_a Encrypt B cx p c h ;;
  match r with
  | NoMemory c => Some (unwind b (c, mac), h)
  | Aborted => Some (Aborted, h)
  | Done (c, n) =>
      '(_, r, h) <- aapie_digest_a cx dsz p mac dsz h ;;
      Some (match r with
            | NoMemory mac => unwind b (c, mac)
            | Aborted => Aborted
            | Done (mac, k) => Done (c, mac, n, k)
            end, h)
  end.
(** aead/apie.h:1061-1088 (line 1067): new containers. *)
Definition aead_free_encrypt_new_a (B : backend) (cx : ctx) (dsz : nat) (key iv aad text junk : list N) (h : heap)
  : option (ended (list N * list N) unit * heap) :=
  p <- aapie_new B cx key iv ;; p <- aapie_aad cx p aad ;;
  '(p, r, h) <- aapie_crypt_new_a Encrypt B cx p text h ;;
  match r with
  | NoMemory _ => Some (unwind false tt, h)
  | Aborted => Some (Aborted, h)
  | Done c => '(_, d) <- aapie_digest_static cx dsz p junk ;; Some (Done (c, d), h)
  end.

(** Free [decrypt] into a container, aead/apie.h:1245-1285.  Without an error object it is noexcept exactly when the
    container has a fixed size (lines 1253-1257) ... *)
Definition aead_free_decrypt_a (B : backend) (cx : ctx) (dsz : nat) (key iv aad text junk mac : list N) (c : container)
  (h : heap) : option (ended (container * outcome nat) container * heap) :=
  p <- aapie_new B cx key iv ;; p <- aapie_aad cx p aad ;;
  '(p, r, h) <- aapie_crypt_a Decrypt B cx p text c h ;;
  match r with
  | NoMemory y => Some (unwind (is_static c) y, h)
  | Aborted => Some (Aborted, h)
  | Done (c, n) =>
      '(_, r) <- aapie_verify_throw cx dsz p junk mac ;;
      Some (Done (c, noexcept_if (is_static c)
                       (match r with Returns _ => Returns n | Throws e => Throws e | Terminates => Terminates end)), h)
  end.
(** ... and with an error object it is never noexcept; the object [e0] is what the caller finds when memory runs out. *)
Definition aead_free_decrypt_err_a (B : backend) (cx : ctx) (dsz : nat) (key iv aad text junk mac : list N) (c : container)
  (e0 : errcode) (h : heap) : option (ended (container * nat * errcode) (container * errcode) * heap) :=
  p <- aapie_new B cx key iv ;; p <- aapie_aad cx p aad ;;
  '(p, r, h) <- aapie_crypt_a Decrypt B cx p text c h ;;
  match r with
  | NoMemory y => Some (unwind false (y, e0), h)
  | Aborted => Some (Aborted, h)
  | Done (c, n) => '(_, e) <- aapie_verify cx dsz p junk mac ;; Some (Done (c, n, e), h)
  end.
(** aead/apie.h:1332-1365 (line 1339): a new container, without and with an error object. *)
Definition aead_free_decrypt_new_a (B : backend) (cx : ctx) (dsz : nat) (key iv aad text junk mac : list N) (h : heap)
  : option (ended (outcome (list N)) unit * heap) :=
  p <- aapie_new B cx key iv ;; p <- aapie_aad cx p aad ;;
  '(p, r, h) <- aapie_crypt_new_a Decrypt B cx p text h ;;
  match r with
  | NoMemory _ => Some (unwind false tt, h)
  | Aborted => Some (Aborted, h)
  | Done d =>
      '(_, r) <- aapie_verify_throw cx dsz p junk mac ;;
      Some (Done (match r with Returns _ => Returns d | Throws e => Throws e | Terminates => Terminates end), h)
  end.
Definition aead_free_decrypt_new_err_a (B : backend) (cx : ctx) (dsz : nat) (key iv aad text junk mac : list N)
  (e0 : errcode) (h : heap) : option (ended (list N * errcode) errcode * heap) :=
  p <- aapie_new B cx key iv ;; p <- aapie_aad cx p aad ;;
  '(p, r, h) <- aapie_crypt_new_a Decrypt B cx p text h ;;
  match r with
  | NoMemory _ => Some (unwind false e0, h)
  | Aborted => Some (Aborted, h)
  | Done d => '(_, e) <- aapie_verify cx dsz p junk mac ;; Some (Done (d, e), h)
  end.

(** *** Call sequences on one object, with an allocator *)
Fixpoint run_a {O C X Y : Type} (step : O -> C -> heap -> option (O * ended X Y * heap)) (o : O) (calls : list C) (h : heap)
  : option (O * list (ended X Y) * heap) :=
  match calls with
  | [] => Some (o, [], h)
  | c :: calls =>
      '(o, r, h) <- step o c h ;;
      '(o, rs, h) <- run_a step o calls h ;;
      Some (o, r :: rs, h)
  end.
