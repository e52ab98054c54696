(** Programs that pass the same object in several places: the objects of the caller are the entries of a store, the arguments are their
    positions, and a position may occur twice.  The order in which the objects are read, resized and written is that of the sources;
    the functions keep no pointers to what they have read (those that do, of the key derivation, are in [Model_KdfMem]). *)
From Verif Require Import Base Model_Memory Model_Container Model_Sha Model_Mac Model_Cipher Model_Aead.
Local Open Scope N_scope.

Definition store := list container.
Definition obj (st : store) (i : nat) : option container := nth_error st i.
Fixpoint setobj (st : store) (i : nat) (c : container) : store :=
  match st, i with
  | [], _ => []
  | _ :: st, O => c :: st
  | x :: st, S i => x :: setobj st i c
  end.

(** hash/apie.h:336-357 [digest](message, digest, size): the message is hashed, then the digest object is resized and filled. *)
Definition hash_digest_o (cx : ctx) (al : hash_alg) (st : store) (msg out size : nat) : option (store * nat) :=
  m <- obj st msg ;; p <- hapie_update cx al (hapie_new al) (cdata m) ;;
  d <- obj st out ;; '(_, d, n) <- hapie_digest_c cx al p d size ;; Some (setobj st out d, n).
(** mac/apie.h:430-456. *)
Definition mac_digest_o (cx : ctx) (M : mac_alg) (st : store) (key msg out size : nat) : option (store * nat) :=
  k <- obj st key ;; p <- mapie_new cx M (cdata k) ;; m <- obj st msg ;; p <- mapie_update cx M p (cdata m) ;;
  d <- obj st out ;; '(_, d, n) <- mapie_digest_c cx M p d size ;; Some (setobj st out d, n).
(** cipher/apie.h:571-595 and 730-754; the member functions (lines 204-231 and 368-395) resize the destination and read the source after
    that, which is then in the same place if it is the same object. *)
Definition crypt_o (dir : direction) (B : backend) (cx : ctx) (st : store) (key iv text out : nat) : option (store * nat) :=
  k <- obj st key ;; v <- obj st iv ;; o <- capie_new cx (cdata k) (cdata v) ;;
  t <- obj st text ;; c <- obj st out ;;
  '(_, c, n) <- (if (text =? out)%nat then capie_crypt_same dir B cx o c else capie_crypt_c dir B cx o (cdata t) c) ;;
  Some (setobj st out c, n).
(** The calls of the free functions [encrypt] (aead/apie.h:998-1022) and [decrypt] (1245-1285, with an error object) on one object. *)
Definition acrypt_o (dir : direction) (B : backend) (cx : ctx) (p : aead_apie) (st : store) (text out : nat) : option (aead_apie * store * nat) :=
  t <- obj st text ;; c <- obj st out ;;
  '(p, c, n) <- (if (text =? out)%nat then aapie_crypt_same dir B cx p c else aapie_crypt_c dir B cx p (cdata t) c) ;;
  Some (p, setobj st out c, n).
Definition astart_o (B : backend) (cx : ctx) (st : store) (key iv aad : nat) : option aead_apie :=
  k <- obj st key ;; v <- obj st iv ;; p <- aapie_new B cx (cdata k) (cdata v) ;; a <- obj st aad ;; aapie_aad cx p (cdata a).
Definition aead_encrypt_o (B : backend) (cx : ctx) (dsz : nat) (st : store) (key iv aad text out tag : nat) : option store :=
  p <- astart_o B cx st key iv aad ;;
  '(p, st, _) <- acrypt_o Encrypt B cx p st text out ;;
  g <- obj st tag ;; '(_, g, _) <- aapie_digest_c cx dsz p g dsz ;; Some (setobj st tag g).
Definition aead_decrypt_o (B : backend) (cx : ctx) (dsz : nat) (st : store) (key iv aad text tag out : nat) (junk : list N)
  : option (store * nat * errcode) :=
  p <- astart_o B cx st key iv aad ;;
  '(p, st, n) <- acrypt_o Decrypt B cx p st text out ;;
  g <- obj st tag ;; '(_, e) <- aapie_verify cx dsz p junk (cdata g) ;; Some (st, n, e).
