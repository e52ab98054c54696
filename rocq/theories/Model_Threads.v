(** Several objects in one program, on one memory: every call names an object and the ranges of the memory it is given, and the calls of
    the threads of a program take place in some order.  The objects have no state outside themselves: the objects of static storage
    duration under src/milo are constants ([constexpr], and those of internal/arch/x86_64.h:65-248 and internal/impl.h:156-164, set from
    the processor before [main] and not written after), so a call is a function of the object and the memory.
    Simplified: a call is one step (calls of different threads that touch no common byte cannot tell; those that do are a data race,
    [race_free] of [Spec_Threads] excludes them).  Key derivation is that of [Model_KdfMem]: its objects keep views of the memory. *)
From Verif Require Import Base Model_Memory Model_Container Model_Sha Model_Mac Model_Cipher Model_Aead Model_Kdf Model_KdfMem.
Local Open Scope N_scope.

Inductive thing :=
| THash (al : hash_alg) (p : hash_apie)
| TMac (M : mac_alg) (p : mac_apie M)
| TCipher (o : cc_obj)
| TAead (dsz : nat) (p : aead_apie)
| THkdf (M : mac_alg) (o : hk_obj M)
| TPbkdf2 (M : mac_alg) (o : pb_obj M).

(** The member functions that take pointers; a range is an offset and a size.
    [SInit]: hash/apie.h:81-88, mac/apie.h:135-169, cipher/apie.h:106-154, aead/apie.h:179-225 [initialize].
    [SFeed]: hash/apie.h:103-131, mac/apie.h:184-216 [update], aead/apie.h:241-272 [aad].
    [SCrypt]: cipher/apie.h:172-188, 336-352, aead/apie.h:295-308, 461-474 [encrypt], [decrypt].
    [STag]: hash/apie.h:149-163, mac/apie.h:233-245, aead/apie.h:622-633 [digest].
    [SVerify]: aead/apie.h:753-769 [verify] with an error object; [junk] is the uninitialised array of the digest it makes.
    [SKey], [SPass]: kdf/apie.h:257-420 [initialize] of HKDF (ikm, salt, info) and of PBKDF2 (ikm, salt, iterations).
    [SDerive]: kdf/apie.h:434-447 [derive]. *)
Inductive scall :=
| SInit (key iv : nat * nat)
| SFeed (data : nat * nat)
| SCrypt (dir : direction) (src size dst : nat)
| STag (dst size : nat)
| SVerify (junk : list N) (tag : nat * nat)
| SKey (ikm salt info : nat * nat)
| SPass (ikm salt : nat * nat) (iterations : N)
| SDerive (dst size : nat).

Inductive sout := SNone | SSize (n : nat) | SError (e : errcode).

(** A pointer [d] into the memory given to a digest function. *)
Definition at_mem {A} (m : list N) (d : nat) (f : list N -> option (A * list N * nat)) : option (A * list N * nat) :=
  if (d <=? length m)%nat then '(p, l, n) <- f (skipn d m) ;; Some (p, firstn d m ++ l, n) else None.

(** One call; [None] for a call the class does not have, and for undefined behaviour. *)
Definition step (B : backend) (cx : ctx) (x : thing) (m : list N) (c : scall) : option (thing * list N * sout) :=
  match x, c with
  | THash al p, SInit _ _ => Some (THash al (hapie_initialize al p), m, SNone)
  | THash al p, SFeed (s, n) => d <- rds m s n ;; p <- hapie_update cx al p d ;; Some (THash al p, m, SNone)
  | THash al p, STag d n => '(p, m, n) <- at_mem m d (fun l => hapie_digest cx al p l n) ;; Some (THash al p, m, SSize n)
  | TMac M p, SInit (s, n) _ => k <- rds m s n ;; p <- mapie_initialize cx M p k ;; Some (TMac M p, m, SNone)
  | TMac M p, SFeed (s, n) => d <- rds m s n ;; p <- mapie_update cx M p d ;; Some (TMac M p, m, SNone)
  | TMac M p, STag d n => '(p, m, n) <- at_mem m d (fun l => mapie_digest cx M p l n) ;; Some (TMac M p, m, SSize n)
  | TCipher o, SInit (s, n) (s', n') => k <- rds m s n ;; v <- rds m s' n' ;; o <- capie_initialize cx o k v ;; Some (TCipher o, m, SNone)
  | TCipher o, SCrypt dir s n d => '(o, m, n) <- capie_crypt dir B cx o m s n d ;; Some (TCipher o, m, SSize n)
  | TAead z p, SInit (s, n) (s', n') => k <- rds m s n ;; v <- rds m s' n' ;; p <- aapie_initialize B cx p k v ;; Some (TAead z p, m, SNone)
  | TAead z p, SFeed (s, n) => d <- rds m s n ;; p <- aapie_aad cx p d ;; Some (TAead z p, m, SNone)
  | TAead z p, SCrypt dir s n d => '(p, m, n) <- aapie_crypt dir B cx p m s n d ;; Some (TAead z p, m, SSize n)
  | TAead z p, STag d n => '(p, m, n) <- at_mem m d (fun l => aapie_digest cx z p l n) ;; Some (TAead z p, m, SSize n)
  | TAead z p, SVerify junk (s, n) => t <- rds m s n ;; '(p, e) <- aapie_verify cx z p junk t ;; Some (TAead z p, m, SError e)
  | THkdf M o, SKey ikm salt info => o <- hk_initialize cx M m o ikm salt info ;; Some (THkdf M o, m, SNone)
  | THkdf M o, SDerive d n => '(o, m, n) <- hk_derive_at cx M o m d n ;; Some (THkdf M o, m, SSize n)
  | TPbkdf2 M o, SPass ikm salt it => o <- pb_initialize cx M m o ikm salt it ;; Some (TPbkdf2 M o, m, SNone)
  | TPbkdf2 M o, SDerive d n => '(o, m, n) <- pb_derive_at cx M o m d n ;; Some (TPbkdf2 M o, m, SSize n)
  | _, _ => None
  end.

(** The calls of a program in the order in which they take place; each names an object. *)
Definition trace := list (nat * scall).
Definition setat (xs : nat -> thing) (i : nat) (x : thing) : nat -> thing := fun j => if (j =? i)%nat then x else xs j.
Fixpoint run (B : backend) (cx : ctx) (tr : trace) (xs : nat -> thing) (m : list N) : option ((nat -> thing) * list N * list (nat * sout)) :=
  match tr with
  | [] => Some (xs, m, [])
  | (i, c) :: tr =>
      '(x, m, o) <- step B cx (xs i) m c ;;
      '(xs, m, os) <- run B cx tr (setat xs i x) m ;;
      Some (xs, m, (i, o) :: os)
  end.
