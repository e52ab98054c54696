(** Byte containers of any type, seen through the concepts of meta.h: what decides whether an output is resized and whether a function that
    fills it is [noexcept].  The other models know two kinds, [Dynamic] and [Static]; here the type is a parameter. *)
From Verif Require Import Base Model_Memory Model_Container Model_Codec Model_Sha Model_Mac Model_Kdf Model_Cipher Model_Aead.
Local Open Scope N_scope.

(** What the concepts ask of a type that satisfies [bytes] (meta.h:255-296): *)
Record ctype := {
  ct_const : bool;    (* a const object's data() gives a pointer to const: true for array, vector and string, false for a span *)
  ct_reserve : bool;  (* has reserve(size_t), returning void *)
  ct_resize : bool;   (* has resize(size_t, value_type), returning void *)
  ct_default : nat    (* the size of an object made by the default constructor *)
}.
(** meta.h:298-330 [container]; the type satisfies [bytes] already. *)
Definition is_container (t : ctype) : bool := ct_const t.
(** meta.h:355-362 [container_dynamic]. *)
Definition container_dynamic (t : ctype) : bool := is_container t && ct_reserve t && ct_resize t.
(** meta.h:364-373 [container_static] with its bounds (the upper one as [None] for size_t(-1)). *)
Definition container_static (t : ctype) (lo : nat) (hi : option nat) : bool :=
  is_container t && negb (ct_reserve t) && negb (ct_resize t) && (lo <=? ct_default t)%nat &&
  match hi with None => true | Some hi => (ct_default t <=? hi)%nat end.

(** Some types. *)
Definition std_vector : ctype := {| ct_const := true; ct_reserve := true; ct_resize := true; ct_default := 0 |}.
Definition std_array (n : nat) : ctype := {| ct_const := true; ct_reserve := false; ct_resize := false; ct_default := n |}.
Definition std_span : ctype := {| ct_const := false; ct_reserve := false; ct_resize := false; ct_default := 0 |}.

(** utility.h:145-173 [internal::resize]: it takes the first branch for [container_dynamic], otherwise the second, so an object of type [t]
    that holds [l] behaves as this one of the other models. *)
Definition as_c (t : ctype) (l : list N) : container := if container_dynamic t then Dynamic l else Static l.
Definition held (r : option (container * nat)) : option (list N * nat) := '(c, n) <- r ;; Some (cdata c, n).

(** The free functions that fill an object of the caller of type [t], holding [l]: hash/apie.h:336-357, mac/apie.h:436-456,
    kdf/apie.h:637-663 and 843-868, codec/apie.h:531-545, cipher/apie.h:577-597 and 736-756. *)
Definition hash_digest_t (cx : ctx) (al : hash_alg) (msg : list N) (t : ctype) (l : list N) (size : nat) : option (list N * nat) :=
  held (hash_free_digest_c cx al msg (as_c t l) size).
Definition mac_digest_t (cx : ctx) (M : mac_alg) (key msg : list N) (t : ctype) (l : list N) (size : nat) : option (list N * nat) :=
  held (mac_free_digest_c cx M key msg (as_c t l) size).
Definition kdf_derive_t (cx : ctx) (K : kdf_alg) (env : list N) (a : ka_arg K) (t : ctype) (l : list N) (size : nat) : option (list N * nat) :=
  held (kdf_free_c cx K env a (as_c t l) size).
Definition encode_t (k : codec) (from : list N) (t : ctype) (l : list N) : option (list N * nat) := held (apie_encode k from (as_c t l)).
Definition crypt_t (dir : direction) (B : backend) (cx : ctx) (key iv text : list N) (t : ctype) (l : list N) : option (list N * nat) :=
  held (cipher_free_c dir B cx key iv text (as_c t l)).

(** aead/apie.h:1245-1285 without an error object; noexcept in lines 1253-1257. *)
Definition aead_decrypt_t (B : backend) (cx : ctx) (dsz : nat) (key iv aad text junk mac : list N) (t : ctype) (l : list N)
  : option (list N * outcome nat) :=
  p <- aapie_new B cx key iv ;; p <- aapie_aad cx p aad ;;
  '(p, c, n) <- aapie_crypt_c Decrypt B cx p text (as_c t l) ;;
  '(_, r) <- aapie_verify_throw cx dsz p junk mac ;;
  Some (cdata c, noexcept_if (container_static t 0 None)
             (match r with Returns _ => Returns n | Throws e => Throws e | Terminates => Terminates end)).

(** hash/apie.h:245-265 and 415-430 [digest<t_digest>()] that returns an array-like object: the program is rejected by the compiler unless the
    type fits, otherwise the object, whose bytes are [junk] before, is filled. *)
Definition digest_type_accepted (al : hash_alg) (t : ctype) : bool := container_static t 1 (Some (ha_digest_size al)).
Definition hash_digest_into_t (cx : ctx) (al : hash_alg) (msg : list N) (t : ctype) (junk : list N) : option (list N) :=
  hash_free_digest_static cx al msg junk.
