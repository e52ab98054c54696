(** What the algorithms do with the options they are given as template arguments. *)
From Verif Require Import Base Model_Dispatch.
Local Open Scope N_scope.

(** option.h:282-286 *)
Definition suite_digest_size : suite := S_value 0 0.
(** An algorithm: the lists of its [impl_proxy] and the options handed to it; its [digest_size]. *)
Record algorithm := { al_cpltime : list impl; al_runtime : list impl; al_proxy : list targ -> list targ; al_digest_size : list targ -> option N }.
(** sha_1_160.h:22-34, 56-62; sha_2_256.h:22-34, 56-62; sha_2_512.h:21-33, 54-60; primitive/hash/sha.h:13-32 *)
Definition a_hash (rt : list impl) (bits : N) : algorithm :=
  {| al_cpltime := [i_sw 0]; al_runtime := rt; al_proxy := fun opts => opts; al_digest_size := query_default suite_digest_size (bits / 8) |}.
Definition a_sha_1_160 use_asm x86_64 := a_hash (sha_1_160_runtime use_asm x86_64) 160.
Definition a_sha_2_224 use_asm x86_64 := a_hash (sha_2_256_runtime use_asm x86_64) 224.
Definition a_sha_2_256 use_asm x86_64 := a_hash (sha_2_256_runtime use_asm x86_64) 256.
Definition a_sha_2_384 := a_hash sha_2_512_runtime 384.
Definition a_sha_2_512 := a_hash sha_2_512_runtime 512.
Definition a_sha_2_512_224 := a_hash sha_2_512_runtime 224.
Definition a_sha_2_512_256 := a_hash sha_2_512_runtime 256.
(** chacha.h:22-38: no digest *)
Definition a_chacha_20 use_asm x86_64 : algorithm :=
  {| al_cpltime := [i_sw 0]; al_runtime := chacha_runtime use_asm x86_64; al_proxy := fun opts => opts; al_digest_size := fun _ => None |}.
(** poly_1305.h:21-32: the options are not handed to [impl_proxy]; 51-56 *)
Definition a_poly_1305 : algorithm :=
  {| al_cpltime := [i_sw 0]; al_runtime := [i_sw 0]; al_proxy := fun _ => []; al_digest_size := query_default suite_digest_size 16 |}.
(** hmac.h:37-42, the hash [h] with its own options [hopts]. *)
Definition hmac_digest_size (h : algorithm) (hopts opts : list targ) : option N :=
  d <- al_digest_size h hopts ;; query_default suite_digest_size d opts.
(** aead/chacha.h:15 and chacha_20_poly_1305.h:41: [opts] are those of the aead; the mac is given none. *)
Definition aead_digest_size (opts : list targ) : option N := al_digest_size a_poly_1305 [].
(** The implementation that a call of the algorithm with options uses, [chosen] as in [proxy_invoke]. *)
Definition algorithm_list (types : N -> impl) (A : algorithm) (opts : list targ) : option (list impl) :=
  proxy_runtime_list types (al_proxy A opts) (al_runtime A).
Definition algorithm_invoke (types : N -> impl) (A : algorithm) (opts : list targ) (consteval : bool) (chosen : option impl) : option impl :=
  proxy_invoke types (al_proxy A opts) (al_cpltime A) consteval chosen.

(** *** The chooser and the invoker, option.h:291-305.  A class is a number; 0 is the class the algorithm names
    (hash/impl.h:11-86, cipher/impl.h:11-169).  A chooser turns an implementation into a hook of type [H]; an invoker
    performs the operation [id] of an implementation, or of a hook, with result (or effect) [R]; the arguments of the
    call are part of the operation. *)
Definition suite_chooser : suite := S_type 1.
Definition suite_invoker : suite := S_type 2.
Record invoker (H R : Type) := { iv_type : N -> impl -> R; iv_hook : N -> H -> R }.
Arguments iv_type {H R}.
Arguments iv_hook {H R}.
(** impl.h:145-163: [runtime_selected::impl] is the hook that the chooser makes of the implementation [chosen] at start-up;
    impl.h:174-273 [invoke]. *)
Definition proxy_call {H R : Type} (choosers : N -> impl -> H) (invokers : N -> invoker H R)
  (types : N -> impl) (opts : list targ) (cpl : list impl) (consteval : bool) (chosen : option impl) (id : N) : option R :=
  c <- query_default suite_chooser 0 opts ;;
  v <- query_default suite_invoker 0 opts ;;
  if consteval then
    w <- query_default suite_cpltime 0 opts ;;
    if im_class (types w) then Some (iv_type (invokers v) id (types w))
    else i <- hd_error cpl ;; Some (iv_type (invokers v) id i)
  else
    w <- query_default suite_enforce 0 opts ;;
    if im_class (types w) then Some (iv_type (invokers v) id (types w))
    else i <- chosen ;; Some (iv_hook (invokers v) id (choosers c i)).
Definition algorithm_call {H R : Type} (choosers : N -> impl -> H) (invokers : N -> invoker H R) (types : N -> impl) (A : algorithm)
  (opts : list targ) (consteval : bool) (chosen : option impl) (id : N) : option R :=
  proxy_call choosers invokers types (al_proxy A opts) (al_cpltime A) consteval chosen id.
