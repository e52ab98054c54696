(** Model of src/milo/internal/impl.h, src/milo/internal/arch/x86_64.h, arch/any.h, arch.h and src/milo/internal/option.h.

    Template lists are lists; a class given as template argument is a value.  Dynamic initialisation of the static
    variables involved is a sequence of events. *)
From Verif Require Import Base.
Local Open Scope N_scope.

(** *** arch/x86_64.h *)

(** The instruction set extensions of [arch_x86_64_ise] (x86_64.h:202-246). *)
Inductive feature := sse_1 | sse_2 | sse_3 | ssse_3 | sse_4_1 | sse_4_2 | sse_4 | avx_1 | avx_2 | sha_1 | sha_2.

(** A processor: the answers of the CPUID instruction (leaf, sub-leaf), as (eax, ebx, ecx, edx), and what the operating
    system stored in the extended control register 0 (the library never reads the latter). *)
Record regs := { r_eax : N; r_ebx : N; r_ecx : N; r_edx : N }.
Record machine := { mc_cpuid : N -> N -> regs; mc_xcr0 : N }.
Definition regs0 : regs := {| r_eax := 0; r_ebx := 0; r_ecx := 0; r_edx := 0 |}.

(** x86_64.h:40-64 [arch_x86_64_cpuid] and arch/x86_64/cpuid.asm:12-29; without assembly all registers are 0.
    The default sub-leaf is 0. *)
Definition arch_cpuid (use_asm : bool) (mc : machine) (leaf : N) : regs :=
  if use_asm then mc_cpuid mc leaf 0 else regs0.

(** x86_64.h:81-116: the constructor of [arch_x86_64_info_basic], m_features[0] and m_features[1]. *)
Definition info : Type := regs * regs.
Definition info0 : info := (regs0, regs0).
Definition arch_info (use_asm : bool) (mc : machine) : info :=
  let max := r_eax (arch_cpuid use_asm mc 0) in
  (if 1 <=? max then arch_cpuid use_asm mc 1 else regs0, if 7 <=? max then arch_cpuid use_asm mc 7 else regs0).

(** [x & (1 << i)] converted to bool. *)
Definition bit (x i : N) : bool := negb (N.land x (N.shiftl 1 i) =? 0).

(** x86_64.h:131-199 (and 230 for sse_4). *)
Definition info_feature (i : info) (f : feature) : bool :=
  match f with
  | sse_1 => bit (r_edx (fst i)) 25
  | sse_2 => bit (r_edx (fst i)) 26
  | sse_3 => bit (r_ecx (fst i)) 0
  | ssse_3 => bit (r_ecx (fst i)) 9
  | sse_4_1 => bit (r_ecx (fst i)) 19
  | sse_4_2 => bit (r_ecx (fst i)) 20
  | sse_4 => bit (r_ecx (fst i)) 19 && bit (r_ecx (fst i)) 20
  | avx_1 => bit (r_ecx (fst i)) 28
  | avx_2 => bit (r_ebx (snd i)) 5
  | sha_1 => bit (r_ebx (snd i)) 29
  | sha_2 => bit (r_ebx (snd i)) 29
  end.

(** An implementation class.  [im_class = false] stands for [void]; [im_arch] is what [requirements::arch] says:
    [None] when there is none, otherwise whether it has a member [x86_64] and the features of its [ise] (empty when
    there is no [ise]). *)
Record impl := { im_id : nat; im_class : bool; im_arch : option (option (list feature)) }.

(** x86_64.h:248-383 [check]: the features are tested in the order of the declaration of [feature]. *)
Definition all_features : list feature :=
  [sse_1; sse_2; sse_3; ssse_3; sse_4_1; sse_4_2; sse_4; avx_1; avx_2; sha_1; sha_2].
Definition feature_eq_dec (a b : feature) : {a = b} + {a <> b}.
Proof. decide equality. Defined.
Definition has_feature (l : list feature) (f : feature) : bool := if in_dec feature_eq_dec f l then true else false.
Fixpoint check_features (ise : feature -> bool) (req : list feature) (fs : list feature) : bool :=
  match fs with
  | [] => true
  | f :: fs => if has_feature req f then if negb (ise f) then false else check_features ise req fs else check_features ise req fs
  end.
Definition ise_check (ise : feature -> bool) (i : impl) : bool :=
  match im_arch i with
  | Some (Some req) => check_features ise req all_features
  | _ => false
  end.
(** arch.h:16-19: the active architecture; arch/any.h:14-24 [check] is false. *)
Definition active_check (x86_64 : bool) (ise : feature -> bool) (i : impl) : bool :=
  if x86_64 then ise_check ise i else false.

(** *** impl.h *)

(** impl.h:14-40 [impl_choose_check]. *)
Definition impl_choose_check (i : impl) : bool := im_class i.

(** impl.h:42-85 [impl_choose_hook]; running off the end ("unreachable") is [None]. *)
Fixpoint impl_choose_hook (x86_64 : bool) (ise : feature -> bool) (l : list impl) : option impl :=
  match l with
  | [] => None
  | i :: l =>
      if impl_choose_check i then
        match im_arch i with
        | None => Some i
        | Some _ => if active_check x86_64 ise i then Some i else impl_choose_hook x86_64 ise l
        end
      else impl_choose_hook x86_64 ise l
  end.

(** impl.h:87-122 [impl_choose_type], [impl_choose_assert]: required of the list at compile time. *)
Definition impl_choose_assert (l : list impl) : bool :=
  negb (length l =? 0)%nat &&
  existsb (fun i => impl_choose_check i && match im_arch i with None => true | Some _ => false end) l.

(** The type [void] as implementation. *)
Definition impl_void : impl := {| im_id := 0; im_class := false; im_arch := None |}.

(** impl.h:189-200: the run time list is the preferred implementation ([void] without such an option) followed by
    the list of the algorithm. *)
Definition runtime_list (prefer : option impl) (l : list impl) : list impl :=
  match prefer with Some i => i | None => impl_void end :: l.

(** *** Dynamic initialisation.  [arch_x86_64_info] (x86_64.h:66-200) is an inline variable, the members of
    [arch_x86_64_ise] (202-246) are inline static members, [impl_runtime_reader<...>::impl] (impl.h:158-163) is a static
    member of a class template, so its initialisation is unordered relative to the others.  Before its initialisation
    each of them is zero: no feature, and a null function pointer.  [EUse] is a call of the library (impl.h:245-273). *)
Inductive event := EInfo | EFeature (f : feature) | EImpl | EUse.
Record statics := { st_info : info; st_ise : feature -> bool; st_impl : option impl }.
Definition statics0 : statics := {| st_info := info0; st_ise := fun _ => false; st_impl := None |}.
Definition init_event (x86_64 use_asm : bool) (mc : machine) (l : list impl) (e : event) (s : statics)
  : option (statics * option impl) :=
  match e with
  | EInfo => Some ({| st_info := arch_info use_asm mc; st_ise := st_ise s; st_impl := st_impl s |}, None)
  | EFeature f =>
      Some ({| st_info := st_info s;
               st_ise := fun g => if feature_eq_dec g f then info_feature (st_info s) f else st_ise s g;
               st_impl := st_impl s |}, None)
  | EImpl =>
      i <- impl_choose_hook x86_64 (st_ise s) l ;;
      Some ({| st_info := st_info s; st_ise := st_ise s; st_impl := Some i |}, None)
  | EUse => i <- st_impl s ;; Some (s, Some i)        (* a call through the pointer *)
  end.
(** A whole run: the implementations used, in order. *)
Fixpoint init_run (x86_64 use_asm : bool) (mc : machine) (l : list impl) (es : list event) (s : statics)
  : option (list impl) :=
  match es with
  | [] => Some []
  | e :: es =>
      '(s, u) <- init_event x86_64 use_asm mc l e s ;;
      us <- init_run x86_64 use_asm mc l es s ;;
      Some (match u with Some i => i :: us | None => us end)
  end.

(** *** The lists of the algorithms *)

(** cipher/chacha/chacha_impl_hw_x86_64.h:53-72, 136-157 (void without assembly: 216-220); chacha.h:29-33. *)
Definition i_sw (n : nat) : impl := {| im_id := n; im_class := true; im_arch := None |}.
Definition i_hw (n : nat) (use_asm x86_64 : bool) (req : list feature) : impl :=
  if use_asm && x86_64 then {| im_id := n; im_class := true; im_arch := Some (Some req) |} else impl_void.
Definition chacha_avx_2 use_asm x86_64 := i_hw 2 use_asm x86_64 [sse_1; sse_2; sse_3; ssse_3; avx_1; avx_2].
Definition chacha_ssse_3 use_asm x86_64 := i_hw 1 use_asm x86_64 [sse_1; sse_2; sse_3; ssse_3].
Definition chacha_runtime use_asm x86_64 : list impl := [chacha_avx_2 use_asm x86_64; chacha_ssse_3 use_asm x86_64; i_sw 0].
(** sha_1_160_impl_hw_x86_64.h:33-52; sha_1_160.h:30-33. *)
Definition sha_1_160_ni use_asm x86_64 := i_hw 1 use_asm x86_64 [sse_1; sse_2; sse_3; ssse_3; sha_1].
Definition sha_1_160_runtime use_asm x86_64 : list impl := [sha_1_160_ni use_asm x86_64; i_sw 0].
(** sha_2_256_impl_hw_x86_64.h:33-54; sha_2_256.h:30-33. *)
Definition sha_2_256_ni use_asm x86_64 := i_hw 1 use_asm x86_64 [sse_1; sse_2; sse_3; ssse_3; avx_1; sha_2].
Definition sha_2_256_runtime use_asm x86_64 : list impl := [sha_2_256_ni use_asm x86_64; i_sw 0].
(** sha_2_512.h:29-31. *)
Definition sha_2_512_runtime : list impl := [i_sw 0].
Definition algorithm_lists (use_asm x86_64 : bool) : list (list impl) :=
  [chacha_runtime use_asm x86_64; sha_1_160_runtime use_asm x86_64; sha_2_256_runtime use_asm x86_64; sha_2_512_runtime].

(** *** option.h.  A template argument is either an option of some suite or another type. *)

(** A suite is identified by its properties type and, for value options, the value type; [S_type k] is
    [option_oftype_suite<k>], [S_value k t] is [option_ofvalue_suite<k, t>] (option.h:110-279). *)
Inductive suite := S_type (k : nat) | S_value (k t : nat).
Inductive targ := TOption (s : suite) (v : N) | TOther (n : nat).
Definition suite_eq_dec (a b : suite) : {a = b} + {a <> b}.
Proof. decide equality; apply Nat.eq_dec. Defined.
(** option.h:138-158 and 224-237 [solver]: an option of the same flavour whose type is [option<its value>] of this suite. *)
Definition solver (s : suite) (a : targ) : bool :=
  match a with
  | TOption s' v =>
      match s, s' with
      | S_value k t, S_value k' t' => (t =? t')%nat && (if suite_eq_dec s s' then true else false)
      | S_type _, S_type _ => if suite_eq_dec s s' then true else false
      | _, _ => false
      end
  | TOther _ => false
  end.
(** std::disjunction: the first with value true, else the last one (its [value] is false). *)
Fixpoint disjunction (p : targ -> bool) (a : targ) (l : list targ) : targ :=
  if p a then a else match l with [] => a | b :: l => disjunction p b l end.
(** option.h:91-108 [option_query] with its static_assert ([None]: does not compile). *)
Definition option_query (s : suite) (l : list targ) : option N :=
  match l with
  | [] => None
  | a :: l =>
      match disjunction (solver s) a l with
      | TOption s' v => if solver s (TOption s' v) then Some v else None
      | TOther _ => None
      end
  end.
(** option.h:177-196 and 256-272 [query_default]. *)
Definition query_default (s : suite) (d : N) (l : list targ) : option N := option_query s (l ++ [TOption s d]).

(** *** impl_proxy with its options.  option.h:307-331: the suites; a type given as option is a number, [types] tells which
    class it is, 0 is [void].  The options for the chooser and the invoker (option.h:291-305): Model_Options. *)
Definition suite_cpltime : suite := S_type 3.
Definition suite_runtime : suite := S_type 4.
Definition suite_enforce : suite := S_type 5.
(** impl.h:189-200: the list for [runtime_selected]. *)
Definition proxy_runtime_list (types : N -> impl) (opts : list targ) (rt : list impl) : option (list impl) :=
  v <- query_default suite_runtime 0 opts ;; Some (types v :: rt).
(** impl.h:181-187, 191, 204-273 [invoke]: [chosen] is [runtime_selected::impl]. *)
Definition proxy_invoke (types : N -> impl) (opts : list targ) (cpl : list impl) (consteval : bool) (chosen : option impl) : option impl :=
  if consteval then
    v <- query_default suite_cpltime 0 opts ;;
    if im_class (types v) then Some (types v) else hd_error cpl
  else
    v <- query_default suite_enforce 0 opts ;;
    if im_class (types v) then Some (types v) else chosen.
(** chacha.h:26-28, sha_1_160.h:27-29, sha_2_256.h:27-29, sha_2_512.h:26-28: the lists for constant evaluation, in the order of
    [algorithm_lists]. *)
Definition algorithm_cpltime : list (list impl) := [[i_sw 0]; [i_sw 0]; [i_sw 0]; [i_sw 0]].
