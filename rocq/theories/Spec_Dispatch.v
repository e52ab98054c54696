(** Specification for C39-C41. *)
From Verif Require Import Base Model_Dispatch. (* the types [machine], [feature], [impl], [event], [targ] only *)
Local Open Scope N_scope.

(** What a processor reports: Intel SDM volume 2A, CPUID.  A leaf above the maximum of leaf 0 reports nothing. *)
Definition cpuid_has (mc : machine) (leaf : N) (reg : regs -> N) (i : N) : Prop :=
  leaf <= r_eax (mc_cpuid mc 0 0) /\ N.testbit (reg (mc_cpuid mc leaf 0)) i = true.
Definition reported (mc : machine) (f : feature) : Prop :=
  match f with
  | sse_1 => cpuid_has mc 1 r_edx 25
  | sse_2 => cpuid_has mc 1 r_edx 26
  | sse_3 => cpuid_has mc 1 r_ecx 0
  | ssse_3 => cpuid_has mc 1 r_ecx 9
  | sse_4_1 => cpuid_has mc 1 r_ecx 19
  | sse_4_2 => cpuid_has mc 1 r_ecx 20
  | sse_4 => cpuid_has mc 1 r_ecx 19 /\ cpuid_has mc 1 r_ecx 20
  | avx_1 => cpuid_has mc 1 r_ecx 28
  | avx_2 => cpuid_has mc 7 r_ebx 5
  | sha_1 | sha_2 => cpuid_has mc 7 r_ebx 29
  end.
(** The operating system saves the YMM registers: CPUID.1:ECX.OSXSAVE[27] and XCR0[2:1] = 11b (SDM volume 1, 14.3). *)
Definition os_saves_ymm (mc : machine) : Prop :=
  cpuid_has mc 1 r_ecx 27 /\ N.testbit (mc_xcr0 mc) 1 = true /\ N.testbit (mc_xcr0 mc) 2 = true.

(** The program may run the implementation: it is there, and what it requires is reported (which needs the assembly
    support that asks the processor, and an x86-64 processor). *)
Definition usable (use_asm x86_64 : bool) (mc : machine) (i : impl) : Prop :=
  im_class i = true /\
  match im_arch i with
  | None => True
  | Some None => False
  | Some (Some req) => x86_64 = true /\ (req = [] \/ use_asm = true) /\ forall f, In f req -> reported mc f
  end.
(** [i] is the first element of [l] with [P]. *)
Definition first_with (P : impl -> Prop) (l : list impl) (i : impl) : Prop :=
  exists a b, l = a ++ i :: b /\ P i /\ forall x, In x a -> ~ P x.

(** Orders of initialisation the C++ standard allows ([basic.start.dynamic]): the processor information before the
    features, which are defined after it in every translation unit; the chosen implementation, a member of a class
    template, anywhere.  Nothing is initialised twice. *)
Definition permitted (es : list event) : Prop :=
  (forall a f b, es = a ++ EFeature f :: b -> In EInfo a) /\
  (forall a e b, es = a ++ e :: b -> e <> EUse -> ~ In e (a ++ b)).
(** Start-up without calls of the library. *)
Definition startup (es : list event) : Prop := permitted es /\ ~ In EUse es /\ In EImpl es /\ In EInfo es.
(** ... with every feature initialised before the choice. *)
Definition features_first (es : list event) : Prop :=
  exists a b, es = a ++ EImpl :: b /\ forall f, In (EFeature f) a.

(** Among template arguments, [v] is the value of the first option of suite [s]; there is none. *)
Definition asked (s : suite) (opts : list targ) (v : N) : Prop :=
  exists before after, opts = before ++ TOption s v :: after /\ forall w, ~ In (TOption s w) before.
Definition silent (s : suite) (opts : list targ) : Prop := forall w, ~ In (TOption s w) opts.
