(** Properties C39, C40, C41. *)
From Verif Require Import Base Model_Dispatch Spec_Dispatch Proof_Dispatch.
Local Open Scope N_scope.

(** A usual start-up order: processor information, features, choice. *)
Definition usual : list event := EInfo :: map EFeature all_features ++ [EImpl].
(** Decision procedures for [permitted] on concrete orders. *)
Definition event_eq_dec (a b : event) : {a = b} + {a <> b}.
Proof. decide equality. apply feature_eq_dec. Defined.
Fixpoint permittedb (seen : list event) (es : list event) : bool :=
  match es with
  | [] => true
  | e :: es =>
      match e with EFeature _ => if in_dec event_eq_dec EInfo seen then true else false | _ => true end &&
      match e with EUse => true | _ => if in_dec event_eq_dec e seen then false else true end &&
      permittedb (e :: seen) es
  end.
Lemma permittedb_ok es : forall seen, permittedb seen es = true ->
  (forall a f b, es = a ++ EFeature f :: b -> In EInfo (seen ++ a)) /\
  (forall a e b, es = a ++ e :: b -> e <> EUse -> ~ In e (seen ++ a ++ b)).
Proof.
  induction es as [|e es IH]; intros seen H.
  - split; intros [|? ?] ? ? E; discriminate.
  - cbn [permittedb] in H. apply andb_prop in H. destruct H as [H H3]. apply andb_prop in H. destruct H as [H1 H2].
    destruct (IH _ H3) as [A B]. split.
    + intros a f b E. destruct a as [|x a].
      * injection E as -> ->. rewrite app_nil_r. destruct (in_dec event_eq_dec EInfo seen); [assumption|discriminate].
      * injection E as <- ->. specialize (A a f b eq_refl). cbn [app In] in A. apply in_or_app.
        destruct A as [->|A]; [right; left; reflexivity|]. apply in_app_or in A. destruct A; [left|right; right]; assumption.
    + intros a x b E Hx Hin. destruct a as [|y a].
      * injection E as -> ->. apply in_app_or in Hin. destruct Hin as [Hin|Hin].
        -- destruct x; try contradiction; destruct (in_dec event_eq_dec _ seen); try discriminate; contradiction.
        -- cbn [app] in Hin. apply in_split in Hin. destruct Hin as (u & v & ->).
           apply (B u x v eq_refl Hx). left. reflexivity.
      * injection E as <- ->. apply (B a x b eq_refl Hx). cbn [app In]. apply in_app_or in Hin. destruct Hin as [Hin|Hin].
        -- right. apply in_or_app. left. exact Hin.
        -- cbn [app In] in Hin. destruct Hin as [->|Hin]; [left; reflexivity|]. right. apply in_or_app. right. exact Hin.
Qed.
Lemma permitted_dec es : permittedb [] es = true -> permitted es.
Proof. intros H. exact (permittedb_ok es [] H). Qed.

(** A processor reporting everything except OSXSAVE (CPUID.1:ECX bit 27), whose operating system enabled no state. *)
Definition all_regs : regs := {| r_eax := 7; r_ebx := 0xffffffff; r_ecx := 0xf7ffffff; r_edx := 0xffffffff |}.
Definition no_os : machine := {| mc_cpuid := fun _ _ => all_regs; mc_xcr0 := 0 |}.

(** *** C39.  After a start-up in which the features are initialised before the choice, every call uses the first
    implementation of the preference list that the processor supports; there is one. *)
Theorem C39_dispatch : forall x86_64 use_asm mc prefer l es n,
  impl_choose_assert (runtime_list prefer l) = true -> startup es -> features_first es ->
  exists i, first_with (usable use_asm x86_64 mc) (runtime_list prefer l) i /\
    init_run x86_64 use_asm mc (runtime_list prefer l) (es ++ repeat EUse n) statics0 = Some (repeat i n).
Proof. intros x86_64 use_asm mc prefer l es n. exact (in_order x86_64 use_asm mc (runtime_list prefer l) es n). Qed.
Print Assumptions C39_dispatch.
(** In every other permitted order the implementation used is still one of the list and supported. *)
Theorem C39_any_order : forall x86_64 use_asm mc prefer l es n,
  impl_choose_assert (runtime_list prefer l) = true -> startup es ->
  exists i, In i (runtime_list prefer l) /\ usable use_asm x86_64 mc i /\
    init_run x86_64 use_asm mc (runtime_list prefer l) (es ++ repeat EUse n) statics0 = Some (repeat i n).
Proof. intros x86_64 use_asm mc prefer l es n. exact (any_order x86_64 use_asm mc (runtime_list prefer l) es n). Qed.
Print Assumptions C39_any_order.
(** The compile-time condition holds for every algorithm of the library, with any preferred implementation. *)
Theorem C39_algorithms : forall use_asm x86_64 prefer l, In l (algorithm_lists use_asm x86_64) ->
  impl_choose_assert (runtime_list prefer l) = true.
Proof.
  assert (H : forall use_asm x86_64 l, In l (algorithm_lists use_asm x86_64) ->
    existsb (fun i => impl_choose_check i && match im_arch i with None => true | Some _ => false end) l = true).
  { intros [|] [|] l [<-|[<-|[<-|[<-|[]]]]]; reflexivity. }
  intros use_asm x86_64 prefer l Hl. unfold impl_choose_assert, runtime_list. cbn [length existsb].
  rewrite (H _ _ _ Hl). rewrite orb_true_r. reflexivity.
Qed.
Print Assumptions C39_algorithms.
(** Which of the implementations it is, by number: ChaCha has the portable one (0), SSSE3 (1) and AVX2 (2), SHA-1 and SHA-256 the
    portable one (0) and the SHA extensions (1), SHA-512 the portable one only. *)
Definition runs_number (use_asm x86_64 : bool) (mc : machine) (es : list event) (l : list impl) (k : nat) : Prop :=
  exists i, init_run x86_64 use_asm mc (runtime_list None l) (es ++ [EUse]) statics0 = Some [i] /\ im_id i = k /\ im_class i = true.
Definition has (mc : machine) (fs : list feature) : Prop := forall f, In f fs -> reported mc f.
Lemma first_inv (P : impl -> Prop) x l i : first_with P (x :: l) i -> (P x /\ i = x) \/ (~ P x /\ first_with P l i).
Proof.
  intros (a & b & E & Hp & Hn). destruct a as [|y a]; injection E as E1 E2.
  - left. subst. auto.
  - right. subst y. split; [apply Hn; left; reflexivity|]. exists a, b. split; [exact E2|]. split; [exact Hp|]. intros z Hz. apply Hn. right. exact Hz.
Qed.
Lemma hw_usable mc k req : usable true true mc (i_hw k true true req) <-> has mc req.
Proof.
  split; [intros (_ & _ & _ & H); exact H|]. intros H. split; [reflexivity|]. split; [reflexivity|]. split; [right; reflexivity|exact H].
Qed.
Theorem C39_which : forall mc es, startup es -> features_first es ->
  let chacha := chacha_runtime true true in let sha_1 := sha_1_160_runtime true true in let sha_256 := sha_2_256_runtime true true in
  let base := [sse_1; sse_2; sse_3; ssse_3] in
  (has mc (base ++ [avx_1; avx_2]) -> runs_number true true mc es chacha 2) /\
  (has mc base -> ~ has mc (base ++ [avx_1; avx_2]) -> runs_number true true mc es chacha 1) /\
  (~ has mc base -> runs_number true true mc es chacha 0) /\
  (has mc (base ++ [Model_Dispatch.sha_1]) -> runs_number true true mc es sha_1 1) /\
  (~ has mc (base ++ [Model_Dispatch.sha_1]) -> runs_number true true mc es sha_1 0) /\
  (has mc (base ++ [avx_1; sha_2]) -> runs_number true true mc es sha_256 1) /\
  (~ has mc (base ++ [avx_1; sha_2]) -> runs_number true true mc es sha_256 0) /\
  (forall use_asm x86_64 l, use_asm && x86_64 = false -> In l (algorithm_lists use_asm x86_64) -> runs_number use_asm x86_64 mc es l 0) /\
  (forall use_asm x86_64, runs_number use_asm x86_64 mc es sha_2_512_runtime 0).
Proof.
  intros mc es Hs Hf. cbv zeta.
  assert (K : forall use_asm x86_64 l, In l (algorithm_lists use_asm x86_64) ->
    exists i, init_run x86_64 use_asm mc (runtime_list None l) (es ++ [EUse]) statics0 = Some [i] /\ first_with (usable use_asm x86_64 mc) l i).
  { intros use_asm x l Hl. destruct (C39_dispatch x use_asm mc None l es 1 (C39_algorithms use_asm x None l Hl) Hs Hf) as (i & Hi & R).
    exists i. split; [exact R|]. unfold runtime_list in Hi. apply first_inv in Hi. destruct Hi as [[[Hc _] _]|[_ Hi]]; [discriminate|exact Hi]. }
  assert (E0 : forall P i, first_with P [i_sw 0] i -> i = i_sw 0).
  { intros P i Hi. apply first_inv in Hi. destruct Hi as [[_ Hi]|[_ (a & b & E & _)]]; [exact Hi|]. destruct a; discriminate. }
  assert (V : forall use_asm x (P : Prop) l i, first_with (usable use_asm x mc) (impl_void :: l) i -> (first_with (usable use_asm x mc) l i -> P) -> P).
  { intros use_asm x P l i Hi H. apply first_inv in Hi. destruct Hi as [[[Hc _] _]|[_ Hi]]; [discriminate|exact (H Hi)]. }
  destruct (K true true (chacha_runtime true true)) as (c & Rc & Fc); [left; reflexivity|].
  destruct (K true true (sha_1_160_runtime true true)) as (d & Rd & Fd); [right; left; reflexivity|].
  destruct (K true true (sha_2_256_runtime true true)) as (e & Re & Fe); [right; right; left; reflexivity|].
  unfold chacha_runtime in Fc. apply first_inv in Fc. unfold chacha_avx_2 in Fc at 1 3. rewrite hw_usable in Fc.
  unfold sha_1_160_runtime in Fd. apply first_inv in Fd. unfold sha_1_160_ni in Fd at 1 3. rewrite hw_usable in Fd.
  unfold sha_2_256_runtime in Fe. apply first_inv in Fe. unfold sha_2_256_ni in Fe at 1 3. rewrite hw_usable in Fe.
  split; [|split; [|split; [|split; [|split; [|split; [|split; [|split]]]]]]].
  - intros H. destruct Fc as [[_ ->]|[Hn _]]; [|contradiction]. exists (chacha_avx_2 true true). split; [exact Rc|split; reflexivity].
  - intros H Hn. destruct Fc as [[H2 _]|[_ Fc]]; [contradiction|]. apply first_inv in Fc. unfold chacha_ssse_3 in Fc. rewrite hw_usable in Fc.
    destruct Fc as [[_ ->]|[Hn2 _]]; [|contradiction]. exists (chacha_ssse_3 true true). split; [exact Rc|split; reflexivity].
  - intros Hn. destruct Fc as [[H2 _]|[_ Fc]].
    + exfalso. apply Hn. intros f F. apply H2. cbn [In] in F |- *. tauto.
    + apply first_inv in Fc. unfold chacha_ssse_3 in Fc. rewrite hw_usable in Fc. destruct Fc as [[H2 _]|[_ Fc]]; [contradiction|].
      apply E0 in Fc. subst c. exists (i_sw 0). split; [exact Rc|split; reflexivity].
  - intros H. destruct Fd as [[_ ->]|[Hn _]]; [|contradiction]. exists (sha_1_160_ni true true). split; [exact Rd|split; reflexivity].
  - intros Hn. destruct Fd as [[H2 _]|[_ Fd]]; [contradiction|]. apply E0 in Fd. subst d. exists (i_sw 0). split; [exact Rd|split; reflexivity].
  - intros H. destruct Fe as [[_ ->]|[Hn _]]; [|contradiction]. exists (sha_2_256_ni true true). split; [exact Re|split; reflexivity].
  - intros Hn. destruct Fe as [[H2 _]|[_ Fe]]; [contradiction|]. apply E0 in Fe. subst e. exists (i_sw 0). split; [exact Re|split; reflexivity].
  - intros use_asm x l Ha Hl. destruct (K use_asm x l Hl) as (i & R & F). exists i. split; [exact R|].
    assert (i = i_sw 0); [|subst i; split; reflexivity].
    assert (Z : forall k req, i_hw k use_asm x req = impl_void) by (intros k req; unfold i_hw; rewrite Ha; reflexivity).
    destruct Hl as [<-|[<-|[<-|[<-|[]]]]];
      unfold chacha_runtime, sha_1_160_runtime, sha_2_256_runtime, sha_2_512_runtime, chacha_avx_2, chacha_ssse_3, sha_1_160_ni, sha_2_256_ni in F; rewrite ?Z in F.
    + apply (V _ _ _ _ _ F). intros F1. apply (V _ _ _ _ _ F1). apply E0.
    + apply (V _ _ _ _ _ F). apply E0.
    + apply (V _ _ _ _ _ F). apply E0.
    + exact (E0 _ _ F).
  - intros use_asm x. destruct (K use_asm x sha_2_512_runtime) as (i & R & F); [right; right; right; left; reflexivity|].
    apply E0 in F. subst i. exists (i_sw 0). split; [exact R|split; reflexivity].
Qed.
Print Assumptions C39_which.
(** In constant evaluation the implementation asked for with [impl_cpltime] is used, without such an option the portable one
    of each algorithm; the processor plays no part. *)
Theorem C39_constant : forall types opts cpl chosen, types 0 = impl_void -> In cpl algorithm_cpltime ->
  (forall v, asked suite_cpltime opts v -> im_class (types v) = true -> proxy_invoke types opts cpl true chosen = Some (types v)) /\
  (silent suite_cpltime opts -> proxy_invoke types opts cpl true chosen = Some (i_sw 0)).
Proof.
  intros types opts cpl chosen T0 Hc. unfold proxy_invoke. split.
  - intros v (a & c & -> & H) Hv. rewrite (query_default_first _ _ _ _ _ H). cbn [bind]. rewrite Hv. reflexivity.
  - intros H. rewrite (query_default_none _ _ _ H). cbn [bind]. rewrite T0. cbn [impl_void im_class].
    destruct Hc as [<-|[<-|[<-|[<-|[]]]]]; reflexivity.
Qed.
Print Assumptions C39_constant.
(** At run time the implementation asked for with [impl_enforce] is used, whatever the processor; otherwise the first that
    the processor supports among the one asked for with [impl_runtime] and the list of the algorithm. *)
Theorem C39_runtime : forall types opts use_asm x86_64 mc rt cpl es, types 0 = impl_void -> In rt (algorithm_lists use_asm x86_64) -> startup es -> features_first es ->
  exists l i, proxy_runtime_list types opts rt = Some l /\ init_run x86_64 use_asm mc l (es ++ [EUse]) statics0 = Some [i] /\
    (forall v, asked suite_enforce opts v -> im_class (types v) = true -> proxy_invoke types opts cpl false (Some i) = Some (types v)) /\
    (silent suite_enforce opts -> proxy_invoke types opts cpl false (Some i) = Some i) /\
    (forall v, asked suite_runtime opts v -> first_with (usable use_asm x86_64 mc) (types v :: rt) i) /\
    (silent suite_runtime opts -> first_with (usable use_asm x86_64 mc) rt i).
Proof.
  intros types opts use_asm x86_64 mc rt cpl es T0 Hrt Hs Hf.
  assert (E : exists v, query_default suite_runtime 0 opts = Some v /\ (forall w, asked suite_runtime opts w -> w = v) /\ (silent suite_runtime opts -> v = 0)).
  { assert (D : (exists v, asked suite_runtime opts v) \/ silent suite_runtime opts).
    { clear. induction opts as [|o opts IH]; [right; intros w []|].
      destruct o as [s v|n].
      - destruct (suite_eq_dec s suite_runtime) as [->|Hn].
        + left. exists v, [], opts. split; [reflexivity|intros w []].
        + destruct IH as [(w & a & c & -> & H)|H].
          * left. exists w, (TOption s v :: a), c. split; [reflexivity|]. intros u [Hu|Hu]; [congruence|exact (H u Hu)].
          * right. intros u [Hu|Hu]; [congruence|exact (H u Hu)].
      - destruct IH as [(w & a & c & -> & H)|H].
        + left. exists w, (TOther n :: a), c. split; [reflexivity|]. intros u [Hu|Hu]; [congruence|exact (H u Hu)].
        + right. intros u [Hu|Hu]; [congruence|exact (H u Hu)]. }
    assert (Q : forall w, asked suite_runtime opts w -> query_default suite_runtime 0 opts = Some w).
    { intros w (a & c & -> & H). exact (query_default_first _ _ _ _ _ H). }
    assert (Z : silent suite_runtime opts -> query_default suite_runtime 0 opts = Some 0) by exact (query_default_none suite_runtime 0 opts).
    destruct D as [(v & D)|D].
    - exists v. split; [exact (Q v D)|]. split; [intros w Hw; pose proof (Q w Hw); pose proof (Q v D); congruence|].
      intros H. pose proof (Z H). pose proof (Q v D). congruence.
    - exists 0. split; [exact (Z D)|]. split; [|reflexivity]. intros w (a & c & -> & _). exfalso. apply (D w). apply in_or_app. right. left. reflexivity. }
  destruct E as (v & E & E1 & E2).
  assert (A : impl_choose_assert (types v :: rt) = true).
  { exact (C39_algorithms use_asm x86_64 (Some (types v)) rt Hrt). }
  destruct (in_order x86_64 use_asm mc (types v :: rt) es 1 A Hs Hf) as (i & Hi & HR).
  exists (types v :: rt), i. unfold proxy_runtime_list. rewrite E. split; [reflexivity|]. split; [exact HR|]. unfold proxy_invoke. split; [|split; [|split]].
  - intros w (a & c & -> & H) Hw. rewrite (query_default_first _ _ _ _ _ H). cbn [bind]. rewrite Hw. reflexivity.
  - intros H. rewrite (query_default_none _ _ _ H). cbn [bind]. rewrite T0. reflexivity.
  - intros w Hw. rewrite (E1 w Hw). exact Hi.
  - intros H. rewrite (E2 H) in Hi. rewrite T0 in Hi. destruct Hi as (a & c & Ea & Hu & Hn). destruct a as [|x a].
    + cbn [app] in Ea. injection Ea as <- _. destruct Hu as [Hu _]. discriminate Hu.
    + cbn [app] in Ea. injection Ea as <- ->. exists a, c. split; [reflexivity|]. split; [exact Hu|]. intros y Hy. apply Hn. right. exact Hy.
Qed.
Print Assumptions C39_runtime.
(** The three options are told apart: giving one of them does not change what the others say. *)
Theorem C39_options_apart : forall i j s s' d v opts, i <> j ->
  nth_error [suite_cpltime; suite_runtime; suite_enforce] i = Some s -> nth_error [suite_cpltime; suite_runtime; suite_enforce] j = Some s' ->
  (forall w, asked s (TOption s' v :: opts) w <-> asked s opts w) /\ (silent s (TOption s' v :: opts) <-> silent s opts) /\
  query_default s d (TOption s' v :: opts) = query_default s d opts.
Proof.
  intros i j s s' d v opts Hij Hi Hj.
  assert (N : s <> s').
  { destruct i as [|[|[|i]]]; destruct j as [|[|[|j]]]; cbn in Hi, Hj; try (destruct i; discriminate Hi); try (destruct j; discriminate Hj);
      try congruence; injection Hi as <-; injection Hj as <-; discriminate. }
  split; [|split].
  - intros w. split.
    + intros (a & c & E & H). destruct a as [|x a]; [exfalso; apply N; cbn in E; congruence|]. cbn in E. injection E as <- ->.
      exists a, c. split; [reflexivity|]. intros u Hu. exact (H u (or_intror Hu)).
    + intros (a & c & -> & H). exists (TOption s' v :: a), c. split; [reflexivity|]. intros u [Hu|Hu]; [apply N; congruence|exact (H u Hu)].
  - split; [intros H w Hw; exact (H w (or_intror Hw))|]. intros H w [Hw|Hw]; [apply N; congruence|exact (H w Hw)].
  - unfold query_default. cbn [app]. destruct (opts ++ [TOption s d]) as [|o l] eqn:E; [destruct opts; discriminate E|].
    assert (F : solver s (TOption s' v) = false).
    { cbn [solver]. destruct s, s'; try reflexivity; destruct (suite_eq_dec _ _) as [X|X]; try contradiction; try reflexivity; apply andb_false_r. }
    unfold option_query at 1. cbn [disjunction]. rewrite F. reflexivity.
Qed.
Print Assumptions C39_options_apart.
Example C39_options_case : asked suite_runtime [TOther 1; TOption suite_enforce 3; TOption suite_runtime 2; TOption suite_runtime 5] 2 /\ silent suite_cpltime [TOption suite_enforce 3] /\
  In [i_sw 0] algorithm_cpltime.
Proof.
  split; [|split].
  - exists [TOther 1; TOption suite_enforce 3], [TOption suite_runtime 5]. split; [reflexivity|]. intros w [H|[H|[]]]; discriminate H.
  - intros w [H|[]]. discriminate H.
  - left. reflexivity.
Qed.
Example C39_case : startup usual /\ features_first usual.
Proof.
  split.
  - split; [|split; [|split]].
    + apply permitted_dec. vm_compute. reflexivity.
    + cbn. intuition discriminate.
    + cbn. tauto.
    + cbn. tauto.
  - exists (EInfo :: map EFeature all_features), []. split; [reflexivity|]. intros f. right. apply in_map. apply all_features_all.
Qed.
(** Refuted in part: the order of initialisation is not fixed by the language, and in a permitted one the preferred
    implementation is not used although the processor supports it ... *)
Theorem C39_order_refuted : exists es mc, startup es /\
  usable true true mc (chacha_avx_2 true true) /\
  init_run true true mc (runtime_list None (chacha_runtime true true)) (es ++ [EUse]) statics0 = Some [i_sw 0].
Proof.
  exists (EImpl :: EInfo :: map EFeature all_features), no_os. split; [|split].
  - split; [|split; [|split]].
    + apply permitted_dec. vm_compute. reflexivity.
    + cbn. intuition discriminate.
    + cbn. tauto.
    + cbn. tauto.
  - split; [reflexivity|]. cbn. split; [reflexivity|]. split; [right; reflexivity|].
    intros f Hf. intuition (subst f); try (split; [cbn; lia|reflexivity]).
  - vm_compute. reflexivity.
Qed.
Print Assumptions C39_order_refuted.
(** ... and a call of the library made by another static initialiser may come before the choice: it goes through a null
    pointer, on every machine and for every list. *)
Theorem C39_startup_refuted : forall x86_64 use_asm mc l rest,
  permitted [EInfo; EUse; EImpl] /\ init_run x86_64 use_asm mc l (EInfo :: EUse :: rest) statics0 = None.
Proof. intros. split; [apply permitted_dec; vm_compute; reflexivity|reflexivity]. Qed.
Print Assumptions C39_startup_refuted.

(** *** C40.  AVX2 is only chosen when CPUID reports AVX2 and the other required sets ... *)
Theorem C40_avx2_partial : forall use_asm x86_64 mc es,
  startup es ->
  init_run x86_64 use_asm mc (runtime_list None (chacha_runtime use_asm x86_64)) (es ++ [EUse]) statics0
    = Some [chacha_avx_2 use_asm x86_64] ->
  reported mc avx_2 /\ reported mc avx_1 /\ reported mc ssse_3.
Proof.
  intros use_asm x mc es Hs H.
  assert (HA : impl_choose_assert (runtime_list None (chacha_runtime use_asm x)) = true).
  { apply (C39_algorithms use_asm x). left. reflexivity. }
  destruct (any_order x use_asm mc _ es 1 HA Hs) as (i & _ & Hu & E). cbn [repeat] in E. rewrite E in H. injection H as ->.
  destruct Hu as [Hc Hu]. unfold chacha_avx_2, i_hw in *. destruct use_asm; [|discriminate]. destruct x; [|discriminate].
  cbn [andb im_arch] in Hu. destruct Hu as (_ & _ & Hu). split; [|split]; (apply Hu; cbn; tauto).
Qed.
Print Assumptions C40_avx2_partial.
(** ... but refuted: whenever CPUID reports the sets, AVX2 is chosen, whatever the operating system enabled, ... *)
Theorem C40_ignores_os : forall mc es n,
  startup es -> features_first es ->
  (forall f, In f [sse_1; sse_2; sse_3; ssse_3; avx_1; avx_2] -> reported mc f) ->
  init_run true true mc (runtime_list None (chacha_runtime true true)) (es ++ repeat EUse n) statics0
    = Some (repeat (chacha_avx_2 true true) n).
Proof.
  intros mc es n Hs Hf Hr.
  destruct (in_order true true mc (runtime_list None (chacha_runtime true true)) es n) as (i & (a & b & E & Hu & Hn) & R);
    [apply (C39_algorithms true true); left; reflexivity|exact Hs|exact Hf|]. rewrite R. repeat f_equal.
  destruct a as [|x a]; [injection E as <- _; destruct Hu as [Hc _]; discriminate|]. injection E as <- E.
  destruct a as [|y a]; [injection E as <- _; reflexivity|]. injection E as <- E. exfalso.
  apply (Hn (chacha_avx_2 true true)); [right; left; reflexivity|].
  split; [reflexivity|]. split; [reflexivity|]. split; [right; reflexivity|]. exact Hr.
Qed.
Print Assumptions C40_ignores_os.
(** ... so it is chosen on a machine that does not save the registers. *)
Theorem C40_refuted : exists mc, ~ os_saves_ymm mc /\
  init_run true true mc (runtime_list None (chacha_runtime true true)) (usual ++ [EUse]) statics0
    = Some [chacha_avx_2 true true].
Proof.
  exists no_os. split; [intros ((_ & H) & _); discriminate|]. vm_compute. reflexivity.
Qed.
Print Assumptions C40_refuted.
(** The SHA-256 implementation uses AVX instructions too (vpunpcklqdq): the same holds for it. *)
Theorem C40_sha_refuted : exists mc, ~ os_saves_ymm mc /\
  init_run true true mc (runtime_list None (sha_2_256_runtime true true)) (usual ++ [EUse]) statics0
    = Some [sha_2_256_ni true true].
Proof.
  exists no_os. split; [intros ((_ & H) & _); discriminate|]. vm_compute. reflexivity.
Qed.
Print Assumptions C40_sha_refuted.
Example C40_case : forall f, In f [sse_1; sse_2; sse_3; ssse_3; avx_1; avx_2] -> reported no_os f.
Proof. intros f Hf. cbn in Hf. intuition (subst f); try (split; [cbn; lia|reflexivity]). Qed.

(** *** C41 *)
Theorem C41_first : forall s d before v after, (forall w, ~ In (TOption s w) before) ->
  query_default s d (before ++ TOption s v :: after) = Some v.
Proof. exact query_default_first. Qed.
Print Assumptions C41_first.
Theorem C41_default : forall s d l, (forall w, ~ In (TOption s w) l) -> query_default s d l = Some d.
Proof. exact query_default_none. Qed.
Print Assumptions C41_default.
Example C41_case : forall w, ~ In (TOption (S_value 1 2) w) [TOther 3; TOption (S_type 1) 4; TOption (S_value 5 2) 6].
Proof. intros w H. cbn in H. intuition discriminate. Qed.
