(** C58: options take effect. *)
From Verif Require Import Base Model_Dispatch Spec_Dispatch Proof_Dispatch Prop_Dispatch Model_Options.
Local Open Scope N_scope.

(** The hashes with the bytes of their digest, and the cipher. *)
Definition the_hashes (use_asm x86_64 : bool) : list (algorithm * N) :=
  [(a_sha_1_160 use_asm x86_64, 20); (a_sha_2_224 use_asm x86_64, 28); (a_sha_2_256 use_asm x86_64, 32); (a_sha_2_384, 48); (a_sha_2_512, 64);
   (a_sha_2_512_224, 28); (a_sha_2_512_256, 32)].
(** [option::impl_enforce], [option::impl_cpltime] and [option::impl_runtime] of a hash or the cipher decide which implementation is used. *)
Theorem C58_backend_partial : forall types use_asm x86_64 mc A opts es, types 0 = impl_void ->
  In A (a_chacha_20 use_asm x86_64 :: map fst (the_hashes use_asm x86_64)) -> startup es -> features_first es ->
  exists l i, algorithm_list types A opts = Some l /\ init_run x86_64 use_asm mc l (es ++ [EUse]) statics0 = Some [i] /\
    (forall v, asked suite_cpltime opts v -> im_class (types v) = true -> algorithm_invoke types A opts true (Some i) = Some (types v)) /\
    (forall v, asked suite_enforce opts v -> im_class (types v) = true -> algorithm_invoke types A opts false (Some i) = Some (types v)) /\
    (forall v, asked suite_runtime opts v -> silent suite_enforce opts -> usable use_asm x86_64 mc (types v) ->
       algorithm_invoke types A opts false (Some i) = Some (types v)).
Proof.
  intros types use_asm x86_64 mc A opts es T0 HA Hs Hf.
  assert (P : al_proxy A opts = opts /\ In (al_cpltime A) algorithm_cpltime /\ In (al_runtime A) (algorithm_lists use_asm x86_64)).
  { cbn [map the_hashes fst In] in HA. repeat (destruct HA as [<-|HA]); try destruct HA; (split; [reflexivity|]; split; [left; reflexivity|cbn; auto]). }
  destruct P as (P1 & P2 & P3).
  destruct (C39_runtime types opts use_asm x86_64 mc (al_runtime A) (al_cpltime A) es T0 P3 Hs Hf) as (l & i & L & R & E1 & E2 & E3 & E4).
  exists l, i. unfold algorithm_list, algorithm_invoke. rewrite P1. split; [exact L|]. split; [exact R|]. split; [|split].
  - exact (proj1 (C39_constant types opts (al_cpltime A) (Some i) T0 P2)).
  - exact E1.
  - intros v Hv Hq Hu. rewrite (E2 Hq). f_equal. destruct (E3 v Hv) as (a & b & Ea & _ & Hn). destruct a as [|x a].
    + cbn [app] in Ea. congruence.
    + exfalso. cbn [app] in Ea. injection Ea as Ex _. apply (Hn x); [left; reflexivity|]. rewrite <- Ex. exact Hu.
Qed.
Print Assumptions C58_backend_partial.
(** [option::impl_chooser] and [option::impl_invoker]: the class in effect for a suite is the first one asked for, else that
    of the algorithm (0).  Every operation [id] is performed by the invoker in effect; at run time, without
    [impl_enforce], on the hook that the chooser in effect makes of the first implementation the processor supports. *)
Definition in_effect (s : suite) (opts : list targ) (v : N) : Prop := asked s opts v \/ (silent s opts /\ v = 0).
Lemma in_effect_query : forall s opts v, in_effect s opts v -> query_default s 0 opts = Some v.
Proof. intros s opts v [(a & c & -> & H)|[H ->]]; [exact (query_default_first _ _ _ _ _ H)|exact (query_default_none _ _ _ H)]. Qed.
Theorem C58_hooks_partial : forall (H R : Type) (choosers : N -> impl -> H) (invokers : N -> invoker H R) types use_asm x86_64 mc A opts es c v,
  types 0 = impl_void -> In A (a_chacha_20 use_asm x86_64 :: map fst (the_hashes use_asm x86_64)) -> startup es -> features_first es ->
  in_effect suite_chooser opts c -> in_effect suite_invoker opts v ->
  exists l i, algorithm_list types A opts = Some l /\ init_run x86_64 use_asm mc l (es ++ [EUse]) statics0 = Some [i] /\
    forall id,
    let call consteval := algorithm_call choosers invokers types A opts consteval (Some i) id in
    (forall w, asked suite_cpltime opts w -> im_class (types w) = true -> call true = Some (iv_type (invokers v) id (types w))) /\
    (silent suite_cpltime opts -> call true = Some (iv_type (invokers v) id (i_sw 0))) /\
    (forall w, asked suite_enforce opts w -> im_class (types w) = true -> call false = Some (iv_type (invokers v) id (types w))) /\
    (silent suite_enforce opts -> call false = Some (iv_hook (invokers v) id (choosers c i)) /\
      (forall w, asked suite_runtime opts w -> first_with (usable use_asm x86_64 mc) (types w :: al_runtime A) i) /\
      (silent suite_runtime opts -> first_with (usable use_asm x86_64 mc) (al_runtime A) i)).
Proof.
  intros H R choosers invokers types use_asm x86_64 mc A opts es c v T0 HA Hs Hf Hc Hv.
  assert (P : al_proxy A opts = opts /\ al_cpltime A = [i_sw 0] /\ In (al_runtime A) (algorithm_lists use_asm x86_64)).
  { cbn [map the_hashes fst In] in HA. repeat (destruct HA as [<-|HA]); try destruct HA; (split; [reflexivity|]; split; [reflexivity|cbn; auto]). }
  destruct P as (P1 & P2 & P3).
  destruct (C39_runtime types opts use_asm x86_64 mc (al_runtime A) (al_cpltime A) es T0 P3 Hs Hf) as (l & i & L & RR & E1 & E2 & E3 & E4).
  assert (L' : algorithm_list types A opts = Some l) by (unfold algorithm_list; rewrite P1; exact L).
  exists l, i. split; [exact L'|]. split; [exact RR|]. intros id call.
  assert (K : forall b, call b = proxy_call choosers invokers types opts [i_sw 0] b (Some i) id).
  { intros b. subst call. cbv beta. unfold algorithm_call. rewrite P1, P2. reflexivity. }
  rewrite !K. unfold proxy_call. rewrite (in_effect_query _ _ _ Hc), (in_effect_query _ _ _ Hv). cbn [bind]. split; [|split; [|split]].
  - intros w Hw Hcl. rewrite (in_effect_query _ _ w (or_introl Hw)). cbn [bind]. rewrite Hcl. reflexivity.
  - intros Hw. rewrite (in_effect_query _ _ 0 (or_intror (conj Hw eq_refl))). cbn [bind]. rewrite T0. reflexivity.
  - intros w Hw Hcl. rewrite (in_effect_query _ _ w (or_introl Hw)). cbn [bind]. rewrite Hcl. reflexivity.
  - intros Hw. rewrite (in_effect_query _ _ 0 (or_intror (conj Hw eq_refl))). cbn [bind]. rewrite T0. cbn [im_class impl_void bind].
    split; [reflexivity|]. split; [exact E3|exact E4].
Qed.
Print Assumptions C58_hooks_partial.
(** The five suites of implementation options and that of the digest size are told apart. *)
Theorem C58_options_apart :
  NoDup [suite_chooser; suite_invoker; suite_cpltime; suite_runtime; suite_enforce; suite_digest_size] /\
  forall s s' d v opts, s <> s' ->
    query_default s d (TOption s' v :: opts) = query_default s d opts /\ query_default s d (TOption s v :: opts) = Some v.
Proof.
  split. { repeat (apply NoDup_cons; [cbn [In]; unfold suite_chooser, suite_invoker, suite_cpltime, suite_runtime, suite_enforce, suite_digest_size; intuition discriminate|]). apply NoDup_nil. }
  intros s s' d v opts N. split.
  - unfold query_default. cbn [app]. destruct (opts ++ [TOption s d]) as [|o l] eqn:E; [destruct opts; discriminate E|].
    assert (F : solver s (TOption s' v) = false).
    { cbn [solver]. destruct s, s'; try reflexivity; destruct (suite_eq_dec _ _) as [X|X]; try contradiction; try reflexivity; apply andb_false_r. }
    unfold option_query at 1. cbn [disjunction]. rewrite F. reflexivity.
  - exact (query_default_first s d [] v opts (fun w h => h)).
Qed.
Print Assumptions C58_options_apart.
(** Poly1305 ignores these two as well: whatever the options, its own chooser and invoker are used. *)
Theorem C58_poly_hooks_refuted : forall (H R : Type) (choosers : N -> impl -> H) (invokers : N -> invoker H R) types opts i id, types 0 = impl_void ->
  algorithm_call choosers invokers types a_poly_1305 opts true None id = Some (iv_type (invokers 0) id (i_sw 0)) /\
  algorithm_call choosers invokers types a_poly_1305 opts false (Some i) id = Some (iv_hook (invokers 0) id (choosers 0 i)).
Proof.
  intros H R choosers invokers types opts i id T0. unfold algorithm_call, proxy_call. cbn. rewrite T0. cbn [im_class impl_void]. split; reflexivity.
Qed.
Print Assumptions C58_poly_hooks_refuted.
(** [option::digest_size] of a hash, of HMAC, and of Poly1305 is its digest size; the default is that of the standards. *)
Theorem C58_digest_size : forall use_asm x86_64 opts,
  (forall h d, In (h, d) ((a_poly_1305, 16) :: the_hashes use_asm x86_64) ->
    (forall v, asked suite_digest_size opts v -> al_digest_size h opts = Some v) /\ (silent suite_digest_size opts -> al_digest_size h opts = Some d)) /\
  (forall h d hopts, In (h, d) (the_hashes use_asm x86_64) -> silent suite_digest_size hopts ->
    (forall v, asked suite_digest_size opts v -> hmac_digest_size h hopts opts = Some v) /\ (silent suite_digest_size opts -> hmac_digest_size h hopts opts = Some d)).
Proof.
  intros use_asm x86_64 opts.
  assert (Q : forall d, (forall v, asked suite_digest_size opts v -> query_default suite_digest_size d opts = Some v) /\
                        (silent suite_digest_size opts -> query_default suite_digest_size d opts = Some d)).
  { intros d. split; [intros v (a & c & -> & H); exact (query_default_first _ _ _ _ _ H)|exact (query_default_none _ _ _)]. }
  assert (D : forall h d, In (h, d) ((a_poly_1305, 16) :: the_hashes use_asm x86_64) -> al_digest_size h = query_default suite_digest_size d).
  { intros h d H. cbn [the_hashes In] in H. repeat (destruct H as [E|H]; [injection E as <- <-; reflexivity|]). destruct H. }
  split.
  - intros h d H. rewrite (D h d H). exact (Q d).
  - intros h d hopts H Hh. unfold hmac_digest_size. rewrite (D h d (or_intror H)), (query_default_none _ _ _ Hh). cbn [bind]. exact (Q d).
Qed.
Print Assumptions C58_digest_size.
(** The implementation options of Poly1305 are ignored ... *)
Theorem C58_poly_refuted : forall types opts x86_64 use_asm mc es, types 0 = impl_void -> startup es -> features_first es ->
  algorithm_invoke types a_poly_1305 opts true None = Some (i_sw 0) /\
  exists l, algorithm_list types a_poly_1305 opts = Some l /\ init_run x86_64 use_asm mc l (es ++ [EUse]) statics0 = Some [i_sw 0] /\
    algorithm_invoke types a_poly_1305 opts false (Some (i_sw 0)) = Some (i_sw 0).
Proof.
  intros types opts x86_64 use_asm mc es T0 Hs Hf.
  unfold algorithm_list, algorithm_invoke, proxy_invoke, proxy_runtime_list. cbn [al_proxy a_poly_1305 query_default app option_query].
  cbn. rewrite T0. cbn [im_class impl_void hd_error]. split; [reflexivity|]. exists [impl_void; i_sw 0]. split; [reflexivity|]. split; [|reflexivity].
  destruct (in_order x86_64 use_asm mc [impl_void; i_sw 0] es 1 eq_refl Hs Hf) as (i & Hi & HR). enough (i = i_sw 0) by (subst i; exact HR). clear HR.
  destruct Hi as (a & b & Ea & Hu & _). destruct a as [|x [|y a]].
  - cbn [app] in Ea. injection Ea as <- _. destruct Hu as [Hu _]. discriminate Hu.
  - cbn [app] in Ea. injection Ea as _ <- _. reflexivity.
  - exfalso. cbn [app] in Ea. destruct a; discriminate Ea.
Qed.
Print Assumptions C58_poly_refuted.
(** ... and so is the digest size option of ChaCha20-Poly1305: the tag has 16 bytes. *)
Theorem C58_aead_refuted : forall opts, aead_digest_size opts = Some 16.
Proof. reflexivity. Qed.
Print Assumptions C58_aead_refuted.
Example C58_case : in_effect suite_invoker [TOption suite_chooser 3; TOption suite_invoker 7] 7 /\ in_effect suite_chooser [TOption suite_invoker 7] 0 /\
  asked suite_digest_size [TOther 1; TOption suite_enforce 9; TOption suite_digest_size 8; TOption suite_digest_size 4] 8 /\
  silent suite_digest_size [TOption suite_enforce 9] /\ startup usual /\ features_first usual.
Proof.
  split. { left. exists [TOption suite_chooser 3], []. split; [reflexivity|]. intros w [H|[]]; discriminate H. }
  split. { right. split; [|reflexivity]. intros w [H|[]]; discriminate H. }
  split; [|split; [|exact C39_case]].
  - exists [TOther 1; TOption suite_enforce 9], [TOption suite_digest_size 4]. split; [reflexivity|]. intros w [H|[H|[]]]; discriminate H.
  - intros w [H|[]]. discriminate H.
Qed.
