From Verif Require Import Base Model_Dispatch Spec_Dispatch.
Local Open Scope N_scope.

Lemma bit_testbit x i : bit x i = N.testbit x i.
Proof.
  unfold bit. rewrite N.shiftl_1_l.
  destruct (N.testbit x i) eqn:E.
  - destruct (N.land x (2 ^ i) =? 0) eqn:Z; [|reflexivity]. apply N.eqb_eq in Z.
    assert (N.testbit (N.land x (2 ^ i)) i = true) by (rewrite N.land_spec, E, N.pow2_bits_true; reflexivity).
    rewrite Z, N.bits_0 in H. discriminate.
  - replace (N.land x (2 ^ i)) with 0; [reflexivity|]. symmetry. apply N.bits_inj_0. intros n. rewrite N.land_spec.
    destruct (N.eq_dec i n) as [->|H]; [rewrite E; reflexivity|]. rewrite N.pow2_bits_false by exact H. apply andb_false_r.
Qed.

Lemma bits0 i : bit 0 i = false.
Proof. rewrite bit_testbit. apply N.bits_0. Qed.

Lemma leaf_has mc lf reg i (Hr : reg regs0 = 0) :
  bit (reg (if lf <=? r_eax (mc_cpuid mc 0 0) then mc_cpuid mc lf 0 else regs0)) i = true <-> cpuid_has mc lf reg i.
Proof.
  unfold cpuid_has. destruct (lf <=? r_eax (mc_cpuid mc 0 0)) eqn:E.
  - apply N.leb_le in E. rewrite bit_testbit. tauto.
  - apply N.leb_gt in E. rewrite Hr, bits0. split; [discriminate|lia].
Qed.

Lemma feature_reported mc f : info_feature (arch_info true mc) f = true <-> reported mc f.
Proof.
  unfold arch_info, arch_cpuid. destruct f; cbn [info_feature fst snd reported];
    try (rewrite andb_true_iff, !leaf_has by reflexivity; tauto); apply leaf_has; reflexivity.
Qed.
Lemma feature_noasm mc f : info_feature (arch_info false mc) f = false.
Proof. unfold arch_info, arch_cpuid. destruct f; reflexivity. Qed.

(** [check] tests exactly the required features. *)
Lemma check_features_spec ise req fs : check_features ise req fs = true <-> (forall f, In f fs -> In f req -> ise f = true).
Proof.
  induction fs as [|f fs IH]; cbn [check_features]; [split; [intros _ f []|reflexivity]|].
  unfold has_feature at 1. destruct (in_dec feature_eq_dec f req) as [Hin|Hn].
  - destruct (ise f) eqn:E; cbn [negb].
    + rewrite IH. split.
      * intros H g [<-|Hg] Hr; [exact E|apply H; assumption].
      * intros H g Hg Hr. apply H; [right; exact Hg|exact Hr].
    + split; [discriminate|]. intros H. rewrite (H f (or_introl eq_refl) Hin) in E. discriminate.
  - rewrite IH. split.
    + intros H g [<-|Hg] Hr; [contradiction|apply H; assumption].
    + intros H g Hg Hr. apply H; [right; exact Hg|exact Hr].
Qed.
Lemma all_features_all f : In f all_features.
Proof. destruct f; cbn; tauto. Qed.

Definition passes (x86_64 : bool) (ise : feature -> bool) (i : impl) : bool :=
  impl_choose_check i && match im_arch i with None => true | Some _ => active_check x86_64 ise i end.
Lemma hook_passes x ise l i : impl_choose_hook x ise l = Some i <-> first_with (fun j => passes x ise j = true) l i.
Proof.
  induction l as [|j l IH].
  - split; [discriminate|]. intros (a & b & H & _). destruct a; discriminate.
  - assert (Hn : passes x ise j = false -> (impl_choose_hook x ise l = Some i <-> first_with (fun j => passes x ise j = true) (j :: l) i)).
    { intros Hj. rewrite IH. split.
      - intros (a & b & -> & Hp & Ha). exists (j :: a), b. split; [reflexivity|]. split; [exact Hp|].
        intros y [<-|Hy]; [rewrite Hj; discriminate|apply Ha; exact Hy].
      - intros (a & b & E & Hp & Ha). destruct a as [|z a].
        + injection E as -> ->. rewrite Hj in Hp. discriminate.
        + injection E as -> ->. exists a, b. split; [reflexivity|]. split; [exact Hp|]. intros y Hy. apply Ha. right. exact Hy. }
    assert (Hy : passes x ise j = true -> (Some j = Some i <-> first_with (fun j => passes x ise j = true) (j :: l) i)).
    { intros Hj. split.
      - intros E. injection E as <-. exists [], l. split; [reflexivity|]. split; [exact Hj|]. intros y [].
      - intros (a & b & E & Hp & Ha). destruct a as [|z a].
        + injection E as -> _. reflexivity.
        + injection E as -> _. exfalso. exact (Ha z (or_introl eq_refl) Hj). }
    cbn [impl_choose_hook]. unfold passes in Hn, Hy. destruct (impl_choose_check j).
    + destruct (im_arch j).
      * destruct (active_check x ise j); [apply Hy|apply Hn]; reflexivity.
      * apply Hy. reflexivity.
    + apply Hn. reflexivity.
Qed.

Lemma hook_some x ise l : impl_choose_assert l = true -> exists i, impl_choose_hook x ise l = Some i.
Proof.
  unfold impl_choose_assert. intros H. apply andb_prop in H. destruct H as [_ H].
  apply existsb_exists in H. destruct H as (i & Hi & Hc).
  induction l as [|j l IH]; [destruct Hi|]. cbn [impl_choose_hook].
  destruct Hi as [->|Hi].
  - apply andb_prop in Hc. destruct Hc as [-> Hc]. destruct (im_arch i); [discriminate|]. eexists. reflexivity.
  - specialize (IH Hi). destruct (impl_choose_check j); [|exact IH].
    destruct (im_arch j); [|eexists; reflexivity]. destruct (active_check x ise j); [eexists; reflexivity|exact IH].
Qed.

(** Features known so far never exceed what is reported. *)
Definition below (use_asm : bool) (mc : machine) (ise : feature -> bool) : Prop :=
  forall f, ise f = true -> info_feature (arch_info use_asm mc) f = true.
Lemma passes_usable use_asm x mc ise i : below use_asm mc ise -> passes x ise i = true -> usable use_asm x mc i.
Proof.
  intros Hb H. apply andb_prop in H. destruct H as [Hc H]. split; [exact Hc|].
  destruct (im_arch i) as [a|] eqn:Ea; [|exact I]. unfold active_check in H. destruct x; [|discriminate].
  unfold ise_check in H. rewrite Ea in H. destruct a as [req|]; [|discriminate].
  split; [reflexivity|].
  assert (Hf : forall f, In f req -> info_feature (arch_info use_asm mc) f = true).
  { intros f Hf. apply Hb. exact (proj1 (check_features_spec _ _ _) H f (all_features_all f) Hf). }
  destruct use_asm.
  - split; [right; reflexivity|]. intros f Hf'. apply feature_reported. exact (Hf f Hf').
  - destruct req as [|g req]; [split; [left; reflexivity|intros f []]|].
    specialize (Hf g (or_introl eq_refl)). rewrite feature_noasm in Hf. discriminate.
Qed.
Lemma usable_passes use_asm x mc i : usable use_asm x mc i -> passes x (info_feature (arch_info use_asm mc)) i = true.
Proof.
  intros [Hc H]. unfold passes, impl_choose_check. rewrite Hc. cbn [andb].
  destruct (im_arch i) as [a|] eqn:Ea; [|reflexivity]. destruct a as [req|]; [|contradiction].
  destruct H as (Hx & Ha & Hr). subst x. unfold active_check, ise_check. rewrite Ea. apply check_features_spec.
  intros f _ Hf. destruct Ha as [Ha|Ha]; subst; [destruct Hf|]. apply feature_reported. apply Hr. exact Hf.
Qed.
Lemma passes_ext x f g i : (forall y, f y = g y) -> passes x f i = passes x g i.
Proof.
  intros H. unfold passes, active_check, ise_check. destruct (im_arch i) as [[req|]|]; try reflexivity.
  destruct x; [|reflexivity]. f_equal. induction all_features as [|y l IH]; [reflexivity|]. cbn [check_features].
  destruct (has_feature req y); [|exact IH]. rewrite H. destruct (negb (g y)); [reflexivity|exact IH].
Qed.

(** *** Start-up *)
Definition inited (mc : machine) (use_asm : bool) (pre : list event) (s : statics) : Prop :=
  (In EInfo pre -> st_info s = arch_info use_asm mc) /\
  (forall f, st_ise s f = true -> info_feature (arch_info use_asm mc) f = true) /\
  (forall f, In (EFeature f) pre -> st_ise s f = info_feature (arch_info use_asm mc) f).

Lemma start x use_asm mc l es : permitted es -> ~ In EUse es -> impl_choose_assert l = true ->
  forall post pre s, es = pre ++ post -> inited mc use_asm pre s ->
  forall (Himpl : In EImpl pre -> exists i, st_impl s = Some i /\ first_with (usable use_asm x mc) [i] i /\ In i l) tl,
  exists s', init_run x use_asm mc l (post ++ tl) s = init_run x use_asm mc l tl s' /\ inited mc use_asm es s' /\
    (In EImpl es -> exists i, st_impl s' = Some i /\ usable use_asm x mc i /\ In i l) /\
    (~ In EImpl post -> st_impl s' = st_impl s).
Proof.
  intros HP HU HA. induction post as [|e post IH]; intros pre s E HI Himpl tl.
  - rewrite app_nil_r in E. subst es. exists s. split; [reflexivity|]. split; [exact HI|]. split; [|reflexivity].
    intros H. destruct (Himpl H) as (i & A & (a & b & Eab & Hu & _) & B). exists i. split; [exact A|]. split; [exact Hu|exact B].
  - assert (Hne : e <> EUse). { intros ->. apply HU. rewrite E. apply in_or_app. right. left. reflexivity. }
    assert (Hstep : exists s1, init_event x use_asm mc l e s = Some (s1, None) /\ inited mc use_asm (pre ++ [e]) s1 /\
      (In EImpl (pre ++ [e]) -> exists i, st_impl s1 = Some i /\ first_with (usable use_asm x mc) [i] i /\ In i l) /\
      (e <> EImpl -> st_impl s1 = st_impl s)).
    { destruct HI as (I1 & I2 & I3). destruct e as [|f| |]; [| | |contradiction].
      - exists {| st_info := arch_info use_asm mc; st_ise := st_ise s; st_impl := st_impl s |}.
        split; [reflexivity|]. split; [|split; [|reflexivity]].
        + split; [|split].
          * reflexivity.
          * exact I2.
          * intros f Hf. apply in_app_or in Hf. destruct Hf as [Hf|[Hf|[]]]; [apply I3; exact Hf|discriminate].
        + intros Hin. apply Himpl. apply in_app_or in Hin. destruct Hin as [Hin|[Hin|[]]]; [exact Hin|discriminate].
      - assert (HinfoIn : In EInfo pre) by (exact (proj1 HP pre f post E)).
        assert (Hinfo : st_info s = arch_info use_asm mc).
        { exact (I1 HinfoIn). }
        exists {| st_info := st_info s; st_ise := fun g => if feature_eq_dec g f then info_feature (st_info s) f else st_ise s g;
                  st_impl := st_impl s |}.
        split; [reflexivity|]. split; [|split; [|reflexivity]].
        + split; [|split].
          * intros _. exact Hinfo.
          * cbn [st_ise]. intros g. destruct (feature_eq_dec g f) as [->|_]; [rewrite Hinfo; exact (fun h => h)|apply I2].
          * cbn [st_ise]. intros g Hg. destruct (feature_eq_dec g f) as [->|Hd]; [rewrite Hinfo; reflexivity|].
            apply I3. apply in_app_or in Hg. destruct Hg as [Hg|[Hg|[]]]; [exact Hg|]. injection Hg as <-. contradiction.
        + intros Hin. apply Himpl. apply in_app_or in Hin. destruct Hin as [Hin|[Hin|[]]]; [exact Hin|discriminate].
      - destruct (hook_some x (st_ise s) l HA) as (i & Hi).
        exists {| st_info := st_info s; st_ise := st_ise s; st_impl := Some i |}.
        split; [cbn [init_event]; rewrite Hi; reflexivity|]. split; [|split].
        + split; [|split].
          * intros Hin'. apply I1. apply in_app_or in Hin'. destruct Hin' as [H|[H|[]]]; [exact H|discriminate].
          * exact I2.
          * intros f Hf. apply in_app_or in Hf. destruct Hf as [Hf|[Hf|[]]]; [apply I3; exact Hf|discriminate].
        + intros _. exists i. split; [reflexivity|]. apply hook_passes in Hi. destruct Hi as (a & b & -> & Hp & _). split.
          * exists [], []. split; [reflexivity|]. split; [exact (passes_usable use_asm x mc (st_ise s) i I2 Hp)|intros y []].
          * apply in_or_app. right. left. reflexivity.
        + intros H. contradiction H. reflexivity. }
    destruct Hstep as (s1 & E1 & HI1 & Himpl1 & Hk1).
    destruct (IH (pre ++ [e]) s1) with (tl := tl) as (s' & R & HI' & Hi' & Hk'); [rewrite <- app_assoc; exact E|exact HI1|exact Himpl1|].
    exists s'. split; [|split; [exact HI'|split; [exact Hi'|]]].
    + cbn [app init_run]. rewrite E1. cbn [bind]. rewrite R. destruct (init_run x use_asm mc l tl s'); reflexivity.
    + intros Hn. rewrite Hk' by (intros H; apply Hn; right; exact H). apply Hk1. intros ->. apply Hn. left. reflexivity.
Qed.

Lemma uses x use_asm mc l s i n : st_impl s = Some i -> init_run x use_asm mc l (repeat EUse n) s = Some (repeat i n).
Proof.
  intros H. induction n as [|n IH]; [reflexivity|]. cbn [repeat init_run init_event]. rewrite H. cbn [bind]. rewrite IH. reflexivity.
Qed.
Lemma inited0 mc use_asm : inited mc use_asm [] statics0.
Proof. split; [|split]; [intros []|discriminate|intros f []]. Qed.

Lemma any_order x use_asm mc l es n : impl_choose_assert l = true -> startup es ->
  exists i, In i l /\ usable use_asm x mc i /\ init_run x use_asm mc l (es ++ repeat EUse n) statics0 = Some (repeat i n).
Proof.
  intros HA (HP & HU & HI & _).
  destruct (start x use_asm mc l es HP HU HA es [] statics0 eq_refl (inited0 mc use_asm)) with (tl := repeat EUse n) as (s' & R & _ & Hi & _).
  { intros []. }
  destruct (Hi HI) as (i & E & Hu & Hin). exists i. split; [exact Hin|]. split; [exact Hu|]. rewrite R. apply uses. exact E.
Qed.

Lemma in_order x use_asm mc l es n : impl_choose_assert l = true -> startup es -> features_first es ->
  exists i, first_with (usable use_asm x mc) l i /\ init_run x use_asm mc l (es ++ repeat EUse n) statics0 = Some (repeat i n).
Proof.
  intros HA (HP & HU & HI & _) (a & b & -> & Hf).
  assert (HPa : permitted a).
  { split.
    - intros p f q ->. apply (proj1 HP p f (q ++ EImpl :: b)). rewrite <- app_assoc. reflexivity.
    - intros p e q -> Hne Hin. apply (proj2 HP p e (q ++ EImpl :: b)); [rewrite <- app_assoc; reflexivity|exact Hne|].
      apply in_app_or in Hin. apply in_or_app. destruct Hin as [H|H]; [left; exact H|right]. apply in_or_app. left. exact H. }
  destruct (start x use_asm mc l a HPa) with (post := a) (pre := @nil event) (s := statics0) (tl := (EImpl :: b) ++ repeat EUse n)
    as (s1 & R1 & HI1 & _ & _); [intros H; apply HU; apply in_or_app; left; exact H|exact HA|reflexivity|apply inited0|intros []|].
  assert (Hise : forall f, st_ise s1 f = info_feature (arch_info use_asm mc) f) by (intros f; apply (proj2 (proj2 HI1)); apply Hf).
  destruct (hook_some x (st_ise s1) l HA) as (i & Hi). exists i.
  assert (Hp := Hi). apply hook_passes in Hp. destruct Hp as (u & v & El & Hp & Hu).
  split.
  { exists u, v. split; [exact El|]. split.
    - apply (passes_usable use_asm x mc (st_ise s1)); [intros f Hff; rewrite <- Hise; exact Hff|exact Hp].
    - intros y Hy Hus. apply (Hu y Hy). rewrite (passes_ext x (st_ise s1) _ y Hise). apply usable_passes. exact Hus. }
  rewrite <- app_assoc, R1. cbn [app init_run init_event]. rewrite Hi. cbn [bind].
  set (s2 := {| st_info := st_info s1; st_ise := st_ise s1; st_impl := Some i |}).
  assert (HI2 : inited mc use_asm (a ++ [EImpl]) s2).
  { destruct HI1 as (J1 & J2 & J3). split; [|split].
    - intros Hin'. apply J1. apply in_app_or in Hin'. destruct Hin' as [H|[H|[]]]; [exact H|discriminate].
    - exact J2.
    - intros f Hff. apply J3. apply Hf. }
  destruct (start x use_asm mc l (a ++ EImpl :: b) HP HU HA b (a ++ [EImpl]) s2) with (tl := repeat EUse n) as (s3 & R3 & _ & _ & Hk);
    [rewrite <- app_assoc; reflexivity|exact HI2| |].
  { intros _. exists i. split; [reflexivity|]. split.
    - exists [], []. split; [reflexivity|]. split; [|intros y []].
      apply (passes_usable use_asm x mc (st_ise s1)); [intros f Hff; rewrite <- Hise; exact Hff|exact Hp].
    - rewrite El. apply in_or_app. right. left. reflexivity. }
  assert (Hb : ~ In EImpl b).
  { intros Hin. apply (proj2 HP a EImpl b eq_refl); [discriminate|]. apply in_or_app. right. exact Hin. }
  rewrite R3, (uses x use_asm mc l s3 i n); [reflexivity|]. rewrite (Hk Hb). reflexivity.
Qed.

(** *** option.h *)
Lemma solver_spec s s' v : solver s (TOption s' v) = true <-> s' = s.
Proof.
  cbn [solver]. destruct s as [k|k t], s' as [k'|k' t']; try (split; discriminate).
  - destruct (suite_eq_dec (S_type k) (S_type k')) as [E|E]; split; intro H; congruence.
  - destruct (suite_eq_dec (S_value k t) (S_value k' t')) as [E|E].
    + injection E as <- <-. rewrite Nat.eqb_refl. split; reflexivity.
    + rewrite andb_false_r. split; intros H; congruence.
Qed.
Lemma solver_true s a : solver s a = true -> exists v, a = TOption s v.
Proof. destruct a as [s' v|n]; [|discriminate]. intros H. apply solver_spec in H. subst. exists v. reflexivity. Qed.

Lemma query_first s a v b : (forall w, ~ In (TOption s w) a) -> option_query s (a ++ TOption s v :: b) = Some v.
Proof.
  assert (D : forall x a, (forall w, ~ In (TOption s w) (x :: a)) -> disjunction (solver s) x (a ++ TOption s v :: b) = TOption s v).
  { intros x a'. revert x. induction a' as [|y a' IH]; intros x H.
    - cbn [app disjunction]. destruct (solver s x) eqn:E.
      + destruct (solver_true s x E) as (w & ->). exfalso. apply (H w). left. reflexivity.
      + assert (Hv : solver s (TOption s v) = true) by (apply solver_spec; reflexivity).
        destruct b; cbn [disjunction]; rewrite Hv; reflexivity.
    - cbn [app disjunction]. destruct (solver s x) eqn:E.
      + destruct (solver_true s x E) as (w & ->). exfalso. apply (H w). left. reflexivity.
      + apply IH. intros w Hw. apply (H w). right. exact Hw. }
  assert (Hv : solver s (TOption s v) = true) by (apply solver_spec; reflexivity).
  intros H. destruct a as [|x a]; cbn [app option_query].
  - replace (disjunction (solver s) (TOption s v) b) with (TOption s v); [rewrite Hv; reflexivity|].
    destruct b; cbn [disjunction]; rewrite Hv; reflexivity.
  - rewrite (D x a H). rewrite Hv. reflexivity.
Qed.
Lemma query_default_first s d a v b : (forall w, ~ In (TOption s w) a) -> query_default s d (a ++ TOption s v :: b) = Some v.
Proof. intros H. unfold query_default. rewrite <- app_assoc. apply query_first. exact H. Qed.
Lemma query_default_none s d l : (forall w, ~ In (TOption s w) l) -> query_default s d l = Some d.
Proof. intros H. exact (query_first s l d [] H). Qed.
