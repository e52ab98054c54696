(** What runs of the benchmark tool print. *)
From Verif Require Import Base BaseLemmas Model_AppNames Model_App Spec_App Spec_App2 Proof_App Proof_App2 Proof_App3 Proof_App4.
Local Open Scope N_scope.

(** *** The entries of the result *)
Definition entry (clock : list N -> N) (o : bench_options) (g : group) (inputs : list (list N * N)) (n : list N) : list N * var :=
  (n, VObject [(s_config, config_of o inputs); (s_metrics, metrics_of o (clock n) (processed_of o g inputs))]).
Definition results_of (s : bench_state) : list (list N * var) := match bs_results s with None => [] | Some l => l end.
Lemma invoke_entries clock o adv a p g s s' : p <> s_list -> invoke clock o adv a p g s = Some (Ok s') ->
  (filter (pmatch p) (declared adv g) = [] /\ s' = s) \/
  (exists inputs, parse a (gr_parameters g) = Ok inputs /\ results_of s' = results_of s ++ map (entry clock o g inputs) (filter (pmatch p) (declared adv g))).
Proof.
  intros Hp. unfold invoke. destruct (str_eqb p s_list) eqn:E; [apply str_eqb_eq in E; contradiction|].
  rewrite selected_filter. cbn [bind]. destruct (filter (pmatch p) (declared adv g)) as [|x l] eqn:EF.
  - intros H. assert (s' = s) by congruence. left. auto.
  - destruct (parse a (gr_parameters g)) as [inputs|e]; [|discriminate].
    destruct (existsb _ _); [discriminate|]. intros H. right. exists inputs. split; [reflexivity|].
    match type of H with Some (Ok ?t) = _ => assert (s' = t) by congruence end. subst s'. reflexivity.
Qed.
Lemma invoke_all_entries clock o adv a p gs : p <> s_list -> forall s s', invoke_all clock o adv a p gs s = Some (Ok s') ->
  (forall e, In e (results_of s') -> In e (results_of s) \/
     exists g inputs n, In g gs /\ In n (declared adv g) /\ pmatch p n = true /\ parse a (gr_parameters g) = Ok inputs /\ e = entry clock o g inputs n) /\
  (forall e, In e (results_of s) -> In e (results_of s')) /\
  (forall g n, In g gs -> In n (declared adv g) -> pmatch p n = true ->
     exists inputs, parse a (gr_parameters g) = Ok inputs /\ In (entry clock o g inputs n) (results_of s')).
Proof.
  intros Hp. induction gs as [|g gs IH]; intros s s' H; cbn [invoke_all] in H.
  - assert (s' = s) by congruence. subst s'. split; [auto|]. split; [auto|]. intros g n [].
  - destruct (invoke clock o adv a p g s) as [[s1|e]|] eqn:E; try discriminate H. cbn [bind] in H.
    destruct (IH _ _ H) as (I1 & I2 & I3). pose proof (invoke_entries _ _ _ _ _ _ _ _ Hp E) as D. split; [|split].
    + intros e He. destruct (I1 e He) as [H1|(g' & inputs & n & Hg & R)]; [|right; exists g', inputs, n; split; [right; exact Hg|exact R]].
      destruct D as [[_ ->]|(inputs & P & R)]; [left; exact H1|]. rewrite R in H1. apply in_app_or in H1. destruct H1 as [H1|H1]; [left; exact H1|right].
      apply in_map_iff in H1. destruct H1 as (n & <- & Hn). apply filter_In in Hn. exists g, inputs, n. split; [left; reflexivity|]. tauto.
    + intros e He. apply I2. destruct D as [[_ ->]|(inputs & P & R)]; [exact He|]. rewrite R. apply in_or_app. left. exact He.
    + intros g' n [<-|Hg] Hn Hm; [|apply I3; assumption]. destruct D as [[F _]|(inputs & P & R)].
      * exfalso. assert (In n (filter (pmatch p) (declared adv g))) by (apply filter_In; auto). rewrite F in H0. exact H0.
      * exists inputs. split; [exact P|]. apply I2. rewrite R. apply in_or_app. right. apply in_map. apply filter_In. auto.
Qed.

(** *** Keys are plain *)
Definition safe (s : list N) : bool := forallb (fun c => (32 <=? c) && negb (c =? 34) && negb (c =? 92)) s.
Lemma safe_special s : safe s = true -> Forall (fun c => ~ special c) s.
Proof.
  unfold safe. rewrite forallb_forall, Forall_forall. intros H c Hc. specialize (H c Hc). rewrite !andb_true_iff, !negb_true_iff, !N.eqb_neq, N.leb_le in H. unfold special. lia.
Qed.
Fixpoint vsafe (v : var) : bool :=
  match v with
  | VStr s => safe s
  | VArray l => forallb vsafe l
  | VObject l => forallb (fun e => safe (fst e) && vsafe (snd e)) l
  | _ => true
  end.
Lemma vsafe_part v x : part v x -> vsafe v = true -> vsafe x = true.
Proof.
  induction 1 as [v|l x v Hx Hp IH|l k x v Hx Hp IH]; intros H; [exact H| |]; apply IH; cbn [vsafe] in H; rewrite forallb_forall in H.
  - exact (H _ Hx).
  - specialize (H _ Hx). apply andb_true_iff in H. exact (proj2 H).
Qed.
Lemma vsafe_plain v : vsafe v = true -> plain v.
Proof.
  intros H. split.
  - intros s Hs. apply safe_special. exact (vsafe_part _ _ Hs H).
  - intros l k x Hl Hk. pose proof (vsafe_part _ _ Hl H) as E. cbn [vsafe] in E. rewrite forallb_forall in E. specialize (E _ Hk). apply andb_true_iff in E. apply safe_special. exact (proj1 E).
Qed.
Lemma names_safe adv n : In n (listed adv) -> safe n = true.
Proof.
  assert (F : forallb safe (listed true) = true) by (vm_compute; reflexivity). assert (F' : forallb safe (listed false) = true) by (vm_compute; reflexivity).
  rewrite forallb_forall in F, F'. destruct adv; auto.
Qed.
Lemma params_safe g n : In g groups -> In n (gr_parameters g) -> safe n = true.
Proof.
  intros Hg Hn. assert (F : forallb safe all_inputs = true) by (vm_compute; reflexivity). rewrite forallb_forall in F. apply F. unfold all_inputs.
  apply in_flat_map. exists g. auto.
Qed.
Lemma parse_names a names l : parse a names = Ok l -> map fst l = names.
Proof.
  revert l. induction names as [|n names IH]; intros l; cbn [parse]; [intros H; assert (l = []) by congruence; subst; reflexivity|].
  destruct (parameter a n); [|discriminate]. destruct (parse a names) as [l'|]; [|discriminate]. intros H. assert (l = (n, a0) :: l') by congruence. subst l.
  cbn [map fst]. rewrite (IH _ eq_refl). reflexivity.
Qed.
Lemma metrics_safe o ns pr : vsafe (metrics_of o ns pr) = true.
Proof. unfold metrics_of. cbv zeta. destruct (pr =? 0); destruct (bo_cpu_clock o =? 0); reflexivity. Qed.
Lemma config_safe o inputs : forallb (fun e => safe (fst e)) inputs = true -> vsafe (config_of o inputs) = true.
Proof.
  intros H. unfold config_of. destruct (bo_cpu_clock o =? 0); cbn [vsafe forallb fst snd app]; rewrite ?andb_true_iff; repeat split;
  (induction inputs as [|[k n] inputs IH]; [reflexivity|cbn [forallb fst] in H; apply andb_true_iff in H; destruct H as [H1 H2]; cbn [map forallb fst snd vsafe]; rewrite H1; exact (IH H2)]).
Qed.
Lemma entry_safe clock o adv g inputs n a : In g groups -> In n (declared adv g) -> parse a (gr_parameters g) = Ok inputs ->
  safe n && vsafe (snd (entry clock o g inputs n)) = true.
Proof.
  intros Hg Hn HP. apply andb_true_iff. split; [apply (names_safe adv); apply in_flat_map; exists g; auto|]. cbn [entry snd vsafe forallb fst].
  rewrite config_safe, metrics_safe; [reflexivity|]. apply forallb_forall. intros e He. apply (params_safe g); [exact Hg|]. rewrite <- (parse_names _ _ _ HP). apply in_map. exact He.
Qed.
Lemma run_result_safe clock o adv a p s : p <> s_list ->
  invoke_all clock o adv a p groups {| bs_lines := []; bs_results := None |} = Some (Ok s) -> vsafe (result_var (bs_results s)) = true.
Proof.
  intros Hp H. destruct (invoke_all_entries _ _ _ _ _ _ Hp _ _ H) as (I1 & _ & _). unfold result_var. destruct (bs_results s) as [l|] eqn:EL; [|reflexivity].
  assert (F : forallb (fun e => safe (fst e) && vsafe (snd e)) l = true).
  { apply forallb_forall. intros e He. destruct (I1 e) as [H1|(g & inputs & n & Hg & Hn & Hm & HP & ->)]; [unfold results_of; rewrite EL; exact He|destruct H1|].
    exact (entry_safe clock o adv g inputs n a Hg Hn HP). }
  cbn [vsafe forallb fst snd]. rewrite F. reflexivity.
Qed.
Lemma run_plain b clock o1 o2 o3 p o4 v : Forall optional o1 -> Forall optional o2 -> Forall optional o3 -> ~ prefix [45] p ->
  ~ In ([45; 45] ++ s_verbose) o1 -> the_run b clock o1 o2 o3 p o4 = Some (Exit0 (PrintJson v)) -> vsafe v = true.
Proof.
  intros F1 F2 F3 Hp V. destruct (the_run_eq b clock o1 o2 o3 p o4 F1 F2 F3 Hp V) as (adv & _ & ->).
  destruct (invoke_all _ _ _ _ _ _ _) as [[s|e]|] eqn:E; cbn [bind]; try discriminate.
  destruct (str_eqb p s_list) eqn:EL; [discriminate|]. intros H. assert (v = result_var (bs_results s)) by congruence. subst v.
  apply (run_result_safe _ _ _ _ p _) in E; [exact E|]. intros ->. rewrite str_eqb_refl in EL. discriminate EL.
Qed.
Lemma run_json show b clock o1 o2 o3 p o4 v : (forall a b, b <> 0 -> number (show a b)) ->
  Forall optional o1 -> Forall optional o2 -> Forall optional o3 -> ~ prefix [45] p -> ~ In ([45; 45] ++ s_verbose) o1 ->
  the_run b clock o1 o2 o3 p o4 = Some (Exit0 (PrintJson v)) -> (forall a b, part v (VRatio a b) -> b <> 0) -> json (meant show v) (to_json show v).
Proof.
  intros Hs F1 F2 F3 Hp V H D. apply json_valid; [apply vsafe_plain; exact (run_plain b clock o1 o2 o3 p o4 v F1 F2 F3 Hp V H)|]. intros a c Hpart. apply Hs. exact (D a c Hpart).
Qed.

(** *** Refutations *)
Lemma commas_in c x l : forall n, In x l -> In c x -> In c (commas n l).
Proof.
  induction l as [|y l IH]; intros n [].
  - subst y. intros H. cbn [commas]. apply in_or_app. left. exact H.
  - intros Hc. cbn [commas]. apply in_or_app. right. apply in_or_app. right. apply IH; assumption.
Qed.
Lemma part_in show v s c : part v (VStr s) -> In c s -> In c (to_json show v).
Proof.
  intros H Hc. remember (VStr s) as x eqn:Ex. induction H as [v|l x v Hx Hp IH|l k x v Hx Hp IH].
  - subst v. cbn [to_json]. unfold quoted. apply in_or_app. right. apply in_or_app. left. exact Hc.
  - specialize (IH Ex). cbn [to_json]. apply in_or_app. right. apply in_or_app. left. apply (commas_in _ (to_json show x)); [apply in_map; exact Hx|exact IH].
  - specialize (IH Ex). cbn [to_json]. apply in_or_app. right. apply in_or_app. left.
    apply (commas_in _ (quoted k ++ [58] ++ to_json show x)); [apply (in_map (fun e => quoted (fst e) ++ [58] ++ to_json show (snd e)) l (k, x)); exact Hx|].
    apply in_or_app. right. apply in_or_app. right. exact IH.
Qed.
Lemma run_verbose b clock o1 rest v : Forall optional o1 -> In ([45; 45] ++ s_verbose) o1 ->
  run b clock (o1 ++ s_benchmark :: rest) = Some (Exit0 (PrintJson v)) ->
  exists d r, v = context_var b (o1 ++ s_benchmark :: rest) d r.
Proof.
  intros F V H. unfold run in H. cbv zeta in H.
  destruct (dump_some (o1 ++ s_benchmark :: rest)) as [d Ed]; [destruct o1; discriminate|]. rewrite Ed in H. cbn [bind] in H.
  assert (EV : opt (args_new (o1 ++ s_benchmark :: rest)) s_verbose = true).
  { unfold opt, args_new. cbn [ar_cur]. apply option_loop_in; [exact F|apply stops_word; discriminate|exact V]. }
  rewrite EV in H. unfold command at 1 in H. cbn [args_new ar_cur] in H. rewrite command_loop_skip in H; [|exact F|apply word_not_dash; discriminate].
  rewrite str_eqb_refl in H. unfold run_benchmark in H. cbv zeta in H. destruct (command _) as [[c2 a2]|e] eqn:E2 in H; [|discriminate H].
  destruct (str_eqb c2 s_primitive); [|discriminate H]. destruct (primitive _ _ _ _) as [[s|e]|]; cbn [bind] in H; try discriminate H.
  destruct (command a2) as [[q a3]|e]; [|discriminate H]. destruct (str_eqb q s_list); [discriminate H|].
  exists d, (result_var (bs_results s)). congruence.
Qed.
Lemma verbose_bad show b clock o1 rest v x c : Forall optional o1 -> In ([45; 45] ++ s_verbose) o1 ->
  run b clock (o1 ++ s_benchmark :: rest) = Some (Exit0 (PrintJson v)) -> In x (o1 ++ s_benchmark :: rest) -> In c x -> c < 32 -> c <> 9 -> c <> 10 -> c <> 13 ->
  forall j, ~ json j (to_json show v).
Proof.
  intros F V H Hx Hc C1 C2 C3 C4 j J. destruct (run_verbose _ _ _ _ _ F V H) as (d & r & ->).
  apply (proj1 json_ok) in J. rewrite Forall_forall in J. specialize (J c). unfold okc in J.
  assert (In c (to_json show (context_var b (o1 ++ s_benchmark :: rest) d r))); [|specialize (J H0); lia].
  apply (part_in show _ x); [|exact Hc]. unfold context_var.
  eapply p_object; [right; right; left; reflexivity|]. eapply p_object; [right; left; reflexivity|]. eapply p_array; [apply in_map; exact Hx|apply p_here].
Qed.
(** Infinities *)
Lemma scan_none s t u : scan s t = None -> scan s (t ++ u) = None.
Proof. unfold scan. intros H. rewrite fold_left_app, H. clear. induction u; [reflexivity|assumption]. Qed.
Definition out (t : list N) : Prop := scan Out t = None \/ scan Out t = Some Out.
Lemma out_app t u : out t -> out u -> out (t ++ u).
Proof.
  intros [H|H] Hu; [left; apply scan_none; exact H|]. unfold out. rewrite (scan_app _ _ _ _ H). exact Hu.
Qed.
Lemma out_none_l t u : scan Out t = None -> scan Out (t ++ u) = None.
Proof. apply scan_none. Qed.
Lemma out_none_r t u : out t -> scan Out u = None -> scan Out (t ++ u) = None.
Proof. intros [H|H] Hu; [apply scan_none; exact H|]. rewrite (scan_app _ _ _ _ H). exact Hu. Qed.
Lemma out_quoted s : safe s = true -> out (quoted s).
Proof. intros H. right. unfold quoted. rewrite <- (app_nil_r ([34] ++ s ++ [34])). rewrite (scan_string s s); [reflexivity|]. apply chars_plain, safe_special, H. Qed.
Lemma out_commas l : Forall out l -> forall n, out (commas n l).
Proof.
  induction 1 as [|x l Hx Hl IH]; intros n; [right; reflexivity|]. cbn [commas]. apply out_app; [exact Hx|]. apply out_app; [|apply IH].
  destruct (0 <? n - 1)%nat; right; reflexivity.
Qed.
Lemma commas_none x l : Forall out l -> In x l -> scan Out x = None -> forall n, scan Out (commas n l) = None.
Proof.
  induction 1 as [|y l Hy Hl IH]; intros Hx Hn n; [destruct Hx|]. cbn [commas]. destruct Hx as [->|Hx]; [apply out_none_l; exact Hn|].
  apply out_none_r; [exact Hy|]. apply out_none_r; [destruct (0 <? n - 1)%nat; right; reflexivity|]. apply IH; assumption.
Qed.
Lemma out_json show v : (forall a b, ~ In 34 (show a b)) -> vsafe v = true -> out (to_json show v).
Proof.
  intros Hs. induction v as [s|n|a b|b|l IH|l IH] using var_induction; intros H; cbn [to_json vsafe] in *.
  - apply out_quoted. exact H.
  - right. apply (proj1 json_scan (JInteger n)). apply json_dec.
  - specialize (Hs a b). revert Hs. generalize (show a b). clear. intros t. unfold out, scan. induction t as [|c t IH]; [right; reflexivity|]. intros H.
    cbn [fold_left sstep]. rewrite (proj2 (N.eqb_neq c 34)) by (intros ->; apply H; left; reflexivity). destruct (c =? 105).
    + left. clear. induction t; [reflexivity|assumption].
    + apply IH. intros Hin. apply H. right. exact Hin.
  - destruct b; right; reflexivity.
  - apply out_app; [right; reflexivity|]. apply out_app; [|right; reflexivity]. apply out_commas. rewrite forallb_forall in H. rewrite Forall_forall in *.
    intros t Ht. apply in_map_iff in Ht. destruct Ht as (x & <- & Hx). apply IH; auto.
  - apply out_app; [right; reflexivity|]. apply out_app; [|right; reflexivity]. apply out_commas. rewrite forallb_forall in H. rewrite Forall_forall in *.
    intros t Ht. apply in_map_iff in Ht. destruct Ht as ([k x] & <- & Hx). specialize (H _ Hx). cbn [fst snd] in *. apply andb_true_iff in H.
    apply out_app; [apply out_quoted; tauto|]. apply out_app; [right; reflexivity|]. apply (IH _ Hx). tauto.
Qed.
Lemma part_none show v x : (forall a b, ~ In 34 (show a b)) -> vsafe v = true -> part v x -> scan Out (to_json show x) = None -> scan Out (to_json show v) = None.
Proof.
  intros Hs HV Hp Hn. induction Hp as [v|l x v Hx Hp IH|l k x v Hx Hp IH]; [exact Hn| |]; specialize (fun h => IH h Hn).
  - pose proof HV as HV'. cbn [vsafe] in HV'. rewrite forallb_forall in HV'. specialize (IH (HV' _ Hx)). cbn [to_json]. apply out_none_r; [right; reflexivity|]. apply out_none_l.
    apply (commas_none (to_json show x)); [|apply in_map; exact Hx|exact IH]. rewrite Forall_forall. intros t Ht. apply in_map_iff in Ht. destruct Ht as (y & <- & Hy). apply out_json; auto.
  - pose proof HV as HV'. cbn [vsafe] in HV'. rewrite forallb_forall in HV'. pose proof (HV' _ Hx) as HX. cbn [fst snd] in HX. apply andb_true_iff in HX. specialize (IH (proj2 HX)).
    cbn [to_json]. apply out_none_r; [right; reflexivity|]. apply out_none_l.
    apply (commas_none (quoted k ++ [58] ++ to_json show x)).
    + rewrite Forall_forall. intros t Ht. apply in_map_iff in Ht. destruct Ht as ([k' y] & <- & Hy). specialize (HV' _ Hy). cbn [fst snd] in *. apply andb_true_iff in HV'.
      apply out_app; [apply out_quoted; tauto|]. apply out_app; [right; reflexivity|]. apply out_json; tauto.
    + apply (in_map (fun e => quoted (fst e) ++ [58] ++ to_json show (snd e)) l (k, x)). exact Hx.
    + apply out_none_r; [apply out_quoted; tauto|]. apply out_none_r; [right; reflexivity|]. exact IH.
Qed.
Definition inf : list N := [105; 110; 102].
Lemma run_inf show b clock o1 o2 o3 p o4 v a : (forall a b, ~ In 34 (show a b)) -> (forall a, a <> 0 -> show a 0 = inf) ->
  Forall optional o1 -> Forall optional o2 -> Forall optional o3 -> ~ prefix [45] p -> ~ In ([45; 45] ++ s_verbose) o1 ->
  the_run b clock o1 o2 o3 p o4 = Some (Exit0 (PrintJson v)) -> part v (VRatio a 0) -> a <> 0 -> forall j, ~ json j (to_json show v).
Proof.
  intros Hs Hi F1 F2 F3 Hp V H Hpart Ha j J. apply (proj1 json_scan) in J.
  rewrite (part_none show v (VRatio a 0) Hs (run_plain b clock o1 o2 o3 p o4 v F1 F2 F3 Hp V H) Hpart) in J; [discriminate J|].
  cbn [to_json]. rewrite (Hi a Ha). reflexivity.
Qed.
