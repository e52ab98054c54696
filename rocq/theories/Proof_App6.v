(** The metrics that the benchmark tool reports. *)
From Verif Require Import Base BaseLemmas Model_AppNames Model_App Spec_AppNames Spec_App Spec_App2 Proof_App Proof_App2 Proof_App3 Proof_App4 Proof_App5.
Local Open Scope N_scope.

Lemma given_parameter l rest top name n : ~ In 61 name -> given l name n -> parameter {| ar_cur := l ++ rest; ar_top := top |} name = Ok n.
Proof.
  intros Hn (pre & v & post & -> & F & D & B). rewrite <- app_assoc. cbn [app].
  pose proof (parameter_value name pre v [] n (post ++ rest) top F Hn D eq_refl) as E. rewrite app_nil_r in E. rewrite E.
  rewrite (proj2 (N.ltb_lt _ _) B). reflexivity.
Qed.
Lemma run_entry b clock o1 o2 o3 p o4 adv g m out : Forall optional o1 -> Forall optional o2 -> Forall optional o3 -> ~ prefix [45] p -> p <> s_list ->
  ~ In ([45; 45] ++ s_verbose) o1 -> (adv = true <-> In ([45; 45] ++ s_advanced) o1) ->
  In g groups -> In m (declared adv g) -> pattern_match_star p m = Some true -> the_run b clock o1 o2 o3 p o4 = Some (Exit0 out) ->
  exists v inputs, out = PrintJson v /\ parse {| ar_cur := o4; ar_top := p ++ s__command |} (gr_parameters g) = Ok inputs /\
    forall path x,
    reaches (snd (entry clock (bopts {| ar_cur := o2 ++ [s_primitive] ++ o3 ++ [p] ++ o4; ar_top := s_benchmark ++ s__command |}) g inputs m)) path x ->
    reaches v (s_benchmark :: s_primitive :: m :: path) x.
Proof.
  intros F1 F2 F3 Hp Hl V A Hg Hm Hmat. destruct (the_run_eq b clock o1 o2 o3 p o4 F1 F2 F3 Hp V) as (adv' & A' & ->).
  assert (adv' = adv) by (apply eq_true_iff_eq; rewrite A, A'; reflexivity). subst adv'.
  destruct (invoke_all _ _ _ _ _ _ _) as [[s|e]|] eqn:E; cbn [bind]; try discriminate.
  destruct (str_eqb p s_list) eqn:EL; [apply str_eqb_eq in EL; contradiction|]. intros H.
  destruct (invoke_all_entries _ _ _ _ _ _ Hl _ _ E) as (_ & _ & I3).
  destruct (I3 g m Hg Hm) as (inputs & HP & Hin); [unfold pmatch; rewrite Hmat; reflexivity|].
  exists (result_var (bs_results s)), inputs. split; [congruence|]. split; [exact HP|]. intros path x R.
  unfold results_of in Hin. destruct (bs_results s) as [l|]; [|destruct Hin]. unfold result_var.
  apply (r_key s_benchmark (VObject [(s_primitive, VObject l)])); [left; reflexivity|].
  apply (r_key s_primitive (VObject l)); [left; reflexivity|]. eapply r_key; [exact Hin|]. exact R.
Qed.
Definition gtotal (size : list N -> N) (g : group) : N := fold_right N.add 0 (map size (gr_processed g)).
Definition no_eq (l : list (list N)) : Prop := Forall (fun n => ~ In 61 n) l.
Lemma inputs_no_eq : no_eq all_inputs.
Proof.
  assert (F : forallb (forallb (fun c => negb (c =? 61))) all_inputs = true) by (vm_compute; reflexivity).
  unfold no_eq. rewrite Forall_forall. intros n Hn H. rewrite forallb_forall in F. specialize (F _ Hn). rewrite forallb_forall in F. specialize (F _ H). discriminate F.
Qed.
Lemma processed_params g n : In g groups -> In n (gr_processed g) -> In n (gr_parameters g).
Proof.
  intros Hg Hn. assert (F : forallb (fun g => forallb (fun n => existsb (str_eqb n) (gr_parameters g)) (gr_processed g)) groups = true) by (vm_compute; reflexivity).
  rewrite forallb_forall in F. specialize (F _ Hg). rewrite forallb_forall in F. specialize (F _ Hn). apply existsb_exists in F.
  destruct F as (n' & Hn' & E). apply str_eqb_eq in E. subst n'. exact Hn'.
Qed.
Lemma fold_sizes size inputs l : (forall n, In n l -> size_of inputs n = size n) -> forall acc,
  acc + fold_right N.add 0 (map size l) < 2 ^ 64 -> fold_left (fun s n => wadd 64 s (size_of inputs n)) l acc = acc + fold_right N.add 0 (map size l).
Proof.
  induction l as [|n l IH]; intros H acc B; cbn [fold_left map fold_right] in *; [lia|]. rewrite (H n) by (left; reflexivity).
  assert (W : wadd 64 acc (size n) = acc + size n) by (unfold wadd; apply N.mod_small; lia).
  rewrite W. rewrite IH by (lia || (intros; apply H; right; assumption)). lia.
Qed.
Lemma wmul_small a b : a * b < 2 ^ 64 -> wmul 64 a b = a * b.
Proof. intros H. unfold wmul. apply N.mod_small. exact H. Qed.
Lemma processed_exact o g inputs size a : In g groups -> parse a (gr_parameters g) = Ok inputs ->
  (forall n, In n (gr_processed g) -> parameter a n = Ok (size n)) -> bo_repeats_time o <> 0 -> bo_repeats_time o * gtotal size g < 2 ^ 64 ->
  processed_of o g inputs = bo_repeats_time o * gtotal size g.
Proof.
  intros Hg HP Hs HT B. unfold processed_of. rewrite (fold_sizes size).
  - cbn [N.add]. fold (gtotal size g). apply wmul_small. exact B.
  - intros n Hn. specialize (Hs n Hn). rewrite (parse_size _ _ _ n HP (processed_params g n Hg Hn)) in Hs. congruence.
  - fold (gtotal size g). nia.
Qed.

Section Metrics.
  Context (b : build) (clock : list N -> N) (o1 o2 o3 : list (list N)) (p : list N) (o4 : list (list N)) (adv : bool) (g : group) (m : list N) (outv : stdout)
          (T : N) (size : list N -> N).
  Context (F1 : Forall optional o1) (F2 : Forall optional o2) (F3 : Forall optional o3) (Hp : ~ prefix [45] p) (Hl : p <> s_list)
          (V : ~ In ([45; 45] ++ s_verbose) o1) (A : adv = true <-> In ([45; 45] ++ s_advanced) o1)
          (Hg : In g groups) (Hm : In m (declared adv g)) (Hmat : pattern_match_star p m = Some true)
          (HR : the_run b clock o1 o2 o3 p o4 = Some (Exit0 outv)).
  Context (HT : repeats o2 s_repeats_time T) (HS : forall n, In n (gr_processed g) -> given o4 n (size n)).
  Definition at_entry (path : list (list N)) (x : var) : Prop :=
    exists v, outv = PrintJson v /\ reaches v ([s_benchmark; s_primitive; m] ++ path) x.
  Let opts := bopts {| ar_cur := o2 ++ [s_primitive] ++ o3 ++ [p] ++ o4; ar_top := s_benchmark ++ s__command |}.
  Lemma T_pos : T <> 0.
  Proof. destruct HT as [(t & _ & ->)|[_ ->]]; lia. Qed.
  Lemma opts_time : bo_repeats_time opts = T.
  Proof.
    unfold opts, bopts, parameter_or. cbn [bo_repeats_time]. cbv zeta. destruct HT as [(t & G & ->)|[G ->]].
    - rewrite (given_parameter o2 ([s_primitive] ++ o3 ++ [p] ++ o4) _ s_repeats_time t); [|vm_compute; intuition discriminate|exact G].
      destruct (t =? 0) eqn:E; [apply N.eqb_eq in E; subst t; reflexivity|apply N.eqb_neq in E; lia].
    - rewrite parameter_missing; [reflexivity| |apply stops_word; discriminate].
      rewrite Forall_forall in *. intros x Hx. split; [apply F2; exact Hx|apply G; exact Hx].
  Qed.
  Lemma opts_clock mhz : given o2 s_cpu_clock mhz -> mhz * 1000000 < 2 ^ 64 -> bo_cpu_clock opts = mhz * 1000000.
  Proof.
    intros H B. unfold opts, bopts, parameter_or. cbn [bo_cpu_clock].
    rewrite (given_parameter o2 ([s_primitive] ++ o3 ++ [p] ++ o4) _ s_cpu_clock mhz); [|vm_compute; intuition discriminate|exact H]. apply wmul_small. exact B.
  Qed.
  Lemma metrics_entry : exists v inputs, outv = PrintJson v /\ (forall n, In n (gr_processed g) -> size_of inputs n = size n) /\
    (T * gtotal size g < 2 ^ 64 -> processed_of opts g inputs = T * gtotal size g) /\
    (forall path x, reaches (config_of opts inputs) path x -> reaches v ([s_benchmark; s_primitive; m] ++ s_config :: path) x) /\
    (forall path x, reaches (metrics_of opts (clock m) (processed_of opts g inputs)) path x -> reaches v ([s_benchmark; s_primitive; m] ++ s_metrics :: path) x).
  Proof.
    destruct (run_entry b clock o1 o2 o3 p o4 adv g m outv F1 F2 F3 Hp Hl V A Hg Hm Hmat HR) as (v & inputs & E & HP & R).
    assert (HS' : forall n, In n (gr_processed g) -> parameter {| ar_cur := o4; ar_top := p ++ s__command |} n = Ok (size n)).
    { intros n Hn. pose proof (given_parameter o4 [] (p ++ s__command) n (size n)) as G. rewrite app_nil_r in G. apply G; [|apply HS; exact Hn].
      pose proof inputs_no_eq as NE. unfold no_eq in NE. rewrite Forall_forall in NE. apply NE. apply in_flat_map. exists g. split; [exact Hg|apply processed_params; assumption]. }
    exists v, inputs. split; [exact E|]. split; [|split; [|split]].
    - intros n Hn. specialize (HS' n Hn). rewrite (parse_size _ _ _ n HP (processed_params g n Hg Hn)) in HS'. congruence.
    - intros B. pose proof T_pos. rewrite (processed_exact opts g inputs size _ Hg HP HS'); rewrite opts_time; auto.
    - intros path x H. apply R. cbn [entry snd]. eapply r_key; [left; reflexivity|exact H].
    - intros path x H. apply R. cbn [entry snd]. eapply r_key; [right; left; reflexivity|exact H].
  Qed.
  Lemma metric_duration : at_entry [s_metrics; s_duration; s_nanoseconds_per_call] (VRatio (clock m) T).
  Proof.
    destruct metrics_entry as (v & inputs & E & _ & _ & _ & R). exists v. split; [exact E|]. apply R. unfold metrics_of. cbv zeta. rewrite opts_time.
    eapply r_key; [left; reflexivity|]. eapply r_key; [left; reflexivity|]. apply r_here.
  Qed.
  Lemma metric_time : at_entry [s_config; s_benchmark; s_repeats_time] (VUnsigned T).
  Proof.
    destruct metrics_entry as (v & inputs & E & _ & _ & R & _). exists v. split; [exact E|]. apply R. unfold config_of. rewrite opts_time.
    eapply r_key; [left; reflexivity|]. eapply r_key; [right; left; reflexivity|]. apply r_here.
  Qed.
  Lemma metric_throughput : gtotal size g <> 0 -> T * gtotal size g * 1000 < 2 ^ 64 ->
    at_entry [s_metrics; s_throughput; s_gigabytes_per_second] (VRatio (T * gtotal size g) (clock m)) /\
    at_entry [s_metrics; s_throughput; s_megabytes_per_second] (VRatio (T * gtotal size g * 1000) (clock m)).
  Proof.
    intros Z B. pose proof T_pos as HT0. destruct metrics_entry as (v & inputs & E & _ & P & _ & R). specialize (P ltac:(lia)). rewrite P in R.
    unfold metrics_of in R. cbv zeta in R. rewrite (wmul_small _ _ B) in R. rewrite (proj2 (N.eqb_neq (T * gtotal size g) 0)) in R by nia. cbn [orb] in R.
    split; (exists v; split; [exact E|]; apply R; eapply r_key; [right; left; reflexivity|]).
    - eapply r_key; [left; reflexivity|]. apply r_here.
    - eapply r_key; [right; left; reflexivity|]. apply r_here.
  Qed.
  Lemma metric_cpu mhz : given o2 s_cpu_clock mhz -> mhz <> 0 -> mhz * 1000000 < 2 ^ 64 -> gtotal size g <> 0 -> 1000000000 * (T * gtotal size g) < 2 ^ 64 ->
    at_entry [s_metrics; s_cpu; s_cycles_per_call] (VRatio ((mhz * 1000000 * clock m) mod 2 ^ 64) (1000000000 * T)) /\
    at_entry [s_metrics; s_cpu; s_cycles_per_byte] (VRatio ((mhz * 1000000 * clock m) mod 2 ^ 64) (1000000000 * (T * gtotal size g))).
  Proof.
    intros G M0 MB Z B. pose proof T_pos as HT0. destruct metrics_entry as (v & inputs & E & _ & P & _ & R). specialize (P ltac:(lia)). rewrite P in R.
    unfold metrics_of in R. cbv zeta in R. rewrite opts_time, (opts_clock mhz G MB) in R. rewrite (wmul_small _ _ B), (wmul_small 1000000000 T) in R by nia.
    rewrite (proj2 (N.eqb_neq (T * gtotal size g) 0)) in R by nia. rewrite (proj2 (N.eqb_neq (mhz * 1000000) 0)) in R by lia. cbn [orb app] in R.
    split; (exists v; split; [exact E|]; apply R; eapply r_key; [right; right; left; reflexivity|]).
    - eapply r_key; [left; reflexivity|]. unfold wmul. apply r_here.
    - eapply r_key; [right; left; reflexivity|]. apply r_here.
  Qed.
End Metrics.

(** *** Statements for the properties *)
Lemma listed_nodup adv : NoDup (listed adv).
Proof.
  assert (E : forall l : list (list N), (fix nd l := match l with [] => true | x :: l => negb (existsb (str_eqb x) l) && nd l end) l = true -> NoDup l).
  { induction l as [|x l IH]; intros H; constructor; apply andb_true_iff in H; destruct H as [H1 H2]; [|apply IH; exact H2].
    intros Hx. apply negb_true_iff in H1. assert (existsb (str_eqb x) l = true) by (apply existsb_exists; exists x; split; [exact Hx|apply str_eqb_refl]). congruence. }
  apply E. destruct adv; vm_compute; reflexivity.
Qed.
Lemma nodup_filter (A : Type) (f : A -> bool) l : NoDup l -> NoDup (filter f l).
Proof.
  induction 1 as [|x l Hx Hl IH]; cbn [filter]; [constructor|]. destruct (f x); [|exact IH]. constructor; [|exact IH]. intros H. apply filter_In in H. tauto.
Qed.
Lemma run_selects b clock o1 o2 o3 p o4 adv outv : Forall optional o1 -> Forall optional o2 -> Forall optional o3 -> ~ prefix [45] p -> p <> s_list ->
  ~ In ([45; 45] ++ s_verbose) o1 -> (adv = true <-> In ([45; 45] ++ s_advanced) o1) ->
  the_run b clock o1 o2 o3 p o4 = Some (Exit0 outv) ->
  exists l, (outv = PrintJson (VObject [(s_benchmark, VObject [(s_primitive, VObject l)])]) \/ (l = [] /\ outv = PrintJson (VObject []))) /\
    NoDup (map fst l) /\ forall n, In n (map fst l) <-> In n (listed adv) /\ pattern_match_star p n = Some true.
Proof.
  intros F1 F2 F3 Hp Hl V A H. pose proof (run_names b clock o1 o2 o3 p o4 adv outv F1 F2 F3 Hp Hl V A H) as R.
  pose proof (nodup_filter _ (pmatch p) _ (listed_nodup adv)) as ND.
  assert (I : forall n, In n (filter (pmatch p) (listed adv)) <-> In n (listed adv) /\ pattern_match_star p n = Some true).
  { intros n. rewrite filter_In, pmatch_eq. split; intros [H1 H2]; split; auto; congruence. }
  destruct (filter (pmatch p) (listed adv)) as [|x l].
  - exists []. split; [right; auto|]. split; [exact ND|exact I].
  - destruct R as (l' & E & ->). exists l'. split; [left; reflexivity|]. rewrite E. auto.
Qed.
Definition documented : list (list N * group) :=
  [(d_codec, g_codec); (d_hash, g_hash); (d_kdf_hkdf, g_kdf_hkdf); (d_kdf_pbkdf_2, g_kdf_pbkdf_2); (d_cipher, g_cipher); (d_aead, g_aead)].
Lemma in_dec_str x l : existsb (str_eqb x) l = true <-> In x l.
Proof.
  rewrite existsb_exists. split; [intros (y & Hy & E); apply str_eqb_eq in E; subst; exact Hy|intros H; exists x; split; [exact H|apply str_eqb_refl]].
Qed.
Lemma documented_groups adv d g m : In (d, g) documented -> In m (listed adv) -> (pattern_match_star d m = Some true <-> In m (declared adv g)).
Proof.
  intros Hd Hm.
  assert (E : forallb (fun e => forallb (fun m => Bool.eqb (pmatch (fst e) m) (existsb (str_eqb m) (declared adv (snd e)))) (listed adv)) documented = true) by (destruct adv; vm_compute; reflexivity).
  rewrite forallb_forall in E. specialize (E _ Hd). cbn [fst snd] in E. rewrite forallb_forall in E. specialize (E _ Hm). apply eqb_prop in E.
  rewrite <- in_dec_str, <- E, pmatch_eq. split; intros H; congruence.
Qed.
Lemma names_exact adv n m : In n (listed adv) -> In m (listed adv) -> (pattern_match_star n m = Some true <-> m = n).
Proof.
  intros Hn Hm.
  assert (E : forallb (fun n => forallb (fun m => Bool.eqb (pmatch n m) (str_eqb m n)) (listed adv)) (listed adv) = true) by (destruct adv; vm_compute; reflexivity).
  rewrite forallb_forall in E. specialize (E _ Hn). rewrite forallb_forall in E. specialize (E _ Hm). apply eqb_prop in E.
  rewrite <- str_eqb_eq, <- E, pmatch_eq. split; intros H; congruence.
Qed.
Lemma in_listed_group adv n : existsb (str_eqb n) (declared adv g_kdf_hkdf) = true -> In n (declared adv g_kdf_hkdf).
Proof. apply in_dec_str. Qed.
Lemma mac_refuted b clock o4 : Forall optional o4 -> Forall (fun x => ~ begins d_ikm_size x) o4 -> forall v, the_run b clock [] [] [] d_mac o4 <> Some (Exit0 v).
Proof.
  intros F4 Hno. set (m := hd [] (gr_basic g_kdf_hkdf)).
  apply (run_omitted b clock [] [] [] d_mac o4 false g_kdf_hkdf m d_ikm_size); try (apply Forall_nil); try assumption.
  - apply word_not_dash. discriminate.
  - discriminate.
  - intros [].
  - split; [discriminate|intros []].
  - right; right; right; left; reflexivity.
  - left. reflexivity.
  - vm_compute. reflexivity.
  - left. reflexivity.
Qed.
Lemma parameter_value_prefix name w pre v n post top :
  Forall (fun x => optional x /\ ~ begins name x) pre -> ~ In 61 name -> ~ In 61 w -> decimal v n -> n < 2 ^ 64 ->
  parameter {| ar_cur := pre ++ assignment (name ++ w) v :: post; ar_top := top |} name = Ok n.
Proof.
  intros F Hn Hw D B. unfold parameter. cbn [ar_cur ar_top]. rewrite parameter_loop_first; [|exact F|].
  2: { exists (w ++ [61] ++ v). unfold assignment. rewrite <- !app_assoc. reflexivity. }
  destruct (assignment_value (name ++ w) v) as (E1 & E2 & E3); [intros H; apply in_app_or in H; tauto|]. rewrite E1.
  destruct (decimal_digits v n D) as (_ & Hne & _).
  rewrite (proj2 (Nat.leb_gt _ _)) by (rewrite E3; destruct v; [congruence|cbn [length]; lia]).
  cbv zeta. rewrite E2. pose proof (from_chars_decimal v n [] D eq_refl) as E. rewrite app_nil_r in E. rewrite E, (proj2 (N.ltb_lt _ _) B). reflexivity.
Qed.
Lemma parameter_no_value name pre x post top :
  Forall (fun x => optional x /\ ~ begins name x) pre -> begins name x -> ~ In 61 x ->
  parameter {| ar_cur := pre ++ x :: post; ar_top := top |} name = Throw (NoValue name top).
Proof.
  intros F B Hx. unfold parameter. cbn [ar_cur ar_top]. rewrite parameter_loop_first by assumption. rewrite index_of_no; [reflexivity|].
  rewrite Forall_forall. intros c Hc. apply N.eqb_neq. intros <-. contradiction.
Qed.

(** Commands, and the arguments in the verbose output *)
Lemma dump_spaced argv : argv <> [] -> dump argv = Some (spaced argv).
Proof.
  intros H. assert (E : flat_map (fun a => a ++ [32]) argv = spaced argv ++ [32]).
  { induction argv as [|a l IH]; [congruence|]. cbn [flat_map]. destruct l as [|a2 l]; [cbn [flat_map spaced]; apply app_nil_r|].
    rewrite IH by discriminate. change (spaced (a :: a2 :: l)) with (a ++ [32] ++ spaced (a2 :: l)). rewrite <- !app_assoc. reflexivity. }
  unfold dump. rewrite E. destruct (spaced argv ++ [32]) as [|x l] eqn:E2; [destruct (spaced argv); discriminate E2|].
  rewrite <- E2, removelast_last. reflexivity.
Qed.
Lemma run_echo b clock o1 rest v : Forall optional o1 -> In ([45; 45] ++ s_verbose) o1 ->
  run b clock (o1 ++ s_benchmark :: rest) = Some (Exit0 (PrintJson v)) ->
  reaches v [s_command; s_args] (VArray (map VStr (o1 ++ s_benchmark :: rest))) /\ reaches v [s_command; s_dump] (VStr (spaced (o1 ++ s_benchmark :: rest))).
Proof.
  intros F V H. destruct (run_verbose _ _ _ _ _ F V H) as (d & r & E).
  assert (Ed : d = spaced (o1 ++ s_benchmark :: rest)).
  { unfold run in H. rewrite dump_spaced in H by (destruct o1; discriminate). cbn [bind] in H. cbv zeta in H.
    assert (EV : opt (args_new (o1 ++ s_benchmark :: rest)) s_verbose = true).
    { unfold opt, args_new. cbn [ar_cur]. apply option_loop_in; [exact F|apply stops_word; discriminate|exact V]. }
    rewrite EV in H. unfold command at 1 in H. cbn [args_new ar_cur] in H. rewrite command_loop_skip in H; [|exact F|apply word_not_dash; discriminate].
    rewrite str_eqb_refl in H. unfold run_benchmark in H. cbv zeta in H. destruct (command _) as [[c2 a2]|e] eqn:E2 in H; [|discriminate H].
    destruct (str_eqb c2 s_primitive); [|discriminate H]. destruct (primitive _ _ _ _) as [[s|e]|]; cbn [bind] in H; try discriminate H.
    destruct (command a2) as [[q a3]|e]; [|discriminate H]. destruct (str_eqb q s_list); [discriminate H|].
    assert (Ev : v = context_var b (o1 ++ s_benchmark :: rest) (spaced (o1 ++ s_benchmark :: rest)) (result_var (bs_results s))) by congruence.
    rewrite E in Ev. unfold context_var in Ev. congruence. }
  subst v d. unfold context_var. split; (eapply r_key; [right; right; left; reflexivity|]).
  - eapply r_key; [right; left; reflexivity|apply r_here].
  - eapply r_key; [left; reflexivity|apply r_here].
Qed.
Lemma run_commands b clock o1 c rest : Forall optional o1 -> ~ prefix [45] c ->
  (c = s_version -> run b clock (o1 ++ c :: rest) = Some (Exit0 PrintVersion)) /\
  (c <> s_version -> c <> s_benchmark -> run b clock (o1 ++ c :: rest) = Some (Exit1 (UnknownCommand c))).
Proof.
  intros F Hc. unfold run. destruct (dump_some (o1 ++ c :: rest)) as [d ->]; [destruct o1; discriminate|]. cbn [bind]. cbv zeta. unfold command, args_new. cbn [ar_cur].
  rewrite command_loop_skip by assumption. split.
  - intros ->. reflexivity.
  - intros H1 H2. destruct (str_eqb c s_benchmark) eqn:E; [apply str_eqb_eq in E; contradiction|]. destruct (str_eqb c s_version) eqn:E2; [apply str_eqb_eq in E2; contradiction|]. reflexivity.
Qed.
Lemma run_no_command b clock argv : argv <> [] -> Forall (prefix [45]) argv -> run b clock argv = Some (Exit1 NoCommand).
Proof.
  intros Hne F. unfold run. destruct (dump_some argv Hne) as [d ->]. cbn [bind]. cbv zeta. unfold command, args_new. cbn [ar_cur].
  assert (E : command_loop argv = Throw NoCommand); [|rewrite E; reflexivity]. clear Hne. induction F as [|x l Fx Fl IH]; [reflexivity|]. cbn [command_loop]. rewrite (proj2 (dash_spec x) Fx). exact IH.
Qed.
