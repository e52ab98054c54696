(** Runs of the benchmark tool: what is selected, omitted parameters, definedness. *)
From Verif Require Import Base BaseLemmas Model_AppNames Model_App Spec_AppNames Spec_App Proof_App Proof_App2.
Local Open Scope N_scope.

Definition listed (adv : bool) : list (list N) := flat_map (declared adv) groups.
Definition pmatch (p m : list N) : bool := match pattern_match_star p m with Some b => b | None => false end.
Lemma pmatch_eq p m : pattern_match_star p m = Some (pmatch p m).
Proof. unfold pmatch. destruct (pms_total p m) as [b ->]. reflexivity. Qed.
Lemma selected_filter p names : selected p names = Some (filter (pmatch p) names).
Proof.
  induction names as [|n names IH]; cbn [selected filter]; [reflexivity|]. rewrite pmatch_eq, IH. cbn [bind]. destruct (pmatch p n); reflexivity.
Qed.
Definition is_list (p : list N) : bool := str_eqb p s_list.

(** [list] *)
Lemma invoke_all_list clock o adv a gs : forall s,
  invoke_all clock o adv a s_list gs s = Some (Ok {| bs_lines := bs_lines s ++ flat_map (declared adv) gs; bs_results := bs_results s |}).
Proof.
  induction gs as [|g gs IH]; intros s; cbn [invoke_all flat_map].
  - rewrite app_nil_r. destruct s; reflexivity.
  - unfold invoke. rewrite str_eqb_refl. cbn [bind]. rewrite IH. cbn [bs_lines bs_results]. rewrite <- app_assoc. reflexivity.
Qed.
Lemma run_list b clock o1 o2 o3 o4 adv : Forall optional o1 -> Forall optional o2 -> Forall optional o3 -> ~ In ([45; 45] ++ s_verbose) o1 ->
  (adv = true <-> In ([45; 45] ++ s_advanced) o1) -> the_run b clock o1 o2 o3 s_list o4 = Some (Exit0 (PrintLines (listed adv))).
Proof.
  intros F1 F2 F3 V A. assert (Hp : ~ prefix [45] s_list) by (apply word_not_dash; discriminate).
  destruct (the_run_eq b clock o1 o2 o3 s_list o4 F1 F2 F3 Hp V) as (adv' & A' & ->).
  assert (adv' = adv) by (apply eq_true_iff_eq; rewrite A, A'; reflexivity). subst adv'.
  rewrite invoke_all_list. cbn [bind]. rewrite str_eqb_refl. reflexivity.
Qed.

(** What is in the result *)
Definition names_of (s : bench_state) : list (list N) := match bs_results s with None => [] | Some l => map fst l end.
Lemma invoke_names clock o adv a p g s s' : p <> s_list -> invoke clock o adv a p g s = Some (Ok s') ->
  names_of s' = names_of s ++ filter (pmatch p) (declared adv g) /\
  (bs_results s' = None <-> bs_results s = None /\ filter (pmatch p) (declared adv g) = []).
Proof.
  intros Hp. unfold invoke. destruct (str_eqb p s_list) eqn:E; [apply str_eqb_eq in E; contradiction|].
  rewrite selected_filter. cbn [bind]. destruct (filter (pmatch p) (declared adv g)) as [|x l] eqn:EF.
  - intros H. assert (s' = s) by congruence. subst s'. rewrite app_nil_r. tauto.
  - destruct (parse a (gr_parameters g)) as [inputs|e]; [|discriminate].
    destruct (existsb _ _); [discriminate|]. intros H. unfold names_of.
    match type of H with Some (Ok ?t) = _ => assert (s' = t) by congruence end. subst s'. cbn [bs_results].
    split; [|split; [discriminate|intros [_ H']; discriminate H']]. rewrite map_app, map_map. cbn [fst]. rewrite map_id. destruct (bs_results s); reflexivity.
Qed.
Lemma invoke_all_names clock o adv a p gs : p <> s_list -> forall s s', invoke_all clock o adv a p gs s = Some (Ok s') ->
  names_of s' = names_of s ++ filter (pmatch p) (flat_map (declared adv) gs) /\
  (bs_results s' = None <-> bs_results s = None /\ filter (pmatch p) (flat_map (declared adv) gs) = []).
Proof.
  intros Hp. induction gs as [|g gs IH]; intros s s' H; cbn [invoke_all flat_map filter] in *.
  - assert (s' = s) by congruence. subst s'. rewrite app_nil_r. tauto.
  - destruct (invoke clock o adv a p g s) as [[s1|e]|] eqn:E; try discriminate H. cbn [bind] in H.
    destruct (invoke_names _ _ _ _ _ _ _ _ Hp E) as [E1 E2]. destruct (IH _ _ H) as [E3 E4].
    rewrite filter_app. split; [rewrite E3, E1, app_assoc; reflexivity|]. rewrite E4, E2. split.
    + intros [[A B] C]. rewrite B, C. auto.
    + intros [A B]. apply app_eq_nil in B. tauto.
Qed.
Lemma run_names b clock o1 o2 o3 p o4 adv v : Forall optional o1 -> Forall optional o2 -> Forall optional o3 -> ~ prefix [45] p -> p <> s_list ->
  ~ In ([45; 45] ++ s_verbose) o1 -> (adv = true <-> In ([45; 45] ++ s_advanced) o1) ->
  the_run b clock o1 o2 o3 p o4 = Some (Exit0 v) ->
  match filter (pmatch p) (listed adv) with
  | [] => v = PrintJson (VObject [])
  | names => exists l, map fst l = names /\ v = PrintJson (VObject [(s_benchmark, VObject [(s_primitive, VObject l)])])
  end.
Proof.
  intros F1 F2 F3 Hp Hl V A. destruct (the_run_eq b clock o1 o2 o3 p o4 F1 F2 F3 Hp V) as (adv' & A' & ->).
  assert (adv' = adv) by (apply eq_true_iff_eq; rewrite A, A'; reflexivity). subst adv'.
  destruct (invoke_all _ _ _ _ _ _ _) as [[s|e]|] eqn:E; cbn [bind]; try discriminate.
  destruct (str_eqb p s_list) eqn:EL; [apply str_eqb_eq in EL; contradiction|]. intros H.
  destruct (invoke_all_names _ _ _ _ _ _ Hl _ _ E) as [E1 E2]. cbn [bs_results names_of app] in E1, E2. fold (listed adv) in E1, E2.
  assert (v = PrintJson (result_var (bs_results s))) by congruence. subst v. unfold names_of in E1.
  destruct (bs_results s) as [l|].
  - destruct (filter (pmatch p) (listed adv)) eqn:EF; [exfalso; assert (Some l = None) by (apply E2; auto); discriminate|]. exists l. split; [exact E1|reflexivity].
  - destruct (proj1 E2 eq_refl) as [_ EF]. rewrite EF. reflexivity.
Qed.

(** An omitted parameter *)
Lemma parse_missing a names n e : In n names -> parameter a n = Throw e -> forall l, parse a names <> Ok l.
Proof.
  intros Hn Hp. induction names as [|m names IH]; intros l; [destruct Hn|]. cbn [parse]. destruct (parameter a m) as [v|e'] eqn:E; [|discriminate].
  destruct Hn as [->|Hn]; [congruence|]. destruct (parse a names); [exfalso; exact (IH Hn _ eq_refl)|discriminate].
Qed.
Lemma invoke_missing clock o adv a p g s m n e : p <> s_list -> In m (declared adv g) -> pattern_match_star p m = Some true ->
  In n (gr_parameters g) -> parameter a n = Throw e -> forall s', invoke clock o adv a p g s <> Some (Ok s').
Proof.
  intros Hp Hm Hmat Hn Hpar s'. unfold invoke. destruct (str_eqb p s_list) eqn:E; [apply str_eqb_eq in E; contradiction|].
  rewrite selected_filter. cbn [bind]. destruct (filter (pmatch p) (declared adv g)) as [|x l] eqn:EF.
  - exfalso. assert (In m (filter (pmatch p) (declared adv g))) by (apply filter_In; split; [exact Hm|unfold pmatch; rewrite Hmat; reflexivity]). rewrite EF in H. exact H.
  - pose proof (parse_missing a _ n e Hn Hpar) as P. destruct (parse a (gr_parameters g)); [exfalso; exact (P _ eq_refl)|discriminate].
Qed.
Lemma invoke_all_missing clock o adv a p gs g m n e : p <> s_list -> In g gs -> In m (declared adv g) -> pattern_match_star p m = Some true ->
  In n (gr_parameters g) -> parameter a n = Throw e -> forall s s', invoke_all clock o adv a p gs s <> Some (Ok s').
Proof.
  intros Hp Hg Hm Hmat Hn Hpar. induction gs as [|g' gs IH]; intros s s'; [destruct Hg|]. cbn [invoke_all].
  destruct (invoke clock o adv a p g' s) as [[s1|e1]|] eqn:E; cbn [bind]; try discriminate.
  destruct Hg as [->|Hg]; [exfalso; exact (invoke_missing _ _ _ _ _ _ _ _ _ _ Hp Hm Hmat Hn Hpar _ E)|]. apply IH. exact Hg.
Qed.
Lemma run_omitted b clock o1 o2 o3 p o4 adv g m n : Forall optional o1 -> Forall optional o2 -> Forall optional o3 -> Forall optional o4 ->
  ~ prefix [45] p -> p <> s_list -> ~ In ([45; 45] ++ s_verbose) o1 -> (adv = true <-> In ([45; 45] ++ s_advanced) o1) ->
  In g groups -> In m (declared adv g) -> pattern_match_star p m = Some true -> In n (gr_parameters g) -> Forall (fun x => ~ begins n x) o4 ->
  forall v, the_run b clock o1 o2 o3 p o4 <> Some (Exit0 v).
Proof.
  intros F1 F2 F3 F4 Hp Hl V A Hg Hm Hmat Hn Hno v. destruct (the_run_eq b clock o1 o2 o3 p o4 F1 F2 F3 Hp V) as (adv' & A' & ->).
  assert (adv' = adv) by (apply eq_true_iff_eq; rewrite A, A'; reflexivity). subst adv'.
  assert (Hpar : parameter {| ar_cur := o4; ar_top := p ++ s__command |} n = Throw (Missing n (p ++ s__command))).
  { pose proof (parameter_missing n o4 [] (p ++ s__command)) as E. rewrite app_nil_r in E. apply E; [|exact I].
    rewrite Forall_forall in *. intros x Hx. split; [apply F4; exact Hx|apply Hno; exact Hx]. }
  match goal with |- context [invoke_all ?c ?o ?ad ?a ?q ?gs ?s] => pose proof (invoke_all_missing c o ad a q gs g m n _ Hl Hg Hm Hmat Hn Hpar s) as N;
    destruct (invoke_all c o ad a q gs s) as [[s1|e1]|] end; cbn [bind]; try discriminate.
  exfalso. exact (N _ eq_refl).
Qed.

(** Definedness *)
Lemma parse_size a names l n : parse a names = Ok l -> In n names -> parameter a n = Ok (size_of l n).
Proof.
  revert l. induction names as [|m names IH]; intros l; cbn [parse]; [intros _ []|]. destruct (parameter a m) as [v|e] eqn:E; [|discriminate].
  destruct (parse a names) as [l'|e]; [|discriminate]. intros H. assert (l = (m, v) :: l') by congruence. subst l. cbn [size_of].
  intros Hn. destruct (str_eqb m n) eqn:Em; [apply str_eqb_eq in Em; subst m; exact E|].
  destruct Hn as [->|Hn]; [rewrite str_eqb_refl in Em; discriminate Em|]. apply IH; auto.
Qed.
Lemma invoke_none clock o adv a p g s : In g groups -> invoke clock o adv a p g s = None -> parameter a d_key_size = Ok 0.
Proof.
  intros Hg. unfold invoke. destruct (str_eqb p s_list); [discriminate|]. rewrite selected_filter. cbn [bind].
  destruct (filter (pmatch p) (declared adv g)); [discriminate|]. destruct (parse a (gr_parameters g)) as [ins|e] eqn:EP; [|discriminate].
  destruct (existsb _ _) eqn:EX; [|discriminate]. intros _. apply existsb_exists in EX. destruct EX as (n & Hn & Hz). apply N.eqb_eq in Hz.
  assert (Hin : n = d_key_size /\ In n (gr_parameters g)).
  { clear - Hg Hn. cbn [groups In] in Hg. repeat (destruct Hg as [<-|Hg]); try (exfalso; exact Hn); try (exfalso; exact Hg);
      (destruct Hn as [<-|Hn]; [split; [reflexivity|right; right; right; left; reflexivity]|exfalso; exact Hn]). }
  destruct Hin as [-> Hin]. rewrite (parse_size _ _ _ _ EP Hin), Hz. reflexivity.
Qed.
Lemma invoke_all_none clock o adv a p gs : (forall g, In g gs -> In g groups) -> forall s, invoke_all clock o adv a p gs s = None -> parameter a d_key_size = Ok 0.
Proof.
  induction gs as [|g gs IH]; intros Hin s; cbn [invoke_all]; [discriminate|].
  destruct (invoke clock o adv a p g s) as [[s1|e1]|] eqn:E; cbn [bind]; try discriminate.
  - apply IH. intros g' Hg'. apply Hin. right. exact Hg'.
  - intros _. apply (invoke_none clock o adv a p g s); [apply Hin; left; reflexivity|exact E].
Qed.
Lemma command_incl a c a' x : command a = Ok (c, a') -> In x (ar_cur a') -> In x (ar_cur a).
Proof.
  unfold command. generalize (ar_cur a). intros l. induction l as [|y l IH]; cbn [command_loop]; [discriminate|]. destruct (dash y).
  - intros H Hx. right. apply IH; assumption.
  - intros H Hx. assert (a' = {| ar_cur := l; ar_top := y ++ s__command |}) by congruence. subst a'. right. exact Hx.
Qed.
Lemma parameter_loop_some n l x : parameter_loop n l = Some x -> In x l /\ begins n x.
Proof.
  induction l as [|y l IH]; cbn [parameter_loop]; [discriminate|]. destruct (dashes y) eqn:E; [|discriminate]. apply dashes_spec in E.
  destruct (starts_with n (skipn 2 y)) eqn:W.
  - intros H. assert (x = y) by congruence. subst x. split; [left; reflexivity|apply starts_begins; assumption].
  - intros H. destruct (IH H). split; [right|]; assumption.
Qed.
Lemma value_zero s : Forall (fun c => is_digit c = true) s -> value s = 0 -> Forall (fun c => c = 48) s.
Proof.
  intros F. induction s as [|c s IH] using rev_ind; intros V; [constructor|]. rewrite value_app in V. apply Forall_app in F. destruct F as [F1 F2].
  apply Forall_cons_iff in F2. destruct F2 as [F2 _]. unfold is_digit in F2. apply andb_true_iff in F2. destruct F2 as [Fa Fb]. apply N.leb_le in Fa, Fb.
  apply Forall_app. split; [apply IH; [exact F1|lia]|]. constructor; [lia|constructor].
Qed.
Lemma digits_split s : exists w, s = digits s ++ w /\ Forall (fun c => is_digit c = true) (digits s) /\ is_digit (hd 0 w) = false.
Proof.
  induction s as [|c s (w & E & F & H)]; cbn [digits]; [exists []; auto|]. destruct (is_digit c) eqn:D.
  - exists w. split; [cbn [app]; congruence|]. split; [constructor; assumption|exact H].
  - exists (c :: s). split; [reflexivity|]. split; [constructor|exact D].
Qed.
Lemma is_digit_false c : is_digit c = false -> ~ (48 <= c <= 57).
Proof. unfold is_digit. intros H [A B]. apply N.leb_le in A, B. rewrite A, B in H. discriminate H. Qed.
Lemma parameter_zero a n : parameter a n = Ok 0 -> exists x, In x (ar_cur a) /\ begins n x /\ zero_value x.
Proof.
  unfold parameter. destruct (parameter_loop n (ar_cur a)) as [x|] eqn:E; [|discriminate]. destruct (parameter_loop_some _ _ _ E) as [I1 B].
  destruct (index_of (N.eqb 61) x) as [pos|] eqn:EI; [|discriminate].
  destruct (index_of_some _ _ _ EI) as (u & c & v & -> & L & Hc & Fu). apply N.eqb_eq in Hc. subst c.
  assert (Hu : ~ In 61 u) by (intros H; rewrite Forall_forall in Fu; specialize (Fu _ H); discriminate Fu).
  intros H. eexists. split; [exact I1|]. split; [exact B|]. exists u, v. split; [reflexivity|]. split; [exact Hu|].
  destruct (Nat.leb (length (u ++ 61 :: v)) (pos + 1)) eqn:EL.
  - left. apply Nat.leb_le in EL. rewrite app_length in EL. cbn [length] in EL. destruct v; [reflexivity|cbn [length] in EL; lia].
  - right. cbv zeta in H. assert (Ev : skipn (pos + 1) (u ++ 61 :: v) = v).
    { change (61 :: v) with ([61] ++ v). rewrite app_assoc. replace (pos + 1)%nat with (length (u ++ [61])) by (rewrite app_length; cbn [length]; lia). rewrite skipn_app, skipn_all, Nat.sub_diag. reflexivity. }
    rewrite Ev in H. unfold from_chars in H. destruct (digits_split v) as (w & Es & F & Hd). destruct (digits v) as [|d0 dd] eqn:ED; [discriminate H|].
    destruct (value (d0 :: dd) <? 2 ^ 64); [|discriminate H]. assert (value (d0 :: dd) = 0) by congruence.
    exists (d0 :: dd), w. split; [exact Es|]. split; [discriminate|]. split; [apply value_zero; assumption|apply is_digit_false; exact Hd].
Qed.
Lemma run_defined b clock argv : run b clock argv = None -> argv = [] \/ exists x, In x argv /\ begins d_key_size x /\ zero_value x.
Proof.
  intros H. destruct argv as [|a0 argv0]; [left; reflexivity|]. right. remember (a0 :: argv0) as argv eqn:Ea.
  unfold run in H. destruct (dump_some argv ltac:(subst argv; discriminate)) as [d Ed]. rewrite Ed in H. cbn [bind] in H. cbv zeta in H.
  destruct (command (args_new argv)) as [[c a]|e] eqn:E1; [|discriminate H].
  destruct (str_eqb c s_benchmark); [|destruct (str_eqb c s_version); discriminate H].
  unfold run_benchmark in H. cbv zeta in H. destruct (command a) as [[c2 a2]|e] eqn:E2; [|discriminate H].
  destruct (str_eqb c2 s_primitive); [|discriminate H].
  unfold primitive in H. destruct (command a2) as [[p a3]|e] eqn:E3; [|discriminate H].
  match type of H with (bind ?t _) = None => destruct t as [[s|e]|] eqn:EI end; cbn [bind] in H.
  - destruct (str_eqb p s_list); discriminate H.
  - discriminate H.
  - apply invoke_all_none in EI; [|auto]. destruct (parameter_zero _ _ EI) as (x & Hx & B & Z). exists x.
    split; [|auto]. apply (command_incl _ _ _ _ E3) in Hx. apply (command_incl _ _ _ _ E2) in Hx. apply (command_incl _ _ _ _ E1) in Hx. exact Hx.
Qed.
