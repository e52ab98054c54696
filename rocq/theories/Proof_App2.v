(** The arguments of the benchmark tool. *)
From Verif Require Import Base BaseLemmas Model_AppNames Model_App Spec_App Proof_App.
Local Open Scope N_scope.

Lemma dashes_spec a : dashes a = true <-> optional a.
Proof. apply starts_with_spec. Qed.
Lemma dash_optional a : optional a -> dash a = true.
Proof. intros [y ->]. reflexivity. Qed.
Lemma dash_spec a : dash a = true <-> prefix [45] a.
Proof. apply starts_with_spec. Qed.
Lemma starts_begins n a : optional a -> starts_with n (skipn 2 a) = true <-> begins n a.
Proof.
  intros [y ->]. cbn [app skipn]. rewrite starts_with_spec. split.
  - intros [z ->]. exists z. reflexivity.
  - intros [z E]. exists z. cbn [app] in E. congruence.
Qed.
Lemma begins_optional n a : begins n a -> optional a.
Proof. intros [z ->]. exists (n ++ z). reflexivity. Qed.

Definition stops (rest : list (list N)) : Prop := match rest with [] => True | x :: _ => ~ optional x end.
Definition hit (n a : list N) : bool := starts_with n (skipn 2 a).
Lemma parameter_loop_find n l rest : Forall optional l -> stops rest -> parameter_loop n (l ++ rest) = find (hit n) l.
Proof.
  intros F St. induction F as [|x l Fx Fl IH]; cbn [app parameter_loop find].
  - destruct rest as [|y rest]; [reflexivity|]. cbn [stops] in St. cbn [parameter_loop].
    destruct (dashes y) eqn:E; [apply dashes_spec in E; contradiction|reflexivity].
  - rewrite (proj2 (dashes_spec x) Fx). unfold hit at 1. destruct (starts_with n (skipn 2 x)); [reflexivity|exact IH].
Qed.
Lemma find_same names l l' n : same_arguments names l l' -> In n names -> find (hit n) l = find (hit n) l'.
Proof.
  intros (F & F' & I & U) Hn.
  assert (B : forall x, optional x -> hit n x = true -> begins n x) by (intros x Ho Hx; apply starts_begins; assumption).
  rewrite Forall_forall in F, F'.
  destruct (find (hit n) l) as [x|] eqn:E1; destruct (find (hit n) l') as [y|] eqn:E2; [|exfalso|exfalso|reflexivity].
  - apply find_some in E1. apply find_some in E2. destruct E1 as [I1 H1], E2 as [I2 H2].
    assert (B2 : begins n y) by (apply B; [apply F'; exact I2|exact H2]). f_equal. apply (U n); auto. apply (I n); auto.
  - apply find_some in E1. destruct E1 as [I1 H1]. assert (B1 : begins n x) by (apply B; [apply F; exact I1|exact H1]).
    apply (I n x Hn B1) in I1. pose proof (find_none _ _ E2 x I1). congruence.
  - apply find_some in E2. destruct E2 as [I1 H1]. assert (B1 : begins n y) by (apply B; [apply F'; exact I1|exact H1]).
    apply (I n y Hn B1) in I1. pose proof (find_none _ _ E1 y I1). congruence.
Qed.
Lemma parameter_same names l l' rest top n : same_arguments names l l' -> stops rest -> In n names ->
  parameter {| ar_cur := l ++ rest; ar_top := top |} n = parameter {| ar_cur := l' ++ rest; ar_top := top |} n.
Proof.
  intros S St Hn. unfold parameter. cbn [ar_cur ar_top]. pose proof S as (F & F' & _).
  rewrite !parameter_loop_find by assumption. rewrite (find_same _ _ _ _ S Hn). reflexivity.
Qed.
Lemma command_loop_skip l c rest : Forall optional l -> ~ prefix [45] c ->
  command_loop (l ++ c :: rest) = Ok (c, {| ar_cur := rest; ar_top := c ++ s__command |}).
Proof.
  intros F Hc. induction F as [|x l Fx Fl IH]; cbn [app command_loop].
  - destruct (dash c) eqn:E; [apply dash_spec in E; contradiction|reflexivity].
  - rewrite (dash_optional x Fx). exact IH.
Qed.
Lemma option_loop_in n l rest : Forall optional l -> stops rest -> option_loop n (l ++ rest) = true <-> In ([45; 45] ++ n) l.
Proof.
  intros F St. induction F as [|x l Fx Fl IH]; cbn [app option_loop].
  - split; [|intros []]. destruct rest as [|y rest]; [discriminate|]. cbn [stops] in St. cbn [option_loop].
    destruct (dashes y) eqn:E; [apply dashes_spec in E; contradiction|discriminate].
  - rewrite (proj2 (dashes_spec x) Fx). destruct (str_eqb (skipn 2 x) n) eqn:E.
    + split; [|reflexivity]. intros _. left. destruct Fx as [y ->]. cbn [app skipn] in E. apply str_eqb_eq in E. subst y. reflexivity.
    + rewrite IH. split; [intros H; right; exact H|]. intros [->|H]; [|exact H]. exfalso. cbn [app skipn] in E. rewrite str_eqb_refl in E. discriminate E.
Qed.

(** Numbers *)
Lemma value_app s d : value (s ++ [d]) = value s * 10 + (d - 48).
Proof. unfold value. rewrite fold_left_app. reflexivity. Qed.
Lemma decimal_digits s n : decimal s n -> Forall (fun c => is_digit c = true) s /\ s <> [] /\ value s = n.
Proof.
  assert (D : forall d, d < 10 -> is_digit (48 + d) = true).
  { intros d H. unfold is_digit. apply andb_true_intro. split; apply N.leb_le; lia. }
  induction 1 as [d H|s n d H (F & Hne & V) Hd].
  - split; [constructor; [apply D; exact H|constructor]|]. split; [discriminate|]. unfold value. cbn [fold_left]. lia.
  - split; [apply Forall_app; split; [exact F|constructor; [apply D; exact Hd|constructor]]|].
    split; [destruct s; discriminate|]. rewrite value_app, V. lia.
Qed.
Lemma digits_all s : Forall (fun c => is_digit c = true) s -> digits s = s.
Proof. induction 1 as [|c s Fc Fs IH]; cbn [digits]; [reflexivity|]. rewrite Fc, IH. reflexivity. Qed.
Lemma digits_app s t : Forall (fun c => is_digit c = true) s -> digits (s ++ t) = s ++ digits t.
Proof. induction 1 as [|c s Fc Fs IH]; cbn [app digits]; [reflexivity|]. rewrite Fc, IH. reflexivity. Qed.
Lemma from_chars_decimal s n t : decimal s n -> digits t = [] -> from_chars (s ++ t) = if n <? 2 ^ 64 then Some n else None.
Proof.
  intros H Ht. destruct (decimal_digits s n H) as (F & Hne & V). unfold from_chars. rewrite digits_app, Ht, app_nil_r by exact F.
  destruct s; [congruence|]. rewrite V. reflexivity.
Qed.
(** The value of a parameter *)
Lemma eq_index u v : ~ In 61 u -> index_of (N.eqb 61) (u ++ [61] ++ v) = Some (length u).
Proof.
  intros H. apply index_of_first; [|reflexivity]. apply Forall_forall. intros c Hc. apply N.eqb_neq. intros <-. contradiction.
Qed.
Definition flag (name : list N) : list N := [45; 45] ++ name.
Lemma assignment_value name v : ~ In 61 name ->
  index_of (N.eqb 61) (assignment name v) = Some (length (flag name)) /\ skipn (length (flag name) + 1) (assignment name v) = v /\
  length (assignment name v) = (length (flag name) + 1 + length v)%nat.
Proof.
  intros H. unfold assignment. rewrite (app_assoc [45; 45] name). fold (flag name). split; [|split].
  - apply eq_index. intros [E|[E|E]]; [discriminate E|discriminate E|contradiction].
  - rewrite app_assoc. rewrite <- (app_length _ [61]). rewrite skipn_app, skipn_all, Nat.sub_diag. reflexivity.
  - rewrite !app_length. cbn [length]. lia.
Qed.
Lemma find_skip n pre x post : Forall (fun x => optional x /\ ~ begins n x) pre -> begins n x -> find (hit n) (pre ++ x :: post) = Some x.
Proof.
  intros F B. induction F as [|y pre [Fo Fb] Fp IH]; cbn [app find].
  - unfold hit. rewrite (proj2 (starts_begins n x (begins_optional _ _ B)) B). reflexivity.
  - unfold hit at 1. destruct (starts_with n (skipn 2 y)) eqn:E; [|exact IH]. apply (starts_begins n y Fo) in E. contradiction.
Qed.
Lemma assignment_begins name v : begins name (assignment name v).
Proof. exists ([61] ++ v). unfold assignment. rewrite app_assoc. reflexivity. Qed.
Lemma parameter_loop_first n pre x post : Forall (fun x => optional x /\ ~ begins n x) pre -> begins n x -> parameter_loop n (pre ++ x :: post) = Some x.
Proof.
  intros F B. replace (pre ++ x :: post) with ((pre ++ [x]) ++ post) by (rewrite <- app_assoc; reflexivity).
  assert (Fo : Forall optional (pre ++ [x])).
  { apply Forall_app. split; [revert F; apply Forall_impl; tauto|]. constructor; [exact (begins_optional _ _ B)|constructor]. }
  revert Fo. generalize (find_skip n pre x [] F B). generalize (pre ++ [x]). intros l. clear. intros Hf Fo. induction Fo as [|y l Fy Fl IH]; [discriminate Hf|].
  cbn [app parameter_loop]. rewrite (proj2 (dashes_spec y) Fy). cbn [find] in Hf. unfold hit at 1 in Hf. destruct (starts_with n (skipn 2 y)); [congruence|]. apply IH. exact Hf.
Qed.
Lemma parameter_value name pre v t n post top :
  Forall (fun x => optional x /\ ~ begins name x) pre -> ~ In 61 name -> decimal v n -> digits t = [] ->
  parameter {| ar_cur := pre ++ assignment name (v ++ t) :: post; ar_top := top |} name =
    if n <? 2 ^ 64 then Ok n else Throw (NotANumber name top (v ++ t)).
Proof.
  intros F Hn D Ht. unfold parameter. cbn [ar_cur ar_top]. rewrite parameter_loop_first by (exact F || apply assignment_begins).
  destruct (assignment_value name (v ++ t) Hn) as (E1 & E2 & E3). rewrite E1.
  destruct (decimal_digits v n D) as (_ & Hne & _).
  rewrite (proj2 (Nat.leb_gt _ _)) by (rewrite E3, app_length; destruct v; [congruence|cbn [length]; lia]).
  cbv zeta. rewrite E2, (from_chars_decimal v n t D Ht). destruct (n <? 2 ^ 64); reflexivity.
Qed.
Lemma parameter_empty name pre post top :
  Forall (fun x => optional x /\ ~ begins name x) pre -> ~ In 61 name ->
  parameter {| ar_cur := pre ++ assignment name [] :: post; ar_top := top |} name = Ok 0.
Proof.
  intros F Hn. unfold parameter. cbn [ar_cur ar_top]. rewrite parameter_loop_first by (exact F || apply assignment_begins).
  destruct (assignment_value name [] Hn) as (E1 & E2 & E3). rewrite E1. rewrite (proj2 (Nat.leb_le _ _)) by (rewrite E3; cbn [length]; lia). reflexivity.
Qed.
Lemma parameter_not_number name pre c v post top :
  Forall (fun x => optional x /\ ~ begins name x) pre -> ~ In 61 name -> ~ (48 <= c <= 57) ->
  parameter {| ar_cur := pre ++ assignment name (c :: v) :: post; ar_top := top |} name = Throw (NotANumber name top (c :: v)).
Proof.
  intros F Hn Hc. unfold parameter. cbn [ar_cur ar_top]. rewrite parameter_loop_first by (exact F || apply assignment_begins).
  destruct (assignment_value name (c :: v) Hn) as (E1 & E2 & E3). rewrite E1.
  rewrite (proj2 (Nat.leb_gt _ _)) by (rewrite E3; cbn [length]; lia). cbv zeta. rewrite E2. unfold from_chars. cbn [digits].
  destruct (is_digit c) eqn:E; [|reflexivity]. unfold is_digit in E. apply andb_true_iff in E. destruct E as [Ea Eb]. apply N.leb_le in Ea, Eb. lia.
Qed.
Lemma parameter_missing name l rest top : Forall (fun x => optional x /\ ~ begins name x) l -> stops rest ->
  parameter {| ar_cur := l ++ rest; ar_top := top |} name = Throw (Missing name top).
Proof.
  intros F St. unfold parameter. cbn [ar_cur ar_top]. rewrite parameter_loop_find; [|revert F; apply Forall_impl; tauto|exact St].
  assert (E : find (hit name) l = None).
  { induction F as [|y l [Fo Fb] Fl IH]; cbn [find]; [reflexivity|]. unfold hit at 1. destruct (starts_with name (skipn 2 y)) eqn:E; [|exact IH].
    apply (starts_begins name y Fo) in E. contradiction. }
  rewrite E. reflexivity.
Qed.

(** The whole program *)
Definition all_inputs : list (list N) := flat_map gr_parameters groups.
Lemma parse_same a a' names : (forall n, In n names -> parameter a n = parameter a' n) -> parse a names = parse a' names.
Proof.
  induction names as [|n names IH]; intros H; cbn [parse]; [reflexivity|]. rewrite (H n) by (left; reflexivity).
  rewrite IH by (intros; apply H; right; assumption). reflexivity.
Qed.
Lemma invoke_all_same clock o adv a a' p gs : (forall n, In n (flat_map gr_parameters gs) -> parameter a n = parameter a' n) ->
  forall s, invoke_all clock o adv a p gs s = invoke_all clock o adv a' p gs s.
Proof.
  induction gs as [|g gs IH]; intros H s; cbn [invoke_all]; [reflexivity|].
  assert (E : invoke clock o adv a p g s = invoke clock o adv a' p g s).
  { unfold invoke. rewrite (parse_same a a' (gr_parameters g)); [reflexivity|]. intros n Hn. apply H. cbn [flat_map]. apply in_or_app. left. exact Hn. }
  rewrite E. destruct (invoke clock o adv a' p g s) as [[s'|e]|]; cbn [bind]; try reflexivity.
  apply IH. intros n Hn. apply H. cbn [flat_map]. apply in_or_app. right. exact Hn.
Qed.
Definition bench_names : list (list N) := [s_cpu_clock; s_repeats_warm; s_repeats_time].
Lemma word_not_dash c w : c <> 45 -> ~ prefix [45] (c :: w).
Proof. intros H [y E]. cbn [app] in E. congruence. Qed.
Lemma stops_word c w rest : c <> 45 -> stops ((c :: w) :: rest).
Proof. intros H [y E]. cbn [app] in E. congruence. Qed.
Lemma stops_cons w rest : ~ prefix [45] w -> stops (w :: rest).
Proof. intros H [y E]. apply H. exists ([45] ++ y). exact E. Qed.
Lemma dump_some argv : argv <> [] -> exists d, dump argv = Some d.
Proof.
  destruct argv as [|a argv]; [congruence|]. intros _. unfold dump. cbn [flat_map]. destruct ((a ++ [32]) ++ _) eqn:E; [|eexists; reflexivity].
  apply (f_equal (@length N)) in E. rewrite !app_length in E. cbn [length] in E. lia.
Qed.
Definition the_run b clock o1 o2 o3 (p : list N) o4 : option exit :=
  run b clock (o1 ++ [s_benchmark] ++ o2 ++ [s_primitive] ++ o3 ++ [p] ++ o4).
Definition bopts (a : args) : bench_options :=
  {| bo_cpu_clock := wmul 64 (parameter_or a s_cpu_clock 0) 1000000; bo_repeats_warm := parameter_or a s_repeats_warm 128;
     bo_repeats_time := let t := parameter_or a s_repeats_time 1024 in if t =? 0 then 1 else t |}.
Lemma the_run_eq b clock o1 o2 o3 p o4 :
  Forall optional o1 -> Forall optional o2 -> Forall optional o3 -> ~ prefix [45] p -> ~ In ([45; 45] ++ s_verbose) o1 ->
  exists adv, (adv = true <-> In ([45; 45] ++ s_advanced) o1) /\
  the_run b clock o1 o2 o3 p o4 =
    (r <- invoke_all clock (bopts {| ar_cur := o2 ++ [s_primitive] ++ o3 ++ [p] ++ o4; ar_top := s_benchmark ++ s__command |}) adv
            {| ar_cur := o4; ar_top := p ++ s__command |} p groups {| bs_lines := []; bs_results := None |} ;;
     match r with
     | Throw e => Some (Exit1 e)
     | Ok s => if str_eqb p s_list then Some (Exit0 (PrintLines (bs_lines s))) else Some (Exit0 (PrintJson (result_var (bs_results s))))
     end).
Proof.
  intros F1 F2 F3 Hp Hv. unfold the_run, run, args_new. exists (opt {| ar_cur := o1 ++ [s_benchmark] ++ o2 ++ [s_primitive] ++ o3 ++ [p] ++ o4; ar_top := s_milo ++ s__application |} s_advanced).
  split; [unfold opt; cbn [ar_cur]; apply option_loop_in; [exact F1|apply stops_word; discriminate]|].
  destruct (dump_some (o1 ++ [s_benchmark] ++ o2 ++ [s_primitive] ++ o3 ++ [p] ++ o4)) as [d Ed]; [destruct o1; discriminate|].
  rewrite Ed. cbn [bind]. cbv zeta.
  assert (V : opt {| ar_cur := o1 ++ [s_benchmark] ++ o2 ++ [s_primitive] ++ o3 ++ [p] ++ o4; ar_top := s_milo ++ s__application |} s_verbose = false).
  { apply not_true_is_false. unfold opt. cbn [ar_cur]. intros E. apply option_loop_in in E; [contradiction|exact F1|apply stops_word; discriminate]. }
  rewrite V. generalize (opt {| ar_cur := o1 ++ [s_benchmark] ++ o2 ++ [s_primitive] ++ o3 ++ [p] ++ o4; ar_top := s_milo ++ s__application |} s_advanced). intros adv.
  unfold command at 1. cbn [ar_cur].
  change (o1 ++ [s_benchmark] ++ o2 ++ [s_primitive] ++ o3 ++ [p] ++ o4) with (o1 ++ s_benchmark :: (o2 ++ [s_primitive] ++ o3 ++ [p] ++ o4)).
  rewrite command_loop_skip; [|exact F1|apply word_not_dash; discriminate]. rewrite str_eqb_refl.
  unfold run_benchmark. cbv zeta. fold (bopts {| ar_cur := o2 ++ [s_primitive] ++ o3 ++ [p] ++ o4; ar_top := s_benchmark ++ s__command |}).
  unfold command at 1. cbn [ar_cur].
  assert (E2 : command_loop (o2 ++ [s_primitive] ++ o3 ++ [p] ++ o4) = Ok (s_primitive, {| ar_cur := o3 ++ [p] ++ o4; ar_top := s_primitive ++ s__command |})).
  { apply (command_loop_skip o2 s_primitive); [exact F2|apply word_not_dash; discriminate]. }
  rewrite E2, str_eqb_refl. unfold primitive, command. cbn [ar_cur].
  change (o3 ++ [p] ++ o4) with (o3 ++ p :: o4). rewrite (command_loop_skip o3 p) by assumption. reflexivity.
Qed.
Lemma run_same b clock o1 o1' o2 o2' o3 o3' p o4 o4' :
  Forall optional o1 -> Forall optional o1' -> ~ In ([45; 45] ++ s_verbose) o1 -> ~ In ([45; 45] ++ s_verbose) o1' ->
  (In ([45; 45] ++ s_advanced) o1 <-> In ([45; 45] ++ s_advanced) o1') ->
  same_arguments bench_names o2 o2' -> Forall optional o3 -> Forall optional o3' -> ~ prefix [45] p -> same_arguments all_inputs o4 o4' ->
  the_run b clock o1 o2 o3 p o4 = the_run b clock o1' o2' o3' p o4'.
Proof.
  intros F1 F1' V V' A S2 F3 F3' Hp S4. pose proof S2 as (F2 & F2' & _).
  destruct (the_run_eq b clock o1 o2 o3 p o4 F1 F2 F3 Hp V) as (adv & Ha & ->).
  destruct (the_run_eq b clock o1' o2' o3' p o4' F1' F2' F3' Hp V') as (adv' & Ha' & ->).
  assert (adv = adv') by (apply eq_true_iff_eq; rewrite Ha, Ha'; exact A). subst adv'.
  assert (B : bopts {| ar_cur := o2 ++ [s_primitive] ++ o3 ++ [p] ++ o4; ar_top := s_benchmark ++ s__command |} =
              bopts {| ar_cur := o2' ++ [s_primitive] ++ o3' ++ [p] ++ o4'; ar_top := s_benchmark ++ s__command |}).
  { assert (E : forall n, In n bench_names -> forall dflt, parameter_or {| ar_cur := o2 ++ [s_primitive] ++ o3 ++ [p] ++ o4; ar_top := s_benchmark ++ s__command |} n dflt =
      parameter_or {| ar_cur := o2' ++ [s_primitive] ++ o3' ++ [p] ++ o4'; ar_top := s_benchmark ++ s__command |} n dflt).
    { intros n Hn dflt. unfold parameter_or. assert (E : parameter {| ar_cur := o2 ++ [s_primitive] ++ o3 ++ [p] ++ o4; ar_top := s_benchmark ++ s__command |} n =
        parameter {| ar_cur := o2' ++ [s_primitive] ++ o3' ++ [p] ++ o4'; ar_top := s_benchmark ++ s__command |} n); [|rewrite E; reflexivity].
      unfold parameter. cbn [ar_cur ar_top]. rewrite !parameter_loop_find; try assumption; try (apply stops_word; discriminate). rewrite (find_same _ _ _ _ S2 Hn). reflexivity. }
    unfold bopts. rewrite !E; [reflexivity|right; right; left; reflexivity|right; left; reflexivity|left; reflexivity]. }
  rewrite B. erewrite invoke_all_same; [reflexivity|]. intros n Hn.
  pose proof (parameter_same _ o4 o4' [] (p ++ s__command) n S4 I Hn) as E. rewrite !app_nil_r in E. exact E.
Qed.
