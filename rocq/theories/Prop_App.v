(** The benchmark tool (app/, doc/benchmarking.md). A command line is
    [o1 benchmark o2 primitive o3 p o4], with [o1] .. [o4] options and parameters and [p] the pattern expression. *)
From Verif Require Import Base Model_AppNames Model_App Spec_App Spec_AppNames Spec_App2 Proof_App Proof_App2 Proof_App3 Proof_App4 Proof_App5 Proof_App6 Proof_App7.
Local Open Scope N_scope.

(** *** C53: a pattern expression selects the benchmarks whose name it matches. *)
Theorem C53_total : forall p m, exists b, pattern_match_star p m = Some b.
Proof. exact pms_total. Qed.
Print Assumptions C53_total.
Theorem C53_star_both_partial : forall p m, hd 0 p = 42 -> last p 0 = 42 -> (pattern_match_star p m = Some true <-> matches p m).
Proof. exact pms_both. Qed.
Print Assumptions C53_star_both_partial.
Theorem C53_star_end_partial : forall p m, last p 0 = 42 -> (pattern_match_star p m = Some true <-> matches (42 :: p) m).
Proof. exact pms_ends. Qed.
Print Assumptions C53_star_end_partial.
Theorem C53_sound_partial : forall p m, pattern_match_star p m = Some true -> matches (42 :: p) m.
Proof. exact pms_sound. Qed.
Print Assumptions C53_sound_partial.
Theorem C53_name_partial : forall m, m <> [] -> Forall (fun c => c <> 42) m -> pattern_match_star m m = Some true.
Proof. exact pms_name. Qed.
Print Assumptions C53_name_partial.
(** The beginning of a pattern is not anchored: [seg*] matches every name in which [seg] occurs. *)
Theorem C53_start_refuted : forall seg w v, seg <> [] -> Forall (fun c => c <> 42) seg -> pattern_match_star (seg ++ [42]) (w ++ seg ++ v) = Some true.
Proof. exact pms_prefix_bad. Qed.
Print Assumptions C53_start_refuted.
(** [*seg] does not match a name that ends in [seg] if [seg] occurs before. *)
Theorem C53_end_refuted : forall seg w, seg <> [] -> Forall (fun c => c <> 42) seg ->
  pattern_match_star (42 :: seg) (seg ++ w ++ seg) = Some false /\ matches (42 :: seg) (seg ++ w ++ seg).
Proof. exact pms_suffix_bad. Qed.
Print Assumptions C53_end_refuted.
(** [list] prints the names. *)
Theorem C53_list : forall b clock o1 o2 o3 o4 adv, Forall optional o1 -> Forall optional o2 -> Forall optional o3 ->
  ~ In w_verbose o1 -> (adv = true <-> In w_advanced o1) ->
  run b clock (o1 ++ [w_benchmark] ++ o2 ++ [w_primitive] ++ o3 ++ [w_list] ++ o4) = Some (Exit0 (PrintLines (all_offered adv))).
Proof. intros b clock o1 o2 o3 o4 adv. rewrite offered_declared. exact (run_list b clock o1 o2 o3 o4 adv). Qed.
Print Assumptions C53_list.
(** A run that succeeds reports exactly the names that match, each once. *)
Theorem C53_run : forall b clock o1 o2 o3 p o4 adv out, Forall optional o1 -> Forall optional o2 -> Forall optional o3 -> ~ prefix [45] p -> p <> w_list ->
  ~ In w_verbose o1 -> (adv = true <-> In w_advanced o1) ->
  run b clock (o1 ++ [w_benchmark] ++ o2 ++ [w_primitive] ++ o3 ++ [p] ++ o4) = Some (Exit0 out) ->
  exists l, (out = PrintJson (VObject [(w_benchmark, VObject [(w_primitive, VObject l)])]) \/ (l = [] /\ out = PrintJson (VObject []))) /\
    NoDup (map fst l) /\ forall n, In n (map fst l) <-> In n (all_offered adv) /\ pattern_match_star p n = Some true.
Proof. intros b clock o1 o2 o3 p o4 adv. rewrite offered_declared. exact (run_selects b clock o1 o2 o3 p o4 adv). Qed.
Print Assumptions C53_run.
(** The patterns of the documentation, but for [mac-*], select their group; a name selects itself. *)
Theorem C53_documented_partial : forall adv k m, In k kinds -> k <> k_mac -> In m (all_offered adv) ->
  (pattern_match_star (k_pattern k) m = Some true <-> In m (offered adv k)).
Proof. exact kind_documented. Qed.
Print Assumptions C53_documented_partial.
Theorem C53_names : forall adv n m, In n (all_offered adv) -> In m (all_offered adv) -> (pattern_match_star n m = Some true <-> m = n).
Proof. intros adv. rewrite offered_declared. exact (names_exact adv). Qed.
Print Assumptions C53_names.
(** [mac-*] also selects kdf-hkdf-hmac-...: with the documented parameters of [mac-*] the run fails. *)
Theorem C53_mac_refuted : forall b clock o4, Forall optional o4 -> Forall (fun x => ~ begins d_ikm_size x) o4 ->
  forall out, run b clock ([] ++ [w_benchmark] ++ [] ++ [w_primitive] ++ [] ++ [d_mac] ++ o4) <> Some (Exit0 out).
Proof. exact mac_refuted. Qed.
Print Assumptions C53_mac_refuted.
Example C53_mac_case : forall b clock, run b clock [w_benchmark; w_primitive; d_mac; assignment d_key_size [51; 50]; assignment d_message_size [54; 52]]
  = Some (Exit1 (Missing d_ikm_size (d_mac ++ s__command))).
Proof. intros. vm_compute. reflexivity. Qed.
Example C53_run_case : forall b clock, exists out,
  run b clock ([] ++ [w_benchmark] ++ [] ++ [w_primitive] ++ [] ++ [d_hash] ++ [assignment d_message_size [54; 52]]) = Some (Exit0 out).
Proof. intros. eexists. vm_compute. reflexivity. Qed.
Example C53_case : hd 0 [42; 97; 42; 98; 42] = 42 /\ last [42; 97; 42; 98; 42] 0 = 42 /\ matches [42; 97; 42; 98; 42] [97; 99; 98] /\ ~ prefix [97; 98] [120; 97; 98].
Proof.
  repeat split; [|intros [y E]; discriminate E]. exact (m_star [] _ _ (m_char 97 _ _ ltac:(discriminate) (m_star [99] _ _ (m_char 98 _ _ ltac:(discriminate) (m_star [] _ _ m_nil))))).
Qed.

(** *** C54: how arguments are read. *)
Theorem C54_value : forall name pre v n post top, Forall (fun x => optional x /\ ~ begins name x) pre -> ~ In 61 name -> decimal v n ->
  parameter {| ar_cur := pre ++ assignment name v :: post; ar_top := top |} name = if n <? 2 ^ 64 then Ok n else Throw (NotANumber name top v).
Proof.
  intros name pre v n post top F Hn D. pose proof (parameter_value name pre v [] n post top F Hn D eq_refl) as E. rewrite app_nil_r in E. exact E.
Qed.
Print Assumptions C54_value.
Theorem C54_not_number : forall name pre c v post top, Forall (fun x => optional x /\ ~ begins name x) pre -> ~ In 61 name -> ~ (48 <= c <= 57) ->
  parameter {| ar_cur := pre ++ assignment name (c :: v) :: post; ar_top := top |} name = Throw (NotANumber name top (c :: v)).
Proof. exact parameter_not_number. Qed.
Print Assumptions C54_not_number.
Theorem C54_no_value : forall name pre x post top, Forall (fun x => optional x /\ ~ begins name x) pre -> begins name x -> ~ In 61 x ->
  parameter {| ar_cur := pre ++ x :: post; ar_top := top |} name = Throw (NoValue name top).
Proof. exact parameter_no_value. Qed.
Print Assumptions C54_no_value.
Theorem C54_missing : forall name l rest top, Forall (fun x => optional x /\ ~ begins name x) l -> match rest with [] => True | x :: _ => ~ optional x end ->
  parameter {| ar_cur := l ++ rest; ar_top := top |} name = Throw (Missing name top).
Proof. exact parameter_missing. Qed.
Print Assumptions C54_missing.
(** Order, unknown arguments, and arguments that are given too early or too late make no difference. *)
Theorem C54_irrelevant : forall b clock o1 o1' o2 o2' o3 o3' p o4 o4',
  Forall optional o1 -> Forall optional o1' -> ~ In w_verbose o1 -> ~ In w_verbose o1' ->
  (In w_advanced o1 <-> In w_advanced o1') ->
  same_arguments [w_cpu_clock; w_repeats_warm; w_repeats_time] o2 o2' -> Forall optional o3 -> Forall optional o3' -> ~ prefix [45] p ->
  same_arguments (flat_map k_needs kinds) o4 o4' ->
  run b clock (o1 ++ [w_benchmark] ++ o2 ++ [w_primitive] ++ o3 ++ [p] ++ o4) = run b clock (o1' ++ [w_benchmark] ++ o2' ++ [w_primitive] ++ o3' ++ [p] ++ o4').
Proof.
  intros b clock o1 o1' o2 o2' o3 o3' p o4 o4'. rewrite needs_all. exact (run_same b clock o1 o1' o2 o2' o3 o3' p o4 o4').
Qed.
Print Assumptions C54_irrelevant.
(** The subcommands of the application *)
Theorem C54_commands : forall b clock o1 c rest, Forall optional o1 -> ~ prefix [45] c ->
  (c = w_version -> run b clock (o1 ++ c :: rest) = Some (Exit0 PrintVersion)) /\
  (c <> w_version -> c <> w_benchmark -> run b clock (o1 ++ c :: rest) = Some (Exit1 (UnknownCommand c))).
Proof. exact run_commands. Qed.
Print Assumptions C54_commands.
Theorem C54_no_command : forall b clock argv, argv <> [] -> Forall (prefix [45]) argv -> run b clock argv = Some (Exit1 NoCommand).
Proof. exact run_no_command. Qed.
Print Assumptions C54_no_command.
(** With --verbose the report holds the arguments. *)
Theorem C54_echo : forall b clock o1 rest v, Forall optional o1 -> In w_verbose o1 ->
  run b clock (o1 ++ w_benchmark :: rest) = Some (Exit0 (PrintJson v)) ->
  reaches v [w_command; w_args] (VArray (map VStr (o1 ++ w_benchmark :: rest))) /\ reaches v [w_command; w_dump] (VStr (spaced (o1 ++ w_benchmark :: rest))).
Proof. exact run_echo. Qed.
Print Assumptions C54_echo.
(** An error occurs when a parameter without default is omitted. *)
Theorem C54_omitted : forall b clock o1 o2 o3 p o4 adv k m n, Forall optional o1 -> Forall optional o2 -> Forall optional o3 -> Forall optional o4 ->
  ~ prefix [45] p -> p <> w_list -> ~ In w_verbose o1 -> (adv = true <-> In w_advanced o1) ->
  In k kinds -> In m (offered adv k) -> pattern_match_star p m = Some true -> In n (k_needs k) -> Forall (fun x => ~ begins n x) o4 ->
  forall out, run b clock (o1 ++ [w_benchmark] ++ o2 ++ [w_primitive] ++ o3 ++ [p] ++ o4) <> Some (Exit0 out).
Proof.
  intros b clock o1 o2 o3 p o4 adv k m n F1 F2 F3 F4 Hp Hl V A Hk. destruct (kind_group k Hk) as (g & Hg & -> & -> & _).
  exact (run_omitted b clock o1 o2 o3 p o4 adv g m n F1 F2 F3 F4 Hp Hl V A Hg).
Qed.
Print Assumptions C54_omitted.
(** The only undefined behaviour: no arguments, and a zero key size. *)
Theorem C54_defined_partial : forall b clock argv, run b clock argv = None -> argv = [] \/ exists x, In x argv /\ begins d_key_size x /\ zero_value x.
Proof. exact run_defined. Qed.
Print Assumptions C54_defined_partial.
Theorem C54_no_arguments_refuted : forall b clock, run b clock [] = None.
Proof. reflexivity. Qed.
Print Assumptions C54_no_arguments_refuted.
Theorem C54_zero_key_refuted : forall b clock,
  run b clock [w_benchmark; w_primitive; d_kdf_hkdf; assignment d_ikm_size [49]; assignment d_salt_size [49]; assignment d_info_size [49]; assignment d_key_size [48]] = None.
Proof. intros. vm_compute. reflexivity. Qed.
Print Assumptions C54_zero_key_refuted.
(** Text after the number is ignored; an empty value is 0; [--nameX=v] is taken for [--name=v]. *)
Theorem C54_trailing_refuted : forall name pre v c t n post top, Forall (fun x => optional x /\ ~ begins name x) pre -> ~ In 61 name -> decimal v n -> n < 2 ^ 64 ->
  ~ (48 <= c <= 57) -> parameter {| ar_cur := pre ++ assignment name (v ++ c :: t) :: post; ar_top := top |} name = Ok n.
Proof.
  intros name pre v c t n post top F Hn D B Hc. rewrite (parameter_value name pre v (c :: t) n post top F Hn D); [rewrite (proj2 (N.ltb_lt _ _) B); reflexivity|].
  cbn [digits]. destruct (is_digit c) eqn:E; [|reflexivity]. unfold is_digit in E. apply andb_true_iff in E. destruct E as [Ea Eb]. apply N.leb_le in Ea, Eb. lia.
Qed.
Print Assumptions C54_trailing_refuted.
Theorem C54_empty_refuted : forall name pre post top, Forall (fun x => optional x /\ ~ begins name x) pre -> ~ In 61 name ->
  parameter {| ar_cur := pre ++ assignment name [] :: post; ar_top := top |} name = Ok 0.
Proof. exact parameter_empty. Qed.
Print Assumptions C54_empty_refuted.
Theorem C54_prefix_refuted : forall name w pre v n post top, Forall (fun x => optional x /\ ~ begins name x) pre -> ~ In 61 name -> ~ In 61 w -> decimal v n -> n < 2 ^ 64 ->
  parameter {| ar_cur := pre ++ assignment (name ++ w) v :: post; ar_top := top |} name = Ok n.
Proof. exact parameter_value_prefix. Qed.
Print Assumptions C54_prefix_refuted.
Example C54_case : same_arguments (flat_map k_needs kinds)
  [assignment d_key_size [49]; assignment d_message_size [50]; assignment w_result [51]] [assignment d_message_size [50]; assignment d_key_size [49]].
Proof.
  split; [repeat constructor; eexists; reflexivity|]. split; [repeat constructor; eexists; reflexivity|]. split.
  - intros n x Hn [y ->]. split.
    + intros [H|[H|[H|[]]]]; [right; left; exact H|left; exact H|].
      exfalso. cbn in Hn. repeat (destruct Hn as [<-|Hn]; [discriminate H|]). exact Hn.
    + intros [H|[H|[]]]; [right; left; exact H|left; exact H].
  - intros n x y Hn Hx Hy [u ->] [v ->].
    destruct Hx as [Hx|[Hx|[Hx|[]]]]; destruct Hy as [Hy|[Hy|[Hy|[]]]]; try congruence;
    exfalso; cbn in Hn; repeat (destruct Hn as [<-|Hn]; [discriminate Hx || discriminate Hy|]); exact Hn.
Qed.
Example C54_documented : forall b clock, run b clock [w_benchmark; w_primitive; d_hash] = Some (Exit1 (Missing d_message_size (d_hash ++ s__command))).
Proof. intros. vm_compute. reflexivity. Qed.
Example C54_value_case : decimal [49; 50; 56] 128 /\ ~ In 61 d_key_size /\ optional (assignment d_key_size [49]).
Proof.
  split; [exact (d_more [49; 50] 12 8 (d_more [49] 1 2 (d_one 1 ltac:(lia)) ltac:(lia)) ltac:(lia))|]. split; [vm_compute; intuition discriminate|eexists; reflexivity].
Qed.

(** *** C55: the output is valid JSON; [show a b] is the text for the double [a / b]. *)
Theorem C55_valid_partial : forall show v, plain v -> (forall a b, part v (VRatio a b) -> number (show a b)) -> json (meant show v) (to_json show v).
Proof. exact json_valid. Qed.
Print Assumptions C55_valid_partial.
Theorem C55_run_partial : forall show b clock o1 o2 o3 p o4 v, (forall a b, b <> 0 -> number (show a b)) ->
  Forall optional o1 -> Forall optional o2 -> Forall optional o3 -> ~ prefix [45] p -> ~ In w_verbose o1 ->
  run b clock (o1 ++ [w_benchmark] ++ o2 ++ [w_primitive] ++ o3 ++ [p] ++ o4) = Some (Exit0 (PrintJson v)) -> (forall a b, part v (VRatio a b) -> b <> 0) ->
  json (meant show v) (to_json show v).
Proof. exact run_json. Qed.
Print Assumptions C55_run_partial.
(** Strings are not escaped: *)
Theorem C55_string_refuted : forall show s c, In c s -> special c -> ~ json (JString s) (to_json show (VStr s)).
Proof. intros show. exact quoted_bad. Qed.
Print Assumptions C55_string_refuted.
(** ... different values are printed as the same text, *)
Theorem C55_injection_refuted : forall show x y, to_json show (VArray [VStr (x ++ [34; 44; 34] ++ y)]) = to_json show (VArray [VStr x; VStr y]).
Proof.
  intros. cbn [to_json map length commas Nat.sub Nat.ltb Nat.leb app]. unfold quoted. rewrite !app_nil_r. cbn [app]. rewrite <- !app_assoc. cbn [app]. rewrite <- !app_assoc. reflexivity.
Qed.
Print Assumptions C55_injection_refuted.
(** ... and with --verbose an argument with a control character makes the output of the whole run invalid. *)
Theorem C55_verbose_refuted : forall show b clock o1 rest v x c, Forall optional o1 -> In w_verbose o1 ->
  run b clock (o1 ++ w_benchmark :: rest) = Some (Exit0 (PrintJson v)) -> In x (o1 ++ w_benchmark :: rest) -> In c x -> c < 32 -> c <> 9 -> c <> 10 -> c <> 13 ->
  forall j, ~ json j (to_json show v).
Proof. exact verbose_bad. Qed.
Print Assumptions C55_verbose_refuted.
(** A quotient by zero is printed as inf, which is not JSON. *)
Theorem C55_infinite_refuted : forall show b clock o1 o2 o3 p o4 v a, (forall a b, ~ In 34 (show a b)) -> (forall a, a <> 0 -> show a 0 = [105; 110; 102]) ->
  Forall optional o1 -> Forall optional o2 -> Forall optional o3 -> ~ prefix [45] p -> ~ In w_verbose o1 ->
  run b clock (o1 ++ [w_benchmark] ++ o2 ++ [w_primitive] ++ o3 ++ [p] ++ o4) = Some (Exit0 (PrintJson v)) -> part v (VRatio a 0) -> a <> 0 ->
  forall j, ~ json j (to_json show v).
Proof. exact run_inf. Qed.
Print Assumptions C55_infinite_refuted.
Example C55_verbose_case : forall b clock, exists v,
  run b clock ([w_verbose; [45; 45; 1]] ++ w_benchmark :: [w_primitive; d_hash; assignment d_message_size [49]]) = Some (Exit0 (PrintJson v)).
Proof. intros. eexists. vm_compute. reflexivity. Qed.
Example C55_infinite_case : forall b, exists v, run b (fun _ => 0) [w_benchmark; w_primitive; d_hash; assignment d_message_size [49]] = Some (Exit0 (PrintJson v)) /\ part v (VRatio 1024 0).
Proof.
  intros. eexists. split; [vm_compute; reflexivity|]. eapply p_object; [left; reflexivity|]. eapply p_object; [left; reflexivity|]. eapply p_object; [left; reflexivity|].
  eapply p_object; [right; left; reflexivity|]. eapply p_object; [right; left; reflexivity|]. eapply p_object; [left; reflexivity|]. apply p_here.
Qed.

(** *** C56: the metrics that are reported.  [T]: measured repeats, [size]: the sizes given, [clock m]: measured
    nanoseconds of benchmark [m], [total size k]: bytes that one call processes. *)
Definition reports (out : stdout) (m : list N) (path : list (list N)) (x : var) : Prop :=
  exists v, out = PrintJson v /\ reaches v ([w_benchmark; w_primitive; m] ++ path) x.
Section C56.
  Context (b : build) (clock : list N -> N) (o1 o2 o3 : list (list N)) (p : list N) (o4 : list (list N)) (adv : bool) (k : kind) (m : list N) (out : stdout)
          (T : N) (size : list N -> N).
  Definition measured : Prop :=
    Forall optional o1 /\ Forall optional o2 /\ Forall optional o3 /\ ~ prefix [45] p /\ p <> w_list /\
    ~ In w_verbose o1 /\ (adv = true <-> In w_advanced o1) /\
    In k kinds /\ In m (offered adv k) /\ pattern_match_star p m = Some true /\
    run b clock (o1 ++ [w_benchmark] ++ o2 ++ [w_primitive] ++ o3 ++ [p] ++ o4) = Some (Exit0 out) /\
    repeats o2 w_repeats_time T /\ (forall n, In n (k_bytes k) -> given o4 n (size n)).
End C56.
Theorem C56_duration : forall b clock o1 o2 o3 p o4 adv k m out T size, measured b clock o1 o2 o3 p o4 adv k m out T size ->
  reports out m [w_metrics; w_duration; w_nanoseconds_per_call] (VRatio (clock m) T) /\ reports out m [w_config; w_benchmark; w_repeats_time] (VUnsigned T).
Proof.
  intros b clock o1 o2 o3 p o4 adv k m out T size (F1 & F2 & F3 & Hp & Hl & V & A & Hk & Hm & Hmat & HR & HT & HS).
  destruct (kind_group k Hk) as (g & Hg & Eo & _ & Eb). rewrite Eo in Hm. unfold total. rewrite Eb in *. split.
  - exact (metric_duration b clock o1 o2 o3 p o4 adv g m out T size F1 F2 F3 Hp Hl V A Hg Hm Hmat HR HT HS).
  - exact (metric_time b clock o1 o2 o3 p o4 adv g m out T size F1 F2 F3 Hp Hl V A Hg Hm Hmat HR HT HS).
Qed.
Print Assumptions C56_duration.
(** The report holds the parameters. *)
Theorem C56_config : forall b clock o1 o2 o3 p o4 adv k m out T size, measured b clock o1 o2 o3 p o4 adv k m out T size ->
  (forall n v, In n (k_needs k) -> given o4 n v -> reports out m [w_config; w_input; n] (VUnsigned v)) /\
  (forall v, given o2 w_repeats_warm v \/ (Forall (fun x => ~ begins w_repeats_warm x) o2 /\ v = 128) -> reports out m [w_config; w_benchmark; w_repeats_warm] (VUnsigned v)).
Proof.
  intros b clock o1 o2 o3 p o4 adv k m out T size (F1 & F2 & F3 & Hp & Hl & V & A & Hk & Hm & Hmat & HR & HT & HS).
  destruct (kind_group k Hk) as (g & Hg & Eo & Ep & _). rewrite Eo in Hm. rewrite Ep. split.
  - intros n v. exact (config_inputs b clock o1 o2 o3 p o4 adv g m out n v F1 F2 F3 Hp Hl V A Hg Hm Hmat HR).
  - intros v. exact (config_warm b clock o1 o2 o3 p o4 adv g m out v F1 F2 F3 Hp Hl V A Hg Hm Hmat HR).
Qed.
Print Assumptions C56_config.
Theorem C56_throughput_partial : forall b clock o1 o2 o3 p o4 adv k m out T size, measured b clock o1 o2 o3 p o4 adv k m out T size ->
  total size k <> 0 -> T * total size k * 1000 < 2 ^ 64 ->
  reports out m [w_metrics; w_throughput; w_gigabytes_per_second] (VRatio (T * total size k) (clock m)) /\
  reports out m [w_metrics; w_throughput; w_megabytes_per_second] (VRatio (T * total size k * 1000) (clock m)).
Proof.
  intros b clock o1 o2 o3 p o4 adv k m out T size (F1 & F2 & F3 & Hp & Hl & V & A & Hk & Hm & Hmat & HR & HT & HS).
  destruct (kind_group k Hk) as (g & Hg & Eo & _ & Eb). rewrite Eo in Hm. unfold total. rewrite Eb in *.
  exact (metric_throughput b clock o1 o2 o3 p o4 adv g m out T size F1 F2 F3 Hp Hl V A Hg Hm Hmat HR HT HS).
Qed.
Print Assumptions C56_throughput_partial.
(** Cycles: clock speed times time, per call and per byte. *)
Theorem C56_cycles_partial : forall b clock o1 o2 o3 p o4 adv k m out T size mhz, measured b clock o1 o2 o3 p o4 adv k m out T size ->
  given o2 w_cpu_clock mhz -> mhz <> 0 -> mhz * 1000000 < 2 ^ 64 -> mhz * 1000000 * clock m < 2 ^ 64 -> total size k <> 0 -> 1000000000 * (T * total size k) < 2 ^ 64 ->
  reports out m [w_metrics; w_cpu; w_cycles_per_call] (VRatio (mhz * 1000000 * clock m) (1000000000 * T)) /\
  reports out m [w_metrics; w_cpu; w_cycles_per_byte] (VRatio (mhz * 1000000 * clock m) (1000000000 * (T * total size k))).
Proof.
  intros b clock o1 o2 o3 p o4 adv k m out T size mhz (F1 & F2 & F3 & Hp & Hl & V & A & Hk & Hm & Hmat & HR & HT & HS).
  destruct (kind_group k Hk) as (g & Hg & Eo & _ & Eb). rewrite Eo in Hm. unfold total. rewrite Eb in *. intros G M0 MB MC Z B.
  rewrite <- (N.mod_small _ _ MC).
  exact (metric_cpu b clock o1 o2 o3 p o4 adv g m out T size F1 F2 F3 Hp Hl V A Hg Hm Hmat HR HT HS mhz G M0 MB Z B).
Qed.
Print Assumptions C56_cycles_partial.
(** When clock speed times nanoseconds exceeds 64 bits (at 3.5 GHz: more than 5.3 s) the cycles are wrong. *)
Theorem C56_cycles_refuted : forall b clock o1 o2 o3 p o4 adv k m out T size mhz, measured b clock o1 o2 o3 p o4 adv k m out T size ->
  given o2 w_cpu_clock mhz -> mhz <> 0 -> mhz * 1000000 < 2 ^ 64 -> 2 ^ 64 <= mhz * 1000000 * clock m -> total size k <> 0 -> 1000000000 * (T * total size k) < 2 ^ 64 ->
  exists a d, reports out m [w_metrics; w_cpu; w_cycles_per_call] (VRatio a d) /\ d <> 0 /\ a * (1000000000 * T) < mhz * 1000000 * clock m * d.
Proof.
  intros b clock o1 o2 o3 p o4 adv k m out T size mhz (F1 & F2 & F3 & Hp & Hl & V & A & Hk & Hm & Hmat & HR & HT & HS).
  destruct (kind_group k Hk) as (g & Hg & Eo & _ & Eb). rewrite Eo in Hm. unfold total. rewrite Eb in *. intros G M0 MB MC Z B.
  exists ((mhz * 1000000 * clock m) mod 2 ^ 64), (1000000000 * T).
  split; [exact (proj1 (metric_cpu b clock o1 o2 o3 p o4 adv g m out T size F1 F2 F3 Hp Hl V A Hg Hm Hmat HR HT HS mhz G M0 MB Z B))|].
  assert (T <> 0) by (destruct HT as [(t & _ & ->)|[_ ->]]; lia).
  split; [lia|]. apply N.mul_lt_mono_pos_r; [lia|]. apply (N.lt_le_trans _ (2 ^ 64)); [apply N.mod_lt; discriminate|exact MC].
Qed.
Print Assumptions C56_cycles_refuted.
Definition c56_o2 : list (list N) := [assignment w_repeats_time [50]; assignment w_cpu_clock [51; 53; 48; 48]].
Example C56_case : forall b, exists out,
  measured b (fun _ => 6000000000) [] c56_o2 [] d_hash [assignment d_message_size [54]] false k_hash (hd [] (k_names k_hash)) out 2 (fun _ => 6) /\
  given c56_o2 w_cpu_clock 3500 /\ 2 ^ 64 <= 3500 * 1000000 * 6000000000 /\ total (fun _ => 6) k_hash = 6.
Proof.
  intros b. eexists. split; [|split; [|split; [vm_compute; discriminate|reflexivity]]].
  - unfold measured. split; [constructor|]. split; [repeat constructor; eexists; reflexivity|]. split; [constructor|]. split; [apply word_not_dash; discriminate|].
    split; [discriminate|]. split; [intros []|]. split; [split; [discriminate|intros []]|]. split; [right; left; reflexivity|]. split; [left; reflexivity|].
    split; [vm_compute; reflexivity|]. split; [vm_compute; reflexivity|]. split.
    + left. exists 2. split; [|reflexivity]. exists [], [50], [assignment w_cpu_clock [51; 53; 48; 48]]. split; [reflexivity|]. split; [constructor|]. split; [apply (d_one 2); lia|lia].
    + intros n [<-|[]]. exists [], [54], []. split; [reflexivity|]. split; [constructor|]. split; [apply (d_one 6); lia|lia].
  - exists [assignment w_repeats_time [50]], [51; 53; 48; 48], []. split; [reflexivity|]. split.
    + constructor; [|constructor]. split; [eexists; reflexivity|]. intros [y E]. discriminate E.
    + split; [|lia]. exact (d_more [51; 53; 48] 350 0 (d_more [51; 53] 35 0 (d_more [51] 3 5 (d_one 3 ltac:(lia)) ltac:(lia)) ltac:(lia)) ltac:(lia)).
Qed.
