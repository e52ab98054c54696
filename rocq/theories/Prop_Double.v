(** C55 and C56: the text of the numbers that the benchmark tool prints. *)
From Verif Require Import Base BaseLemmas Model_AppNames Model_App Spec_App Spec_AppNames Spec_App2 Proof_App Proof_App2 Proof_App4 Proof_App5 Model_Double Spec_Double Proof_Double Proof_Double2 Prop_App.
Local Open Scope N_scope.

(** *** C55: measured times are 64-bit numbers; nothing is assumed of the text of a quotient. *)
Theorem C55_run_double_partial : forall b clock o1 o2 o3 p o4 v, (forall n, clock n < 2 ^ 64) ->
  Forall optional o1 -> Forall optional o2 -> Forall optional o3 -> ~ prefix [45] p -> ~ In w_verbose o1 ->
  run b clock (o1 ++ [w_benchmark] ++ o2 ++ [w_primitive] ++ o3 ++ [p] ++ o4) = Some (Exit0 (PrintJson v)) -> (forall x y, part v (VRatio x y) -> y <> 0) ->
  json (meant show_ratio v) (to_json show_ratio v).
Proof. exact run_double. Qed.
Print Assumptions C55_run_double_partial.
Theorem C55_infinite_double_refuted : forall b clock o1 o2 o3 p o4 v x, (forall n, clock n < 2 ^ 64) ->
  Forall optional o1 -> Forall optional o2 -> Forall optional o3 -> ~ prefix [45] p -> ~ In w_verbose o1 ->
  run b clock (o1 ++ [w_benchmark] ++ o2 ++ [w_primitive] ++ o3 ++ [p] ++ o4) = Some (Exit0 (PrintJson v)) -> part v (VRatio x 0) -> x <> 0 ->
  forall j, ~ json j (to_json show_ratio v).
Proof. exact run_infinite. Qed.
Print Assumptions C55_infinite_double_refuted.
(** The same run, once with a clock that does not move between the two readings and once with one that does. *)
Example C55_double_case : forall b, exists v, run b (fun _ => 3) [w_benchmark; w_primitive; d_hash; assignment d_message_size [49]] = Some (Exit0 (PrintJson v)) /\
  (forall x y, part v (VRatio x y) -> y <> 0) /\ json (meant show_ratio v) (to_json show_ratio v).
Proof.
  intros b. assert (E : exists v, run b (fun _ => 3) [w_benchmark; w_primitive; d_hash; assignment d_message_size [49]] = Some (Exit0 (PrintJson v)) /\
    (forall x y, part v (VRatio x y) -> y <> 0)).
  { eexists. split; [vm_compute; reflexivity|]. intros x y H.
    assert (G : forall v, part v (VRatio x y) -> (fix nz v := match v with VRatio _ b => negb (b =? 0) | VArray l => forallb nz l
                  | VObject l => forallb (fun e => nz (snd e)) l | _ => true end) v = true -> y <> 0).
    { clear. intros v H. remember (VRatio x y) as r eqn:R. induction H as [v|l z v Hz Hp IH|l k z v Hz Hp IH].
      - subst v. intros H. apply negb_true_iff, N.eqb_neq in H. exact H.
      - intros H. rewrite forallb_forall in H. exact (IH R (H _ Hz)).
      - intros H. rewrite forallb_forall in H. exact (IH R (H _ Hz)). }
    apply (G _ H). vm_compute. reflexivity. }
  destruct E as (v & E & D). exists v. split; [exact E|]. split; [exact D|].
  refine (C55_run_double_partial b (fun _ => 3) [] [] [] d_hash [assignment d_message_size [49]] v (fun _ => eq_refl) _ _ _ _ _ E D); try constructor.
  - apply word_not_dash; discriminate.
  - intros [].
Qed.

(** *** C56: the text of the metrics.  [prints out m path t]: under [path], the entry of benchmark [m] in the output has
    the text [t]. *)
Definition prints (out : stdout) (m : list N) (path : list (list N)) (t : list N) : Prop :=
  exists v x, out = PrintJson v /\ reaches v ([w_benchmark; w_primitive; m] ++ path) x /\ t = to_json show_ratio x.
Lemma reports_prints out m path x y : reports out m path (VRatio x y) -> prints out m path (show_ratio x y).
Proof. intros (v & E & R). exists v, (VRatio x y). repeat split; assumption. Qed.
(** A text stands for one number only, and whole numbers below 2^30 are exact. *)
Theorem C56_text_unique : forall t k k', millionths t k -> millionths t k' -> k = k'.
Proof. exact millionths_fun. Qed.
Print Assumptions C56_text_unique.
Theorem C56_text_exact : forall t q b, 0 < b -> q < 2 ^ 30 -> tells t (q * b) b -> millionths t (1000000 * q).
Proof. intros t q b Hb Hq (k & M & C). rewrite <- (close_exact k q b Hb Hq C). exact M. Qed.
Print Assumptions C56_text_exact.
(** Time per call: always right. *)
Theorem C56_duration_text : forall b clock o1 o2 o3 p o4 adv k m out T size, measured b clock o1 o2 o3 p o4 adv k m out T size -> clock m < 2 ^ 64 ->
  exists t, prints out m [w_metrics; w_duration; w_nanoseconds_per_call] t /\ tells t (clock m) T.
Proof.
  intros b clock o1 o2 o3 p o4 adv k m out T size H C. exists (show_ratio (clock m) T). split; [apply reports_prints; exact (proj1 (C56_duration _ _ _ _ _ _ _ _ _ _ _ _ _ H))|].
  destruct H as (_ & _ & _ & _ & _ & _ & _ & _ & _ & _ & _ & HT & _).
  apply ratio_tells; [exact C| |]; destruct HT as [(t & (? & ? & ? & _ & _ & _ & B) & ->)|[_ ->]]; try reflexivity; lia.
Qed.
Print Assumptions C56_duration_text.
(** Throughput: right when the clock moved and the number of bytes times 1000 is below 2^64. *)
Theorem C56_throughput_text_partial : forall b clock o1 o2 o3 p o4 adv k m out T size, measured b clock o1 o2 o3 p o4 adv k m out T size ->
  0 < clock m < 2 ^ 64 -> total size k <> 0 -> T * total size k * 1000 < 2 ^ 64 ->
  exists t1 t2, prints out m [w_metrics; w_throughput; w_gigabytes_per_second] t1 /\ tells t1 (T * total size k) (clock m) /\
    prints out m [w_metrics; w_throughput; w_megabytes_per_second] t2 /\ tells t2 (T * total size k * 1000) (clock m).
Proof.
  intros b clock o1 o2 o3 p o4 adv k m out T size H C Z B. destruct (C56_throughput_partial _ _ _ _ _ _ _ _ _ _ _ _ _ H Z B) as [R1 R2].
  exists (show_ratio (T * total size k) (clock m)), (show_ratio (T * total size k * 1000) (clock m)).
  split; [apply reports_prints; exact R1|]. split; [apply ratio_tells; lia|]. split; [apply reports_prints; exact R2|apply ratio_tells; lia].
Qed.
Print Assumptions C56_throughput_text_partial.
(** Cycles *)
Theorem C56_cycles_text_partial : forall b clock o1 o2 o3 p o4 adv k m out T size mhz, measured b clock o1 o2 o3 p o4 adv k m out T size ->
  given o2 w_cpu_clock mhz -> mhz <> 0 -> mhz * 1000000 < 2 ^ 64 -> mhz * 1000000 * clock m < 2 ^ 64 -> total size k <> 0 -> 1000000000 * (T * total size k) < 2 ^ 64 ->
  exists t1 t2, prints out m [w_metrics; w_cpu; w_cycles_per_call] t1 /\ tells t1 (mhz * 1000000 * clock m) (1000000000 * T) /\
    prints out m [w_metrics; w_cpu; w_cycles_per_byte] t2 /\ tells t2 (mhz * 1000000 * clock m) (1000000000 * (T * total size k)).
Proof.
  intros b clock o1 o2 o3 p o4 adv k m out T size mhz H G M0 MB MC Z B. destruct (C56_cycles_partial _ _ _ _ _ _ _ _ _ _ _ _ _ mhz H G M0 MB MC Z B) as [R1 R2].
  destruct H as (_ & _ & _ & _ & _ & _ & _ & _ & _ & _ & _ & HT & _).
  assert (T0 : T <> 0) by (destruct HT as [(t & _ & ->)|[_ ->]]; lia).
  assert (T * 1 <= T * total size k) by (apply N.mul_le_mono_l; lia).
  exists (show_ratio (mhz * 1000000 * clock m) (1000000000 * T)), (show_ratio (mhz * 1000000 * clock m) (1000000000 * (T * total size k))).
  split; [apply reports_prints; exact R1|]. split; [apply ratio_tells; lia|]. split; [apply reports_prints; exact R2|apply ratio_tells; lia].
Qed.
Print Assumptions C56_cycles_text_partial.
(** 6 s for 2 calls; 1 ns for 3 calls; 2/3; 2^64 - 1 and 1; the least positive quotient. *)
Example C56_text_case :
  map (fun ab => show_ratio (fst ab) (snd ab)) [(6000000000, 2); (1, 3); (2, 3); (2 ^ 64 - 1, 1); (1, 2 ^ 64 - 1); (1, 2000000); (3, 2000000)] =
  [[51;48;48;48;48;48;48;48;48;48;46;48;48;48;48;48;48]; [48;46;51;51;51;51;51;51]; [48;46;54;54;54;54;54;55];
    [49;56;52;52;54;55;52;52;48;55;51;55;48;57;53;53;49;54;49;54;46;48;48;48;48;48;48]; [48;46;48;48;48;48;48;48]; [48;46;48;48;48;48;48;48]; [48;46;48;48;48;48;48;50]].
Proof. vm_compute. reflexivity. Qed.
Example C56_text_measured : exists b out, measured b (fun _ => 6000000000) [] c56_o2 [] d_hash [assignment d_message_size [54]] false k_hash (hd [] (k_names k_hash)) out 2 (fun _ => 6) /\
  exists t, prints out (hd [] (k_names k_hash)) [w_metrics; w_duration; w_nanoseconds_per_call] t /\ tells t 6000000000 2.
Proof.
  exists {| bd_compiler := []; bd_compiler_version := []; bd_version := [] |}. destruct (C56_case {| bd_compiler := []; bd_compiler_version := []; bd_version := [] |}) as (out & M & _).
  exists out. split; [exact M|]. exact (C56_duration_text _ _ _ _ _ _ _ _ _ _ _ _ _ M eq_refl).
Qed.
