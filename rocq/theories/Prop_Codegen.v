(** Property C73: a generated test program tests what its configuration says, and its exit code tells whether all of it holds.
    The generator (tool/codegen, Model_Codegen) writes a C++ text; Spec_Cpp reads it back as a compiler does and says what running it means. *)
From Coq Require Import String.
From Verif Require Import Model_X86 Model_ShaAsm.
From Verif Require Import Base BaseLemmas BytesLemmas Spec_Bytes Spec_Codec Model_Codec Spec_Sha Spec_Hash Spec_ChaCha Spec_Cipher Spec_Aead Spec_Mac Spec_Hmac Spec_Poly Spec_Kdf Model_Memory Model_Container Model_Sha
  Model_Mac Model_Hmac Model_Poly Model_Cipher Model_Aead Model_Kdf Model_Test Proof_Aead Prop_Kdf Prop_Test Model_Codegen Spec_Cpp Spec_Codegen Proof_Codegen Proof_Codegen2.
Local Open Scope N_scope.

(** *** The text *)
Lemma shipped_ok sc : In sc shipped -> scheme_okb sc = true.
Proof.
  assert (H : forallb scheme_okb shipped = true) by (vm_compute; reflexivity). exact (proj1 (forallb_forall _ _) H sc).
Qed.
(** Read by a compiler, the program includes the headers, has the vectors of the configuration, in order, and main does what the configuration asks for. *)
Theorem C73_text : forall sc c vs, describes sc c vs ->
  exists t, gen sc c = Some t /\ read_program (source_of sc) t = Some (program_of sc c vs).
Proof. intros sc c vs (Hs & Hc & Hv). exact (program_text sc c vs (shipped_ok sc Hs) Hc Hv). Qed.
Print Assumptions C73_text.
(** The ten kinds of programs: which function gets which members, which implementations are compared with each other. *)
Theorem C73_programs : map source_of shipped = programs.
Proof. vm_compute. reflexivity. Qed.
Print Assumptions C73_programs.
(** main.py: a configuration names its scheme; the names of the ten. *)
Theorem C73_schemes : forall s sc, In (s, sc) (combine scheme_names programs) <-> exists m, scheme_of (text s) = Some m /\ source_of m = sc /\ In s scheme_names.
Proof.
  intros s sc. split.
  - intros H. cbn [scheme_names programs combine In] in H. repeat (destruct H as [H|H]; [injection H as <- <-; eexists; split; [reflexivity|split; [reflexivity|cbn [scheme_names In]; auto 12]]|]). contradiction.
  - intros (m & E & <- & H). cbn [scheme_names In] in H. repeat (destruct H as [<-|H]; [injection E as <-; cbn [scheme_names programs combine In]; auto 12|]). contradiction.
Qed.
Print Assumptions C73_schemes.
(** Every byte string written as a literal, over as many lines as it takes, is read as that byte string. *)
Theorem C73_bytes : forall b, bytes b -> literal (lines (gen_body [gen_bytes_to_hex_str b (text "_cv,")])) = Some (b, text "_cv,", []).
Proof.
  intros b Hb. assert (G : Forall good (flat_map flat [gen_bytes_to_hex_str b (text "_cv,")])).
  { cbn [flat_map]. rewrite app_nil_r. apply good_bytes; [exact Hb|apply oneline_text; reflexivity]. }
  rewrite lines_body by (apply clean_all, G). rewrite (good_filter _ G). cbn [flat_map]. apply literal_bytes; [exact Hb|discriminate].
Qed.
Print Assumptions C73_bytes.
(** The pairs: each position with each later one. *)
Theorem C73_pairs : forall (l : list (list N)) a b, In (a, b) (all_pairs l) <-> exists l1 l2 l3, l = l1 ++ a :: l2 ++ b :: l3.
Proof.
  induction l as [|x l IH]; intros a b; cbn [all_pairs].
  - split; [contradiction|]. intros (l1 & l2 & l3 & E). destruct l1; discriminate.
  - rewrite in_app_iff, IH, in_flat_map. split.
    + intros [(y & Hy & [E|[]])|(l1 & l2 & l3 & ->)].
      * assert (x = a /\ y = b) by (split; congruence). destruct H as [-> ->]. apply in_split in Hy as (l2 & l3 & ->). exists [], l2, l3. reflexivity.
      * exists (x :: l1), l2, l3. reflexivity.
    + intros (l1 & l2 & l3 & E). destruct l1 as [|z l1].
      * cbn [app] in E. assert (x = a /\ l = l2 ++ b :: l3) as [-> ->] by (split; congruence). left. exists b. split; [apply in_or_app; right; left; reflexivity|left; reflexivity].
      * right. exists l1, l2, l3. cbn [app] in E. congruence.
Qed.
Print Assumptions C73_pairs.

(** *** The exit code *)
Section Run.
  Context (check : list N -> list value -> option bool) (differential : list N -> list N -> option bool).
  Lemma test_zero i vs : Forall (fun v => vec_id v <> 0) vs -> test check i vs = Some 0 <-> passes check vs i.
  Proof.
    induction 1 as [|v vs Hi Hv IH]; cbn [test]; [split; [constructor|reflexivity]|]. split.
    - destruct (check i (vec_values v)) as [[|]|] eqn:E; cbn [bind]; [|intros H; injection H as H; contradiction|discriminate].
      intros H. constructor; [exact E|apply IH, H].
    - intros H. inversion H as [|? ? H1 H2]; subst. rewrite H1. cbn [bind]. apply IH, H2.
  Qed.
  Lemma run_cpltime vs l ss : run_main check differential vs (map Cpltime l ++ ss) = run_main check differential vs ss.
  Proof. induction l as [|i l IH]; [reflexivity|exact IH]. Qed.
  Lemma run_runtime vs l ss r : Forall (fun v => vec_id v <> 0) vs ->
    run_main check differential vs (map Runtime l ++ ss) = Some (0, r) <-> Forall (passes check vs) l /\ run_main check differential vs ss = Some (0, r).
  Proof.
    intros Hi. induction l as [|i l IH]; cbn [map app run_main].
    - split; [intros H; split; [constructor|exact H]|intros [_ H]; exact H].
    - split.
      + destruct (test check i vs) as [n|] eqn:E; cbn [bind]; [|discriminate]. destruct (N.eqb_spec n 0) as [->|_]; [|discriminate].
        intros H. apply IH in H as [H1 H2]. split; [constructor; [apply test_zero; assumption|exact H1]|exact H2].
      + intros [H1 H2]. inversion H1 as [|? ? P1 P2]; subst. apply (test_zero i vs Hi) in P1. rewrite P1. cbn [bind]. apply IH. split; assumption.
  Qed.
  Lemma run_differential vs l ss r : run_main check differential vs (map (fun '(a, b) => Differential a b) l ++ ss) = Some (0, r) <->
    (forall a b, In (a, b) l -> differential a b = Some true) /\ run_main check differential vs ss = Some (0, r).
  Proof.
    induction l as [|[a b] l IH]; cbn [map app run_main].
    - split; [intros H; split; [contradiction|exact H]|intros [_ H]; exact H].
    - split.
      + destruct (differential a b) as [[|]|] eqn:E; cbn [bind]; try discriminate. intros H. apply IH in H as [H1 H2]. split; [|exact H2].
        intros a' b' [X|X]; [injection X as <- <-; exact E|apply H1, X].
      + intros [H1 H2]. rewrite (H1 a b (or_introl eq_refl)). cbn [bind]. apply IH. split; [|exact H2]. intros a' b' X. apply H1. right. exact X.
  Qed.
  (** Why a run fails. *)
  Definition reason (sc : scheme) (c : config) (vs : list vector) (message : list N) : Prop :=
    (cf_cpltime c = [] /\ cf_runtime c = [] /\ message = []) \/
    (exists i v, In i (cf_runtime c) /\ In v vs /\ check i (vec_values v) = Some false /\ message = text "runtime error of " ++ i ++ [newline]) \/
    (exists a b, sc_differential sc <> None /\ In (a, b) (all_pairs (cf_runtime c)) /\ differential a b = Some false /\
       message = text "runtime differential error of " ++ a ++ text " and " ++ b ++ [newline]).
  Lemma test_fails i : forall vs n, test check i vs = Some n -> n <> 0 -> exists v, In v vs /\ check i (vec_values v) = Some false.
  Proof.
    induction vs as [|v vs IH]; cbn [test]; intros n H Hn; [injection H as <-; contradiction|].
    destruct (check i (vec_values v)) as [[|]|] eqn:E; cbn [bind] in H; [|exists v; split; [left; reflexivity|exact E]|discriminate].
    destruct (IH n H Hn) as (w & Hw & Ew). exists w. split; [right; exact Hw|exact Ew].
  Qed.
  Lemma test_defined i vs : (forall i v, exists b, check i v = Some b) -> exists n, test check i vs = Some n.
  Proof.
    intros T. induction vs as [|v vs IH]; cbn [test]; [eauto|]. destruct (T i (vec_values v)) as [b ->]. cbn [bind]. destruct b; [exact IH|eauto].
  Qed.
  Lemma run_runtime_any vs l ss : (forall i v, exists b, check i v = Some b) ->
    run_main check differential vs (map Runtime l ++ ss) = run_main check differential vs ss \/
    exists i v, In i l /\ In v vs /\ check i (vec_values v) = Some false /\ run_main check differential vs (map Runtime l ++ ss) = Some (1, text "runtime error of " ++ i ++ [newline]).
  Proof.
    intros T. induction l as [|i l IH]; [left; reflexivity|]. cbn [map app run_main]. destruct (test_defined i vs T) as [n E]. rewrite E. cbn [bind].
    destruct (N.eqb_spec n 0) as [->|Hn].
    - destruct IH as [IH|(j & v & H1 & H2 & H3 & H4)]; [left; exact IH|right; exists j, v; split; [right; exact H1|auto]].
    - right. destruct (test_fails i vs n E Hn) as (v & Hv & Ev). exists i, v. split; [left; reflexivity|auto].
  Qed.
  Lemma run_differential_any vs l ss : (forall a b, exists r, differential a b = Some r) ->
    run_main check differential vs (map (fun '(a, b) => Differential a b) l ++ ss) = run_main check differential vs ss \/
    exists a b, In (a, b) l /\ differential a b = Some false /\
      run_main check differential vs (map (fun '(a, b) => Differential a b) l ++ ss) = Some (1, text "runtime differential error of " ++ a ++ text " and " ++ b ++ [newline]).
  Proof.
    intros T. induction l as [|[a b] l IH]; [left; reflexivity|]. cbn [map app run_main]. destruct (T a b) as [r E]. rewrite E. cbn [bind]. destruct r.
    - destruct IH as [IH|(x & y & H1 & H2 & H3)]; [left; exact IH|right; exists x, y; split; [right; exact H1|auto]].
    - right. exists a, b. split; [left; reflexivity|auto].
  Qed.
End Run.
Lemma exit_program sc c vs check differential : Forall (fun v => vec_id v <> 0) vs ->
  run check differential (program_of sc c vs) = Some (0, []) <->
  (cf_cpltime c <> [] \/ cf_runtime c <> []) /\ Forall (passes check vs) (cf_runtime c) /\
  (sc_differential sc <> None -> forall a b, In (a, b) (all_pairs (cf_runtime c)) -> differential a b = Some true).
Proof.
  intros Hi. unfold run, program_of, statements_of. cbn [pr_vectors pr_main]. rewrite run_cpltime, (run_runtime _ _ _ _ _ _ Hi).
  set (last := Return _).
  assert (L : run_main check differential vs [last] = Some (0, []) <-> cf_cpltime c <> [] \/ cf_runtime c <> []).
  { unfold last. cbn [run_main]. destruct (cf_cpltime c), (cf_runtime c); split; try discriminate; try (intros _; first [left; discriminate|right; discriminate]); try reflexivity.
    intros [H|H]; contradiction. }
  destruct (sc_differential sc) as [ns|].
  - rewrite run_differential, L. split; [intros (H1 & H2 & H3)|intros (H1 & H2 & H3)]; repeat split; auto. apply H3. discriminate.
  - cbn [app]. rewrite L. split; [intros (H1 & H2)|intros (H1 & H2 & _)]; repeat split; auto. intros X. contradiction.
Qed.
(** With ids other than 0: the program exits with 0 and prints nothing exactly when there was something to test and every "runtime" implementation passes
    every vector and every pair of them is found to agree. *)
Theorem C73_exit : forall sc c vs, describes sc c vs -> Forall (fun v => vec_id v <> 0) vs ->
  exists t p, gen sc c = Some t /\ read_program (source_of sc) t = Some p /\ forall check differential,
    (run check differential p = Some (0, []) <->
     (cf_cpltime c <> [] \/ cf_runtime c <> []) /\ Forall (passes check vs) (cf_runtime c) /\
     (sc_differential sc <> None -> forall a b, In (a, b) (all_pairs (cf_runtime c)) -> differential a b = Some true)).
Proof.
  intros sc c vs H Hi. destruct (C73_text sc c vs H) as (t & E & R). exists t. eexists. split; [exact E|]. split; [exact R|].
  intros check differential. exact (exit_program sc c vs check differential Hi).
Qed.
Print Assumptions C73_exit.
(** Any other run exits with 1, for a reason that holds and that the message names.  Here ids may be 0. *)
Theorem C73_failure : forall sc c vs, describes sc c vs ->
  exists t p, gen sc c = Some t /\ read_program (source_of sc) t = Some p /\ forall check differential,
    (forall i v, exists b, check i v = Some b) -> (forall a b, exists r, differential a b = Some r) ->
    run check differential p = Some (0, []) \/ exists message, run check differential p = Some (1, message) /\ reason check differential sc c vs message.
Proof.
  intros sc c vs H. destruct (C73_text sc c vs H) as (t & E & R). exists t. eexists. split; [exact E|]. split; [exact R|].
  intros check differential T1 T2. unfold run, program_of, statements_of. cbn [pr_vectors pr_main]. rewrite run_cpltime. set (last := Return _). set (D := match sc_differential sc with Some _ => _ | None => [] end).
  assert (L : run_main check differential vs [last] = Some (0, []) \/ run_main check differential vs [last] = Some (1, []) /\ cf_cpltime c = [] /\ cf_runtime c = []).
  { unfold last. cbn [run_main]. destruct (cf_cpltime c), (cf_runtime c); auto. }
  destruct (run_runtime_any check differential vs (cf_runtime c) (D ++ [last]) T1) as [Er|(i & v & H1 & H2 & H3 & Er)]; rewrite Er; clear Er.
  2:{ right. eexists. split; [reflexivity|]. right. left. exists i, v. auto. }
  assert (X : run_main check differential vs (D ++ [last]) = run_main check differential vs [last] \/
    exists a b, sc_differential sc <> None /\ In (a, b) (all_pairs (cf_runtime c)) /\ differential a b = Some false /\
      run_main check differential vs (D ++ [last]) = Some (1, text "runtime differential error of " ++ a ++ text " and " ++ b ++ [newline])).
  { unfold D. destruct (sc_differential sc) as [ns|]; [|left; reflexivity].
    destruct (run_differential_any check differential vs (all_pairs (cf_runtime c)) [last] T2) as [Ed|(a & b & H1 & H2 & H3)]; [left; exact Ed|].
    right. exists a, b. split; [discriminate|auto]. }
  destruct X as [->|(a & b & H1 & H2 & H3 & ->)].
  - destruct L as [->|(-> & L1 & L2)]; [left; reflexivity|]. right. exists []. split; [reflexivity|]. left. auto.
  - right. eexists. split; [reflexivity|]. right. right. exists a, b. auto.
Qed.
Print Assumptions C73_failure.
(** It compiles exactly when, if constexpr testing is on, every "cpltime" implementation passes every vector in constant evaluation. *)
Theorem C73_compile : forall sc c vs, describes sc c vs -> Forall (fun v => vec_id v <> 0) vs ->
  exists t p, gen sc c = Some t /\ read_program (source_of sc) t = Some p /\ forall check,
    compiles check false p /\ (compiles check true p <-> Forall (passes check vs) (cf_cpltime c)).
Proof.
  intros sc c vs H Hi. destruct (C73_text sc c vs H) as (t & E & R). exists t. eexists. split; [exact E|]. split; [exact R|].
  intros check. split; [intros i _ X; discriminate|]. unfold compiles, program_of. cbn [pr_vectors pr_main]. rewrite Forall_forall. split.
  - intros X i Hin. apply (test_zero check i vs Hi). apply X; [|reflexivity]. unfold statements_of. apply in_or_app. left. apply in_map, Hin.
  - intros X i Hin _. apply (test_zero check i vs Hi), X. unfold statements_of in Hin. apply in_app_or in Hin as [Hin|Hin].
    + apply in_map_iff in Hin as (j & Ej & Hj). injection Ej as <-. exact Hj.
    + exfalso. apply in_app_or in Hin as [Hin|Hin]; [apply in_map_iff in Hin as (j & Ej & _); discriminate|].
      apply in_app_or in Hin as [Hin|[Hin|[]]]; [|discriminate]. destruct (sc_differential sc); [|contradiction]. apply in_map_iff in Hin as ([a b] & Ej & _). discriminate.
Qed.
Print Assumptions C73_compile.

(** *** With the functions the programs call (C60): a program succeeds exactly when all vectors of its configuration are true of the standard.
    All "runtime" entries are implementations of one algorithm; for the kinds with a differential test, given that it passes for all pairs (C61).
    [junk]: the buffer for a digest before it is written. *)
Lemma field_fun o n a b : field o n a -> field o n b -> a = b.
Proof. intros (t & E1 & U1) (u & E2 & U2). congruence. Qed.
Lemma forall2_iff {A B} (R : A -> B -> Prop) (P : A -> Prop) (Q : B -> Prop) l r : Forall2 R l r -> (forall a b, In a l -> In b r -> R a b -> Q b <-> P a) -> Forall Q r <-> Forall P l.
Proof.
  induction 1 as [|a b l r H _ IH]; intros X; [split; constructor|]. assert (E : Q b <-> P a) by (apply X; [left; reflexivity|left; reflexivity|exact H]).
  assert (Y : Forall Q r <-> Forall P l) by (apply IH; intros a' b' H1 H2 H3; apply X; [right; exact H1|right; exact H2|exact H3]).
  split; intros F; inversion F; subst; constructor; first [apply E; assumption|apply Y; assumption].
Qed.
Lemma accepts_true t P : accepts t P -> t = Some true <-> P.
Proof. intros (r & -> & H). split; [intros E; injection E as E; apply H, E|intros X; f_equal; apply H, X]. Qed.
Lemma program_true sc c vs check (P : jobject -> Prop) : describes sc c vs -> Forall (fun v => vec_id v <> 0) vs -> cf_runtime c <> [] ->
  (forall i o v, In v vs -> vector_of sc o v -> check i (vec_values v) = Some true <-> P o) -> succeeds_iff sc c check P.
Proof.
  intros H Hi Hr Hc. destruct (C73_exit sc c vs H Hi) as (t & p & E & R & X). exists t, p. split; [exact E|]. split; [exact R|]. intros differential Hd. rewrite X. clear X.
  destruct H as (_ & _ & Hv).
  assert (Q : forall i, passes check vs i <-> Forall P (concat (cf_vectors c))).
  { intros i. unfold passes. apply (forall2_iff _ _ _ _ _ Hv). intros o v _ Iv Hov. exact (Hc i o v Iv Hov). }
  split.
  - intros (_ & F & _). destruct (cf_runtime c) as [|i l]; [contradiction|]. apply Forall_inv in F. apply (Q i), F.
  - intros F. split; [right; exact Hr|]. split; [|exact Hd]. apply Forall_forall. intros i _. apply Q, F.
Qed.
Lemma small_chunk vs v l : small vs -> In v vs -> In (VBytes l) (vec_values v) -> bytes l -> chunk l.
Proof. intros Hs Hv Hl Hb. split; [exact Hb|]. apply (N.lt_trans _ (2 ^ 60)); [exact (Hs v l Hv Hl)|reflexivity]. Qed.
Lemma bytes_member o n x : (exists j, key (text n) o = Some j /\ denotes MBytes j x) -> exists b, x = VBytes b /\ bytes b /\ field o n b.
Proof. intros (j & K & D). inversion D as [t b U| |]; subst. exists b. split; [reflexivity|]. split; [exact (unhex_is_bytes _ _ U)|]. exists t. auto. Qed.
Lemma text_member o n x : (exists j, key (text n) o = Some j /\ denotes MText j x) -> exists t, x = VBytes t /\ Forall (fun c => c < 128) t /\ text_field o n t.
Proof.
  intros (j & K & D). inversion D as [|t P|]; subst. exists t. split; [reflexivity|]. split; [|exact K]. eapply Forall_impl; [|exact (proj2 P)]. cbn beta. intros c Hc. lia.
Qed.
Lemma ascii_bytes t : Forall (fun c => c < 128) t -> bytes t.
Proof. apply Forall_impl. unfold is_byte. intros c Hc. lia. Qed.
Lemma number_member o n x : (exists j, key (text n) o = Some j /\ denotes MNumber j x) -> exists v, x = VNumber v /\ number_field o n v /\ v < 2 ^ 32.
Proof. intros (j & K & D). inversion D as [| |v L]; subst. exists v. auto. Qed.
Lemma forall2_cons {A B} (R : A -> B -> Prop) a l r : Forall2 R (a :: l) r -> exists b r', r = b :: r' /\ R a b /\ Forall2 R l r'.
Proof. intros H. inversion H; subst. eauto. Qed.
Lemma forall2_nil {A B} (R : A -> B -> Prop) r : Forall2 R [] r -> r = [].
Proof. intros H. inversion H. reflexivity. Qed.
Ltac next n x F := let r := fresh "r" in apply forall2_cons in F as (x & r & -> & n & F).
(** Hash functions. *)
Definition hash_check (cx : ctx) (a : sha) (junk : list N) (_ : list N) (v : list value) : option bool :=
  match v with [VBytes message; VBytes digest] => test_hash cx (milo_hash a) message digest junk | _ => None end.
Theorem C73_hash : forall cx a junk c vs, describes s_hash c vs -> Forall (fun v => vec_id v <> 0) vs -> small vs -> cf_runtime c <> [] -> bytes junk -> length junk = sha_digest_size a ->
  succeeds_iff s_hash c (hash_check cx a junk) (fun o => exists m, field o "message" m /\ field o "digest" (fips a m)).
Proof.
  intros cx a junk c vs H Hi Hs Hr Hj Lj. apply (program_true _ _ vs _ _ H Hi Hr). intros i o [vi vv] Iv (_ & _ & F). cbn [vec_values] in *. pose proof (fun l => small_chunk _ _ l Hs Iv) as Sm. cbn [vec_values] in Sm.
  next F1 x1 F. next F2 x2 F. apply forall2_nil in F. subst.
  apply bytes_member in F1 as (m & -> & Bm & K1), F2 as (d & -> & Bd & K2). cbn [hash_check].
  rewrite (accepts_true _ _ (C60_hash cx a m d junk (Sm m ltac:(cbn; auto) Bm) Bd Hj Lj)). split.
  - intros ->. exists m. auto.
  - intros (m' & X1 & X2). rewrite (field_fun _ _ _ _ K1 X1). exact (field_fun _ _ _ _ K2 X2).
Qed.
Print Assumptions C73_hash.
(** HMAC; the digest has [dsz] bytes. *)
Definition mac_check (cx : ctx) (M : mac_alg) (key_size : nat) (junk : list N) (_ : list N) (v : list value) : option bool :=
  match v with [VBytes key; VBytes message; VBytes digest] => test_mac cx M key_size key message digest junk | _ => None end.
Theorem C73_hmac : forall cx a dsz junk c vs, describes s_mac c vs -> Forall (fun v => vec_id v <> 0) vs -> small vs -> cf_runtime c <> [] ->
  (dsz <= sha_digest_size a)%nat -> bytes junk -> length junk = dsz ->
  succeeds_iff s_mac c (mac_check cx (mac_hmac (milo_hash a) dsz) 0 junk)
    (fun o => exists k m, field o "key" k /\ field o "message" m /\ field o "digest" (firstn dsz (hmac (fips a) (sha_block_size a) k m))).
Proof.
  intros cx a dsz junk c vs H Hi Hs Hr Hd Hj Lj. apply (program_true _ _ vs _ _ H Hi Hr). intros i o [vi vv] Iv (_ & _ & F). cbn [vec_values] in *. pose proof (fun l => small_chunk _ _ l Hs Iv) as Sm. cbn [vec_values] in Sm.
  next F1 x1 F. next F2 x2 F. next F3 x3 F. apply forall2_nil in F as ->.
  apply bytes_member in F1 as (k & -> & Bk & K1), F2 as (m & -> & Bm & K2), F3 as (d & -> & Bd & K3). cbn [mac_check].
  assert (Ck : chunk k) by (apply Sm; [cbn; auto|exact Bk]). assert (Cm : chunk m) by (apply Sm; [cbn; auto|exact Bm]).
  rewrite (accepts_true _ _ (C60_hmac cx a dsz k m d junk Hd Ck Cm Bd Hj Lj)). split.
  - intros ->. exists k, m. auto.
  - intros (k' & m' & X1 & X2 & X3). rewrite (field_fun _ _ _ _ K1 X1), (field_fun _ _ _ _ K2 X2). exact (field_fun _ _ _ _ K3 X3).
Qed.
Print Assumptions C73_hmac.
(** Poly1305 on little-endian targets (see C23); a key of 32 bytes at most. *)
Theorem C73_poly1305 : forall cx dsz junk c vs, describes s_mac c vs -> Forall (fun v => vec_id v <> 0) vs -> small vs -> cf_runtime c <> [] ->
  cx_big cx = false -> (dsz <= 16)%nat -> bytes junk -> length junk = dsz ->
  succeeds_iff s_mac c (mac_check cx (mac_poly dsz) 32 junk)
    (fun o => exists k m, field o "key" k /\ (length k <= 32)%nat /\ field o "message" m /\ field o "digest" (firstn dsz (poly1305 (pad_to 32 k) m))).
Proof.
  intros cx dsz junk c vs H Hi Hs Hr Hbig Hd Hj Lj. apply (program_true _ _ vs _ _ H Hi Hr). intros i o [vi vv] Iv (_ & _ & F). cbn [vec_values] in *. pose proof (fun l => small_chunk _ _ l Hs Iv) as Sm. cbn [vec_values] in Sm.
  next F1 x1 F. next F2 x2 F. next F3 x3 F. apply forall2_nil in F as ->.
  apply bytes_member in F1 as (k & -> & Bk & K1), F2 as (m & -> & Bm & K2), F3 as (d & -> & Bd & K3). cbn [mac_check].
  assert (Cm : chunk m) by (apply Sm; [cbn; auto|exact Bm]).
  rewrite (accepts_true _ _ (C60_poly1305 cx dsz k m d junk Hd Bk Cm Bd Hj Lj)), Hbig. change (poly1305_on false) with poly1305. split.
  - intros [L ->]. exists k, m. auto.
  - intros (k' & m' & X1 & L & X2 & X3). rewrite (field_fun _ _ _ _ K1 X1), (field_fun _ _ _ _ K2 X2). split; [exact L|exact (field_fun _ _ _ _ K3 X3)].
Qed.
Print Assumptions C73_poly1305.
(** ChaCha20, both directions: the configurations of the two modules name text and result the other way round. *)
Definition cipher_check (dir : direction) (B : backend) (cx : ctx) (_ : list N) (v : list value) : option bool :=
  match v with [VBytes key; VBytes iv; VBytes t; VBytes r] => test_cipher dir B cx key iv t r | _ => None end.
Theorem C73_cipher_encrypt : forall cx B c vs, describes s_cipher_encrypt c vs -> Forall (fun v => vec_id v <> 0) vs -> cf_runtime c <> [] -> backend_ok cx B ->
  succeeds_iff s_cipher_encrypt c (cipher_check Encrypt B cx)
    (fun o => exists k iv p, field o "key" k /\ field o "iv" iv /\ field o "plaintext" p /\ field o "ciphertext" (chacha20 (pad_to 32 k) (iv_counter iv) (iv_nonce iv) p)).
Proof.
  intros cx B c vs H Hi Hr BO. apply (program_true _ _ vs _ _ H Hi Hr). intros i o [vi vv] Iv (_ & _ & F). cbn [vec_values] in *.
  next F1 x1 F. next F2 x2 F. next F3 x3 F. next F4 x4 F. apply forall2_nil in F as ->.
  apply bytes_member in F1 as (k & -> & Bk & K1), F2 as (iv & -> & Bi & K2), F3 as (p & -> & Bp & K3), F4 as (d & -> & Bd & K4). cbn [cipher_check].
  rewrite (accepts_true _ _ (C60_cipher cx B Encrypt k iv p d BO Bk Bi Bp Bd)). split.
  - intros ->. exists k, iv, p. auto.
  - intros (k' & iv' & p' & X1 & X2 & X3 & X4). rewrite (field_fun _ _ _ _ K1 X1), (field_fun _ _ _ _ K2 X2), (field_fun _ _ _ _ K3 X3). exact (field_fun _ _ _ _ K4 X4).
Qed.
Print Assumptions C73_cipher_encrypt.
Theorem C73_cipher_decrypt : forall cx B c vs, describes s_cipher_decrypt c vs -> Forall (fun v => vec_id v <> 0) vs -> cf_runtime c <> [] -> backend_ok cx B ->
  succeeds_iff s_cipher_decrypt c (cipher_check Decrypt B cx)
    (fun o => exists k iv t, field o "key" k /\ field o "iv" iv /\ field o "ciphertext" t /\ field o "plaintext" (chacha20 (pad_to 32 k) (iv_counter iv) (iv_nonce iv) t)).
Proof.
  intros cx B c vs H Hi Hr BO. apply (program_true _ _ vs _ _ H Hi Hr). intros i o [vi vv] Iv (_ & _ & F). cbn [vec_values] in *.
  next F1 x1 F. next F2 x2 F. next F3 x3 F. next F4 x4 F. apply forall2_nil in F as ->.
  apply bytes_member in F1 as (k & -> & Bk & K1), F2 as (iv & -> & Bi & K2), F3 as (p & -> & Bp & K3), F4 as (d & -> & Bd & K4). cbn [cipher_check].
  rewrite (accepts_true _ _ (C60_cipher cx B Decrypt k iv p d BO Bk Bi Bp Bd)). split.
  - intros ->. exists k, iv, p. auto.
  - intros (k' & iv' & p' & X1 & X2 & X3 & X4). rewrite (field_fun _ _ _ _ K1 X1), (field_fun _ _ _ _ K2 X2), (field_fun _ _ _ _ K3 X3). exact (field_fun _ _ _ _ K4 X4).
Qed.
Print Assumptions C73_cipher_decrypt.
(** ChaCha20-Poly1305 on little-endian targets: no differential test. *)
Definition encrypt_check (cx : ctx) (B : backend) (dsz : nat) (junk : list N) (_ : list N) (v : list value) : option bool :=
  match v with
  | [VBytes key; VBytes iv; VBytes aad; VBytes plaintext; VBytes ciphertext; VBytes digest] => test_aead_encrypt B cx dsz key iv aad plaintext ciphertext digest junk
  | _ => None
  end.
Theorem C73_aead_encrypt : forall cx B dsz junk c vs, describes s_aead_encrypt c vs -> Forall (fun v => vec_id v <> 0) vs -> small vs -> cf_runtime c <> [] ->
  backend_ok cx B -> cx_big cx = false -> (dsz <= 16)%nat -> bytes junk -> length junk = dsz ->
  succeeds_iff s_aead_encrypt c (encrypt_check cx B dsz junk)
    (fun o => exists k iv aad p, let t := aead_text (pad_to 32 k) (pad_to 12 iv) p in
       field o "key" k /\ field o "iv" iv /\ field o "aad" aad /\ field o "plaintext" p /\ field o "ciphertext" t /\
       field o "digest" (firstn dsz (aead_tag (pad_to 32 k) (pad_to 12 iv) aad t))).
Proof.
  intros cx B dsz junk c vs H Hi Hs Hr BO Hbig Hd Hj Lj. apply (program_true _ _ vs _ _ H Hi Hr). intros i o [vi vv] Iv (_ & _ & F). cbn [vec_values] in *. pose proof (fun l => small_chunk _ _ l Hs Iv) as Sm. cbn [vec_values] in Sm.
  next F1 x1 F. next F2 x2 F. next F3 x3 F. next F4 x4 F. next F5 x5 F. next F6 x6 F. apply forall2_nil in F as ->.
  apply bytes_member in F1 as (k & -> & Bk & K1), F2 as (iv & -> & Bi & K2), F3 as (aad & -> & Ba & K3), F4 as (p & -> & Bp & K4), F5 as (t & -> & Bt & K5), F6 as (d & -> & Bd & K6). cbn [encrypt_check].
  assert (Ca : chunk aad) by (apply Sm; [cbn [In]; auto 8|exact Ba]). assert (Cp : chunk p) by (apply Sm; [cbn [In]; auto 8|exact Bp]).
  rewrite (accepts_true _ _ (C60_aead_encrypt cx B dsz k iv aad p t d junk BO Hd Bk Bi Ca Cp Bt Bd Hj Lj)), Hbig. change (aead_tag_on false) with aead_tag. split.
  - intros [-> ->]. exists k, iv, aad, p. cbv zeta. auto 8.
  - intros (k' & iv' & aad' & p' & X1 & X2 & X3 & X4 & X5 & X6). rewrite (field_fun _ _ _ _ K1 X1), (field_fun _ _ _ _ K2 X2), (field_fun _ _ _ _ K3 X3), (field_fun _ _ _ _ K4 X4).
    split; [exact (field_fun _ _ _ _ K5 X5)|exact (field_fun _ _ _ _ K6 X6)].
Qed.
Print Assumptions C73_aead_encrypt.
Definition decrypt_check (cx : ctx) (B : backend) (dsz : nat) (junk : list N) (_ : list N) (v : list value) : option bool :=
  match v with
  | [VBytes key; VBytes iv; VBytes aad; VBytes ciphertext; VBytes digest; VBytes plaintext] => test_aead_decrypt B cx dsz key iv aad ciphertext digest plaintext junk
  | _ => None
  end.
Theorem C73_aead_decrypt : forall cx B dsz junk c vs, describes s_aead_decrypt c vs -> Forall (fun v => vec_id v <> 0) vs -> small vs -> cf_runtime c <> [] ->
  backend_ok cx B -> cx_big cx = false -> (dsz <= 16)%nat -> bytes junk -> length junk = dsz ->
  succeeds_iff s_aead_decrypt c (decrypt_check cx B dsz junk)
    (fun o => exists k iv aad t,
       field o "key" k /\ field o "iv" iv /\ field o "aad" aad /\ field o "ciphertext" t /\ field o "digest" (firstn dsz (aead_tag (pad_to 32 k) (pad_to 12 iv) aad t)) /\
       field o "plaintext" (aead_text (pad_to 32 k) (pad_to 12 iv) t)).
Proof.
  intros cx B dsz junk c vs H Hi Hs Hr BO Hbig Hd Hj Lj. apply (program_true _ _ vs _ _ H Hi Hr). intros i o [vi vv] Iv (_ & _ & F). cbn [vec_values] in *. pose proof (fun l => small_chunk _ _ l Hs Iv) as Sm. cbn [vec_values] in Sm.
  next F1 x1 F. next F2 x2 F. next F3 x3 F. next F4 x4 F. next F5 x5 F. next F6 x6 F. apply forall2_nil in F as ->.
  apply bytes_member in F1 as (k & -> & Bk & K1), F2 as (iv & -> & Bi & K2), F3 as (aad & -> & Ba & K3), F4 as (t & -> & Bt & K4), F5 as (d & -> & Bd & K5), F6 as (p & -> & Bp & K6). cbn [decrypt_check].
  assert (Ca : chunk aad) by (apply Sm; [cbn [In]; auto 8|exact Ba]). assert (Ct : chunk t) by (apply Sm; [cbn [In]; auto 8|exact Bt]).
  rewrite (accepts_true _ _ (C60_aead_decrypt cx B dsz k iv aad t d p junk BO Hd Bk Bi Ca Ct Bp Bd Hj Lj)), Hbig. change (aead_tag_on false) with aead_tag. split.
  - intros [-> ->]. exists k, iv, aad, t. auto 8.
  - intros (k' & iv' & aad' & t' & X1 & X2 & X3 & X4 & X5 & X6). rewrite (field_fun _ _ _ _ K1 X1), (field_fun _ _ _ _ K2 X2), (field_fun _ _ _ _ K3 X3), (field_fun _ _ _ _ K4 X4).
    split; [exact (field_fun _ _ _ _ K5 X5)|exact (field_fun _ _ _ _ K6 X6)].
Qed.
Print Assumptions C73_aead_decrypt.
(** Codecs. *)
Definition encode_check (cx : ctx) (k : codec) (_ : list N) (v : list value) : option bool :=
  match v with [VBytes from; VBytes to] => test_encode cx k from to | _ => None end.
Definition decode_check (cx : ctx) (k : codec) (_ : list N) (v : list value) : option bool :=
  match v with [VBytes from; VBytes to] => test_decode cx k from to | _ => None end.
Theorem C73_base_64_encode : forall cx sg c vs, describes s_codec_encode c vs -> Forall (fun v => vec_id v <> 0) vs -> small vs -> cf_runtime c <> [] ->
  succeeds_iff s_codec_encode c (encode_check cx (base_64 sg)) (fun o => exists b, field o "from" b /\ text_field o "to" (spec_b64 b)).
Proof.
  intros cx sg c vs H Hi Hs Hr. apply (program_true _ _ vs _ _ H Hi Hr). intros i o [vi vv] Iv (_ & _ & F). cbn [vec_values] in *. pose proof (fun l => small_chunk _ _ l Hs Iv) as Sm. cbn [vec_values] in Sm.
  next F1 x1 F. next F2 x2 F. apply forall2_nil in F as ->.
  apply bytes_member in F1 as (b & -> & Bb & K1). apply text_member in F2 as (t & -> & At & K2). cbn [encode_check].
  rewrite (accepts_true _ _ (C60_base_64_encode cx sg b t Bb (Hs _ b Iv ltac:(cbn; auto)) (ascii_bytes _ At))). split.
  - intros ->. exists b. auto.
  - intros (b' & X1 & X2). rewrite (field_fun _ _ _ _ K1 X1). unfold text_field in *. congruence.
Qed.
Print Assumptions C73_base_64_encode.
Theorem C73_base_16_encode : forall cx sg c vs, describes s_codec_encode c vs -> Forall (fun v => vec_id v <> 0) vs -> small vs -> cf_runtime c <> [] ->
  succeeds_iff s_codec_encode c (encode_check cx (base_16 sg)) (fun o => exists b, field o "from" b /\ text_field o "to" (spec_hex b)).
Proof.
  intros cx sg c vs H Hi Hs Hr. apply (program_true _ _ vs _ _ H Hi Hr). intros i o [vi vv] Iv (_ & _ & F). cbn [vec_values] in *. pose proof (fun l => small_chunk _ _ l Hs Iv) as Sm. cbn [vec_values] in Sm.
  next F1 x1 F. next F2 x2 F. apply forall2_nil in F as ->.
  apply bytes_member in F1 as (b & -> & Bb & K1). apply text_member in F2 as (t & -> & At & K2). cbn [encode_check].
  assert (Lb : N.of_nat (length b) < 2 ^ 63) by (apply (N.lt_trans _ (2 ^ 60)); [apply (Hs _ b Iv); cbn; auto|reflexivity]).
  rewrite (accepts_true _ _ (C60_base_16_encode cx sg b t Bb Lb (ascii_bytes _ At))). split.
  - intros ->. exists b. auto.
  - intros (b' & X1 & X2). rewrite (field_fun _ _ _ _ K1 X1). unfold text_field in *. congruence.
Qed.
Print Assumptions C73_base_16_encode.
(** Decoding; even hexadecimal texts (see C03). *)
Theorem C73_base_64_decode : forall cx sg c vs, describes s_codec_decode c vs -> Forall (fun v => vec_id v <> 0) vs -> small vs -> cf_runtime c <> [] ->
  succeeds_iff s_codec_decode c (decode_check cx (base_64 sg)) (fun o => exists t b, text_field o "from" t /\ field o "to" b /\ spec_unb64 t = Some b).
Proof.
  intros cx sg c vs H Hi Hs Hr. apply (program_true _ _ vs _ _ H Hi Hr). intros i o [vi vv] Iv (_ & _ & F). cbn [vec_values] in *. pose proof (fun l => small_chunk _ _ l Hs Iv) as Sm. cbn [vec_values] in Sm.
  next F1 x1 F. next F2 x2 F. apply forall2_nil in F as ->.
  apply text_member in F1 as (t & -> & At & K1). apply bytes_member in F2 as (b & -> & Bb & K2). cbn [decode_check].
  assert (Lt : (Z.of_nat (length t) * 3 < 2 ^ 64)%Z).
  { pose proof (Hs _ t Iv ltac:(cbn; auto)) as L. assert (Z.of_nat (length t) < 2 ^ 60)%Z; [|lia]. rewrite <- nat_N_Z. change (2 ^ 60)%Z with (Z.of_N (2 ^ 60)). apply N2Z.inj_lt, L. }
  rewrite (accepts_true _ _ (C60_base_64_decode cx sg t b (ascii_bytes _ At) (or_intror At) Lt Bb)). split.
  - intros E. exists t, b. auto.
  - intros (t' & b' & X1 & X2 & X3). unfold text_field in *. rewrite (field_fun _ _ _ _ K2 X2). congruence.
Qed.
Print Assumptions C73_base_64_decode.
Theorem C73_base_16_decode : forall cx sg c vs, describes s_codec_decode c vs -> Forall (fun v => vec_id v <> 0) vs -> cf_runtime c <> [] ->
  (forall v t b, In v vs -> vec_values v = [VBytes t; VBytes b] -> Nat.odd (length t) = false) ->
  succeeds_iff s_codec_decode c (decode_check cx (base_16 sg)) (fun o => exists t b, text_field o "from" t /\ field o "to" b /\ spec_unhex t = Some b).
Proof.
  intros cx sg c vs H Hi Hr Ho. apply (program_true _ _ vs _ _ H Hi Hr). intros i o [vi vv] Iv (_ & _ & F). cbn [vec_values] in *.
  next F1 x1 F. next F2 x2 F. apply forall2_nil in F as ->.
  apply text_member in F1 as (t & -> & At & K1). apply bytes_member in F2 as (b & -> & Bb & K2). cbn [decode_check].
  rewrite (accepts_true _ _ (C60_base_16_decode cx sg t b (ascii_bytes _ At) (or_intror At) (Ho _ t b Iv eq_refl) Bb)). split.
  - intros E. exists t, b. auto.
  - intros (t' & b' & X1 & X2 & X3). unfold text_field in *. rewrite (field_fun _ _ _ _ K2 X2). congruence.
Qed.
Print Assumptions C73_base_16_decode.
(** Key derivation: the arguments lie one after the other in memory. *)
Definition hkdf_check (cx : ctx) (a : sha) (dsz : nat) (_ : list N) (v : list value) : option bool :=
  match v with
  | [VBytes ikm; VBytes salt; VBytes info; VBytes key] =>
      test_kdf cx (HKDF a dsz) (ikm ++ salt ++ info) ((0%nat, length ikm), (length ikm, length salt), ((length ikm + length salt)%nat, length info)) key
  | _ => None
  end.
Lemma has_at (pre l post : list N) n : n = length pre -> has (pre ++ l ++ post) (n, length l) l.
Proof.
  intros ->. unfold has. cbn [fst snd]. split; [rewrite !app_length; lia|]. split; [reflexivity|].
  rewrite skipn_app, skipn_all2, Nat.sub_diag by lia. cbn [app skipn]. rewrite firstn_app, firstn_all, Nat.sub_diag. apply app_nil_r.
Qed.
Theorem C73_hkdf : forall cx a dsz c vs, describes s_kdf_hkdf c vs -> Forall (fun v => vec_id v <> 0) vs -> small vs -> cf_runtime c <> [] -> (1 <= dsz <= sha_digest_size a)%nat ->
  (forall v l, In v vs -> In (VBytes l) (skipn 3 (vec_values v)) -> (length l <= 255 * dsz)%nat) ->
  succeeds_iff s_kdf_hkdf c (hkdf_check cx a dsz)
    (fun o => exists ikm salt info key, field o "ikm" ikm /\ field o "salt" salt /\ field o "info" info /\ field o "key" key /\ key = hkdf (prf a dsz) dsz ikm salt info (length key)).
Proof.
  intros cx a dsz c vs H Hi Hs Hr Hd Hl. apply (program_true _ _ vs _ _ H Hi Hr). intros i o [vi vv] Iv (_ & _ & F). cbn [vec_values] in *. pose proof (fun l => small_chunk _ _ l Hs Iv) as Sm. cbn [vec_values] in Sm.
  next F1 x1 F. next F2 x2 F. next F3 x3 F. next F4 x4 F. apply forall2_nil in F as ->.
  apply bytes_member in F1 as (ikm & -> & B1 & K1), F2 as (salt & -> & B2 & K2), F3 as (info & -> & B3 & K3), F4 as (k & -> & B4 & K4). cbn [hkdf_check].
  assert (Lk : (length k <= 255 * dsz)%nat) by (apply (Hl _ k Iv); cbn [vec_values skipn In]; auto).
  assert (X : holds3 (ikm ++ salt ++ info) ((0%nat, length ikm), (length ikm, length salt), ((length ikm + length salt)%nat, length info)) ikm salt info).
  { unfold holds3. split; [exact (has_at [] ikm (salt ++ info) 0 eq_refl)|]. split; [exact (has_at ikm salt info _ eq_refl)|]. split.
    - assert (E : ikm ++ salt ++ info = (ikm ++ salt) ++ info ++ []) by (rewrite app_nil_r, <- app_assoc; reflexivity). rewrite E. apply has_at. rewrite app_length. reflexivity.
    - split; [apply Sm; [cbn; auto|exact B1]|]. split; apply Sm; cbn; auto. }
  rewrite (accepts_true _ _ (C60_hkdf cx a dsz _ _ ikm salt info k Hd X B4 Lk)). split.
  - intros E. exists ikm, salt, info, k. auto.
  - intros (i1 & i2 & i3 & i4 & X1 & X2 & X3 & X4 & E). rewrite (field_fun _ _ _ _ K1 X1), (field_fun _ _ _ _ K2 X2), (field_fun _ _ _ _ K3 X3), (field_fun _ _ _ _ K4 X4). exact E.
Qed.
Print Assumptions C73_hkdf.
Definition pbkdf2_check (cx : ctx) (a : sha) (dsz : nat) (_ : list N) (v : list value) : option bool :=
  match v with
  | [VBytes password; VBytes salt; VNumber iterations; VBytes key] =>
      test_kdf cx (PBKDF2 a dsz) (password ++ salt) ((0%nat, length password), (length password, length salt), iterations) key
  | _ => None
  end.
Theorem C73_pbkdf2 : forall cx a dsz c vs, describes s_kdf_pbkdf_2 c vs -> Forall (fun v => vec_id v <> 0) vs -> small vs -> cf_runtime c <> [] -> (1 <= dsz <= sha_digest_size a)%nat ->
  (forall v n, In v vs -> In (VNumber n) (vec_values v) -> 1 <= n) ->
  succeeds_iff s_kdf_pbkdf_2 c (pbkdf2_check cx a dsz)
    (fun o => exists password salt n key, field o "ikm" password /\ field o "salt" salt /\ number_field o "iterations" n /\ field o "key" key /\
       key = pbkdf2 (prf a dsz) dsz password salt (N.to_nat n) (length key)).
Proof.
  intros cx a dsz c vs H Hi Hs Hr Hd Hl. apply (program_true _ _ vs _ _ H Hi Hr). intros i o [vi vv] Iv (_ & _ & F). cbn [vec_values] in *. pose proof (fun l => small_chunk _ _ l Hs Iv) as Sm. cbn [vec_values] in Sm.
  next F1 x1 F. next F2 x2 F. next F3 x3 F. next F4 x4 F. apply forall2_nil in F as ->.
  apply bytes_member in F1 as (ikm & -> & B1 & K1), F2 as (salt & -> & B2 & K2), F4 as (k & -> & B4 & K4). apply number_member in F3 as (n & -> & K3 & Ln). cbn [pbkdf2_check].
  assert (Hn : 1 <= n) by (apply (Hl _ n Iv); cbn [vec_values In]; auto).
  assert (X : holds2 (ikm ++ salt) ((0%nat, length ikm), (length ikm, length salt), n) ikm salt).
  { unfold holds2. split; [exact (has_at [] ikm salt 0 eq_refl)|]. split.
    - assert (E : ikm ++ salt = ikm ++ salt ++ []) by (rewrite app_nil_r; reflexivity). rewrite E. apply has_at. reflexivity.
    - split; apply Sm; cbn; auto. }
  rewrite (accepts_true _ _ (C60_pbkdf2 cx a dsz _ _ ikm salt k Hd X Hn B4)). cbn [snd]. split.
  - intros E. exists ikm, salt, n, k. auto.
  - intros (i1 & i2 & i3 & i4 & X1 & X2 & X3 & X4 & E). rewrite (field_fun _ _ _ _ K1 X1), (field_fun _ _ _ _ K2 X2), (field_fun _ _ _ _ K4 X4).
    assert (n = i3) by (unfold number_field in *; congruence). subst. exact E.
Qed.
Print Assumptions C73_pbkdf2.

(** *** What does not hold *)
(** A vector with id 0: its failure looks like success (test returns the id of the vector that fails, and 0 when none does).  No vector shipped has id 0. *)
Definition config_of (cpl run : list (list N)) (vectors : list jobject) : config := {| cf_cpltime := cpl; cf_runtime := run; cf_include := []; cf_vectors := [vectors] |}.
Definition sha_name : list N := text "hash::sha_2_256".
Definition abc_vector (i : N) (digest : string) : jobject := [(text "id", JInt i); (text "message", JText (text "616263")); (text "digest", JText (text digest))].
Lemma sha_name_ok : name sha_name.
Proof. split; [discriminate|]. apply Forall_forall. intros c H. apply name_charb_ok. assert (X : forallb name_charb sha_name = true) by reflexivity. exact (proj1 (forallb_forall _ _) X c H). Qed.
Lemma abc_describes i d b cpl run : spec_unhex (text d) = Some b -> i < 2 ^ 64 -> Forall name cpl -> Forall name run ->
  describes s_hash (config_of cpl run [abc_vector i d]) [{| vec_id := i; vec_values := [VBytes [97; 98; 99]; VBytes b] |}].
Proof.
  intros H Hi Hc Hr. split; [left; reflexivity|]. split; [split; [exact Hc|split; [exact Hr|constructor]]|]. constructor; [|constructor].
  split; [reflexivity|]. split; [exact Hi|]. constructor; [eexists; split; [reflexivity|]; constructor; reflexivity|].
  constructor; [eexists; split; [reflexivity|]; constructor; exact H|constructor].
Qed.
Theorem C73_id_zero_refuted : ~ forall sc c vs, describes sc c vs ->
  exists t p, gen sc c = Some t /\ read_program (source_of sc) t = Some p /\ forall check differential,
    run check differential p = Some (0, []) -> Forall (passes check vs) (cf_runtime c).
Proof.
  intros H. destruct (H _ _ _ (abc_describes 0 "00" [0] [] [sha_name] eq_refl eq_refl (Forall_nil _) (Forall_cons _ sha_name_ok (Forall_nil _)))) as (t & p & E & R & X). clear H.
  destruct (C73_text _ _ _ (abc_describes 0 "00" [0] [] [sha_name] eq_refl eq_refl (Forall_nil _) (Forall_cons _ sha_name_ok (Forall_nil _)))) as (t' & E' & R').
  assert (t' = t) by congruence. subst t'. assert (Ep : p = program_of s_hash (config_of [] [sha_name] [abc_vector 0 "00"]) [{| vec_id := 0; vec_values := [VBytes [97; 98; 99]; VBytes [0]] |}]) by congruence.
  subst p. specialize (X (fun _ _ => Some false) (fun _ _ => Some true) eq_refl). apply Forall_inv in X. unfold passes in X. apply Forall_inv in X. discriminate.
Qed.
Print Assumptions C73_id_zero_refuted.
(** An empty text (the first vector of RFC 4648) is written without a literal: the program does not compile.  An empty byte string is written as an empty literal (C73_bytes). *)
Theorem C73_empty_text_refuted : exists t,
  gen s_codec_encode (config_of [] [text "codec::base_64"] [[(text "id", JInt 1); (text "from", JText []); (text "to", JText [])]]) = Some t /\
  read_program (source_of s_codec_encode) t = None.
Proof. eexists. split; [vm_compute; reflexivity|vm_compute; reflexivity]. Qed.
Print Assumptions C73_empty_text_refuted.
(** Texts are not escaped: a text of printable characters with a backslash is read as another text, one with a quote is cut or not read at all. *)
Definition written (t : list N) : option (list N * list N * list (list N)) := literal (lines (gen_body [gen_str t (text "_cv,")])).
Theorem C73_text_literal : forall t, plain_text t -> written t = Some (t, text "_cv,", []).
Proof.
  intros t Ht. unfold written. assert (G : Forall good (flat_map flat [gen_str t (text "_cv,")])).
  { cbn [flat_map]. rewrite app_nil_r. apply good_text; [exact Ht|apply oneline_text; reflexivity]. }
  rewrite lines_body by (apply clean_all, G). rewrite (good_filter _ G). cbn [flat_map]. apply literal_text; [exact Ht|discriminate].
Qed.
Print Assumptions C73_text_literal.
Theorem C73_escape_refuted : written (text "\x41") = Some (text "A", text "_cv,", []) /\ written [92] = None /\ written [65; 34; 66] = Some (text "A", [66; 34] ++ text "_cv,", []).
Proof. repeat split; vm_compute; reflexivity. Qed.
Print Assumptions C73_escape_refuted.
(** Without constexpr testing (the default, doc/integration.md:56) "cpltime" entries are not tested: with no "runtime" entry the program compiles and succeeds whatever the implementations do. *)
Theorem C73_constexpr_off : forall sc c vs, describes sc c vs -> cf_runtime c = [] -> cf_cpltime c <> [] ->
  exists t p, gen sc c = Some t /\ read_program (source_of sc) t = Some p /\ forall check differential, compiles check false p /\ run check differential p = Some (0, []).
Proof.
  intros sc c vs H Hr Hc. destruct (C73_text sc c vs H) as (t & E & R). exists t. eexists. split; [exact E|]. split; [exact R|]. intros check differential.
  split; [intros i _ X; discriminate|]. unfold run, program_of, statements_of. cbn [pr_vectors pr_main]. rewrite run_cpltime, Hr. destruct (cf_cpltime c) as [|i l]; [contradiction|].
  destruct (sc_differential sc); reflexivity.
Qed.
Print Assumptions C73_constexpr_off.

(** A case: two implementations and the vector of FIPS 180-4 for "abc". *)
Example C73_case : exists vs, describes s_hash (config_of [sha_name] [sha_name; text "hash::sha_2_256_sw"] [abc_vector 1 "ba7816bf8f01cfea414140de5dae2223b00361a396177a9cb410ff61f20015ad"]) vs /\
  Forall (fun v => vec_id v <> 0) vs /\ small vs.
Proof.
  eexists. split; [apply abc_describes with (b := [186; 120; 22; 191; 143; 1; 207; 234; 65; 65; 64; 222; 93; 174; 34; 35; 176; 3; 97; 163; 150; 23; 122; 156; 180; 16; 255; 97; 242; 0; 21; 173]); [vm_compute; reflexivity|reflexivity| |]|].
  - constructor; [exact sha_name_ok|constructor].
  - constructor; [exact sha_name_ok|]. constructor; [|constructor]. split; [discriminate|]. apply Forall_forall. intros c H. apply name_charb_ok.
    assert (X : forallb name_charb (text "hash::sha_2_256_sw") = true) by reflexivity. exact (proj1 (forallb_forall _ _) X c H).
  - split; [constructor; [discriminate|constructor]|]. intros v l [<-|[]] Hl. cbn [vec_values In] in Hl. destruct Hl as [Hl|[Hl|[]]]; injection Hl as <-; reflexivity.
Qed.
Example C73_run : forall check, (forall i v, check i v = Some (if list_eq_dec N.eq_dec i sha_name then true else false)) ->
  run check (fun _ _ => Some true) (program_of s_hash (config_of [] [sha_name; text "hash::sha_2_256_sw"] []) [{| vec_id := 1; vec_values := [VBytes [97; 98; 99]; VBytes [0]] |}]) = Some (1, text "runtime error of hash::sha_2_256_sw" ++ [newline]).
Proof.
  intros check H. unfold run, program_of. cbn [pr_vectors pr_main]. unfold statements_of. cbn [config_of cf_cpltime cf_runtime map app run_main test vec_values]. rewrite !H. reflexivity.
Qed.
Example C73_case_pbkdf2 : exists vs, describes s_kdf_pbkdf_2 (config_of [] [sha_name]
    [[(text "id", JInt 7); (text "ikm", JText (text "70617373")); (text "salt", JText (text "73616c74")); (text "iterations", JInt 4096); (text "key", JText (text "4b007901b7"))]]) vs /\
  Forall (fun v => vec_id v <> 0) vs /\ small vs /\ forall v n, In v vs -> In (VNumber n) (vec_values v) -> 1 <= n.
Proof.
  exists [{| vec_id := 7; vec_values := [VBytes [112; 97; 115; 115]; VBytes [115; 97; 108; 116]; VNumber 4096; VBytes [75; 0; 121; 1; 183]] |}]. split.
  - split; [cbn [shipped In]; auto 12|]. split; [split; [constructor|split; [constructor; [exact sha_name_ok|constructor]|constructor]]|]. constructor; [|constructor].
    split; [reflexivity|]. split; [reflexivity|]. repeat (constructor; [eexists; split; [reflexivity|constructor; reflexivity]|]). constructor.
  - split; [constructor; [discriminate|constructor]|]. split.
    + intros v l [<-|[]] Hl. cbn [vec_values In] in Hl. repeat (destruct Hl as [Hl|Hl]); try discriminate; try contradiction; injection Hl as <-; reflexivity.
    + intros v n [<-|[]] Hl. cbn [vec_values In] in Hl. repeat (destruct Hl as [Hl|Hl]); try discriminate; try contradiction. injection Hl as <-. discriminate.
Qed.
Example C73_case_decode : exists vs, describes s_codec_decode (config_of [] [text "codec::base_64"] [[(text "id", JInt 2); (text "from", JText (text "Zm9vYg==")); (text "to", JText (text "666F6f62"))]]) vs /\
  Forall (fun v => vec_id v <> 0) vs /\ small vs.
Proof.
  exists [{| vec_id := 2; vec_values := [VBytes [90; 109; 57; 118; 89; 103; 61; 61]; VBytes [102; 111; 111; 98]] |}]. split.
  - split; [cbn [shipped In]; auto 12|]. split.
    + split; [constructor|split; [constructor; [|constructor]|constructor]]. split; [discriminate|]. apply Forall_forall. intros c H. apply name_charb_ok.
      assert (X : forallb name_charb (text "codec::base_64") = true) by reflexivity. exact (proj1 (forallb_forall _ _) X c H).
    + constructor; [|constructor]. split; [reflexivity|]. split; [reflexivity|]. constructor; [eexists; split; [reflexivity|apply d_text]|].
      * split; [discriminate|]. repeat (constructor; [split; [split; [discriminate|reflexivity]|split; discriminate]|]). constructor.
      * constructor; [eexists; split; [reflexivity|constructor; reflexivity]|constructor].
  - split; [constructor; [discriminate|constructor]|].
    intros v l [<-|[]] Hl. cbn [vec_values In] in Hl. repeat (destruct Hl as [Hl|Hl]); try contradiction; injection Hl as <-; reflexivity.
Qed.
