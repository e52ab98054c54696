(** The differential test of MACs. *)
From Verif Require Import Base BaseLemmas Model_Memory Model_Container Model_Update Model_Sha Model_Mac Spec_Hash Spec_Mac Model_Test Spec_Test Proof_Test.
Local Open Scope N_scope.

Lemma mac_run_app cx M : forall a b p, mac_run cx M p (a ++ b)
  = ('(p, x) <- mac_run cx M p a ;; '(p, y) <- mac_run cx M p b ;; Some (p, x ++ y)).
Proof.
  induction a as [|c a IH]; intros b p; cbn [app mac_run].
  - cbn [bind]. destruct (mac_run cx M p b) as [[? ?]|]; reflexivity.
  - destruct (mac_step cx M p c) as [[q o]|]; [|reflexivity]. cbn [bind]. rewrite IH.
    destruct (mac_run cx M q a) as [[q' x]|]; [|reflexivity]. cbn [bind].
    destruct (mac_run cx M q' b) as [[q'' y]|]; reflexivity.
Qed.
Lemma morderly_init : forall a d k b, morderly d (a ++ MInit k :: b) = morderly d a && morderly false b.
Proof.
  induction a as [|c a IH]; intros d k b; [destruct d; reflexivity|]. destruct c; cbn [app morderly]; rewrite ?IH, ?andb_assoc; reflexivity.
Qed.
Lemma morderly_updates : forall ms c, morderly false (map MUpdate ms ++ [c]) = true.
Proof. induction ms as [|m ms IH]; intros c; [destruct c; reflexivity|]. cbn [map app morderly negb andb]. apply IH. Qed.
Lemma morderly_updates' : forall ms, morderly false (map MUpdate ms) = true.
Proof. induction ms as [|m ms IH]; [reflexivity|]. cbn [map morderly negb andb]. apply IH. Qed.
Lemma mexpected_init T : forall a key fed k b, exists x, mexpected T key fed (a ++ MInit k :: b) = x ++ mexpected T k [] b.
Proof.
  induction a as [|c a IH]; intros key fed k b; [exists [ONone]; reflexivity|].
  destruct c as [k'|m|d s|c s]; cbn [app mexpected].
  - destruct (IH k' [] k b) as (x & E). rewrite E. exists (ONone :: x). reflexivity.
  - destruct (IH key (fed ++ m) k b) as (x & E). rewrite E. exists (ONone :: x). reflexivity.
  - destruct (IH key fed k b) as (x & E). rewrite E. exists (mprefix (T key fed) (MDigest d s) :: x). reflexivity.
  - destruct (IH key fed k b) as (x & E). rewrite E. exists (mprefix (T key fed) (MDigestC c s) :: x). reflexivity.
Qed.
Lemma mexpected_updates T key : forall ms fed c, mexpected T key fed (map MUpdate ms ++ [c]) = map (fun _ => ONone) ms ++ mexpected T key (fed ++ concat ms) [c].
Proof.
  induction ms as [|m ms IH]; intros fed c; cbn [map app mexpected concat]; [rewrite app_nil_r; reflexivity|]. rewrite IH, app_assoc. reflexivity.
Qed.

Section Mac.
  Variables (cx : ctx) (M : mac_alg) (T : list N -> list N -> list N).
  Hypothesis HC : mcomputes cx M T.
  Let ok := mcall_ok chunk (ma_digest_size M).
  (** A history [calls] of an object made with [k0], after which [key] is the key and nothing is fed. *)
  Definition upto (k0 : list N) (calls : list mac_call) (key : list N) : Prop :=
    Forall ok calls /\ (forall rest, morderly false rest = true -> morderly false (calls ++ rest) = true) /\
    forall rest, exists x, mexpected T k0 [] (calls ++ rest) = x ++ mexpected T key [] rest.
  (** An object that was default constructed, or used in an orderly way. *)
  Definition mused (p : mac_apie M) : Prop := mp_impl p = ma_new M \/
    exists k0 calls p0 outs, chunk k0 /\ Forall ok calls /\ morderly false calls = true /\
      mapie_new cx M k0 = Some p0 /\ mac_run cx M p0 calls = Some (p, outs).
  Definition mfed (key m : list N) (p : mac_apie M) : Prop :=
    exists k0 calls ms p0 outs, chunk k0 /\ upto k0 calls key /\ Forall chunk ms /\ concat ms = m /\
      mapie_new cx M k0 = Some p0 /\ mac_run cx M p0 (calls ++ map MUpdate ms) = Some (p, outs).
  Lemma mused_init p key : chunk key -> mused p -> exists p', mapie_initialize cx M p key = Some p' /\ mfed key [] p'.
  Proof.
    intros Hk [U|(k0 & calls & p0 & outs & H1 & H2 & H3 & H4 & H5)].
    - destruct (proj2 HC key [] Hk (Forall_nil _) eq_refl) as (p' & _ & E & _). exists p'. split.
      + unfold mapie_new, mapie_initialize in *. cbn [mp_impl] in E. rewrite U. exact E.
      + exists key, [], [], p', []. split; [exact Hk|]. split.
        { split; [constructor|]. split; [intros r H; exact H|]. intros r. exists []. reflexivity. }
        split; [constructor|]. split; [reflexivity|]. split; [exact E|reflexivity].
    - destruct (proj2 HC k0 (calls ++ [MInit key]) H1) as (q0 & q & E0 & R).
      { apply Forall_app. split; [exact H2|]. constructor; [exact Hk|constructor]. }
      { rewrite morderly_init, H3. reflexivity. }
      assert (q0 = p0) by congruence. subst q0. pose proof R as R'. rewrite mac_run_app, H5 in R. cbn [bind mac_run mac_step] in R.
      destruct (mapie_initialize cx M p key) as [p'|]; [|discriminate]. exists p'. split; [reflexivity|]. cbn [bind] in R.
      assert (p' = q) by congruence. subst p'.
      exists k0, (calls ++ [MInit key]), [], p0, (mexpected T k0 [] (calls ++ [MInit key])). split; [exact H1|]. split.
      { split; [apply Forall_app; split; [exact H2|constructor; [exact Hk|constructor]]|]. split.
        - intros r Hr. rewrite <- app_assoc. cbn [app]. rewrite morderly_init, H3. exact Hr.
        - intros r. rewrite <- app_assoc. cbn [app]. apply mexpected_init. }
      split; [constructor|]. split; [reflexivity|]. split; [exact H4|]. cbn [map]. rewrite app_nil_r. exact R'.
  Qed.
  Lemma mfed_update key m p x : mfed key m p -> chunk x -> exists p', mapie_update cx M p x = Some p' /\ mfed key (m ++ x) p'.
  Proof.
    intros (k0 & calls & ms & p0 & outs & H1 & (U1 & U2 & U3) & H3 & H4 & H5 & H6) Hx.
    assert (E : calls ++ map MUpdate (ms ++ [x]) = (calls ++ map MUpdate ms) ++ [MUpdate x]) by (rewrite map_app, <- app_assoc; reflexivity).
    assert (Hm : Forall chunk (ms ++ [x])) by (apply Forall_app; split; [exact H3|constructor; [exact Hx|constructor]]).
    destruct (proj2 HC k0 (calls ++ map MUpdate (ms ++ [x])) H1) as (q0 & p' & E0 & R).
    { apply Forall_app. split; [exact U1|]. apply Forall_map. exact Hm. }
    { apply U2, morderly_updates'. }
    assert (q0 = p0) by congruence. subst q0. pose proof R as R'. rewrite E, mac_run_app, H6 in R. cbn [bind mac_run mac_step] in R.
    destruct (mapie_update cx M p x) as [q|] eqn:Eu; [|discriminate]. cbn [bind] in R. assert (q = p') by congruence. subst q.
    exists p'. split; [reflexivity|]. exists k0, calls, (ms ++ [x]), p0, (mexpected T k0 [] (calls ++ map MUpdate (ms ++ [x]))).
    split; [exact H1|]. split; [exact (conj U1 (conj U2 U3))|]. split; [exact Hm|].
    split; [rewrite concat_app, H4; cbn [concat]; rewrite app_nil_r; reflexivity|]. split; [exact H5|exact R'].
  Qed.
  Lemma mfed_digest key m p junk : mfed key m p -> chunk key -> chunk m -> bytes junk -> length junk = ma_digest_size M ->
    exists p', mapie_digest_static cx M p junk = Some (p', T key m) /\ mused p'.
  Proof.
    intros (k0 & calls & ms & p0 & outs & H1 & (U1 & U2 & U3) & H3 & H4 & H5 & H6) Hk Hm Hj Lj.
    set (c := MDigestC (Static junk) (length junk)).
    assert (E : calls ++ (map MUpdate ms ++ [c]) = (calls ++ map MUpdate ms) ++ [c]) by (rewrite <- app_assoc; reflexivity).
    assert (K1 : Forall ok (calls ++ (map MUpdate ms ++ [c]))).
    { apply Forall_app. split; [exact U1|]. apply Forall_app. split; [apply Forall_map; exact H3|]. constructor; [exact Hj|constructor]. }
    assert (K2 : morderly false (calls ++ (map MUpdate ms ++ [c])) = true) by (apply U2, morderly_updates).
    destruct (proj2 HC k0 _ H1 K1 K2) as (q0 & p' & E0 & R). assert (q0 = p0) by congruence. subst q0.
    destruct (U3 (map MUpdate ms ++ [c])) as (x & X). rewrite mexpected_updates in X. cbn [app] in X. rewrite H4 in X.
    pose proof R as R'. rewrite X, E in R. rewrite mac_run_app, H6 in R. cbn [bind mac_run] in R.
    change (mexpected T key m [c]) with [mprefix (T key m) c] in R.
    unfold mapie_digest_static. unfold c in R at 1. cbn [mac_step] in R.
    destruct (mapie_digest_c cx M p (Static junk) (length junk)) as [[[q d] n]|]; [|discriminate]. cbn [bind] in R |- *.
    assert (q = p') by congruence. subst q.
    assert (Y : outs ++ [ODigestC d n] = (x ++ map (fun _ : list N => ONone) ms) ++ [mprefix (T key m) c]) by (rewrite <- app_assoc; congruence).
    apply app_inj_tail in Y. destruct Y as [_ Y].
    exists p'. split; [|right; exists k0, (calls ++ (map MUpdate ms ++ [c])), p0, (mexpected T k0 [] (calls ++ (map MUpdate ms ++ [c]))); auto].
    f_equal. f_equal.
    assert (D : d = Static (firstn (Nat.min (Nat.min (length junk) (length (T key m))) (length junk)) (T key m) ++ skipn (Nat.min (Nat.min (length junk) (length (T key m))) (length junk)) junk)) by (unfold c in Y; cbn [mprefix hprefix] in Y; congruence).
    rewrite D. cbn [cdata]. rewrite (proj1 HC key m Hk Hm), Lj, !Nat.min_id. rewrite firstn_all2 by (rewrite (proj1 HC key m Hk Hm); lia). rewrite skipn_all2 by lia. apply app_nil_r.
  Qed.
  Lemma mac_feed_spec input key_size upd p : bytes input -> N.of_nat (length input) < 2 ^ 64 -> (1 <= upd)%nat -> mused p ->
    exists p', mac_feed cx M input key_size upd p = Some p' /\ mfed (firstn key_size input) input p'.
  Proof.
    intros Hb Hl Hu U. unfold mac_feed. unfold rds at 1. destruct (Nat.leb_spec (0 + Nat.min key_size (length input)) (length input)); [|lia]. cbn [bind].
    change (skipn 0 input) with input.
    replace (firstn (Nat.min key_size (length input)) input) with (firstn key_size input).
    2:{ destruct (Nat.min_spec key_size (length input)) as [[? ->]|[? ->]]; [reflexivity|]. rewrite firstn_all. apply firstn_all2. lia. }
    assert (Hk : chunk (firstn key_size input)) by (split; [apply bytes_firstn, Hb|rewrite firstn_length; lia]).
    destruct (mused_init p _ Hk U) as (p1 & E1 & Q1). rewrite E1. cbn [bind].
    destruct (update_loop_spec (fun p offs n => m <- rds input offs n ;; mapie_update cx M p m) (fun pos p => mfed (firstn key_size input) (firstn pos input) p)
                (length input) upd p1 Hu) as (p' & E & Q).
    - intros q offs n Hq Ho Hn. unfold rds. destruct (Nat.leb_spec (offs + n) (length input)); [|lia]. cbn [bind].
      destruct (mfed_update _ _ q (firstn n (skipn offs input)) Hq) as (q' & E & Q).
      + split; [apply bytes_firstn, bytes_skipn, Hb|]. rewrite firstn_length, skipn_length. lia.
      + exists q'. split; [exact E|]. rewrite slice_step in Q. exact Q.
    - exact Q1.
    - exists p'. split; [exact E|]. rewrite firstn_all in Q. exact Q.
  Qed.
End Mac.

Lemma mac_differential_spec cx M0 M1 T0 T1 fin junk size steps : mcomputes cx M0 T0 -> mcomputes cx M1 T1 ->
  ma_digest_size M0 = ma_digest_size M1 -> bytes junk -> length junk = ma_digest_size M0 -> N.of_nat size < 2 ^ 64 -> (passes size 3 <= steps)%nat ->
  exists v, mac_differential_size cx M0 M1 fin junk size steps = Some v /\
    (v = true <-> forall i k, (i < size)%nat -> (k < passes size 3)%nat ->
       T0 (firstn (3 * k) (sample size i)) (sample size i) = T1 (firstn (3 * k) (sample size i)) (sample size i)).
Proof.
  intros C0 C1 Ed Hj Lj Hs Hst. unfold mac_differential_size. rewrite <- sample_0.
  set (bk := fun i k => same_bytes (T0 (firstn (3 * k) (sample size i)) (sample size i)) (T1 (firstn (3 * k) (sample size i)) (sample size i))).
  set (b := fun i => forallb (bk i) (seq 0 (passes size 3))).
  match goal with |- exists v, input_loop ?p _ _ _ _ = _ /\ _ => set (pass := p) end.
  destruct (input_loop_spec pass (fun s => mused cx M0 (fst s) /\ mused cx M1 (snd s)) b size)
    with (n := size) (i := 0%nat) (s := ({| mp_impl := ma_new M0; mp_finalized := fin |}, {| mp_impl := ma_new M1; mp_finalized := fin |})) as (v & E & V);
    [|lia|split; left; reflexivity|exists v; split; [exact E|]].
  2:{ rewrite V. unfold b. split.
      - intros H i k Hi Hk. specialize (H i ltac:(lia)). rewrite forallb_forall in H. apply same_bytes_spec. apply (H k). apply in_seq. lia.
      - intros H i Hi. apply forallb_forall. intros k Hk. apply in_seq in Hk. apply same_bytes_spec, H; lia. }
  intros [p0 p1] i Hi [I0 I1]. cbn [fst snd] in I0, I1. unfold pass. clear pass.
  assert (Hc : chunk (sample size i)) by (split; [apply sample_bytes|rewrite sample_length; exact Hs]).
  match goal with |- exists s', bind (size_loop ?bd _ _ _ _ _ _) _ = _ /\ _ => set (body := bd) end.
  destruct (size_loop_spec body size 3 (fun (k : nat) s => mused cx M0 (fst (fst s)) /\ mused cx M1 (snd (fst s)) /\ snd s = (3 * k)%nat) (bk i) (passes size 3))
    with (r := passes size 3) (k := 0%nat) (s := (p0, p1, 0%nat)) (steps := steps) as (s' & k' & v & E & Q & V);
    [intros k Hk; apply passes_in; [lia|exact Hk]|apply passes_out; lia| |lia|exact Hst|exact (conj I0 (conj I1 eq_refl))|].
  - intros k [[q0 q1] ks] Hk (U0 & U1 & Ek). cbn [fst snd] in U0, U1, Ek. subst ks.
    assert (Hkey : chunk (firstn (3 * k) (sample size i))) by (split; [apply bytes_firstn, sample_bytes|rewrite firstn_length, sample_length; lia]).
    destruct (mac_feed_spec cx M0 T0 C0 (sample size i) (3 * k) (1 + 3 * ((k + 1) / 2)) q0 (sample_bytes _ _) ltac:(rewrite sample_length; exact Hs) ltac:(lia) U0) as (r0 & E0 & Q0).
    destruct (mac_feed_spec cx M1 T1 C1 (sample size i) (3 * k) (1 + 3 * (k / 2)) q1 (sample_bytes _ _) ltac:(rewrite sample_length; exact Hs) ltac:(lia) U1) as (r1 & E1 & Q1).
    destruct (mfed_digest cx M0 T0 C0 _ _ r0 junk Q0 Hkey Hc Hj Lj) as (t0 & D0 & W0).
    destruct (mfed_digest cx M1 T1 C1 _ _ r1 junk Q1 Hkey Hc Hj ltac:(congruence)) as (t1 & D1 & W1).
    exists (t0, t1, (3 * k + 3)%nat). split; [|split; [exact W0|split; [exact W1|cbn [snd]; lia]]].
    unfold body. rewrite E0. cbn [bind]. rewrite E1. cbn [bind]. rewrite D0. cbn [bind]. rewrite D1. reflexivity.
  - destruct s' as [[t0 t1] ks]. destruct Q as (W0 & W1 & _). exists (t0, t1). split; [|exact (conj W0 W1)].
    assert (Vb : v = b i).
    { apply eq_true_iff_eq. rewrite V. unfold b. rewrite forallb_forall. split; intros H k Hk; apply H; [apply in_seq in Hk; lia|apply in_seq; lia]. }
    rewrite <- Vb.
    match type of E with ?l = _ => match goal with |- bind ?l' _ = _ => change l' with l end end. rewrite E. reflexivity.
Qed.
