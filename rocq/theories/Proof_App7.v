(** The names of the model are those of the documentation. *)
From Verif Require Import Base BaseLemmas Model_AppNames Model_App Spec_App Spec_AppNames Spec_App2 Proof_App Proof_App2 Proof_App3 Proof_App4 Proof_App5 Proof_App6.
Local Open Scope N_scope.

Lemma offered_declared adv : all_offered adv = flat_map (declared adv) groups.
Proof. destruct adv; vm_compute; reflexivity. Qed.
Lemma kind_group k : In k kinds -> exists g, In g groups /\ (forall adv, offered adv k = declared adv g) /\ k_needs k = gr_parameters g /\ k_bytes k = gr_processed g.
Proof.
  intros H. unfold kinds in H. cbn [In] in H.
  destruct H as [<-|[<-|[<-|[<-|[<-|[<-|[<-|[]]]]]]]];
  [exists g_codec|exists g_hash|exists g_mac|exists g_kdf_hkdf|exists g_kdf_pbkdf_2|exists g_cipher|exists g_aead];
  (split; [unfold groups; cbn [In]; auto 10|]); (split; [intros []; vm_compute; reflexivity|]); split; vm_compute; reflexivity.
Qed.
Lemma needs_all : flat_map k_needs kinds = flat_map gr_parameters groups.
Proof. vm_compute. reflexivity. Qed.
Lemma kind_documented adv k m : In k kinds -> k <> k_mac -> In m (all_offered adv) -> (pattern_match_star (k_pattern k) m = Some true <-> In m (offered adv k)).
Proof.
  intros Hk Hn Hm. rewrite offered_declared in Hm.
  assert (W : exists g, In (k_pattern k, g) documented /\ offered adv k = declared adv g).
  { unfold kinds in Hk. cbn [In] in Hk.
    destruct Hk as [<-|[<-|[<-|[<-|[<-|[<-|[<-|[]]]]]]]];
    [exists g_codec|exists g_hash|contradiction (Hn eq_refl)|exists g_kdf_hkdf|exists g_kdf_pbkdf_2|exists g_cipher|exists g_aead];
    (split; [unfold documented; cbn [In]; auto 10|]); destruct adv; vm_compute; reflexivity. }
  destruct W as (g & Hd & ->). exact (documented_groups adv _ g m Hd Hm).
Qed.
Lemma parse_in a names : forall l n, parse a names = Ok l -> In n names -> forall v, parameter a n = Ok v -> In (n, v) l.
Proof.
  induction names as [|x names IH]; intros l n HP Hn v Hv; [destruct Hn|]. cbn [parse] in HP. destruct (parameter a x) as [w|e] eqn:E; [|discriminate].
  destruct (parse a names) as [l'|e] eqn:E'; [|discriminate]. assert (l = (x, w) :: l') by congruence. subst l. destruct Hn as [->|Hn].
  - left. congruence.
  - right. exact (IH l' n eq_refl Hn v Hv).
Qed.
Lemma config_inputs b clock o1 o2 o3 p o4 adv g m out n v : Forall optional o1 -> Forall optional o2 -> Forall optional o3 -> ~ prefix [45] p -> p <> s_list ->
  ~ In ([45; 45] ++ s_verbose) o1 -> (adv = true <-> In ([45; 45] ++ s_advanced) o1) ->
  In g groups -> In m (declared adv g) -> pattern_match_star p m = Some true -> the_run b clock o1 o2 o3 p o4 = Some (Exit0 out) ->
  In n (gr_parameters g) -> given o4 n v -> at_entry m out [s_config; s_input; n] (VUnsigned v).
Proof.
  intros F1 F2 F3 Hp Hl V A Hg Hm Hmat HR Hn G.
  destruct (run_entry b clock o1 o2 o3 p o4 adv g m out F1 F2 F3 Hp Hl V A Hg Hm Hmat HR) as (j & inputs & E & HP & R).
  exists j. split; [exact E|]. apply R. cbn [entry snd]. eapply r_key; [left; reflexivity|]. unfold config_of. eapply r_key; [right; left; reflexivity|].
  eapply r_key; [|apply r_here]. apply (in_map (fun e => (fst e, VUnsigned (snd e))) inputs (n, v)). apply (parse_in _ _ _ _ HP Hn).
  pose proof (given_parameter o4 [] (p ++ s__command) n v) as GP. rewrite app_nil_r in GP. apply GP; [|exact G].
  pose proof inputs_no_eq as NE. unfold no_eq in NE. rewrite Forall_forall in NE. apply NE. apply in_flat_map. exists g. split; assumption.
Qed.
Lemma config_warm b clock o1 o2 o3 p o4 adv g m out v : Forall optional o1 -> Forall optional o2 -> Forall optional o3 -> ~ prefix [45] p -> p <> s_list ->
  ~ In ([45; 45] ++ s_verbose) o1 -> (adv = true <-> In ([45; 45] ++ s_advanced) o1) ->
  In g groups -> In m (declared adv g) -> pattern_match_star p m = Some true -> the_run b clock o1 o2 o3 p o4 = Some (Exit0 out) ->
  given o2 s_repeats_warm v \/ (Forall (fun x => ~ begins s_repeats_warm x) o2 /\ v = 128) -> at_entry m out [s_config; s_benchmark; s_repeats_warm] (VUnsigned v).
Proof.
  intros F1 F2 F3 Hp Hl V A Hg Hm Hmat HR G.
  destruct (run_entry b clock o1 o2 o3 p o4 adv g m out F1 F2 F3 Hp Hl V A Hg Hm Hmat HR) as (j & inputs & E & HP & R).
  exists j. split; [exact E|]. apply R. cbn [entry snd]. eapply r_key; [left; reflexivity|]. unfold config_of. eapply r_key; [left; reflexivity|].
  eapply r_key; [|apply r_here]. left. f_equal. f_equal. unfold bopts, parameter_or. cbn [bo_repeats_warm]. destruct G as [G|[G ->]].
  - rewrite (given_parameter o2 ([s_primitive] ++ o3 ++ [p] ++ o4) _ s_repeats_warm v); [reflexivity|vm_compute; intuition discriminate|exact G].
  - rewrite parameter_missing; [reflexivity| |apply stops_word; discriminate].
    rewrite Forall_forall in *. intros x Hx. split; [apply F2; exact Hx|apply G; exact Hx].
Qed.
