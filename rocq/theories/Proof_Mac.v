(** mac/apie.h over any MAC class that meets a few conditions. *)
From Verif Require Import Base BaseLemmas Model_Memory Model_Update Model_Container Model_Sha Model_Mac Spec_Hash Spec_Mac
  Proof_Sha Proof_ShaApi.
Local Open Scope N_scope.

(** Conditions on a class: [eqv] relates indistinguishable objects (an object related to itself is well
    formed), [hold k m] objects keyed with [k] that absorbed [m], [out] is what [digest] exposes. *)
Record mac_ok (M : mac_alg) (cx : ctx) (keyok : list N -> Prop) (T : list N -> list N -> list N)
  (eqv : ma_obj M -> ma_obj M -> Prop) (hold : list N -> list N -> ma_obj M -> Prop)
  (out : ma_obj M -> list N) : Prop := {
  mo_new : eqv (ma_new M) (ma_new M);
  mo_init : forall o1 o2 k, eqv o1 o1 -> eqv o2 o2 -> keyok k ->
    exists o1' o2', ma_initialize M cx o1 k = Some o1' /\ ma_initialize M cx o2 k = Some o2' /\
      eqv o1' o2' /\ hold k [] o1';
  mo_upd : forall o1 o2 m, eqv o1 o2 -> chunk m ->
    exists o1' o2', ma_update M cx o1 m = Some o1' /\ ma_update M cx o2 m = Some o2' /\ eqv o1' o2';
  mo_updh : forall k m o x o', hold k m o -> chunk x -> ma_update M cx o x = Some o' -> hold k (m ++ x) o';
  mo_fin : forall o1 o2, eqv o1 o2 ->
    exists o1' o2', ma_finalize M cx o1 = Some o1' /\ ma_finalize M cx o2 = Some o2' /\ eqv o1' o2';
  mo_finh : forall k m o o', hold k m o -> ma_finalize M cx o = Some o' ->
    firstn (ma_digest_size M) (out o') = T k m;
  mo_hold : forall k m o, hold k m o -> eqv o o;
  mo_l : forall o1 o2, eqv o1 o2 -> eqv o1 o1 /\ eqv o2 o2;
  mo_out : forall o1 o2, eqv o1 o2 -> out o1 = out o2;
  mo_len : forall o, eqv o o -> (ma_digest_size M <= length (out o))%nat;
  mo_dig : forall o dst size, eqv o o -> bytes dst -> (Nat.min size (ma_digest_size M) <= length dst)%nat ->
    ma_digest M cx o dst size
    = Some (firstn (Nat.min size (ma_digest_size M)) (out o) ++ skipn (Nat.min size (ma_digest_size M)) dst,
            Nat.min size (ma_digest_size M))
}.

Section Mac.
  Context {M : mac_alg} {cx : ctx} {keyok : list N -> Prop} {T : list N -> list N -> list N}
    {eqv : ma_obj M -> ma_obj M -> Prop} {hold : list N -> list N -> ma_obj M -> Prop}
    {out : ma_obj M -> list N} (OK : mac_ok M cx keyok T eqv hold out).
  Let dsz := ma_digest_size M.

  Definition maeq (p1 p2 : mac_apie M) : Prop :=
    eqv (mp_impl p1) (mp_impl p2) /\ mp_finalized p1 = mp_finalized p2.
  Definition mawf (p : mac_apie M) : Prop := eqv (mp_impl p) (mp_impl p).

  Lemma maeq_refl p : mawf p -> maeq p p.
  Proof. intros H. split; [exact H|reflexivity]. Qed.

  Inductive mholds (k m : list N) : mac_apie M -> Prop :=
  | mh_open o : hold k m o -> mholds k m {| mp_impl := o; mp_finalized := false |}
  | mh_final o : eqv o o -> firstn dsz (out o) = T k m -> mholds k m {| mp_impl := o; mp_finalized := true |}.

  Lemma mholds_wf k m p : mholds k m p -> mawf p.
  Proof. intros [o H|o H _]; [exact (mo_hold _ _ _ _ _ _ _ OK k m o H)|exact H]. Qed.

  Lemma maeq_init p1 p2 k : mawf p1 -> mawf p2 -> keyok k ->
    exists p1' p2', mapie_initialize cx M p1 k = Some p1' /\ mapie_initialize cx M p2 k = Some p2' /\
      maeq p1' p2' /\ mholds k [] p1' /\ mp_finalized p1' = false.
  Proof.
    intros H1 H2 Hk. destruct (mo_init _ _ _ _ _ _ _ OK _ _ k H1 H2 Hk) as (o1 & o2 & E1 & E2 & E & H).
    unfold mapie_initialize. rewrite E1, E2. cbn [bind]. do 2 eexists. split; [reflexivity|]. split; [reflexivity|].
    split; [split; [exact E|reflexivity]|]. split; [apply mh_open; exact H|reflexivity].
  Qed.

  Lemma maeq_update p1 p2 m : maeq p1 p2 -> chunk m ->
    exists p1' p2', mapie_update cx M p1 m = Some p1' /\ mapie_update cx M p2 m = Some p2' /\ maeq p1' p2'.
  Proof.
    intros [H F] Hm. destruct (mo_upd _ _ _ _ _ _ _ OK _ _ m H Hm) as (o1 & o2 & E1 & E2 & E).
    unfold mapie_update. rewrite E1, E2. cbn [bind]. do 2 eexists. split; [reflexivity|]. split; [reflexivity|].
    split; [exact E|exact F].
  Qed.

  Lemma mholds_update k m p x : mholds k m p -> mp_finalized p = false -> chunk x ->
    exists p', mapie_update cx M p x = Some p' /\ mholds k (m ++ x) p' /\ mp_finalized p' = false.
  Proof.
    intros H F Hx. destruct H as [o H|o H _]; [|discriminate F].
    destruct (mo_upd _ _ _ _ _ _ _ OK o o x (mo_hold _ _ _ _ _ _ _ OK k m o H) Hx) as (o1 & o2 & E1 & _ & _).
    unfold mapie_update. cbn [mp_impl]. rewrite E1. cbn [bind]. eexists. split; [reflexivity|].
    split; [apply mh_open; exact (mo_updh _ _ _ _ _ _ _ OK k m o x o1 H Hx E1)|reflexivity].
  Qed.

  Lemma maeq_do_finalize p1 p2 : maeq p1 p2 ->
    exists p1' p2', mapie_do_finalize cx M p1 = Some p1' /\ mapie_do_finalize cx M p2 = Some p2' /\
      maeq p1' p2' /\ mp_finalized p1' = true.
  Proof.
    intros [H Hf]. unfold mapie_do_finalize. rewrite <- Hf. destruct (mp_finalized p1) eqn:F.
    - do 2 eexists. split; [reflexivity|]. split; [reflexivity|]. split; [split; [assumption|congruence]|assumption].
    - destruct (mo_fin _ _ _ _ _ _ _ OK _ _ H) as (o1 & o2 & E1 & E2 & H'). rewrite E1, E2. cbn [bind].
      do 2 eexists. split; [reflexivity|]. split; [reflexivity|]. split; [split; [exact H'|reflexivity]|reflexivity].
  Qed.

  Lemma mholds_finalize k m p p' : mholds k m p -> mapie_do_finalize cx M p = Some p' ->
    mholds k m p' /\ firstn dsz (out (mp_impl p')) = T k m.
  Proof.
    intros H E. unfold mapie_do_finalize in E. destruct H as [o H|o H S]; cbn [mp_finalized mp_impl] in E.
    - destruct (mo_fin _ _ _ _ _ _ _ OK o o (mo_hold _ _ _ _ _ _ _ OK k m o H)) as (o1 & o2 & E1 & _ & E').
      rewrite E1 in E. injection E as <-. cbn [mp_impl].
      assert (S : firstn dsz (out o1) = T k m) by exact (mo_finh _ _ _ _ _ _ _ OK k m o o1 H E1).
      split; [|exact S]. apply mh_final; [|exact S]. apply (mo_l _ _ _ _ _ _ _ OK _ _ E').
    - injection E as <-. split; [apply mh_final; assumption|exact S].
  Qed.

  Lemma mfinal_idem p : mp_finalized p = true -> mapie_do_finalize cx M p = Some p.
  Proof. intros H. unfold mapie_do_finalize. rewrite H. reflexivity. Qed.

  Definition mout (p : mac_apie M) : list N := out (mp_impl p).

  Lemma mdigest_closed p d s : mawf p -> mp_finalized p = true ->
    bytes d -> (Nat.min s dsz <= length d)%nat ->
    mapie_digest cx M p d s
    = Some (p, firstn (Nat.min s dsz) (mout p) ++ skipn (Nat.min s dsz) d, Nat.min s dsz).
  Proof.
    intros W F Hd Hl. unfold mapie_digest. rewrite mfinal_idem by assumption. cbn [bind].
    rewrite (mo_dig _ _ _ _ _ _ _ OK) by assumption. reflexivity.
  Qed.

  Lemma mdigest_c_closed p c s : mawf p -> mp_finalized p = true -> bytes (cdata c) ->
    let n := match c with Dynamic _ => Nat.min s dsz | Static l => Nat.min (Nat.min s dsz) (length l) end in
    mapie_digest_c cx M p c s
    = Some (p, cset c (firstn n (mout p) ++ match c with Dynamic _ => [] | Static l => skipn n l end), n).
  Proof.
    intros W F Hc n. unfold mapie_digest_c. rewrite mfinal_idem by assumption. cbn [bind]. fold dsz.
    destruct c as [l|l]; cbn [cresize cdata cset] in *.
    - rewrite mdigest_closed; [|assumption|assumption|apply bytes_resize; assumption|rewrite resize_length; lia].
      cbn [bind]. rewrite (Nat.min_l _ dsz) by lia.
      rewrite (skipn_all2 (resize_list _ _)) by (rewrite resize_length; lia). reflexivity.
    - rewrite mdigest_closed; [|assumption|assumption|assumption|lia].
      cbn [bind]. rewrite (Nat.min_l _ dsz) by lia. reflexivity.
  Qed.

  Lemma mdigest_split p d s :
    mapie_digest cx M p d s = (q <- mapie_do_finalize cx M p ;; mapie_digest cx M q d s).
  Proof.
    unfold mapie_digest, mapie_do_finalize. destruct (mp_finalized p) eqn:F; cbn [bind]; [rewrite F; reflexivity|].
    destruct (ma_finalize M cx (mp_impl p)); reflexivity.
  Qed.
  Lemma mdigest_c_split p c s :
    mapie_digest_c cx M p c s = (q <- mapie_do_finalize cx M p ;; mapie_digest_c cx M q c s).
  Proof.
    unfold mapie_digest_c, mapie_do_finalize. destruct (mp_finalized p) eqn:F; cbn [bind]; [rewrite F; reflexivity|].
    destruct (ma_finalize M cx (mp_impl p)); reflexivity.
  Qed.

  Lemma maeq_wf p1 p2 : maeq p1 p2 -> mawf p1 /\ mawf p2.
  Proof. intros [H _]. exact (mo_l _ _ _ _ _ _ _ OK _ _ H). Qed.
  Lemma maeq_out p1 p2 : maeq p1 p2 -> mout p1 = mout p2.
  Proof. intros [H _]. exact (mo_out _ _ _ _ _ _ _ OK _ _ H). Qed.

  Lemma mclosed_step p c : mawf p -> mp_finalized p = true -> mis_digest c -> mcall_ok keyok dsz c ->
    mac_step cx M p c = Some (p, mprefix (firstn dsz (mout p)) c).
  Proof.
    intros W F Hd Hc.
    assert (L : length (firstn dsz (mout p)) = dsz).
    { rewrite firstn_length. pose proof (mo_len _ _ _ _ _ _ _ OK _ W) as HL. fold dsz in HL. unfold mout. lia. }
    destruct c as [k|m|d s|c s]; try destruct Hd; cbn [mac_step mcall_ok] in *.
    - destruct Hc. rewrite mdigest_closed by assumption. cbn [bind mprefix hprefix].
      rewrite L, firstn_firstn. reflexivity.
    - rewrite mdigest_c_closed by assumption. cbn [bind]. destruct c as [l|l]; cbn [mprefix hprefix cset]; rewrite L.
      + rewrite firstn_firstn, app_nil_r. reflexivity.
      + cbv zeta. rewrite firstn_firstn. do 4 f_equal. f_equal. f_equal. lia.
  Qed.

  Lemma mopen_step p c : mawf p -> mis_digest c -> mcall_ok keyok dsz c ->
    exists q, mapie_do_finalize cx M p = Some q /\ mawf q /\ mp_finalized q = true /\
      mac_step cx M p c = Some (q, mprefix (firstn dsz (mout q)) c).
  Proof.
    intros W Hd Hc. destruct (maeq_do_finalize p p (maeq_refl p W)) as (q & q' & E & _ & H' & F).
    exists q. split; [exact E|]. destruct (maeq_wf _ _ H') as [Wq _]. split; [exact Wq|]. split; [exact F|].
    rewrite <- (mclosed_step q c Wq F Hd Hc).
    destruct c as [k|m|d s|c s]; try destruct Hd; cbn [mac_step].
    - rewrite mdigest_split, E. reflexivity.
    - rewrite mdigest_c_split, E. reflexivity.
  Qed.

  Lemma maeq_digest p1 p2 c : maeq p1 p2 -> mis_digest c -> mcall_ok keyok dsz c ->
    exists p1' p2' o, mac_step cx M p1 c = Some (p1', o) /\ mac_step cx M p2 c = Some (p2', o) /\ maeq p1' p2'.
  Proof.
    intros H Hd Hc. destruct (maeq_wf _ _ H) as [W1 W2].
    destruct (mopen_step p1 c W1 Hd Hc) as (q1 & E1 & Wq1 & F1 & S1).
    destruct (mopen_step p2 c W2 Hd Hc) as (q2 & E2 & Wq2 & F2 & S2).
    destruct (maeq_do_finalize p1 p2 H) as (r1 & r2 & R1 & R2 & R & _).
    assert (r1 = q1) by congruence. assert (r2 = q2) by congruence. subst.
    rewrite (maeq_out _ _ R) in S1. exists q1, q2. eexists. split; [exact S1|]. split; [exact S2|exact R].
  Qed.

  Lemma maeq_step p1 p2 c : maeq p1 p2 -> mcall_ok keyok dsz c ->
    exists p1' p2' o, mac_step cx M p1 c = Some (p1', o) /\ mac_step cx M p2 c = Some (p2', o) /\ maeq p1' p2'.
  Proof.
    intros H Hc. destruct (maeq_wf _ _ H) as [W1 W2].
    destruct c as [k|m|d s|c s].
    - destruct (maeq_init p1 p2 k W1 W2 Hc) as (q1 & q2 & E1 & E2 & E & _). cbn [mac_step]. rewrite E1, E2.
      cbn [bind]. exists q1, q2, ONone. auto.
    - destruct (maeq_update p1 p2 m H Hc) as (q1 & q2 & E1 & E2 & E). cbn [mac_step]. rewrite E1, E2.
      cbn [bind]. exists q1, q2, ONone. auto.
    - apply maeq_digest; [assumption|exact I|assumption].
    - apply maeq_digest; [assumption|exact I|assumption].
  Qed.

  Lemma maeq_run : forall calls p1 p2, maeq p1 p2 -> Forall (mcall_ok keyok dsz) calls ->
    exists p1' p2' os, mac_run cx M p1 calls = Some (p1', os) /\ mac_run cx M p2 calls = Some (p2', os) /\
      maeq p1' p2'.
  Proof.
    induction calls as [|c calls IH]; intros p1 p2 H Hc.
    - exists p1, p2, []. auto.
    - inversion Hc as [|? ? Hc1 Hc2]; subst.
      destruct (maeq_step p1 p2 c H Hc1) as (q1 & q2 & o & E1 & E2 & H').
      destruct (IH q1 q2 H' Hc2) as (r1 & r2 & os & F1 & F2 & H'').
      cbn [mac_run]. rewrite E1, E2. cbn [bind]. rewrite F1, F2. cbn [bind].
      exists r1, r2, (o :: os). auto.
  Qed.

  Lemma mnew k : keyok k -> exists p, mapie_new cx M k = Some p /\ mholds k [] p /\ mp_finalized p = false.
  Proof.
    intros Hk. unfold mapie_new.
    destruct (maeq_init {| mp_impl := ma_new M; mp_finalized := false |}
                {| mp_impl := ma_new M; mp_finalized := false |} k) as (p & _ & E & _ & _ & H & F);
      [exact (mo_new _ _ _ _ _ _ _ OK)|exact (mo_new _ _ _ _ _ _ _ OK)|assumption|].
    exists p. auto.
  Qed.

  (** C20 *)
  Lemma mrun_total k calls : keyok k -> Forall (mcall_ok keyok dsz) calls ->
    exists p r, mapie_new cx M k = Some p /\ mac_run cx M p calls = Some r /\ mawf (fst r).
  Proof.
    intros Hk Hc. destruct (mnew k Hk) as (p & E & H & _). pose proof (mholds_wf k [] p H) as W.
    destruct (maeq_run calls p p (maeq_refl p W) Hc) as (p1 & p2 & os & R & _ & H').
    exists p, (p1, os). split; [exact E|]. split; [exact R|]. exact (proj1 (maeq_wf _ _ H')).
  Qed.

  (** C19 *)
  Lemma mrun_init k before k' later : keyok k -> keyok k' ->
    Forall (mcall_ok keyok dsz) before -> Forall (mcall_ok keyok dsz) later ->
    exists p p1 outs0 p2 p3 p4 p5 outs,
      mapie_new cx M k = Some p /\ mac_run cx M p before = Some (p1, outs0) /\
      mapie_initialize cx M p1 k' = Some p2 /\ mac_run cx M p2 later = Some (p3, outs) /\
      mapie_new cx M k' = Some p4 /\ mac_run cx M p4 later = Some (p5, outs).
  Proof.
    intros Hk Hk' Hb Hl. destruct (mrun_total k before Hk Hb) as (p & [p1 os0] & E & R & W). cbn [fst] in W.
    destruct (maeq_init p1 {| mp_impl := ma_new M; mp_finalized := false |} k' W) as (p2 & p4 & E2 & E4 & H & _);
      [exact (mo_new _ _ _ _ _ _ _ OK)|assumption|].
    destruct (maeq_run later p2 p4 H Hl) as (p3 & p5 & os & R3 & R5 & _).
    exists p, p1, os0, p2, p3, p4, p5, os. repeat split; assumption.
  Qed.

  (** C18 *)
  Lemma mclosed_run : forall calls p, mawf p -> mp_finalized p = true ->
    Forall mis_digest calls -> Forall (mcall_ok keyok dsz) calls ->
    mac_run cx M p calls = Some (p, map (mprefix (firstn dsz (mout p))) calls).
  Proof.
    induction calls as [|c calls IH]; intros p W F Hd Hc; [reflexivity|].
    inversion Hd; subst. inversion Hc; subst. cbn [mac_run].
    rewrite mclosed_step by assumption. cbn [bind]. rewrite IH by assumption. reflexivity.
  Qed.

  Lemma mdigests_after k before calls : keyok k -> Forall (mcall_ok keyok dsz) before ->
    Forall mis_digest calls -> Forall (mcall_ok keyok dsz) calls ->
    exists p p1 outs D p2, mapie_new cx M k = Some p /\ mac_run cx M p before = Some (p1, outs) /\
      length D = dsz /\ mac_run cx M p1 calls = Some (p2, map (mprefix D) calls).
  Proof.
    intros Hk Hb Hd Hc. destruct (mrun_total k before Hk Hb) as (p & [p1 os0] & E & R & W). cbn [fst] in W.
    destruct calls as [|c calls].
    - exists p, p1, os0, (firstn dsz (mout p1)), p1. split; [exact E|]. split; [exact R|]. split; [|reflexivity].
      rewrite firstn_length. pose proof (mo_len _ _ _ _ _ _ _ OK _ W) as HL. fold dsz in HL. unfold mout. lia.
    - inversion Hd; subst. inversion Hc; subst.
      destruct (mopen_step p1 c W) as (q & Eq & Wq & F & Es); try assumption.
      exists p, p1, os0, (firstn dsz (mout q)), q. split; [exact E|]. split; [exact R|]. split.
      + rewrite firstn_length. pose proof (mo_len _ _ _ _ _ _ _ OK _ Wq) as HL. fold dsz in HL. unfold mout. lia.
      + cbn [mac_run]. rewrite Es. cbn [bind]. rewrite mclosed_run by assumption. reflexivity.
  Qed.

  (** C46 *)
  Lemma morderly_run : forall calls k m p, mholds k m p -> Forall (mcall_ok keyok dsz) calls ->
    morderly (mp_finalized p) calls = true ->
    exists p', mac_run cx M p calls = Some (p', mexpected T k m calls).
  Proof.
    induction calls as [|c calls IH]; intros k m p H Hc Ho; [exists p; reflexivity|].
    inversion Hc as [|? ? Hc1 Hc2]; subst. cbn [mac_run]. pose proof (mholds_wf k m p H) as W.
    assert (Dg : mis_digest c -> morderly true calls = true ->
      exists p', ('(p0, o) <- mac_step cx M p c;; '(p1, os) <- mac_run cx M p0 calls;; Some (p1, o :: os))
        = Some (p', mprefix (T k m) c :: mexpected T k m calls)).
    { intros Hd Ho'. destruct (mopen_step p c W Hd Hc1) as (q & E & Wq & F & Es).
      destruct (mholds_finalize k m p q H E) as [H' S].
      destruct (IH k m q H' Hc2) as (r & Er); [rewrite F; assumption|].
      rewrite Es. cbn [bind]. rewrite Er. cbn [bind]. exists r. unfold mout. rewrite S. reflexivity. }
    destruct c as [k'|x|d s|c s]; cbn [morderly mexpected] in *.
    - destruct (maeq_init p p k' W W Hc1) as (q & q0 & E & _ & _ & H' & F). cbn [mac_step]. rewrite E. cbn [bind].
      destruct (IH k' [] q H' Hc2) as (r & Er); [rewrite F; assumption|].
      rewrite Er. cbn [bind]. exists r. reflexivity.
    - apply andb_true_iff in Ho. destruct Ho as [F Ho]. apply negb_true_iff in F.
      destruct (mholds_update k m p x H F Hc1) as (q & E & H' & F'). cbn [mac_step]. rewrite E. cbn [bind].
      destruct (IH k (m ++ x) q H' Hc2) as (r & Er); [rewrite F', <- F; assumption|].
      rewrite Er. cbn [bind]. exists r. reflexivity.
    - apply Dg; [exact I|exact Ho].
    - apply Dg; [exact I|exact Ho].
  Qed.

  Lemma morderly_new k calls : keyok k -> Forall (mcall_ok keyok dsz) calls -> morderly false calls = true ->
    exists p p', mapie_new cx M k = Some p /\ mac_run cx M p calls = Some (p', mexpected T k [] calls).
  Proof.
    intros Hk Hc Ho. destruct (mnew k Hk) as (p & E & H & F).
    destruct (morderly_run calls k [] p H Hc) as (p' & R); [rewrite F; assumption|]. exists p, p'. auto.
  Qed.

  (** Values *)
  Lemma mstream_holds : forall ms k m p, mholds k m p -> mp_finalized p = false -> Forall chunk ms ->
    exists p', foldM (mapie_update cx M) ms p = Some p' /\ mholds k (m ++ concat ms) p'.
  Proof.
    induction ms as [|x ms IH]; intros k m p H F Hc.
    - exists p. rewrite app_nil_r. auto.
    - inversion Hc as [|? ? Hx Hc2]; subst. cbn [foldM concat].
      destruct (mholds_update k m p x H F Hx) as (q & E & H' & F'). rewrite E. cbn [bind].
      destruct (IH k (m ++ x) q H' F' Hc2) as (r & E2 & H2). exists r. rewrite <- app_assoc in H2. auto.
  Qed.

  Lemma mholds_returns k m p : mholds k m p -> forall D, D = T k m -> length D = dsz ->
    (forall dst size, bytes dst -> (Nat.min size (length D) <= length dst)%nat ->
       exists p', mapie_digest cx M p dst size
         = Some (p', firstn size D ++ skipn (Nat.min size (length D)) dst, Nat.min size (length D))) /\
    (forall l size, bytes l ->
       exists p', mapie_digest_c cx M p (Dynamic l) size
         = Some (p', Dynamic (firstn size D), Nat.min size (length D))) /\
    (forall l size, bytes l ->
       let n := Nat.min (Nat.min size (length D)) (length l) in
       exists p', mapie_digest_c cx M p (Static l) size = Some (p', Static (firstn n D ++ skipn n l), n)) /\
    (forall size, exists p', mapie_digest_new cx M p size = Some (p', firstn size D)) /\
    (forall junk, bytes junk ->
       exists p', mapie_digest_static cx M p junk
         = Some (p', firstn (length junk) D ++ skipn (length D) junk)).
  Proof.
    intros H D -> L. pose proof (mholds_wf k m p H) as W.
    destruct (maeq_do_finalize p p (maeq_refl p W)) as (q & q0 & E & _ & H' & F).
    destruct (maeq_wf _ _ H') as [Wq _].
    destruct (mholds_finalize k m p q H E) as [_ S].
    assert (Hn : forall n, (n <= dsz)%nat -> firstn n (mout q) = firstn n (T k m)).
    { intros n Hn. rewrite <- S, firstn_firstn, Nat.min_l by assumption. reflexivity. }
    assert (P : forall dst size, bytes dst -> (Nat.min size dsz <= length dst)%nat ->
      exists p', mapie_digest cx M p dst size
        = Some (p', firstn size (T k m) ++ skipn (Nat.min size dsz) dst, Nat.min size dsz)).
    { intros dst size Hb Hl. exists q. rewrite mdigest_split, E. cbn [bind].
      rewrite mdigest_closed by assumption. rewrite Hn by lia.
      rewrite <- (firstn_firstn (T k m) size dsz), (firstn_all2 (T k m)) by lia. reflexivity. }
    assert (Dn : forall l size, bytes l -> exists p', mapie_digest_c cx M p (Dynamic l) size
      = Some (p', Dynamic (firstn size (T k m)), Nat.min size dsz)).
    { intros l size Hb. exists q. rewrite mdigest_c_split, E. cbn [bind].
      rewrite mdigest_c_closed by assumption. cbv zeta. rewrite Hn by lia. rewrite app_nil_r. cbn [cset].
      rewrite <- (firstn_firstn (T k m) size dsz), (firstn_all2 (T k m)) by lia. reflexivity. }
    assert (St : forall l size, bytes l ->
      let n := Nat.min (Nat.min size dsz) (length l) in
      exists p', mapie_digest_c cx M p (Static l) size = Some (p', Static (firstn n (T k m) ++ skipn n l), n)).
    { intros l size Hb n. exists q. rewrite mdigest_c_split, E. cbn [bind].
      rewrite mdigest_c_closed by assumption. cbv zeta. fold n. rewrite Hn by (unfold n; lia). reflexivity. }
    rewrite L. split; [exact P|]. split; [exact Dn|]. split; [exact St|]. split.
    - intros size. destruct (Dn [] size ltac:(constructor)) as (p' & E'). exists p'.
      unfold mapie_digest_new. rewrite E'. reflexivity.
    - intros junk Hj. destruct (St junk (length junk) Hj) as (p' & E'). exists p'.
      unfold mapie_digest_static. rewrite E'. cbn [bind cdata]. rewrite <- L.
      rewrite (min_static junk (T k m)) by reflexivity. reflexivity.
  Qed.

  Lemma T_length k m p : mholds k m p -> length (T k m) = dsz.
  Proof.
    intros H. pose proof (mholds_wf k m p H) as W.
    destruct (maeq_do_finalize p p (maeq_refl p W)) as (q & q0 & E & _ & H' & F).
    destruct (maeq_wf _ _ H') as [Wq _].
    destruct (mholds_finalize k m p q H E) as [_ <-]. rewrite firstn_length.
    pose proof (mo_len _ _ _ _ _ _ _ OK _ Wq) as HL. fold dsz in HL. lia.
  Qed.

  Lemma mstream_returns k ms : keyok k -> Forall chunk ms -> mreturns cx M k ms (T k (concat ms)).
  Proof.
    intros Hk Hc. destruct (mnew k Hk) as (p & E & H & F).
    destruct (mstream_holds ms k [] p H F Hc) as (q & Eq & Hq). cbn [app] in Hq.
    exists q. split; [unfold mac_stream; rewrite E; exact Eq|].
    apply (mholds_returns k (concat ms) q Hq); [reflexivity|]. exact (T_length _ _ _ Hq).
  Qed.

  Lemma mfree_all k m : keyok k -> chunk m -> mfree_returns cx M k m (T k m).
  Proof.
    intros Hk Hc. destruct (mstream_returns k [m] Hk ltac:(constructor; [assumption|constructor]))
      as (p & E & H1 & H2 & H3 & H4 & H5).
    unfold mac_stream in E. destruct (mapie_new cx M k) as [p0|] eqn:E0; [|discriminate E]. cbn [bind foldM] in E.
    destruct (mapie_update cx M p0 m) as [q|] eqn:U; [|discriminate E]. injection E as ->.
    cbn [concat] in *. rewrite app_nil_r in *.
    split; [|split; [|split; [|split]]].
    - intros dst size Hb Hl. unfold mac_free_digest. rewrite E0. cbn [bind]. rewrite U. cbn [bind].
      destruct (H1 dst size Hb Hl) as (p' & E). rewrite E. reflexivity.
    - intros l size Hb. unfold mac_free_digest_c. rewrite E0. cbn [bind]. rewrite U. cbn [bind].
      destruct (H2 l size Hb) as (p' & E). rewrite E. reflexivity.
    - intros l size Hb n. unfold mac_free_digest_c. rewrite E0. cbn [bind]. rewrite U. cbn [bind].
      destruct (H3 l size Hb) as (p' & E). unfold n. rewrite E. reflexivity.
    - intros size. unfold mac_free_digest_new. rewrite E0. cbn [bind]. rewrite U. cbn [bind].
      destruct (H4 size) as (p' & E). rewrite E. reflexivity.
    - intros junk Hb. unfold mac_free_digest_static. rewrite E0. cbn [bind]. rewrite U. cbn [bind].
      destruct (H5 junk Hb) as (p' & E). rewrite E. reflexivity.
  Qed.
End Mac.
