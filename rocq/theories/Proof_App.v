(** The pattern matcher of the benchmark tool. *)
From Verif Require Import Base BaseLemmas Model_AppNames Model_App Spec_App.
Local Open Scope N_scope.

Lemma str_eqb_eq a : forall b, str_eqb a b = true <-> a = b.
Proof.
  induction a as [|x a IH]; intros [|y b]; cbn [str_eqb]; try (split; intros H; congruence).
  rewrite andb_true_iff, N.eqb_eq, IH. split; [intros [-> ->]; reflexivity|intros H; split; congruence].
Qed.
Lemma str_eqb_refl a : str_eqb a a = true.
Proof. apply str_eqb_eq. reflexivity. Qed.
Lemma starts_with_spec p : forall s, starts_with p s = true <-> exists y, s = p ++ y.
Proof.
  induction p as [|x p IH]; intros s; cbn [starts_with].
  - split; [intros _; exists s; reflexivity|reflexivity].
  - destruct s as [|y s]; [split; [discriminate|intros [z E]; discriminate E]|].
    rewrite andb_true_iff, N.eqb_eq, IH. split.
    + intros [-> [z ->]]. exists z. reflexivity.
    + intros [z E]. cbn [app] in E. split; [congruence|]. exists z. congruence.
Qed.
Lemma starts_with_app p y : starts_with p (p ++ y) = true.
Proof. apply starts_with_spec. exists y. reflexivity. Qed.

Lemma index_of_some f s : forall i, index_of f s = Some i ->
  exists w c v, s = w ++ c :: v /\ length w = i /\ f c = true /\ Forall (fun c => f c = false) w.
Proof.
  induction s as [|x s IH]; intros i; cbn [index_of]; [discriminate|]. destruct (f x) eqn:F.
  - intros E. assert (i = 0%nat) by congruence. subst i. exists [], x, s. repeat split; auto.
  - destruct (index_of f s) as [j|]; [|discriminate]. cbn [option_map]. intros E. assert (i = S j) by congruence. subst i.
    destruct (IH j eq_refl) as (w & c & v & -> & L & Fc & Fw). exists (x :: w), c, v. repeat split; auto. cbn [length]. congruence.
Qed.
Lemma index_of_none f s : index_of f s = None -> Forall (fun c => f c = false) s.
Proof.
  induction s as [|x s IH]; cbn [index_of]; [constructor|]. destruct (f x) eqn:F; [discriminate|].
  destruct (index_of f s); [discriminate|]. intros _. constructor; [exact F|apply IH; reflexivity].
Qed.
Lemma index_of_first f w c v : Forall (fun c => f c = false) w -> f c = true -> index_of f (w ++ c :: v) = Some (length w).
Proof.
  intros Fw Fc. induction Fw as [|x w Fx Fw IH]; cbn [app index_of length]; [rewrite Fc; reflexivity|]. rewrite Fx, IH. reflexivity.
Qed.
Lemma index_of_no f s : Forall (fun c => f c = false) s -> index_of f s = None.
Proof. induction 1 as [|x s Fx Fs IH]; cbn [index_of]; [reflexivity|]. rewrite Fx, IH. reflexivity. Qed.

Lemma index_of_sub_some p s : forall i, index_of_sub p s = Some i ->
  (exists w v, s = w ++ p ++ v /\ length w = i) /\ (forall w v, s = w ++ p ++ v -> (i <= length w)%nat).
Proof.
  induction s as [|x s IH]; intros i; cbn [index_of_sub].
  - destruct (starts_with p []) eqn:W; [|discriminate]. intros E. assert (i = 0%nat) by congruence. subst i.
    apply starts_with_spec in W. destruct W as [y E']. split; [exists [], y; auto|]. intros. lia.
  - destruct (starts_with p (x :: s)) eqn:W.
    + intros E. assert (i = 0%nat) by congruence. subst i. apply starts_with_spec in W. destruct W as [y E']. split; [exists [], y; auto|]. intros. lia.
    + destruct (index_of_sub p s) as [j|]; [|discriminate]. cbn [option_map]. intros E. assert (i = S j) by congruence. subst i.
      destruct (IH j eq_refl) as [(w & v & -> & L) Min]. split.
      * exists (x :: w), v. split; [reflexivity|cbn [length]; congruence].
      * intros [|z w'] v' E'; [|].
        -- exfalso. cbn [app] in E'. assert (starts_with p (x :: w ++ p ++ v) = true) by (rewrite E'; apply starts_with_app). congruence.
        -- cbn [app] in E'. assert (w ++ p ++ v = w' ++ p ++ v') as E2 by congruence. specialize (Min _ _ E2). cbn [length]. lia.
Qed.
Lemma index_of_sub_none p s : index_of_sub p s = None -> forall w v, s <> w ++ p ++ v.
Proof.
  induction s as [|x s IH]; cbn [index_of_sub]; intros E w v E'.
  - destruct (starts_with p []) eqn:W; [discriminate|]. destruct w; [|discriminate E']. cbn [app] in E'.
    assert (starts_with p [] = true) by (rewrite E'; apply starts_with_app). congruence.
  - destruct (starts_with p (x :: s)) eqn:W; [discriminate|]. destruct (index_of_sub p s) as [j|]; [discriminate|].
    destruct w as [|y w]; cbn [app] in E'.
    + assert (starts_with p (x :: s) = true) by (rewrite E'; apply starts_with_app). congruence.
    + apply (IH eq_refl w v). congruence.
Qed.

(** The loop on the rest of the pattern and of the message. *)
Definition is_star (c : N) : bool := c =? star.
Definition no_star (c : N) : bool := negb (c =? star).
Fixpoint gloop (fuel : nat) (P M : list N) : option bool :=
  match fuel with
  | O => None
  | S fuel =>
      match index_of no_star P with
      | None => Some (match P with [] => match M with [] => true | _ => false end | _ => true end)
      | Some b =>
          let Q := skipn b P in
          let n := match index_of is_star Q with None => length Q | Some n => n end in
          match index_of_sub (firstn n Q) M with
          | None => Some false
          | Some k => gloop fuel (skipn n Q) (skipn (k + n) M)
          end
      end
  end.
Lemma last_stars l : l <> [] -> Forall (fun c => no_star c = false) l -> last l 0 = star.
Proof.
  intros Hne F. destruct (exists_last Hne) as (l' & x & ->). rewrite last_last. apply Forall_app in F. destruct F as [_ F].
  apply Forall_cons_iff in F. destruct F as [F _]. unfold no_star in F. apply negb_false_iff, N.eqb_eq in F. exact F.
Qed.
Lemma last_skipn (l : list N) : forall n, (n < length l)%nat -> last (skipn n l) 0 = last l 0.
Proof.
  induction l as [|x l IH]; intros n L; cbn [length] in L; [lia|]. destruct n as [|n]; [reflexivity|].
  change (skipn (S n) (x :: l)) with (skipn n l). rewrite IH by lia. destruct l; [cbn [length] in L; lia|reflexivity].
Qed.
Lemma pattern_loop_g p m fuel : forall ppos mpos, (ppos <= length p)%nat -> (mpos <= length m)%nat ->
  pattern_loop fuel p m ppos mpos = gloop fuel (skipn ppos p) (skipn mpos m).
Proof.
  induction fuel as [|fuel IH]; intros ppos mpos Hp Hm; [reflexivity|]. cbn [pattern_loop gloop]. unfold find_first.
  change (fun c => negb (c =? star)) with no_star. change (fun c => c =? star) with is_star.
  pose proof (skipn_length ppos p) as LP. pose proof (skipn_length mpos m) as LM.
  destruct (index_of no_star (skipn ppos p)) as [b|] eqn:EB; cbn [option_map].
  - destruct (index_of_some _ _ _ EB) as (w & c & v & EP & Lw & Fc & Fw).
    assert (Lb : (b < length p - ppos)%nat) by (rewrite <- LP, EP, app_length; cbn [length]; lia).
    rewrite (skipn_skipn b ppos p), (Nat.add_comm b ppos).
    pose proof (skipn_length (ppos + b) p) as LQ.
    set (n' := match index_of is_star (skipn (ppos + b) p) with None => length (skipn (ppos + b) p) | Some n => n end).
    assert (En : (match option_map (Nat.add (ppos + b)) (index_of is_star (skipn (ppos + b) p)) with None => length p | Some e => e end - (ppos + b) = n')%nat).
    { unfold n'. destruct (index_of is_star (skipn (ppos + b) p)); cbn [option_map]; lia. }
    rewrite En.
    assert (Ln : (n' <= length p - (ppos + b))%nat).
    { unfold n'. destruct (index_of is_star (skipn (ppos + b) p)) as [n|] eqn:EN; [|lia].
      destruct (index_of_some _ _ _ EN) as (w2 & c2 & v2 & E2 & L2 & _). apply (f_equal (@length N)) in E2. rewrite app_length in E2. cbn [length] in E2. lia. }
    unfold find_sub. rewrite (proj2 (Nat.ltb_ge _ _)) by lia.
    destruct (index_of_sub (firstn n' (skipn (ppos + b) p)) (skipn mpos m)) as [k|] eqn:EK; cbn [option_map]; [|reflexivity].
    destruct (index_of_sub_some _ _ _ EK) as [(wk & vk & E3 & L3) _]. apply (f_equal (@length N)) in E3. rewrite !app_length, firstn_length in E3.
    rewrite IH by lia. f_equal.
    + rewrite skipn_skipn. f_equal. lia.
    + rewrite skipn_skipn. f_equal. lia.
  - apply index_of_none in EB. destruct (skipn ppos p) as [|c P] eqn:EP.
    + rewrite (proj2 (Nat.ltb_ge _ _)) by (cbn [length] in LP; lia). f_equal.
      destruct (skipn mpos m) as [|y M]; cbn [length] in LM; [apply Nat.eqb_eq; lia|apply Nat.eqb_neq; lia].
    + rewrite (proj2 (Nat.ltb_lt _ _)) by (cbn [length] in LP; lia). f_equal. apply N.eqb_eq.
      rewrite <- (last_skipn p ppos), EP by (cbn [length] in LP; lia). apply last_stars; [discriminate|exact EB].
Qed.

(** Patterns *)
Ltac nostar := exfalso; match goal with H : ?c <> _ |- _ => apply H; reflexivity end.
Lemma m_stars l p m : Forall (fun c => no_star c = false) l -> matches (star :: p) m -> matches (star :: l ++ p) m.
Proof.
  intros F H. induction F as [|c l Fc Fl IH]; [exact H|]. unfold no_star in Fc. apply negb_false_iff, N.eqb_eq in Fc. subst c. cbn [app].
  exact (m_star [] _ _ IH).
Qed.
Lemma m_stars_inv l p m : Forall (fun c => no_star c = false) l -> matches (star :: l ++ p) m -> matches (star :: p) m.
Proof.
  intros F. revert m. induction F as [|c l Fc Fl IH]; intros m H; [exact H|]. unfold no_star in Fc. apply negb_false_iff, N.eqb_eq in Fc. subst c. cbn [app] in H.
  inversion H as [|w q m' H' E1 E2|c q m' Hc H' E1 E2]; subst; [|nostar].
  apply IH in H'. inversion H' as [|w2 q2 m2 H2 E1 E2|]; subst; [|nostar]. rewrite app_assoc. exact (m_star (w ++ w2) _ _ H2).
Qed.
Lemma m_seg seg p m : Forall (fun c => is_star c = false) seg -> matches p m -> matches (seg ++ p) (seg ++ m).
Proof.
  intros F H. induction F as [|c l Fc Fl IH]; [exact H|]. cbn [app]. apply m_char; [|exact IH]. apply N.eqb_neq. exact Fc.
Qed.
Lemma m_seg_inv seg p m : Forall (fun c => is_star c = false) seg -> matches (seg ++ p) m -> exists m', m = seg ++ m' /\ matches p m'.
Proof.
  intros F. revert m. induction F as [|c l Fc Fl IH]; intros m H; [exists m; auto|]. cbn [app] in H. apply N.eqb_neq in Fc.
  inversion H as [|w q m' H' E1 E2|c' q m' Hc H' E1 E2]; subst; [nostar|]. destruct (IH _ H') as (m2 & -> & H2). exists m2. auto.
Qed.
Lemma m_star_suffix p w m : matches (star :: p) m -> matches (star :: p) (w ++ m).
Proof. intros H. inversion H as [|w2 q m' H' E1 E2|]; subst; [|nostar]. rewrite app_assoc. exact (m_star (w ++ w2) _ _ H'). Qed.
Lemma m_star_all w : matches [star] w.
Proof. rewrite <- (app_nil_r w). apply m_star, m_nil. Qed.
Lemma m_star_inv p m : matches (star :: p) m -> exists w m', m = w ++ m' /\ matches p m'.
Proof. intros H. inversion H as [|w q m' H' E1 E2|]; subst; [exists w, m'; auto|nostar]. Qed.

(** One round: stars, a segment without stars, and what follows it. *)
Lemma split_pattern P b : index_of no_star P = Some b -> let Q := skipn b P in
  let n := match index_of is_star Q with None => length Q | Some n => n end in
  exists l seg R, P = l ++ seg ++ R /\ length l = b /\ Forall (fun c => no_star c = false) l /\ seg = firstn n Q /\ length seg = n /\ seg <> [] /\
    Forall (fun c => is_star c = false) seg /\ R = skipn n Q /\ (R = [] \/ exists R', R = star :: R').
Proof.
  intros EB Q n. destruct (index_of_some _ _ _ EB) as (l & c & v & EP & Ll & Fc & Fl).
  assert (EQ : Q = c :: v) by (unfold Q; rewrite EP, <- Ll, skipn_app, skipn_all, Nat.sub_diag; reflexivity).
  assert (Fs : is_star c = false) by (unfold no_star in Fc; apply negb_true_iff in Fc; exact Fc).
  assert (B : (0 < n <= length Q)%nat /\ Forall (fun c => is_star c = false) (firstn n Q) /\ (skipn n Q = [] \/ exists R', skipn n Q = star :: R')).
  { unfold n. destruct (index_of is_star Q) as [k|] eqn:EK.
    - destruct (index_of_some _ _ _ EK) as (w & d & u & E & Lw & Fd & Fw). rewrite E, <- Lw.
      assert (w <> []) by (intros ->; cbn [app] in E; rewrite EQ in E; assert (c = d) by congruence; subst d; congruence).
      rewrite app_length, firstn_app, firstn_all, Nat.sub_diag, firstn_O, app_nil_r, skipn_app, skipn_all, Nat.sub_diag. cbn [length app].
      split; [destruct w; [congruence|cbn [length]; lia]|]. split; [exact Fw|]. right. exists u. apply N.eqb_eq in Fd. rewrite Fd. reflexivity.
    - rewrite firstn_all, skipn_all. split; [rewrite EQ; cbn [length]; lia|]. split; [apply index_of_none; exact EK|left; reflexivity]. }
  destruct B as (B1 & B2 & B3). exists l, (firstn n Q), (skipn n Q).
  split; [rewrite firstn_skipn, EQ; exact EP|]. split; [exact Ll|]. split; [exact Fl|]. split; [reflexivity|].
  split; [rewrite firstn_length; lia|]. split; [intros E; apply (f_equal (@length N)) in E; rewrite firstn_length in E; cbn [length] in E; lia|]. auto.
Qed.
Lemma gloop_total : forall fuel P M, (length P < fuel)%nat -> exists b, gloop fuel P M = Some b.
Proof.
  induction fuel as [|fuel IH]; intros P M L; [lia|]. cbn [gloop]. destruct (index_of no_star P) as [b|] eqn:EB; [|eexists; reflexivity].
  destruct (split_pattern P b EB) as (l & seg & R & EP & Ll & Fl & Es & Ls & Ns & Fs & ER & HR). cbv zeta in *.
  rewrite <- Es, <- ER. destruct (index_of_sub seg M); [|eexists; reflexivity]. apply IH.
  apply (f_equal (@length N)) in EP. rewrite !app_length in EP. destruct seg; [congruence|cbn [length] in EP; lia].
Qed.
Lemma gloop_sound : forall fuel P M, gloop fuel P M = Some true -> matches (star :: P) M.
Proof.
  induction fuel as [|fuel IH]; intros P M; cbn [gloop]; [discriminate|]. destruct (index_of no_star P) as [b|] eqn:EB.
  - destruct (split_pattern P b EB) as (l & seg & R & EP & Ll & Fl & Es & Ls & Ns & Fs & ER & HR). cbv zeta in *.
    rewrite <- Es, <- ER. destruct (index_of_sub seg M) as [k|] eqn:EK; [|discriminate]. intros G.
    destruct (index_of_sub_some _ _ _ EK) as [(w & v & EM & Lw) _].
    assert (EM' : skipn (k + match index_of is_star (skipn b P) with None => length (skipn b P) | Some n => n end) M = v).
    { rewrite EM, app_assoc, <- Lw, <- Ls, <- app_length, skipn_app, skipn_all, Nat.sub_diag. reflexivity. }
    rewrite EM' in G. rewrite EP. apply m_stars; [exact Fl|]. rewrite EM. apply m_star. apply m_seg; [exact Fs|].
    destruct HR as [->|[R' ->]].
    + destruct fuel; [discriminate G|]. cbn in G. destruct v; [apply m_nil|discriminate G].
    + apply IH in G. exact (m_stars_inv [star] R' v ltac:(repeat constructor) G).
  - intros G. apply index_of_none in EB. rewrite <- (app_nil_r P). apply m_stars; [exact EB|].
    destruct P; [destruct M; [apply m_star_all|discriminate G]|apply m_star_all].
Qed.
Lemma gloop_complete : forall fuel P M, (length P < fuel)%nat -> P <> [] -> last P 0 = star -> matches (star :: P) M -> gloop fuel P M = Some true.
Proof.
  induction fuel as [|fuel IH]; intros P M L Hne Hl H; [lia|]. cbn [gloop]. destruct (index_of no_star P) as [b|] eqn:EB.
  - destruct (split_pattern P b EB) as (l & seg & R & EP & Ll & Fl & Es & Ls & Ns & Fs & ER & HR). cbv zeta in *.
    rewrite <- Es, <- ER.
    assert (HR' : exists R', R = star :: R').
    { destruct HR as [HR|HR]; [|exact HR]. exfalso. rewrite HR, app_nil_r in EP. rewrite EP in Hl. destruct (exists_last Ns) as (s' & x & E). rewrite E, app_assoc, last_last in Hl.
      rewrite E in Fs. apply Forall_app in Fs. destruct Fs as [_ Fs]. apply Forall_cons_iff in Fs. destruct Fs as [Fs _]. rewrite Hl in Fs. discriminate Fs. }
    destruct HR' as [R' HR']. rewrite EP in H. apply m_stars_inv in H; [|exact Fl].
    apply m_star_inv in H. destruct H as (w & m' & EM & H). apply m_seg_inv in H; [|exact Fs]. destruct H as (v & -> & H).
    destruct (index_of_sub seg M) as [k|] eqn:EK; [|exfalso; exact (index_of_sub_none _ _ EK w v EM)].
    destruct (index_of_sub_some _ _ _ EK) as [(w1 & v1 & EM1 & Lw) Min]. specialize (Min _ _ EM).
    assert (EM' : skipn (k + match index_of is_star (skipn b P) with None => length (skipn b P) | Some n => n end) M = v1).
    { rewrite EM1, app_assoc, <- Lw, <- Ls, <- app_length, skipn_app, skipn_all, Nat.sub_diag. reflexivity. }
    rewrite EM'. apply IH.
    + apply (f_equal (@length N)) in EP. rewrite !app_length in EP. destruct seg; [congruence|cbn [length] in EP; lia].
    + rewrite HR'. discriminate.
    + rewrite <- Hl, EP, app_assoc, HR'. clear. induction (l ++ seg) as [|x q IHq]; [reflexivity|]. cbn [app last]. destruct (q ++ star :: R') eqn:E; [destruct q; discriminate E|exact IHq].
    + (* v is a suffix of v1 *)
      assert (S : exists u, v1 = u ++ v).
      { assert (E : (w ++ seg) ++ v = (w1 ++ seg) ++ v1) by (rewrite <- !app_assoc; congruence).
        apply app_eq_app in E. destruct E as [u [[E1 E2]|[E1 E2]]]; [exists u; exact E2|].
        apply (f_equal (@length N)) in E1. rewrite !app_length in E1. destruct u; [|cbn [length] in E1; lia].
        exists []. cbn [app] in *. congruence. }
      destruct S as [u ->]. rewrite HR' in H |- *. apply m_star_suffix. exact (m_star [] _ _ H).
  - destruct P; [congruence|reflexivity].
Qed.

(** The whole function *)
Lemma pms_loop p m : p <> [star] -> p <> [] -> pattern_match_star p m = gloop (S (length p)) p m.
Proof.
  intros H1 H2. unfold pattern_match_star. destruct (str_eqb p [star]) eqn:E; [apply str_eqb_eq in E; congruence|].
  destruct p as [|c p]; [congruence|]. rewrite pattern_loop_g by lia. destruct m; reflexivity.
Qed.
Lemma pms_total p m : exists b, pattern_match_star p m = Some b.
Proof.
  destruct (list_eq_dec N.eq_dec p [star]) as [->|H1]; [exists true; reflexivity|].
  destruct p as [|c p]; [destruct m; eexists; reflexivity|]. rewrite pms_loop by (congruence || exact H1). apply gloop_total. lia.
Qed.
Lemma pms_sound p m : pattern_match_star p m = Some true -> matches (star :: p) m.
Proof.
  destruct (list_eq_dec N.eq_dec p [star]) as [->|H1]; [intros _; exact (m_star [] _ _ (m_star_all m))|].
  destruct p as [|c p]; [destruct m; [intros _; apply m_star_all|discriminate]|]. rewrite pms_loop by (congruence || exact H1). apply gloop_sound.
Qed.
Lemma pms_ends p m : last p 0 = star -> (pattern_match_star p m = Some true <-> matches (star :: p) m).
Proof.
  intros Hl. split; [apply pms_sound|]. destruct (list_eq_dec N.eq_dec p [star]) as [->|H1]; [reflexivity|].
  destruct p as [|c p]; [discriminate Hl|]. rewrite pms_loop by (congruence || exact H1). apply gloop_complete; [lia|discriminate|exact Hl].
Qed.
Lemma pms_both p m : hd 0 p = star -> last p 0 = star -> (pattern_match_star p m = Some true <-> matches p m).
Proof.
  intros Hh Hl. rewrite pms_ends by exact Hl. destruct p as [|c p]; [discriminate Hh|]. cbn [hd] in Hh. subst c. split.
  - exact (m_stars_inv [star] p m ltac:(repeat constructor)).
  - intros H. exact (m_star [] _ _ H).
Qed.
(** Without stars *)
Lemma no_star_last p : p <> [] -> Forall (fun c => c <> star) p -> p <> [star].
Proof. intros _ F ->. apply Forall_cons_iff in F. destruct F as [F _]. congruence. Qed.
Lemma star_false c : c <> star -> is_star c = false.
Proof. apply N.eqb_neq. Qed.
Lemma seg_round seg R M fuel : seg <> [] -> Forall (fun c => c <> star) seg -> (R = [] \/ exists R', R = star :: R') ->
  gloop (S fuel) (seg ++ R) M = match index_of_sub seg M with None => Some false | Some k => gloop fuel R (skipn (k + length seg) M) end.
Proof.
  intros Hne F HR. destruct seg as [|c seg]; [congruence|]. cbn [gloop app]. cbn [index_of].
  assert (E1 : no_star c = true) by (apply Forall_cons_iff in F; destruct F as [F _]; unfold no_star; rewrite (proj2 (N.eqb_neq _ _)) by exact F; reflexivity).
  rewrite E1. rewrite skipn_O.
  assert (F' : Forall (fun c => is_star c = false) (c :: seg)) by (revert F; apply Forall_impl; intros; apply star_false; assumption).
  assert (E2 : match index_of is_star (c :: seg ++ R) with Some n => n | None => length (c :: seg ++ R) end = length (c :: seg)).
  { change (c :: seg ++ R) with ((c :: seg) ++ R). destruct HR as [->|[R' ->]].
    - rewrite app_nil_r, index_of_no by exact F'. reflexivity.
    - rewrite index_of_first by (exact F' || reflexivity). reflexivity. }
  rewrite E2. change (c :: seg ++ R) with ((c :: seg) ++ R). rewrite firstn_app, firstn_all, Nat.sub_diag, firstn_O, app_nil_r.
  rewrite skipn_app, skipn_all, Nat.sub_diag. reflexivity.
Qed.
Lemma index_of_sub_0 p s : index_of_sub p (p ++ s) = Some 0%nat.
Proof. destruct (p ++ s) as [|x l] eqn:E; cbn [index_of_sub]; rewrite <- E, starts_with_app; reflexivity. Qed.
Lemma pms_name m : m <> [] -> Forall (fun c => c <> star) m -> pattern_match_star m m = Some true.
Proof.
  intros Hne F. rewrite pms_loop by (exact Hne || (apply no_star_last; assumption)).
  pose proof (seg_round m [] m (length m) Hne F (or_introl eq_refl)) as E. rewrite app_nil_r in E. rewrite E.
  pose proof (index_of_sub_0 m []) as E0. rewrite app_nil_r in E0. rewrite E0. cbn [Nat.add]. rewrite skipn_all. destruct m; [congruence|reflexivity].
Qed.
Lemma pms_prefix_bad seg w v : seg <> [] -> Forall (fun c => c <> star) seg -> pattern_match_star (seg ++ [star]) (w ++ seg ++ v) = Some true.
Proof.
  intros Hne F. apply pms_ends; [apply last_last|]. apply m_star. apply m_seg; [revert F; apply Forall_impl; intros; apply star_false; assumption|apply m_star_all].
Qed.
Lemma pms_suffix_bad seg w : seg <> [] -> Forall (fun c => c <> star) seg ->
  pattern_match_star (star :: seg) (seg ++ w ++ seg) = Some false /\ matches (star :: seg) (seg ++ w ++ seg).
Proof.
  intros Hne F. split.
  - rewrite pms_loop by (discriminate || (intros E; destruct seg; [congruence|discriminate E])).
    assert (E : gloop (S (length (star :: seg))) (star :: seg) (seg ++ w ++ seg) = gloop (S (length (star :: seg))) seg (seg ++ w ++ seg)).
    { destruct seg as [|c seg]; [congruence|]. cbn [gloop index_of].
      assert (E1 : no_star c = true) by (apply Forall_cons_iff in F; destruct F as [F _]; unfold no_star; rewrite (proj2 (N.eqb_neq _ _)) by exact F; reflexivity).
      rewrite E1. reflexivity. }
    rewrite E. pose proof (seg_round seg [] (seg ++ w ++ seg) (length (star :: seg)) Hne F (or_introl eq_refl)) as E2. rewrite app_nil_r in E2. rewrite E2, index_of_sub_0.
    cbn [Nat.add]. rewrite skipn_app, skipn_all, Nat.sub_diag. cbn [app skipn length gloop index_of]. destruct (w ++ seg) eqn:E3; [|reflexivity].
    apply app_eq_nil in E3. destruct E3 as [_ E3]. congruence.
  - rewrite app_assoc. apply m_star. rewrite <- (app_nil_r seg) at 1 2. apply m_seg; [revert F; apply Forall_impl; intros; apply star_false; assumption|apply m_nil].
Qed.
