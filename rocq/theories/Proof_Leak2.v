(** The traces do not depend on the bytes. *)
From Verif Require Import Base BaseLemmas BytesLemmas Model_Memory Model_Update Model_Container Model_Sha Model_Mac Model_Hmac Model_Poly Model_Cipher Model_Aead
  Model_Leak Spec_Leak.
Local Open Scope N_scope.

Definition same {A} (R : A -> A -> Prop) (m1 m2 : L A) : Prop :=
  forall t1 a1 t2 a2, m1 = Some (t1, a1) -> m2 = Some (t2, a2) -> map hide t1 = map hide t2 /\ R a1 a2.
Definition osame {A} (R : A -> A -> Prop) (x y : option A) : Prop := forall a b, x = Some a -> y = Some b -> R a b.
Definition RA {A} (x y : A) : Prop := True.
Definition RL (x y : list N) : Prop := length x = length y.
Definition RP {A B} (R : A -> A -> Prop) (Q : B -> B -> Prop) (x y : A * B) : Prop := R (fst x) (fst y) /\ Q (snd x) (snd y).
Definition RC (c d : container) : Prop := blank_c c = blank_c d.

Lemma same_bind {A B} (R : A -> A -> Prop) (Q : B -> B -> Prop) m1 m2 f g : same R m1 m2 ->
  (forall a b, R a b -> same Q (f a) (g b)) -> same Q (lbind m1 f) (lbind m2 g).
Proof.
  intros H1 H2 t1 b1 t2 b2 E1 E2. unfold lbind in *.
  destruct m1 as [[u1 a1]|]; [|discriminate]. destruct m2 as [[u2 a2]|]; [|discriminate].
  destruct (H1 _ _ _ _ eq_refl eq_refl) as [Ht HR]. pose proof (H2 a1 a2 HR) as H3. unfold same in H3.
  destruct (f a1) as [[v1 c1]|]; [|discriminate]. destruct (g a2) as [[v2 c2]|]; [|discriminate].
  destruct (H3 _ _ _ _ eq_refl eq_refl) as [Hv HQ]. injection E1 as <- <-. injection E2 as <- <-.
  split; [rewrite !map_app, Ht, Hv; reflexivity|exact HQ].
Qed.
Lemma same_emit {B} (Q : B -> B -> Prop) t t' f g : map hide t = map hide t' -> same Q (f tt) (g tt) ->
  same Q (lbind (emit t) f) (lbind (emit t') g).
Proof.
  intros Ht H. apply same_bind with (R := eq).
  - intros t1 a1 t2 a2 E1 E2. injection E1 as <- <-. injection E2 as <- <-. split; [exact Ht|reflexivity].
  - intros [] b _. destruct b. exact H.
Qed.
Lemma same_ret {A} (R : A -> A -> Prop) a b : R a b -> same R (ret a) (ret b).
Proof. intros H t1 a1 t2 a2 E1 E2. injection E1 as <- <-. injection E2 as <- <-. split; [reflexivity|exact H]. Qed.
Lemma same_lift {A} (R : A -> A -> Prop) x y : osame R x y -> same R (lift x) (lift y).
Proof.
  intros H t1 a1 t2 a2 E1 E2. destruct x as [u|]; [|discriminate]. destruct y as [v|]; [|discriminate].
  assert (t1 = [] /\ a1 = u) as [-> ->] by (cbn in E1; split; congruence).
  assert (t2 = [] /\ a2 = v) as [-> ->] by (cbn in E2; split; congruence).
  split; [reflexivity|apply H; reflexivity].
Qed.
Lemma same_any {A} (x y : option A) : same RA (lift x) (lift y).
Proof. apply same_lift. intros a b _ _. exact I. Qed.
Lemma same_lif {A} (R : A -> A -> Prop) b b' x y x' y' : b = b' -> same R x x' -> same R y y' -> same R (lif b x y) (lif b' x' y').
Proof. intros -> Hx Hy. unfold lif. apply same_emit; [reflexivity|]. destruct b'; assumption. Qed.
Lemma same_if {A} (R : A -> A -> Prop) (b b' : bool) x y x' y' : b = b' -> same R x x' -> same R y y' ->
  same R (if b then x else y) (if b' then x' else y').
Proof. intros -> Hx Hy. destruct b'; assumption. Qed.
Lemma same_none {A} (R : A -> A -> Prop) m : same R None m.
Proof. intros t1 a1 t2 a2 E. discriminate E. Qed.

Lemma wrs_length {A} (l : list A) off v l' : wrs l off v = Some l' -> length l' = length l.
Proof.
  unfold wrs. destruct (off + length v <=? length l)%nat eqn:E; [|discriminate]. intros H. apply Nat.leb_le in E.
  assert (l' = firstn off l ++ v ++ skipn (off + length v) l) as -> by congruence.
  rewrite !app_length, firstn_length, skipn_length. lia.
Qed.
Lemma rds_length {A} (l : list A) off n l' : rds l off n = Some l' -> length l' = n.
Proof.
  unfold rds. destruct (off + n <=? length l)%nat eqn:E; [|discriminate]. intros H. apply Nat.leb_le in E.
  assert (l' = firstn n (skipn off l)) as -> by congruence. rewrite firstn_length, skipn_length. lia.
Qed.
Lemma arr_of_bytes_length b ps : forall k l, length (arr_of_bytes b ps k l) = k.
Proof. induction k as [|k IH]; intros l; cbn [arr_of_bytes length]; [|rewrite IH]; reflexivity. Qed.
Lemma stor_bytes_length cx ps a off l a' : stor_bytes cx ps a off l = Some a' -> length a' = length a.
Proof.
  unfold stor_bytes. destruct (wrs _ _ _); [|discriminate]. cbn [bind]. intros E.
  assert (a' = arr_of_bytes (cx_big cx) ps (length a) l0) as -> by congruence. apply arr_of_bytes_length.
Qed.

Create HintDb sm.
Ltac lens := repeat rewrite ?skipn_length, ?firstn_length, ?app_length, ?map_length, ?repeat_length, ?obj_bytes_length in *.
Ltac eqs := first [reflexivity | congruence | unfold RL, blank in *; lens; cbn [length] in *; congruence].
Ltac dR := repeat match goal with
  | H : RA _ _ |- _ => clear H
  | H : RP _ _ ?x ?y |- _ => let a := fresh "Ra" in let b := fresh "Rb" in destruct x, y; destruct H as [a b]; cbn [fst snd] in a, b
  | H : @eq (_ * _) ?x ?y |- _ => is_var x; is_var y; subst
  | H : @eq nat ?x ?y |- _ => first [is_var y; subst y | is_var x; subst x]
  | H : @eq N ?x ?y |- _ => first [is_var y; subst y | is_var x; subst x]
  | H : @eq ptr ?x ?y |- _ => first [is_var y; subst y | is_var x; subst x]
  end.
Ltac norm := repeat match goal with H : RL _ _ |- _ => unfold RL in H end; rewrite ?skipn_length, ?firstn_length, ?app_length, ?map_length, ?repeat_length;
  repeat match goal with H : length ?a = length ?b |- context [length ?a] => tryif constr_eq a b then fail else rewrite H end.
Ltac rel := match goal with
  | |- RA _ _ => exact I
  | |- RP _ _ _ _ => split; cbn [fst snd]; rel
  | |- RL _ _ => unfold RL in *; eqs
  | |- @eq _ _ _ => eqs
  | |- _ => solve [auto with sm]
  end.
Ltac sm1 := match goal with
| |- forall _ _, _ -> same _ _ _ => intros ? ? ?; dR; norm
| |- same _ None _ => apply same_none
| |- same _ (lbind (emit _) _) (lbind (emit _) _) => apply same_emit; [solve [cbn [map hide]; eqs]|]
| |- same _ (lbind _ _) (lbind _ _) => eapply same_bind
| |- same _ (ret _) (ret _) => apply same_ret; try solve [rel]
| |- same _ (lif _ _ _) (lif _ _ _) => apply same_lif; [solve [eqs]| |]
| |- same _ (let _ := _ in _) _ => cbv zeta
| |- same _ (if _ then _ else _) (if _ then _ else _) => apply same_if; [solve [eqs]| |]
| |- same _ _ _ => solve [eauto with sm nocore]
| |- same _ (lift _) (lift _) => apply same_any
end.
Ltac sm := norm; repeat sm1.

Lemma s_rd l l' i : same RA (lift (rd l i)) (lift (rd l' i) : L N).
Proof. apply same_any. Qed.
Lemma s_wrs l l' i v v' : RL l l' -> same RL (lift (wrs l i v)) (lift (wrs l' i v')).
Proof. intros H. apply same_lift. intros a b Ea Eb. apply wrs_length in Ea, Eb. unfold RL in *. congruence. Qed.
Lemma s_wr l l' i v v' : RL l l' -> same RL (lift (wr l i v)) (lift (wr l' i v')).
Proof. apply s_wrs. Qed.
Lemma s_rds l l' i n : same RL (lift (rds l i n)) (lift (rds l' i n)).
Proof. apply same_lift. intros a b Ea Eb. apply rds_length in Ea, Eb. unfold RL. congruence. Qed.
#[global] Hint Extern 1 (RL _ _) => (unfold RL in *; eqs) : sm.
#[global] Hint Extern 1 (RA _ _) => exact I : sm.
#[global] Hint Resolve s_rd s_wrs s_wr s_rds : sm.
Lemma s_lrd p l l' i : same RA (lrd p l i) (lrd p l' i).
Proof. unfold lrd. sm. Qed.
Lemma s_lwr p l l' i v v' : RL l l' -> same RL (lwr p l i v) (lwr p l' i v').
Proof. intros H. unfold lwr. sm. Qed.
Lemma s_lrds p l l' i n : same RL (lrds p l i n) (lrds p l' i n).
Proof. unfold lrds. sm. Qed.
Lemma s_lwrs p l l' i v v' : RL l l' -> RL v v' -> same RL (lwrs p l i v) (lwrs p l' i v').
Proof. intros H Hv. unfold lwrs. sm. Qed.
Lemma s_lat p l l' off f f' : RL l l' -> (forall p l l', RL l l' -> same RL (f p l) (f' p l')) -> same RL (lat p l off f) (lat p l' off f').
Proof. intros H Hf. unfold lat. sm; try (apply Hf; unfold RL in *; rewrite !skipn_length; congruence). Qed.
#[global] Hint Resolve s_lrd s_lwr s_lrds s_lwrs : sm.

Lemma s_load_loop vs ps p a a' seg : forall is v v', same RA (l_load_loop vs ps p a seg is v) (l_load_loop vs ps p a' seg is v').
Proof. induction is as [|i is IH]; intros v v'; cbn [l_load_loop]; sm; try apply IH. Qed.
#[global] Hint Resolve s_load_loop : sm.
Lemma s_load cx vs ps p a a' off : same RA (l_load cx vs ps p a off) (l_load cx vs ps p a' off).
Proof. unfold l_load. sm. Qed.
#[global] Hint Resolve s_load : sm.

Lemma s_load_le cx vs ps p a a' off : same RA (l_load_le cx vs ps p a off) (l_load_le cx vs ps p a' off).
Proof. unfold l_load_le. sm. Qed.
Lemma s_load_be cx vs ps p a a' off : same RA (l_load_be cx vs ps p a off) (l_load_be cx vs ps p a' off).
Proof. unfold l_load_be. sm. Qed.
#[global] Hint Resolve s_load_le s_load_be : sm.
Lemma s_stor_loop ps p seg : forall is a a' v v', RL a a' -> same RL (l_stor_loop ps p a seg is v) (l_stor_loop ps p a' seg is v').
Proof. induction is as [|i is IH]; intros a a' v v' H; cbn [l_stor_loop]; sm; try apply IH; auto. Qed.
Lemma s_stor_bytes cx ps p a a' off l l' : RL a a' -> RL l l' -> same RL (l_stor_bytes cx ps p a off l) (l_stor_bytes cx ps p a' off l').
Proof.
  intros H Hl. unfold l_stor_bytes. sm. apply same_lift. intros b b' E E'. apply stor_bytes_length in E, E'. unfold RL in *. congruence.
Qed.
#[global] Hint Resolve s_stor_loop s_stor_bytes : sm.
Lemma s_stor cx vs ps p a a' off v v' : RL a a' -> same RL (l_stor cx vs ps p a off v) (l_stor cx vs ps p a' off v').
Proof. intros H. unfold l_stor. sm. Qed.
Lemma s_stor_n cx vs ps p a a' off v v' n : RL a a' -> same RL (l_stor_n cx vs ps p a off v n) (l_stor_n cx vs ps p a' off v' n).
Proof. intros H. unfold l_stor_n. sm. Qed.
#[global] Hint Resolve s_stor s_stor_n : sm.
Lemma s_stor_le cx vs ps p a a' off v v' : RL a a' -> same RL (l_stor_le cx vs ps p a off v) (l_stor_le cx vs ps p a' off v').
Proof. apply s_stor. Qed.
Lemma s_stor_be cx vs ps p a a' off v v' : RL a a' -> same RL (l_stor_be cx vs ps p a off v) (l_stor_be cx vs ps p a' off v').
Proof. apply s_stor. Qed.
Lemma s_stor_le_n cx vs ps p a a' off v v' n : RL a a' -> same RL (l_stor_le_n cx vs ps p a off v n) (l_stor_le_n cx vs ps p a' off v' n).
Proof. apply s_stor_n. Qed.
Lemma s_stor_be_n cx vs ps p a a' off v v' n : RL a a' -> same RL (l_stor_be_n cx vs ps p a off v n) (l_stor_be_n cx vs ps p a' off v' n).
Proof. apply s_stor_n. Qed.
#[global] Hint Resolve s_stor_le s_stor_be s_stor_le_n s_stor_be_n : sm.
Lemma s_copy_loop cx pd ps p q src src' : forall n dst dst' i, RL dst dst' ->
  same RL (l_copy_loop cx pd ps p q dst src i n) (l_copy_loop cx pd ps p q dst' src' i n).
Proof. induction n as [|n IH]; intros dst dst' i H; cbn [l_copy_loop]; sm; try apply IH; auto. Qed.
#[global] Hint Resolve s_copy_loop : sm.
Lemma s_copy cx pd ps p q dst dst' src src' n : RL dst dst' ->
  same RL (l_copy cx pd ps p q dst src n) (l_copy cx pd ps p q dst' src' n).
Proof. intros H. unfold l_copy. sm. Qed.
#[global] Hint Resolve s_copy : sm.
Lemma s_copy_words f q src src' : (forall d d' i w w', RL d d' -> same RL (f d i w) (f d' i w')) -> forall n dst dst' i, RL dst dst' ->
  same RL (l_copy_words f q dst src i n) (l_copy_words f q dst' src' i n).
Proof. intros Hf. induction n as [|n IH]; intros dst dst' i H; cbn [l_copy_words]; sm; try apply IH; auto. Qed.
Lemma s_copy_be cx pd ss p q dst dst' src src' n : RL dst dst' ->
  same RL (l_copy_be cx pd ss p q dst src n) (l_copy_be cx pd ss p q dst' src' n).
Proof.
  intros H. unfold l_copy_be. cbv zeta. eapply same_bind; [apply s_copy_words; [intros; apply s_stor_be; assumption|exact H]|]. intros a b E. sm.
Qed.
Lemma s_copy_le cx pd ss p q dst dst' src src' n : RL dst dst' ->
  same RL (l_copy_le cx pd ss p q dst src n) (l_copy_le cx pd ss p q dst' src' n).
Proof.
  intros H. unfold l_copy_le. cbv zeta. eapply same_bind; [apply s_copy_words; [intros; apply s_stor_le; assumption|exact H]|]. intros a b E. sm.
Qed.
#[global] Hint Resolve s_copy_be s_copy_le : sm.
Lemma s_set_loop cx ps p v v' : forall n a a' i, RL a a' -> same RL (l_set_loop cx ps p a v i n) (l_set_loop cx ps p a' v' i n).
Proof. induction n as [|n IH]; intros a a' i H; cbn [l_set_loop]; sm; try apply IH; auto. Qed.
#[global] Hint Resolve s_set_loop : sm.
Lemma s_set cx ps p a a' v v' n : RL a a' -> same RL (l_set cx ps p a v n) (l_set cx ps p a' v' n).
Proof. intros H. unfold l_set. sm. Qed.
#[global] Hint Resolve s_set : sm.
Lemma s_match_loop cx pa pb p q a a' b b' : forall n i t t', same RA (l_match_loop cx pa pb p q a b i n t) (l_match_loop cx pa pb p q a' b' i n t').
Proof. induction n as [|n IH]; intros i t t'; cbn [l_match_loop]; sm; try apply IH. Qed.
#[global] Hint Resolve s_match_loop : sm.
Lemma s_match cx pa pb p q a a' b b' n : same RA (l_match cx pa pb p q a b n) (l_match cx pa pb p q a' b' n).
Proof. unfold l_match. sm. Qed.
Lemma s_match_c cx pa pb p q a a' b b' : RL a a' -> RL b b' -> same RA (l_match_c cx pa pb p q a b) (l_match_c cx pa pb p q a' b').
Proof. intros H H'. unfold l_match_c. unfold RL in *. rewrite H, H'. eapply same_bind; [apply s_match|]. intros. sm. Qed.
#[global] Hint Resolve s_match s_match_c : sm.
Lemma s_zero_loop p : forall n a a' i, RL a a' -> same RL (l_zero_loop p a i n) (l_zero_loop p a' i n).
Proof. induction n as [|n IH]; intros a a' i H; cbn [l_zero_loop]; sm; try apply IH; auto. Qed.
#[global] Hint Resolve s_zero_loop : sm.
Lemma s_init cx pd ps p q dst dst' src src' : RL dst dst' -> RL src src' ->
  same RL (l_init cx pd ps p q dst src) (l_init cx pd ps p q dst' src').
Proof.
  intros H H'. unfold l_init. pose proof H as H0. pose proof H' as H1. unfold RL in H0, H1. rewrite H0, H1.
  eapply same_bind; [apply s_zero_loop; exact H|]. intros a b E. unfold RL in E. rewrite E. sm.
Qed.
#[global] Hint Resolve s_init : sm.
Lemma s_init_le cx pd ps p q dst dst' src src' : RL dst dst' -> RL src src' ->
  same RL (l_init_le cx pd ps p q dst src) (l_init_le cx pd ps p q dst' src').
Proof. intros H H'. unfold l_init_le. eapply same_bind; [apply s_init; assumption|]. intros a b E. sm. Qed.
#[global] Hint Resolve s_init_le : sm.

(** *** update.h *)
Lemma s_soak {St} (R : St -> St -> Prop) bs li li' p q buf buf' n src src' st st' :
  (forall n st st' q l l', R st st' -> RL l l' -> same R (li n st q l) (li' n st' q l')) ->
  RL buf buf' -> RL src src' -> R st st' ->
  same (RP (RP RL eq) R) (l_soak bs li p q buf n src st) (l_soak bs li' p q buf' n src' st').
Proof.
  intros Hi Hb Hs Hst. unfold l_soak. cbv zeta. norm.
  repeat match goal with
  | |- same _ (li _ _ _ _) _ => apply Hi; [eassumption|rel]
  | |- same _ (lbind (lif _ _ _) _) (lbind (lif _ _ _) _) => eapply same_bind
  | |- same _ (lif (0 <? _ / bs)%nat _ _) (lif _ _ _) => apply same_lif with (R := RP (RP R eq) RL); [solve [eqs]| |]
  | _ => sm1
  end.
Qed.
Lemma s_mxor p dst src key key' koff : forall n m m' i, RL m m' -> same RL (l_mxor_loop p m dst src key koff i n) (l_mxor_loop p m' dst src key' koff i n).
Proof. induction n as [|n IH]; intros m m' i H; cbn [l_mxor_loop]; sm; try apply IH; auto. Qed.
#[global] Hint Resolve s_mxor : sm.
(** What a backend accesses depends on its arguments only, and it leaves the sizes. *)
Record lb_silent (cx : ctx) (B : lbackend) : Prop := {
  ls_transform : forall n st st' m m' d s, RL st st' -> RL m m' ->
    same (RP RL eq) (lb_transform B cx n st m d s) (lb_transform B cx n st' m' d s);
  ls_generate : forall n st st' b b', RL st st' -> RL b b' ->
    same (RP RL eq) (lb_generate B cx n st b) (lb_generate B cx n st' b') }.
Lemma s_prod_xor B cx cb buf buf' n m m' dst src size st st' : lb_silent cx B ->
  (forall s s' k, RL s s' -> same RL (cb s k) (cb s' k)) -> RL buf buf' -> RL m m' -> RL st st' ->
  same (RP (RP (RP RL eq) RL) RL) (l_prod_xor B cx cb buf n m dst src size st) (l_prod_xor B cx cb buf' n m' dst src size st').
Proof.
  intros [Ht Hg] Hc Hb Hm Hs. unfold l_prod_xor. cbv zeta. norm.
  repeat match goal with
  | |- same _ (lb_transform _ _ _ _ _ _ _) _ => apply Ht; rel
  | |- same _ (lb_generate _ _ _ _ _) _ => apply Hg; rel
  | |- same _ (cb _ _) _ => apply Hc; rel
  | |- same _ (lbind (lif _ _ _) _) (lbind (lif _ _ _) _) => apply same_bind with (R := RP (RP (RP RL RL) eq) eq)
  | _ => sm1
  end.
Qed.

(** *** ChaCha *)
Lemma s_cc_round a b c d s s' : RL s s' -> same RL (l_cc_round a b c d s) (l_cc_round a b c d s').
Proof. intros H. unfold l_cc_round. cbv zeta. sm. Qed.
#[global] Hint Resolve s_cc_round : sm.
Lemma s_cc_double s s' : RL s s' -> same RL (l_cc_double s) (l_cc_double s').
Proof. intros H. unfold l_cc_double. sm. Qed.
#[global] Hint Resolve s_cc_double : sm.
Lemma s_cc_rounds : forall n s s', RL s s' -> same RL (l_cc_rounds n s) (l_cc_rounds n s').
Proof. induction n as [|n IH]; intros s s' H; cbn [l_cc_rounds]; sm; try apply IH; auto. Qed.
#[global] Hint Resolve s_cc_rounds : sm.
Lemma s_cc_add base base' : forall n ev ev' i, RL ev ev' -> same RL (l_cc_add ev base i n) (l_cc_add ev' base' i n).
Proof. induction n as [|n IH]; intros ev ev' i H; cbn [l_cc_add]; sm; try apply IH; auto. Qed.
#[global] Hint Resolve s_cc_add : sm.
Lemma s_cc_out_transform cx ev ev' dst src : forall n m m' i, RL m m' ->
  same RL (l_cc_out_transform cx ev m dst src i n) (l_cc_out_transform cx ev' m' dst src i n).
Proof.
  induction n as [|n IH]; intros m m' i H; cbn [l_cc_out_transform]; [sm|]. norm.
  sm; first [apply s_lat; [rel|intros; apply s_stor_le; assumption] | apply IH; rel].
Qed.
Lemma s_cc_out_generate cx p ev ev' dst : forall n m m' i, RL m m' ->
  same RL (l_cc_out_generate cx p ev m dst i n) (l_cc_out_generate cx p ev' m' dst i n).
Proof.
  induction n as [|n IH]; intros m m' i H; cbn [l_cc_out_generate]; [sm|]. norm.
  sm; first [apply s_lat; [rel|intros; apply s_stor_le; assumption] | apply IH; rel].
Qed.
Lemma s_cc_blocks cx o : (forall ev ev' m m' d s, RL ev ev' -> RL m m' -> same RL (o ev m d s) (o ev' m' d s)) ->
  forall n base base' m m' dst src, RL base base' -> RL m m' -> same RL (l_cc_blocks cx o n base m dst src) (l_cc_blocks cx o n base' m' dst src).
Proof.
  intros Ho. induction n as [|n IH]; intros base base' m m' dst src Hb Hm; cbn [l_cc_blocks]; [sm|]. norm.
  apply same_emit; [reflexivity|]. apply same_emit; [reflexivity|].
  eapply same_bind; [apply s_cc_rounds; rel|]. intros ev1 ev1' E1.
  eapply same_bind; [apply s_cc_add; rel|]. intros ev2 ev2' E2.
  eapply same_bind; [apply Ho; rel|]. intros m2 m2' E3. sm; apply IH; rel.
Qed.
Lemma lbk_sw_silent cx : lb_silent cx lbk_sw.
Proof.
  split; intros; cbn [lb_transform lb_generate lbk_sw]; unfold l_cc_transform, l_cc_generate; (apply same_emit; [reflexivity|]);
    (eapply same_bind; [apply s_rds|]; intros ? ? ?); (eapply same_bind; [apply s_cc_blocks; try assumption|]; [|intros ? ? ?; sm]).
  - intros. apply s_cc_out_transform. assumption.
  - intros. apply s_cc_out_generate. assumption.
Qed.
Definition Rcc (o o' : cc_obj) : Prop := RL (cc_state o) (cc_state o') /\ RL (cc_buffer o) (cc_buffer o') /\ cc_size o = cc_size o'.
Lemma s_cc_initialize cx o o' pk pv key key' iv iv' : Rcc o o' -> RL key key' -> RL iv iv' ->
  same Rcc (l_cc_initialize cx o pk pv key iv) (l_cc_initialize cx o' pk pv key' iv').
Proof.
  intros (Hs & Hb & Hz) Hk Hv. unfold l_cc_initialize. sm. split; [|split]; cbn [cc_state cc_buffer cc_size]; rel.
Qed.
Lemma s_cc_count s s' n : RL s s' -> same RL (l_cc_count s n) (l_cc_count s' n).
Proof. intros H. unfold l_cc_count. sm. Qed.
Lemma s_cc_crypt B cx o o' m m' src size dst : lb_silent cx B -> Rcc o o' -> RL m m' ->
  same (RP (RP Rcc RL) eq) (l_cc_crypt B cx o m src size dst) (l_cc_crypt B cx o' m' src size dst).
Proof.
  intros HB (Hs & Hb & Hz) Hm. unfold l_cc_crypt. rewrite Hz.
  eapply same_bind; [apply s_prod_xor; [exact HB|intros; apply s_cc_count; assumption|exact Hb|exact Hm|exact Hs]|].
  intros ? ? ?. dR. apply same_ret. split; [split|]; cbn [fst snd]; try assumption; try reflexivity. split; [|split]; cbn [cc_state cc_buffer cc_size]; assumption || reflexivity.
Qed.

(** *** Poly1305 *)
Lemma s_poly_mul key key' acc acc' : same RA (l_poly_mul key acc) (l_poly_mul key' acc').
Proof. unfold l_poly_mul. sm. Qed.
#[global] Hint Resolve s_poly_mul : sm.
Lemma s_poly_blocks cx key key' add : forall n acc acc' q src src',
  same RA (l_poly_blocks cx key add n acc q src) (l_poly_blocks cx key' add n acc' q src').
Proof. induction n as [|n IH]; intros; cbn [l_poly_blocks]; sm; try apply IH. Qed.
#[global] Hint Resolve s_poly_blocks : sm.
Lemma s_poly_process cx key key' add n acc acc' q src src' : RL acc acc' ->
  same RL (l_poly_process cx key add n acc q src) (l_poly_process cx key' add n acc' q src').
Proof.
  intros H. unfold l_poly_process.
  do 5 (eapply same_bind; [apply s_lrd|intros ? ? _]).
  eapply same_bind; [apply s_poly_blocks|]. intros [[[[? ?] ?] ?] ?] [[[[? ?] ?] ?] ?] _. sm.
Qed.
#[global] Hint Resolve s_poly_process : sm.
Definition Rpo (o o' : poly_obj) : Prop :=
  RL (po_r o) (po_r o') /\ RL (po_s o) (po_s o') /\ RL (po_acc o) (po_acc o') /\ RL (po_buffer o) (po_buffer o') /\ po_size o = po_size o'.
Ltac rpo := repeat split; cbn [po_r po_s po_acc po_buffer po_size]; rel.
Lemma s_poly_initialize cx o o' pk key key' : Rpo o o' -> RL key key' -> same Rpo (l_poly_initialize cx o pk key) (l_poly_initialize cx o' pk key').
Proof. intros (Hr & Hs & Ha & Hb & Hz) Hk. unfold l_poly_initialize. cbv zeta. sm. rpo. Qed.
Lemma s_poly_update cx o o' q msg msg' : Rpo o o' -> RL msg msg' -> same Rpo (l_poly_update cx o q msg) (l_poly_update cx o' q msg').
Proof.
  intros (Hr & Hs & Ha & Hb & Hz) Hk. unfold l_poly_update. rewrite Hz.
  eapply same_bind; [apply s_soak with (R := RL); [intros; apply s_poly_process; assumption|assumption|assumption|assumption]|].
  intros ? ? ?. dR. apply same_ret. rpo.
Qed.
Lemma s_poly_last cx o o' : Rpo o o' -> same (RP RL RL) (l_poly_last cx o) (l_poly_last cx o').
Proof.
  intros (Hr & Hs & Ha & Hb & Hz). unfold l_poly_last. rewrite Hz. norm.
  sm; first [rel | apply s_lat; [rel|intros; apply s_set; assumption]].
Qed.
Lemma s_poly_finish s s' acc acc' : RL acc acc' -> same RL (l_poly_finish s acc) (l_poly_finish s' acc').
Proof. intros H. unfold l_poly_finish. cbv zeta. sm. Qed.
Lemma s_poly_finalize cx o o' : Rpo o o' -> same Rpo (l_poly_finalize cx o) (l_poly_finalize cx o').
Proof.
  intros Ho. pose proof Ho as (Hr & Hs & Ha & Hb & Hz). unfold l_poly_finalize.
  eapply same_bind; [apply s_poly_last; exact Ho|]. intros ? ? ?. dR.
  eapply same_bind; [apply s_poly_finish; assumption|]. intros ? ? ?. apply same_ret. rpo.
Qed.
Lemma s_poly_digest cx dsz o o' p dst dst' size : Rpo o o' -> RL dst dst' ->
  same (RP RL eq) (l_poly_digest cx dsz o p dst size) (l_poly_digest cx dsz o' p dst' size).
Proof. intros (Hr & Hs & Ha & Hb & Hz) Hd. unfold l_poly_digest. sm. Qed.

(** *** The AEAD *)
Definition Rao (o o' : aead_obj) : Prop := Rcc (ao_cipher o) (ao_cipher o') /\ Rpo (ao_mac o) (ao_mac o') /\ ao_aad o = ao_aad o' /\ ao_edd o = ao_edd o'.
Definition Rap (p p' : aead_apie) : Prop := Rao (ap_impl p) (ap_impl p') /\ ap_aad_done p = ap_aad_done p' /\ ap_done p = ap_done p'.
Section Aead.
Variables (B : lbackend) (cx : ctx).
Hypothesis HB : lb_silent cx B.
Lemma s_aead_initialize o o' key key' iv iv' : Rao o o' -> RL key key' -> RL iv iv' ->
  same Rao (l_aead_initialize B cx o key iv) (l_aead_initialize B cx o' key' iv').
Proof.
  intros (Hc & Hm & Ha & He) Hk Hv. unfold l_aead_initialize.
  eapply same_bind; [apply s_lat; [reflexivity|intros; apply s_init; assumption]|]. intros v v' Ev.
  eapply same_bind; [apply s_cc_initialize; [exact Hc|exact Hk|exact Ev]|]. intros c c' Ec.
  eapply same_bind; [apply s_cc_crypt; [exact HB|exact Ec|reflexivity]|]. intros ? ? ?. dR.
  eapply same_bind; [apply s_poly_initialize; [exact Hm|assumption]|]. intros ? ? ?.
  apply same_ret. repeat split; cbn [ao_cipher ao_mac]; solve [apply H | apply Ra0].
Qed.
Lemma s_aead_aad o o' d d' : Rao o o' -> RL d d' -> same Rao (l_aead_aad cx o d) (l_aead_aad cx o' d').
Proof.
  intros (Hc & Hm & Ha & He) Hd. unfold l_aead_aad.
  eapply same_bind; [apply s_poly_update; [exact Hm|exact Hd]|]. intros h h' Eh. apply same_ret.
  unfold RL in Hd. rewrite Ha, Hd. split; [exact Hc|split; [exact Eh|split; [reflexivity|exact He]]].
Qed.
Lemma s_aead_aadover o o' : Rao o o' -> same Rao (l_aead_aadover cx o) (l_aead_aadover cx o').
Proof.
  intros (Hc & Hm & Ha & He). unfold l_aead_aadover, aead_zeros. rewrite Ha.
  eapply same_bind; [apply s_rds|]. intros z z' Ez.
  eapply same_bind; [apply s_poly_update; [exact Hm|exact Ez]|]. intros h h' Eh. apply same_ret.
  split; [exact Hc|split; [exact Eh|split; [reflexivity|exact He]]].
Qed.
Lemma s_aead_encrypt o o' m m' src size dst : Rao o o' -> RL m m' ->
  same (RP (RP Rao RL) eq) (l_aead_encrypt B cx o m src size dst) (l_aead_encrypt B cx o' m' src size dst).
Proof.
  intros (Hc & Hm & Ha & He) Hk. unfold l_aead_encrypt.
  eapply same_bind; [apply s_cc_crypt; [exact HB|exact Hc|exact Hk]|]. intros ? ? ?. dR.
  eapply same_bind; [apply s_rds|]. intros z z' Ez.
  eapply same_bind; [apply s_poly_update; [exact Hm|exact Ez]|]. intros h h' Eh. apply same_ret.
  split; [split; [|assumption]|reflexivity]. cbn [fst snd]. rewrite He. split; [assumption|split; [exact Eh|split; [exact Ha|reflexivity]]].
Qed.
Lemma s_aead_decrypt o o' m m' src size dst : Rao o o' -> RL m m' ->
  same (RP (RP Rao RL) eq) (l_aead_decrypt B cx o m src size dst) (l_aead_decrypt B cx o' m' src size dst).
Proof.
  intros (Hc & Hm & Ha & He) Hk. unfold l_aead_decrypt.
  eapply same_bind; [apply s_rds|]. intros z z' Ez.
  eapply same_bind; [apply s_poly_update; [exact Hm|exact Ez]|]. intros h h' Eh.
  eapply same_bind; [apply s_cc_crypt; [exact HB|exact Hc|exact Hk]|]. intros ? ? ?. dR. apply same_ret.
  split; [split; [|assumption]|reflexivity]. cbn [fst snd]. rewrite He. split; [assumption|split; [exact Eh|split; [exact Ha|reflexivity]]].
Qed.
Lemma s_aead_finalize o o' : Rao o o' -> same Rao (l_aead_finalize cx o) (l_aead_finalize cx o').
Proof.
  intros (Hc & Hm & Ha & He). unfold l_aead_finalize, aead_zeros. rewrite He, Ha.
  eapply same_bind; [apply s_rds|]. intros z z' Ez.
  eapply same_bind; [apply s_poly_update; [exact Hm|exact Ez]|]. intros h h' Eh.
  eapply same_bind; [apply s_stor_le; reflexivity|]. intros b b' Eb.
  eapply same_bind; [apply s_stor_le; exact Eb|]. intros b2 b2' Eb2.
  eapply same_bind; [apply s_poly_update; [exact Eh|exact Eb2]|]. intros h2 h2' Eh2.
  eapply same_bind; [apply s_poly_finalize; exact Eh2|]. intros h3 h3' Eh3. apply same_ret.
  split; [exact Hc|split; [exact Eh3|split; reflexivity]].
Qed.
Lemma s_aapie_initialize p p' key key' iv iv' : Rap p p' -> RL key key' -> RL iv iv' ->
  same Rap (l_aapie_initialize B cx p key iv) (l_aapie_initialize B cx p' key' iv').
Proof.
  intros (Ho & _) Hk Hv. unfold l_aapie_initialize. eapply same_bind; [apply s_aead_initialize; eassumption|]. intros o o' Eo. apply same_ret.
  split; [exact Eo|split; reflexivity].
Qed.
Lemma s_aapie_finalize_aad p p' : Rap p p' -> same Rap (l_aapie_finalize_aad cx p) (l_aapie_finalize_aad cx p').
Proof.
  intros Hp. pose proof Hp as (Ho & Hd & Hf). unfold l_aapie_finalize_aad. apply same_lif; [exact Hd|apply same_ret; exact Hp|].
  eapply same_bind; [apply s_aead_aadover; exact Ho|]. intros o o' Eo. apply same_ret. split; [exact Eo|split; [reflexivity|exact Hf]].
Qed.
Lemma s_aapie_finalize p p' : Rap p p' -> same Rap (l_aapie_finalize cx p) (l_aapie_finalize cx p').
Proof.
  intros Hp. pose proof Hp as (Ho & Hd & Hf). unfold l_aapie_finalize. apply same_lif; [exact Hf|apply same_ret; exact Hp|].
  eapply same_bind; [apply s_aead_finalize; exact Ho|]. intros o o' Eo. apply same_ret. split; [exact Eo|split; [exact Hd|reflexivity]].
Qed.
Lemma s_aapie_aad p p' d d' : Rap p p' -> RL d d' -> same Rap (l_aapie_aad cx p d) (l_aapie_aad cx p' d').
Proof.
  intros (Ho & Hd & Hf) Hx. unfold l_aapie_aad. eapply same_bind; [apply s_aead_aad; eassumption|]. intros o o' Eo. apply same_ret.
  split; [exact Eo|split; assumption].
Qed.
Lemma s_aapie_crypt dir p p' m m' src size dst : Rap p p' -> RL m m' ->
  same (RP (RP Rap RL) eq) (l_aapie_crypt dir B cx p m src size dst) (l_aapie_crypt dir B cx p' m' src size dst).
Proof.
  intros Hp Hm. unfold l_aapie_crypt. eapply same_bind; [apply s_aapie_finalize_aad; exact Hp|]. intros q q' (Ho & Hd & Hf).
  eapply same_bind; [destruct dir; [apply s_aead_encrypt; [exact Ho|exact Hm]|apply s_aead_decrypt; [exact Ho|exact Hm]]|].
  intros ? ? ?. dR. apply same_ret. split; [split; [|assumption]|reflexivity]. cbn [fst snd]. split; [assumption|split; assumption].
Qed.
(** Containers. *)
Lemma RC_len c d : RC c d -> length (cdata c) = length (cdata d).
Proof. destruct c, d; cbn; intros H; try discriminate H; unfold RC, blank_c, blank in H; injection H as H; apply (f_equal (@length N)) in H; rewrite !repeat_length in H; exact H. Qed.
Lemma blank_len l l' : length l = length l' -> blank l = blank l'.
Proof. unfold blank. intros ->. reflexivity. Qed.
Lemma resize_len l l' n : length l = length l' -> length (resize_list l n) = length (resize_list l' n).
Proof. intros H. unfold resize_list. rewrite !app_length, !firstn_length, !repeat_length, H. reflexivity. Qed.
Lemma RC_resize c d n : RC c d -> RP RC eq (cresize c n) (cresize d n).
Proof.
  intros H. pose proof (RC_len _ _ H) as E. destruct c, d; try discriminate H; cbn in *; split; cbn [fst snd]; try congruence.
  - unfold RC. cbn. f_equal. apply blank_len, resize_len, E.
Qed.
Lemma RC_set c d l l' : RC c d -> RL l l' -> RC (cset c l) (cset d l').
Proof. intros H E. destruct c, d; try discriminate H; unfold RC; cbn; f_equal; apply blank_len, E. Qed.
Lemma s_aapie_crypt_c dir p p' t t' c c' : Rap p p' -> RL t t' -> RC c c' ->
  same (RP (RP Rap RC) eq) (l_aapie_crypt_c dir B cx p t c) (l_aapie_crypt_c dir B cx p' t' c').
Proof.
  intros Hp Ht Hc. unfold l_aapie_crypt_c. pose proof (RC_resize c c' (aapie_size dir (length t')) Hc) as H.
  unfold RL in Ht. rewrite Ht. destruct (cresize c _) as [c1 z1], (cresize c' _) as [c2 z2]. destruct H as [H _]. cbn [fst] in H.
  eapply same_bind; [apply s_aapie_crypt; [exact Hp|]|]. { unfold RL. rewrite !app_length, Ht, (RC_len _ _ H). reflexivity. }
  intros ? ? ?. dR. cbv zeta.
  match goal with |- same _ (let '(_, _) := cresize ?a ?n in _) (let '(_, _) := cresize ?b _ in _) =>
    assert (H3 : RP RC eq (cresize a n) (cresize b n)) by (apply RC_resize, RC_set; [exact H|unfold RL in *; rewrite !skipn_length; congruence]);
    destruct (cresize a n) as [c3 z3], (cresize b n) as [c4 z4] end.
  destruct H3 as [H3 _]. apply same_ret. split; [split; assumption|reflexivity].
Qed.
Lemma s_aapie_crypt_same dir p p' c c' : Rap p p' -> RC c c' ->
  same (RP (RP Rap RC) eq) (l_aapie_crypt_same dir B cx p c) (l_aapie_crypt_same dir B cx p' c').
Proof.
  intros Hp Hc. unfold l_aapie_crypt_same. rewrite (RC_len _ _ Hc).
  pose proof (RC_resize c c' (aapie_size dir (length (cdata c'))) Hc) as H.
  destruct (cresize c _) as [c1 z1], (cresize c' _) as [c2 z2]. destruct H as [H _]. cbn [fst] in H. rewrite (RC_len _ _ H).
  eapply same_bind; [apply s_aapie_crypt; [exact Hp|exact (RC_len _ _ H)]|].
  intros ? ? ?. dR. cbv zeta.
  match goal with |- same _ (let '(_, _) := cresize ?a ?n in _) (let '(_, _) := cresize ?b _ in _) =>
    assert (H3 : RP RC eq (cresize a n) (cresize b n)) by (apply RC_resize, RC_set; [exact H|assumption]);
    destruct (cresize a n) as [c3 z3], (cresize b n) as [c4 z4] end.
  destruct H3 as [H3 _]. apply same_ret. split; [split; assumption|reflexivity].
Qed.
Variable dsz : nat.
Lemma s_aapie_digest p p' q d d' size : Rap p p' -> RL d d' ->
  same (RP (RP Rap RL) eq) (l_aapie_digest cx dsz p q d size) (l_aapie_digest cx dsz p' q d' size).
Proof.
  intros Hp Hd. unfold l_aapie_digest. eapply same_bind; [apply s_aapie_finalize; exact Hp|]. intros r r' Hr. pose proof Hr as ((_ & Hm & _) & _).
  eapply same_bind; [apply s_poly_digest; [exact Hm|exact Hd]|]. intros ? ? ?. dR. apply same_ret. split; [split; assumption|reflexivity].
Qed.
Lemma s_aapie_digest_c p p' q c c' size : Rap p p' -> RC c c' ->
  same (RP (RP Rap RC) eq) (l_aapie_digest_c cx dsz p q c size) (l_aapie_digest_c cx dsz p' q c' size).
Proof.
  intros Hp Hc. unfold l_aapie_digest_c. eapply same_bind; [apply s_aapie_finalize; exact Hp|]. intros r r' Hr. cbv zeta.
  pose proof (RC_resize c c' (Nat.min size dsz) Hc) as H.
  destruct (cresize c _) as [c1 z1], (cresize c' _) as [c2 z2]. destruct H as [H Hz]. cbn [fst snd] in H, Hz. subst z2.
  eapply same_bind; [apply s_aapie_digest; [exact Hr|exact (RC_len _ _ H)]|].
  intros ? ? ?. dR. apply same_ret. split; [split; [assumption|]|reflexivity]. cbn [fst snd]. apply RC_set; assumption.
Qed.
Lemma s_aapie_verify p p' j j' m m' : Rap p p' -> RL j j' -> RL m m' ->
  same (RP Rap RA) (l_aapie_verify cx dsz p j m) (l_aapie_verify cx dsz p' j' m').
Proof.
  intros Hp Hj Hm. unfold l_aapie_verify, l_aapie_digest_static. unfold RL in Hj. rewrite Hj.
  eapply same_bind; [eapply same_bind; [apply s_aapie_digest_c with (c' := Static j'); [exact Hp|unfold RC; cbn; f_equal; apply blank_len, Hj]|]|].
  - intros ? ? ?. dR. apply same_ret with (R := RP Rap RL). split; [assumption|]. cbn [fst snd]. unfold RL. apply RC_len. assumption.
  - intros ? ? ?. dR. eapply same_bind; [apply s_match_c; assumption|]. intros b b' _.
    apply same_emit; [reflexivity|]. apply same_ret. split; [assumption|exact I].
Qed.
Lemma shape_len l l' : blank l = blank l' -> RL l l'.
Proof. intros H. apply (f_equal (@length N)) in H. unfold blank in H. rewrite !repeat_length in H. exact H. Qed.
Lemma s_aead_step p p' c c' : Rap p p' -> shape c = shape c' ->
  same (RP Rap RA) (l_aead_step B cx dsz p c) (l_aead_step B cx dsz p' c').
Proof.
  intros Hp Hc. destruct c, c'; try discriminate Hc; cbn [shape] in Hc; unfold l_aead_step.
  - assert (blank key = blank key0 /\ blank iv = blank iv0) as [H1 H2] by (split; congruence).
    eapply same_bind; [apply s_aapie_initialize; [exact Hp|apply shape_len; assumption..]|]. intros ? ? ?. apply same_ret. split; [assumption|exact I].
  - assert (blank data = blank data0) as H1 by congruence.
    eapply same_bind; [apply s_aapie_aad; [exact Hp|apply shape_len; assumption..]|]. intros ? ? ?. apply same_ret. split; [assumption|exact I].
  - assert (blank m = blank m0 /\ dir = dir0 /\ src = src0 /\ size = size0 /\ dst = dst0) as (H1 & -> & -> & -> & ->) by (repeat split; congruence).
    eapply same_bind; [apply s_aapie_crypt; [exact Hp|apply shape_len; assumption..]|]. intros ? ? ?. dR. apply same_ret. split; [assumption|exact I].
  - assert (blank text = blank text0 /\ dir = dir0 /\ blank_c c = blank_c c0) as (H1 & -> & H2) by (repeat split; congruence).
    eapply same_bind; [apply s_aapie_crypt_c; [exact Hp|apply shape_len; assumption|exact H2]|]. intros ? ? ?. dR. apply same_ret. split; [assumption|exact I].
  - assert (dir = dir0 /\ blank_c c = blank_c c0) as (-> & H2) by (repeat split; congruence).
    eapply same_bind; [apply s_aapie_crypt_same; [exact Hp|exact H2]|]. intros ? ? ?. dR. apply same_ret. split; [assumption|exact I].
  - assert (blank dst = blank dst0 /\ size = size0) as (H1 & ->) by (repeat split; congruence).
    eapply same_bind; [apply s_aapie_digest; [exact Hp|apply shape_len; assumption..]|]. intros ? ? ?. dR. apply same_ret. split; [assumption|exact I].
  - assert (size = size0 /\ blank_c c = blank_c c0) as (-> & H2) by (repeat split; congruence).
    eapply same_bind; [apply s_aapie_digest_c; [exact Hp|exact H2]|]. intros ? ? ?. dR. apply same_ret. split; [assumption|exact I].
  - assert (blank junk = blank junk0 /\ blank mac = blank mac0) as [H1 H2] by (split; congruence).
    eapply same_bind; [apply s_aapie_verify; [exact Hp|apply shape_len; assumption..]|]. intros ? ? ?. dR. apply same_ret. split; [assumption|exact I].
Qed.
Lemma s_aead_run : forall cs cs' p p', Rap p p' -> map shape cs = map shape cs' ->
  same (RP Rap RA) (l_aead_run B cx dsz p cs) (l_aead_run B cx dsz p' cs').
Proof.
  induction cs as [|c cs IH]; intros [|c' cs'] p p' Hp Hc; try discriminate Hc; cbn [l_aead_run].
  - apply same_ret. split; [exact Hp|exact I].
  - cbn [map] in Hc. assert (shape c = shape c' /\ map shape cs = map shape cs') as [H1 H2] by (split; congruence).
    eapply same_bind; [apply s_aead_step; [exact Hp|exact H1]|]. intros ? ? ?. dR.
    eapply same_bind; [apply IH; [eassumption|exact H2]|]. intros ? ? ?. dR. apply same_ret. split; [assumption|exact I].
Qed.
End Aead.
Lemma Rap_shape p p' : aead_shape p = aead_shape p' -> Rap p p'.
Proof.
  destruct p as [[[s b n] [r k a pb z] x y] d e], p' as [[[s' b' n'] [r' k' a' pb' z'] x' y'] d' e']. unfold aead_shape, cc_shape, poly_shape.
  cbn [ap_impl ap_aad_done ap_done ao_cipher ao_mac ao_aad ao_edd cc_state cc_buffer cc_size po_r po_s po_acc po_buffer po_size].
  intros H. unfold Rap, Rao, Rcc, Rpo.
  cbn [ap_impl ap_aad_done ap_done ao_cipher ao_mac ao_aad ao_edd cc_state cc_buffer cc_size po_r po_s po_acc po_buffer po_size].
  repeat split; first [congruence|apply shape_len; congruence].
Qed.
