(** Ownership of the memory of views. *)
From Verif Require Import Base BaseLemmas Model_View Spec_View.

Definition get_of (s : vars) : nat -> option mview := v_get s.
Definition upd {A} (g : nat -> option A) (x : nat) (v : option A) : nat -> option A := fun y => if Nat.eq_dec y x then v else g y.
Lemma upd_same {A} (g : nat -> option A) x v : upd g x v x = v.
Proof. unfold upd. destruct (Nat.eq_dec x x); congruence. Qed.
Lemma upd_other {A} (g : nat -> option A) x v y : y <> x -> upd g x v y = g y.
Proof. intros H. unfold upd. destruct (Nat.eq_dec y x); congruence. Qed.

Lemma v_get_set s x v y : v_get (v_set s x v) y = upd (v_get s) x (Some v) y.
Proof.
  induction s as [|[z w] s IH]; cbn [v_set v_get].
  - unfold upd. destruct (Nat.eq_dec y x) as [->|H]; [rewrite Nat.eqb_refl; reflexivity|]. rewrite (proj2 (Nat.eqb_neq y x) H). reflexivity.
  - destruct (Nat.eqb_spec x z) as [->|Hxz]; cbn [v_get].
    + unfold upd. destruct (Nat.eq_dec y z) as [->|H]; [rewrite Nat.eqb_refl; reflexivity|]. rewrite (proj2 (Nat.eqb_neq y z) H). reflexivity.
    + rewrite IH. unfold upd. destruct (Nat.eqb_spec y z) as [->|Hyz]; [|reflexivity]. destruct (Nat.eq_dec z x); [congruence|reflexivity].
Qed.
Lemma v_set_keys s x v k : In k (map fst (v_set s x v)) <-> k = x \/ In k (map fst s).
Proof.
  induction s as [|[z w] s IH]; cbn [v_set map fst In]; [intuition congruence|]. destruct (Nat.eqb_spec x z) as [->|H]; cbn [map fst In]; [intuition congruence|].
  rewrite IH. intuition congruence.
Qed.
Lemma v_set_nodup s x v : NoDup (map fst s) -> NoDup (map fst (v_set s x v)).
Proof.
  induction s as [|[z w] s IH]; cbn [v_set map fst]; intros H; [constructor; [intros []|constructor]|].
  inversion H; subst. destruct (Nat.eqb_spec x z) as [->|Hn]; cbn [map fst]; [constructor; assumption|]. constructor; [|apply IH; assumption].
  intros Hin. apply v_set_keys in Hin. destruct Hin; [congruence|contradiction].
Qed.
Lemma v_get_none s x : ~ In x (map fst s) -> v_get s x = None.
Proof.
  induction s as [|[z w] s IH]; cbn [v_get map fst In]; intros H; [reflexivity|]. rewrite (proj2 (Nat.eqb_neq x z)) by intuition congruence. apply IH. intuition.
Qed.
Lemma v_get_drop s x y : NoDup (map fst s) -> v_get (v_drop s x) y = upd (v_get s) x None y.
Proof.
  induction s as [|[z w] s IH]; cbn [v_drop v_get map fst]; intros H.
  - unfold upd. destruct (Nat.eq_dec y x); reflexivity.
  - inversion H; subst. destruct (Nat.eqb_spec x z) as [->|Hxz].
    + unfold upd. destruct (Nat.eq_dec y z) as [->|Hy]; [apply v_get_none; assumption|]. rewrite (proj2 (Nat.eqb_neq y z) Hy). reflexivity.
    + cbn [v_get]. rewrite IH by assumption. unfold upd. destruct (Nat.eqb_spec y z) as [->|Hyz]; [|reflexivity]. destruct (Nat.eq_dec z x); [congruence|reflexivity].
Qed.
Lemma v_drop_keys s x k : In k (map fst (v_drop s x)) -> In k (map fst s).
Proof.
  induction s as [|[z w] s IH]; cbn [v_drop map fst In]; [intros []|]. destruct (x =? z)%nat; cbn [map fst In]; intuition.
Qed.
Lemma v_drop_nodup s x : NoDup (map fst s) -> NoDup (map fst (v_drop s x)).
Proof.
  induction s as [|[z w] s IH]; cbn [v_drop map fst]; intros H; [constructor|]. inversion H; subst. destruct (x =? z)%nat; [assumption|].
  cbn [map fst]. constructor; [|apply IH; assumption]. intros Hin. apply v_drop_keys in Hin. contradiction.
Qed.

(** *** Constant evaluation: every live block belongs to exactly one variable. *)
Definition holds (h : blocks) (v : mview) (l : list N) : Prop :=
  (mv_ptr v = Null /\ mv_size v = 0 /\ l = []) \/ exists a, mv_ptr v = Block a /\ nth_error h a = Some (Some l) /\ mv_size v = length l.
Definition null_view : mview := {| mv_ptr := Null; mv_size := 0 |}.
Record Inv (h : blocks) (g : nat -> option mview) (m : values) : Prop := {
  inv_live : forall x, match g x, m x with None, None => True | Some v, Some l => holds h v l | _, _ => False end;
  inv_once : forall x y v w a, g x = Some v -> g y = Some w -> mv_ptr v = Block a -> mv_ptr w = Block a -> x = y;
  inv_owned : forall a l, nth_error h a = Some (Some l) -> exists x v, g x = Some v /\ mv_ptr v = Block a }.
Lemma Inv_ext h g m g' m' : Inv h g m -> (forall x, g' x = g x) -> (forall x, m' x = m x) -> Inv h g' m'.
Proof.
  intros [A B C] Eg Em. constructor.
  - intros x. rewrite Eg, Em. apply A.
  - intros x y v w a. rewrite !Eg. apply B.
  - intros a l H. destruct (C a l H) as (x & v & Hx & Hp). exists x, v. rewrite Eg. auto.
Qed.
Definition idle (g : nat -> option mview) (x : nat) : Prop := match g x with None => True | Some v => mv_ptr v = Null end.
Lemma inv_new h g m x l : Inv h g m -> idle g x ->
  Inv (h ++ [Some l]) (upd g x (Some {| mv_ptr := Block (length h); mv_size := length l |})) (upd m x (Some l)).
Proof.
  intros [A B C] Hi. constructor.
  - intros y. unfold upd. destruct (Nat.eq_dec y x) as [->|Hn].
    + right. exists (length h). cbn [mv_ptr mv_size]. rewrite nth_error_app2, Nat.sub_diag by lia. auto.
    + specialize (A y). destruct (g y) as [v|], (m y) as [k|]; auto. destruct A as [A|(a & P & E & S)]; [left; exact A|]. right. exists a.
      rewrite nth_error_app1; [auto|]. apply nth_error_Some. congruence.
  - intros y z v w a. unfold upd. assert (F : forall q u, q <> x -> g q = Some u -> mv_ptr u <> Block (length h)).
    { intros q u Hq Hu Hp. specialize (A q). rewrite Hu in A. destruct (m q) as [k|]; [|exact A]. destruct A as [(A & _)|(b & P & E & _)]; [congruence|].
      assert (b = length h) by congruence. subst b. assert (length h < length h) by (apply nth_error_Some; congruence). lia. }
    destruct (Nat.eq_dec y x) as [->|Hy], (Nat.eq_dec z x) as [->|Hz]; intros Hv Hw Hp Hq.
    + reflexivity.
    + exfalso. assert (v = {| mv_ptr := Block (length h); mv_size := length l |}) by congruence. subst v. cbn [mv_ptr] in Hp. apply (F z w Hz Hw). congruence.
    + exfalso. assert (w = {| mv_ptr := Block (length h); mv_size := length l |}) by congruence. subst w. cbn [mv_ptr] in Hq. apply (F y v Hy Hv). congruence.
    + exact (B y z v w a Hv Hw Hp Hq).
  - intros a k H. destruct (Nat.lt_ge_cases a (length h)) as [Hl|Hl].
    + rewrite nth_error_app1 in H by exact Hl. destruct (C a k H) as (y & v & Hv & Hp). exists y, v. rewrite upd_other; [auto|].
      intros ->. unfold idle in Hi. rewrite Hv in Hi. congruence.
    + assert (a < length (h ++ [Some l])) by (apply nth_error_Some; congruence). rewrite app_length in H0. cbn [length] in H0.
      assert (a = length h) by lia. subst a. exists x. eexists. rewrite upd_same. split; [reflexivity|reflexivity].
Qed.
Lemma inv_free h g m x v : Inv h g m -> g x = Some v ->
  exists h', b_delete h (mv_ptr v) = Some h' /\ length h' = length h /\ Inv h' (upd g x (Some null_view)) (upd m x (Some [])).
Proof.
  intros [A B C] Hv. pose proof (A x) as Ax. rewrite Hv in Ax. destruct (m x) as [l|] eqn:Em; [|contradiction].
  destruct Ax as [(P & S & ->)|(a & P & E & S)]; rewrite P; cbn [b_delete].
  - exists h. split; [reflexivity|]. split; [reflexivity|]. constructor.
    + intros y. unfold upd. destruct (Nat.eq_dec y x) as [->|Hn]; [left; auto|apply A].
    + intros y z u w a. unfold upd. destruct (Nat.eq_dec y x) as [->|Hy], (Nat.eq_dec z x) as [->|Hz]; intros Hu Hw Hp Hq; auto;
      try (assert (Hn : u = null_view) by congruence; subst u; discriminate Hp); try (assert (Hn : w = null_view) by congruence; subst w; discriminate Hq).
      exact (B y z u w a Hu Hw Hp Hq).
    + intros a l H. destruct (C a l H) as (y & u & Hu & Hp). exists y, u. rewrite upd_other; [auto|]. intros ->. congruence.
  - rewrite E. assert (La : a < length h) by (apply nth_error_Some; congruence).
    set (h' := firstn a h ++ None :: skipn (Datatypes.S a) h).
    assert (Lh : length h' = length h) by (unfold h'; rewrite app_length, firstn_length; cbn [length]; rewrite skipn_length; lia).
    assert (N1 : nth_error h' a = Some None).
    { unfold h'. rewrite nth_error_app2 by (rewrite firstn_length; lia). rewrite firstn_length, Nat.min_l, Nat.sub_diag by lia. reflexivity. }
    assert (N2 : forall b, b <> a -> nth_error h' b = nth_error h b).
    { intros b Hb. assert (Eh : h = firstn a h ++ Some l :: skipn (Datatypes.S a) h).
      { rewrite <- (firstn_skipn a h) at 1. f_equal. destruct (nth_error_split h a E) as (l1 & l2 & Eq & Hl). rewrite Eq.
        rewrite <- Hl. rewrite skipn_app, skipn_all, Nat.sub_diag. cbn [app]. rewrite skipn_O.
        change (Datatypes.S (length l1)) with (1 + length l1). rewrite skipn_app.
        rewrite (skipn_all2 l1) by lia. replace (1 + length l1 - length l1) with 1 by lia. reflexivity. }
      rewrite Eh at 1. unfold h'. destruct (Nat.lt_ge_cases b a) as [Hlt|Hge].
      - rewrite !nth_error_app1 by (rewrite firstn_length; lia). reflexivity.
      - rewrite !nth_error_app2 by (rewrite firstn_length; lia). rewrite firstn_length, Nat.min_l by lia.
        destruct (b - a) as [|k] eqn:Ek; [lia|]. reflexivity. }
    clearbody h'. exists h'. split; [reflexivity|]. split; [exact Lh|]. constructor.
    + intros y. unfold upd. destruct (Nat.eq_dec y x) as [->|Hn]; [left; auto|]. pose proof (A y) as Ay. destruct (g y) as [u|] eqn:Eu, (m y) as [k|]; auto.
      destruct Ay as [Ay|(b & P' & E' & S')]; [left; exact Ay|]. right. exists b. rewrite N2; [auto|]. intros ->. apply Hn. exact (B y x u v a Eu Hv P' P).
    + intros y z u w b. unfold upd. destruct (Nat.eq_dec y x) as [->|Hy], (Nat.eq_dec z x) as [->|Hz]; intros Hu Hw Hp Hq; auto;
      try (assert (Hn : u = null_view) by congruence; subst u; discriminate Hp); try (assert (Hn : w = null_view) by congruence; subst w; discriminate Hq).
      exact (B y z u w b Hu Hw Hp Hq).
    + intros b k H. assert (b <> a) by (intros ->; rewrite N1 in H; discriminate). rewrite N2 in H by assumption.
      destruct (C b k H) as (y & u & Hu & Hp). exists y, u. rewrite upd_other; [auto|]. intros ->. assert (u = v) by congruence. subst u. congruence.
Qed.
Lemma inv_null h g m x : Inv h g m -> idle g x -> Inv h (upd g x (Some null_view)) (upd m x (Some [])).
Proof.
  intros [A B C] Hi. constructor.
  - intros y. unfold upd. destruct (Nat.eq_dec y x) as [->|Hn]; [left; auto|apply A].
  - intros y z u w a. unfold upd. destruct (Nat.eq_dec y x) as [->|Hy], (Nat.eq_dec z x) as [->|Hz]; intros Hu Hw Hp Hq; auto;
    try (assert (Hn : u = null_view) by congruence; subst u; discriminate Hp); try (assert (Hn : w = null_view) by congruence; subst w; discriminate Hq).
    exact (B y z u w a Hu Hw Hp Hq).
  - intros a l H. destruct (C a l H) as (y & u & Hu & Hp). exists y, u. rewrite upd_other; [auto|]. intros ->. unfold idle in Hi. rewrite Hu in Hi. congruence.
Qed.
Lemma inv_drop h g m x : Inv h g m -> idle g x -> Inv h (upd g x None) (upd m x None).
Proof.
  intros [A B C] Hi. constructor.
  - intros y. unfold upd. destruct (Nat.eq_dec y x) as [->|Hn]; [exact I|apply A].
  - intros y z u w a. unfold upd. destruct (Nat.eq_dec y x) as [->|Hy], (Nat.eq_dec z x) as [->|Hz]; intros Hu Hw; try discriminate. exact (B y z u w a Hu Hw).
  - intros a l H. destruct (C a l H) as (y & u & Hu & Hp). exists y, u. rewrite upd_other; [auto|]. intros ->. unfold idle in Hi. rewrite Hu in Hi. congruence.
Qed.
Lemma inv_move h g m x y o l : Inv h g m -> idle g x -> x <> y -> g y = Some o -> m y = Some l ->
  Inv h (upd (upd g y (Some null_view)) x (Some o)) (upd (upd m y (Some [])) x (Some l)).
Proof.
  intros [A B C] Hi Hxy Ho Hl. constructor.
  - intros z. unfold upd. destruct (Nat.eq_dec z x) as [->|Hzx].
    + specialize (A y). rewrite Ho, Hl in A. exact A.
    + destruct (Nat.eq_dec z y) as [->|Hzy]; [left; auto|apply A].
  - intros z t v w a. unfold upd. intros Hv Hw Hp Hq.
    assert (R : forall z v, (if Nat.eq_dec z x then Some o else if Nat.eq_dec z y then Some null_view else g z) = Some v -> mv_ptr v = Block a ->
                (z = x /\ v = o) \/ (z <> x /\ z <> y /\ g z = Some v)).
    { clear - Hxy. intros z v H P. destruct (Nat.eq_dec z x) as [->|Hzx]; [left; split; congruence|]. destruct (Nat.eq_dec z y) as [->|Hzy]; [|right; auto].
      assert (v = null_view) by congruence. subst v. discriminate P. }
    destruct (R z v Hv Hp) as [[-> ->]|(Hz1 & Hz2 & Hz)], (R t w Hw Hq) as [[-> ->]|(Ht1 & Ht2 & Ht)]; auto.
    + exfalso. apply Ht2. exact (B t y w o a Ht Ho Hq Hp).
    + exfalso. apply Hz2. exact (B z y v o a Hz Ho Hp Hq).
    + exact (B z t v w a Hz Ht Hp Hq).
  - intros a k H. destruct (C a k H) as (z & v & Hv & Hp). destruct (Nat.eq_dec z y) as [->|Hzy].
    + exists x, o. rewrite upd_same. split; [reflexivity|congruence].
    + exists z, v. rewrite upd_other; [rewrite upd_other by assumption; auto|]. intros ->. unfold idle in Hi. rewrite Hv in Hi. congruence.
Qed.
Lemma holds_read env h v l : holds h v l -> b_read env h (mv_ptr v) (mv_size v) = Some l.
Proof.
  intros [(P & S & ->)|(a & P & E & S)]; rewrite P, S; cbn [b_read]; [reflexivity|]. destruct (length l) as [|n] eqn:El.
  - destruct l; [reflexivity|discriminate].
  - cbn [b_read]. rewrite E, <- El. rewrite Nat.ltb_irrefl, firstn_all. reflexivity.
Qed.
Lemma holds_size h v l : holds h v l -> mv_size v = length l.
Proof. intros [(P & S & ->)|(a & P & E & S)]; [rewrite S; reflexivity|exact S]. Qed.
Lemma b_delete_app h p h' b : b_delete h p = Some h' -> b_delete (h ++ [b]) p = Some (h' ++ [b]).
Proof.
  destruct p as [|a|off]; cbn [b_delete]; intros H; [assert (h' = h) by congruence; subst; reflexivity| |discriminate].
  destruct (nth_error h a) as [[l|]|] eqn:E; try discriminate. assert (La : a < length h) by (apply nth_error_Some; congruence).
  rewrite nth_error_app1 by exact La. rewrite E. assert (h' = firstn a h ++ None :: skipn (S a) h) by congruence. subst h'.
  rewrite firstn_app, skipn_app. replace (a - length h) with 0 by lia. replace (S a - length h) with 0 by lia. rewrite firstn_O, skipn_O, app_nil_r, <- app_assoc. reflexivity.
Qed.
Lemma range_read env h off size : off + size <= length env -> b_read env h (Caller off) size = Some (firstn size (skipn off env)).
Proof.
  intros H. destruct size as [|n]; [reflexivity|]. cbn [b_read]. rewrite (proj2 (Nat.ltb_ge _ _)) by exact H. reflexivity.
Qed.
Lemma range_length (env : list N) off size : off + size <= length env -> length (firstn size (skipn off env)) = size.
Proof. intros H. rewrite firstn_length, skipn_length. lia. Qed.
Lemma live_both h g m x l : Inv h g m -> m x = Some l -> exists v, g x = Some v /\ holds h v l.
Proof. intros [A _ _] H. specialize (A x). rewrite H in A. destruct (g x) as [v|]; [|contradiction]. exists v. auto. Qed.
Lemma dead_both h g m x : Inv h g m -> m x = None -> g x = None.
Proof. intros [A _ _] H. specialize (A x). rewrite H in A. destruct (g x); [contradiction|reflexivity]. Qed.

Lemma step_ce env h s m op m' a : Inv h (v_get s) m -> NoDup (map fst s) -> does true env m op m' a ->
  exists h' s', vstep true env h s op = Some (h', s', a) /\ Inv h' (v_get s') m' /\ NoDup (map fst s').
Proof.
  intros HI ND D. destruct D as [x Hx|x off size Hx Hr|x y l Hx Hy|x y l Hx Hy|x y l k Hx Hy|x y l k Hx Hy|x off size k Hx Hr|x l Hx|x l Hx]; cbn [vstep].
  - exists h. eexists. split; [reflexivity|]. split; [|apply v_set_nodup; exact ND].
    apply (Inv_ext h (upd (v_get s) x (Some null_view)) (upd m x (Some []))); [|intros; apply v_get_set|reflexivity].
    apply inv_null; [exact HI|]. unfold idle. rewrite (dead_both _ _ _ _ HI Hx). exact I.
  - unfold mv_range. rewrite (range_read env h off size Hr). cbn [bind b_new]. eexists. eexists. split; [reflexivity|]. split; [|apply v_set_nodup; exact ND].
    eapply Inv_ext; [apply (inv_new h (v_get s) m x (firstn size (skipn off env)) HI)| |].
    + unfold idle. rewrite (dead_both _ _ _ _ HI Hx). exact I.
    + intros z. rewrite v_get_set, (range_length env off size Hr). reflexivity.
    + reflexivity.
  - destruct (live_both _ _ _ _ _ HI Hy) as (o & Ho & Hh). rewrite Ho. cbn [bind]. unfold mv_copy. rewrite (holds_read env _ _ _ Hh). cbn [bind b_new].
    eexists. eexists. split; [reflexivity|]. split; [|apply v_set_nodup; exact ND].
    rewrite (holds_size _ _ _ Hh). eapply Inv_ext; [apply (inv_new h (v_get s) m x l HI)|intros; apply v_get_set|reflexivity].
    unfold idle. rewrite (dead_both _ _ _ _ HI Hx). exact I.
  - destruct (live_both _ _ _ _ _ HI Hy) as (o & Ho & Hh). rewrite Ho. cbn [bind mv_move]. eexists. eexists. split; [reflexivity|].
    split; [|apply v_set_nodup, v_set_nodup; exact ND].
    apply (Inv_ext h (upd (upd (v_get s) y (Some null_view)) x (Some o)) (upd (upd m y (Some [])) x (Some l))).
    + apply inv_move; auto; [unfold idle; rewrite (dead_both _ _ _ _ HI Hx); exact I|intros ->; congruence].
    + intros z. rewrite v_get_set. unfold upd. destruct (Nat.eq_dec z x); [destruct o; reflexivity|]. rewrite v_get_set. reflexivity.
    + reflexivity.
  - destruct (live_both _ _ _ _ _ HI Hx) as (t & Ht & Hth). destruct (live_both _ _ _ _ _ HI Hy) as (o & Ho & Hh). rewrite Ht, Ho. cbn [bind]. unfold mv_assign_copy.
    destruct (Nat.eqb_spec x y) as [->|Hn]; cbn [bind].
    + eexists. eexists. split; [reflexivity|]. split; [|apply v_set_nodup; exact ND]. eapply Inv_ext; [exact HI| |].
      * intros z. rewrite v_get_set. unfold upd. destruct (Nat.eq_dec z y) as [->|]; [congruence|reflexivity].
      * intros z. unfold put. destruct (Nat.eq_dec z y) as [->|]; [congruence|reflexivity].
    + destruct (inv_free _ _ _ _ _ HI Ht) as (h1 & E1 & _ & I1). rewrite E1. cbn [bind].
      assert (Hh1 : holds h1 o l).
      { destruct I1 as [A1 _ _]. specialize (A1 y). rewrite upd_other in A1 by congruence. rewrite upd_other in A1 by congruence. rewrite Ho, Hy in A1. exact A1. }
      rewrite (holds_read env _ _ _ Hh1). cbn [bind b_new]. eexists. eexists. split; [reflexivity|]. split; [|apply v_set_nodup; exact ND].
      rewrite (holds_size _ _ _ Hh1). eapply Inv_ext; [apply (inv_new h1 _ _ x l I1)| |].
      * unfold idle. rewrite upd_same. reflexivity.
      * intros z. rewrite v_get_set. unfold upd. destruct (Nat.eq_dec z x); reflexivity.
      * intros z. unfold put, upd. destruct (Nat.eq_dec z x); reflexivity.
  - destruct (live_both _ _ _ _ _ HI Hx) as (t & Ht & Hth). destruct (live_both _ _ _ _ _ HI Hy) as (o & Ho & Hh). rewrite Ht, Ho. cbn [bind]. unfold mv_assign_move.
    destruct (Nat.eqb_spec x y) as [->|Hn]; cbn [bind].
    + eexists. eexists. split; [reflexivity|]. split; [|apply v_set_nodup, v_set_nodup; exact ND]. eapply Inv_ext; [exact HI| |].
      * intros z. rewrite v_get_set. unfold upd. destruct (Nat.eq_dec z y) as [->|]; [congruence|]. rewrite v_get_set. rewrite upd_other by assumption. reflexivity.
      * intros z. unfold put. destruct (Nat.eq_dec z y) as [->|]; [congruence|reflexivity].
    + destruct (inv_free _ _ _ _ _ HI Ht) as (h1 & E1 & _ & I1). rewrite E1. cbn [bind].
      eexists. eexists. split; [reflexivity|]. split; [|apply v_set_nodup, v_set_nodup; exact ND].
      eapply Inv_ext; [apply (inv_move h1 _ _ x y o l I1)| |].
      * unfold idle. rewrite upd_same. reflexivity.
      * exact Hn.
      * rewrite upd_other by congruence. exact Ho.
      * rewrite upd_other by congruence. exact Hy.
      * intros z. rewrite v_get_set. unfold upd. destruct (Nat.eq_dec z x); [destruct o; reflexivity|]. rewrite v_get_set. unfold upd. destruct (Nat.eq_dec z y); reflexivity.
      * intros z. unfold put, upd. destruct (Nat.eq_dec z x); [reflexivity|]. destruct (Nat.eq_dec z y); reflexivity.
  - destruct (live_both _ _ _ _ _ HI Hx) as (t & Ht & Hth). rewrite Ht. cbn [bind]. unfold mv_range. rewrite (range_read env h off size Hr). cbn [bind b_new].
    unfold mv_assign_move. cbn [bind]. destruct (inv_free _ _ _ _ _ HI Ht) as (h1 & E1 & L1 & I1). rewrite (b_delete_app _ _ _ _ E1). cbn [bind mv_destroy mv_ptr b_delete].
    eexists. eexists. split; [reflexivity|]. split; [|apply v_set_nodup; exact ND]. cbn [mv_size].
    eapply Inv_ext; [apply (inv_new h1 _ _ x (firstn size (skipn off env)) I1)| |].
    + unfold idle. rewrite upd_same. reflexivity.
    + intros z. rewrite v_get_set. unfold upd. destruct (Nat.eq_dec z x); [|reflexivity]. rewrite L1, (range_length env off size Hr). reflexivity.
    + intros z. unfold put, upd. destruct (Nat.eq_dec z x); reflexivity.
  - destruct (live_both _ _ _ _ _ HI Hx) as (t & Ht & Hth). rewrite Ht. cbn [bind mv_destroy]. destruct (inv_free _ _ _ _ _ HI Ht) as (h1 & E1 & L1 & I1). rewrite E1. cbn [bind].
    eexists. eexists. split; [reflexivity|]. split; [|apply v_drop_nodup; exact ND].
    eapply Inv_ext; [apply (inv_drop h1 _ _ x I1)| |].
    + unfold idle. rewrite upd_same. reflexivity.
    + intros z. rewrite v_get_drop by exact ND. unfold upd. destruct (Nat.eq_dec z x); reflexivity.
    + intros z. unfold put, upd. destruct (Nat.eq_dec z x); reflexivity.
  - destruct (live_both _ _ _ _ _ HI Hx) as (t & Ht & Hth). rewrite Ht. cbn [bind]. rewrite (holds_read env _ _ _ Hth). cbn [bind].
    eexists. eexists. split; [reflexivity|]. split; [exact HI|exact ND].
Qed.
Lemma run_ce env m ops m' l : program true env m ops m' l -> forall h s, Inv h (v_get s) m -> NoDup (map fst s) ->
  exists h' s', vrun true env h s ops = Some (h', s', l) /\ Inv h' (v_get s') m'.
Proof.
  induction 1 as [m|m op m1 a ops m2 l D P IH]; intros h s HI ND.
  - exists h, s. split; [reflexivity|exact HI].
  - destruct (step_ce env h s m op m1 a HI ND D) as (h1 & s1 & E1 & I1 & N1). destruct (IH h1 s1 I1 N1) as (h2 & s2 & E2 & I2).
    exists h2, s2. cbn [vrun]. rewrite E1. cbn [bind]. rewrite E2. cbn [bind]. split; [reflexivity|exact I2].
Qed.
Lemma inv_start : Inv [] (v_get []) none.
Proof. constructor; [intros x; exact I|intros; discriminate|intros [|a] l H; discriminate H]. Qed.
(** The number of allocated blocks is at most that of the live variables. *)
Lemma inv_empty h g m : Inv h g m -> (forall x, m x = None) -> forall b, In b h -> b = None.
Proof.
  intros HI Hm b Hb. destruct b as [l|]; [|reflexivity]. apply In_nth_error in Hb. destruct Hb as (a & Ha). destruct HI as [A B C].
  destruct (C a l Ha) as (x & v & Hv & _). specialize (A x). rewrite Hv, (Hm x) in A. contradiction.
Qed.

(** *** Run time: a view denotes a range of the caller. *)
Definition denotes (env : list N) (v : mview) (l : list N) : Prop :=
  (mv_ptr v = Null /\ mv_size v = 0 /\ l = []) \/
  exists off, mv_ptr v = Caller off /\ off + mv_size v <= length env /\ l = firstn (mv_size v) (skipn off env).
Definition Inr (env : list N) (g : nat -> option mview) (m : values) : Prop :=
  forall x, match g x, m x with None, None => True | Some v, Some l => denotes env v l | _, _ => False end.
Lemma denotes_read env v l : denotes env v l -> b_read env [] (mv_ptr v) (mv_size v) = Some l.
Proof. intros [(P & S & ->)|(off & P & B & ->)]; rewrite P; [rewrite S; reflexivity|]. apply range_read. exact B. Qed.
Lemma Inr_put env s m x v l : Inr env (v_get s) m -> denotes env v l -> Inr env (v_get (v_set s x v)) (put m x (Some l)).
Proof.
  intros HI HD y. rewrite v_get_set. unfold upd, put. destruct (Nat.eq_dec y x) as [->|Hn]; [exact HD|apply HI].
Qed.
Lemma step_rt env s m op m' a : Inr env (v_get s) m -> NoDup (map fst s) -> does false env m op m' a ->
  exists s', vstep false env [] s op = Some ([], s', a) /\ Inr env (v_get s') m' /\ NoDup (map fst s').
Proof.
  intros HI ND D.
  assert (L : forall x l, m x = Some l -> exists v, v_get s x = Some v /\ denotes env v l).
  { intros x l H. specialize (HI x). rewrite H in HI. destruct (v_get s x) as [v|]; [|contradiction]. exists v. auto. }
  assert (same : forall y o, v_get s y = Some o -> Inr env (v_get (v_set s y o)) m).
  { intros y o Ho z. rewrite v_get_set. unfold upd. destruct (Nat.eq_dec z y) as [->|]; [specialize (HI y); rewrite Ho in HI; exact HI|apply HI]. }
  assert (eta : forall o : mview, {| mv_ptr := mv_ptr o; mv_size := mv_size o |} = o) by (intros []; reflexivity).
  destruct D as [x Hx|x off size Hx Hr|x y l Hx Hy|x y l Hx Hy|x y l k Hx Hy|x y l k Hx Hy|x off size k Hx Hr|x l Hx|x l Hx]; cbn [vstep].
  - eexists. split; [reflexivity|]. split; [|apply v_set_nodup; exact ND]. apply Inr_put; [exact HI|]. left. auto.
  - eexists. split; [reflexivity|]. split; [|apply v_set_nodup; exact ND]. apply Inr_put; [exact HI|]. right. exists off. cbn [mv_ptr mv_size]. auto.
  - destruct (L y l Hy) as (o & Ho & Hd). rewrite Ho. cbn [bind mv_copy]. rewrite eta. eexists. split; [reflexivity|]. split; [|apply v_set_nodup; exact ND]. apply Inr_put; assumption.
  - destruct (L y l Hy) as (o & Ho & Hd). rewrite Ho. cbn [bind mv_move]. rewrite eta. eexists. split; [reflexivity|]. split; [|apply v_set_nodup, v_set_nodup; exact ND].
    apply Inr_put; [|exact Hd]. apply same. exact Ho.
  - destruct (L x k Hx) as (t & Ht & _). destruct (L y l Hy) as (o & Ho & Hd). rewrite Ht, Ho. cbn [bind mv_assign_copy]. rewrite eta.
    eexists. split; [reflexivity|]. split; [|apply v_set_nodup; exact ND]. apply Inr_put; assumption.
  - destruct (L x k Hx) as (t & Ht & _). destruct (L y l Hy) as (o & Ho & Hd). rewrite Ht, Ho. cbn [bind mv_assign_move]. rewrite eta.
    eexists. split; [reflexivity|]. split; [|apply v_set_nodup, v_set_nodup; exact ND]. apply Inr_put; [|exact Hd]. apply same. exact Ho.
  - destruct (L x k Hx) as (t & Ht & _). rewrite Ht. cbn [bind mv_range mv_assign_move mv_destroy mv_ptr mv_size]. eexists. split; [reflexivity|].
    split; [|apply v_set_nodup; exact ND]. apply Inr_put; [exact HI|]. right. exists off. cbn [mv_ptr mv_size]. auto.
  - destruct (L x l Hx) as (t & Ht & _). rewrite Ht. cbn [bind mv_destroy]. eexists. split; [reflexivity|]. split; [|apply v_drop_nodup; exact ND].
    intros z. rewrite v_get_drop by exact ND. unfold upd, put. destruct (Nat.eq_dec z x); [exact I|apply HI].
  - destruct (L x l Hx) as (t & Ht & Hd). rewrite Ht. cbn [bind]. rewrite (denotes_read _ _ _ Hd). cbn [bind]. eexists. split; [reflexivity|]. split; [exact HI|exact ND].
Qed.
Lemma run_rt env m ops m' l : program false env m ops m' l -> forall s, Inr env (v_get s) m -> NoDup (map fst s) ->
  exists s', vrun false env [] s ops = Some ([], s', l).
Proof.
  induction 1 as [m|m op m1 a ops m2 l D P IH]; intros s HI ND.
  - exists s. reflexivity.
  - destruct (step_rt env s m op m1 a HI ND D) as (s1 & E1 & I1 & N1). destruct (IH s1 I1 N1) as (s2 & E2).
    exists s2. cbn [vrun]. rewrite E1. cbn [bind]. rewrite E2. reflexivity.
Qed.
