(** The JSON output of the benchmark tool. *)
From Verif Require Import Base BaseLemmas Model_AppNames Model_App Spec_App Spec_App2 Proof_App Proof_App2 Proof_App3.
Local Open Scope N_scope.

Lemma var_induction (P : var -> Prop) :
  (forall s, P (VStr s)) -> (forall n, P (VUnsigned n)) -> (forall a b, P (VRatio a b)) -> (forall b, P (VBool b)) ->
  (forall l, Forall P l -> P (VArray l)) -> (forall l, Forall (fun e => P (snd e)) l -> P (VObject l)) -> forall v, P v.
Proof.
  intros H1 H2 H3 H4 H5 H6. fix IH 1. intros [s|n|a b|b|l|l].
  - apply H1.
  - apply H2.
  - apply H3.
  - apply H4.
  - apply H5. induction l as [|x l IHl]; constructor; [apply IH|exact IHl].
  - apply H6. induction l as [|[k x] l IHl]; constructor; [apply IH|exact IHl].
Qed.

Lemma chars_plain s : Forall (fun c => ~ special c) s -> chars s s.
Proof. induction 1; constructor; assumption. Qed.
Lemma dec_loop_spec fuel : forall n, n < 2 ^ N.of_nat fuel ->
  decimal (dec_loop (S fuel) n) n /\ ((n = 0 /\ dec_loop (S fuel) n = [48]) \/ (n <> 0 /\ hd 0 (dec_loop (S fuel) n) <> 48)).
Proof.
  induction fuel as [|fuel IH]; intros n H; cbn [dec_loop] in *.
  - assert (n = 0) by (cbn in H; lia). subst n. split; [apply (d_one 0); lia|left; auto].
  - destruct (n <? 10) eqn:E.
    + apply N.ltb_lt in E. split; [apply d_one; exact E|]. destruct (N.eq_dec n 0) as [->|Hn]; [left; auto|right]. split; [exact Hn|]. cbn [hd]. lia.
    + apply N.ltb_ge in E. assert (Hq : n / 10 < 2 ^ N.of_nat fuel).
      { apply N.div_lt_upper_bound; [lia|]. rewrite Nat2N.inj_succ, N.pow_succ_r' in H. lia. }
      destruct (IH _ Hq) as [D L]. fold (dec_loop (S fuel) (n / 10)) in *.
      change (if n / 10 <? 10 then [48 + n / 10] else dec_loop fuel (n / 10 / 10) ++ [48 + (n / 10) mod 10]) with (dec_loop (S fuel) (n / 10)) in *.
      assert (Hm : n mod 10 < 10) by (apply N.mod_lt; lia).
      split.
      * rewrite (N.div_mod n 10) at 3 by lia. apply d_more; assumption.
      * right. assert (n / 10 <> 0) by (intros Z; apply N.div_small_iff in Z; lia). split; [lia|].
        destruct L as [[Z _]|[_ L]]; [contradiction|]. destruct (dec_loop (S fuel) (n / 10)) as [|c l]; [|exact L].
        exfalso. inversion D as [|s0 n0 d0 D0 Hd0 E0]. destruct s0; discriminate E0.
Qed.
Lemma size_nat_bound n : n < 2 ^ N.of_nat (N.size_nat n).
Proof.
  destruct n as [|p]; [reflexivity|]. cbn [N.size_nat]. induction p as [p IH|p IH|]; cbn [Pos.size_nat].
  - rewrite Nat2N.inj_succ, N.pow_succ_r'. lia.
  - rewrite Nat2N.inj_succ, N.pow_succ_r'. lia.
  - reflexivity.
Qed.
Lemma json_dec n : json (JInteger n) (dec n).
Proof.
  destruct (dec_loop_spec _ n (size_nat_bound n)) as [D L]. unfold dec. apply j_integer; [exact D|]. destruct L as [[_ L]|[_ L]]; auto.
Qed.
Lemma ws_nil : ws [].
Proof. constructor. Qed.
Lemma elements_commas show l : Forall (fun v => json (meant show v) (to_json show v)) l ->
  elements (map (meant show) l) (commas (length l) (map (to_json show) l)).
Proof.
  induction 1 as [|v l Hv Hl IH]; cbn [length map commas]; [apply e_nil, ws_nil|].
  replace (S (length l) - 1)%nat with (length l) by lia.
  destruct l as [|v2 l]; cbn [length]; cbn [Nat.ltb Nat.leb].
  - cbn [map commas]. pose proof (e_one _ _ [] [] Hv ws_nil ws_nil) as E. cbn [app] in E |- *. exact E.
  - apply (e_cons _ _ _ _ [] [] Hv ws_nil ws_nil); [discriminate|exact IH].
Qed.
Lemma members_commas show l : Forall (fun e => Forall (fun c => ~ special c) (fst e) /\ json (meant show (snd e)) (to_json show (snd e))) l ->
  members (map (fun e => (fst e, meant show (snd e))) l) (commas (length l) (map (fun e => quoted (fst e) ++ [58] ++ to_json show (snd e)) l)).
Proof.
  induction 1 as [|[k v] l [Hk Hv] Hl IH]; cbn [length map commas fst snd]; [apply o_nil, ws_nil|].
  replace (S (length l) - 1)%nat with (length l) by lia. cbn [fst snd] in Hk, Hv. apply chars_plain in Hk.
  destruct l as [|v2 l]; cbn [length]; cbn [Nat.ltb Nat.leb].
  - cbn [map commas]. pose proof (o_one _ _ _ _ [] [] [] [] Hk Hv ws_nil ws_nil ws_nil ws_nil) as E. cbn [app] in E. rewrite app_nil_r in E. unfold quoted. rewrite !app_nil_r.
    cbn [app]. exact E.
  - pose proof (o_cons _ _ _ _ (map (fun e => (fst e, meant show (snd e))) (v2 :: l)) _ [] [] [] [] Hk Hv ws_nil ws_nil ws_nil ws_nil ltac:(discriminate) IH) as E.
    unfold quoted. cbn [app] in E |- *. rewrite <- !app_assoc in *. cbn [app] in E |- *. rewrite <- ?app_assoc. exact E.
Qed.
Lemma json_valid show v : plain v -> (forall a b, part v (VRatio a b) -> number (show a b)) -> json (meant show v) (to_json show v).
Proof.
  induction v as [s|n|a b|b|l IH|l IH] using var_induction; intros [P1 P2] Hs; cbn [meant to_json].
  - apply j_string, chars_plain, P1, p_here.
  - apply json_dec.
  - apply j_number, Hs, p_here.
  - destruct b; [apply j_true|apply j_false].
  - apply j_array. apply elements_commas. rewrite Forall_forall in *. intros x Hx. apply IH; [exact Hx|split|].
    + intros s H. apply P1. exact (p_array _ _ _ Hx H).
    + intros l' k y H. apply P2. exact (p_array _ _ _ Hx H).
    + intros a b H. apply Hs. exact (p_array _ _ _ Hx H).
  - apply j_object. apply members_commas. rewrite Forall_forall in *. intros [k x] Hx. cbn [fst snd]. split; [exact (P2 l k x (p_here _) Hx)|].
    apply (IH _ Hx); [split|].
    + intros s H. apply P1. exact (p_object _ _ _ _ Hx H).
    + intros l' k' y H. apply P2. exact (p_object _ _ _ _ Hx H).
    + intros a b H. apply Hs. exact (p_object _ _ _ _ Hx H).
Qed.

(** Strings with characters that must be escaped *)
Lemma chars_length t s : chars t s -> (length s <= length t)%nat /\ (length s = length t -> Forall (fun c => ~ special c) t).
Proof.
  induction 1 as [|c t s Hc H [L F]|e c t s He H [L F]|h1 h2 h3 h4 c t s H1 H2 H3 H4 H [L F]]; cbn [length].
  - split; [lia|constructor].
  - split; [lia|]. intros E. constructor; [exact Hc|apply F; lia].
  - split; [lia|]. intros E. lia.
  - split; [lia|]. intros E. lia.
Qed.
Lemma quoted_bad s c : In c s -> special c -> ~ json (JString s) (quoted s).
Proof.
  intros Hc Hs H. inversion H as [t s' Ht E1 E2| | | | | | |]. unfold quoted in E2.
  apply app_inj_tail in E2. destruct E2 as [E2 _]. subst t.
  destruct (chars_length _ _ Ht) as [_ F]. specialize (F eq_refl). rewrite Forall_forall in F. exact (F _ Hc Hs).
Qed.
(** A control character is not allowed anywhere. *)
Scheme json_m := Minimality for json Sort Prop with elements_m := Minimality for elements Sort Prop with members_m := Minimality for members Sort Prop.
Combined Scheme json_mutual from json_m, elements_m, members_m.
Definition okc (c : N) : Prop := 32 <= c \/ c = 9 \/ c = 10 \/ c = 13.
Ltac fa := repeat (apply Forall_app; split); repeat (apply Forall_nil || apply Forall_cons); unfold okc; try lia; auto.
Lemma chars_ok t s : chars t s -> Forall okc t.
Proof.
  induction 1 as [|c t s Hc H F|e c t s He H F|h1 h2 h3 h4 c t s H1 H2 H3 H4 H F]; [fa| | |].
  - constructor; [|exact F]. unfold okc. unfold special in Hc. lia.
  - constructor; [unfold okc; lia|]. constructor; [|exact F]. cbn [In] in He. unfold okc. repeat (destruct He as [He|He]; [assert (e = fst (e, c)) as -> by reflexivity; rewrite <- He; cbn [fst]; lia|]). destruct He.
  - unfold hex in *. constructor; [unfold okc; lia|]. repeat (constructor; [unfold okc; lia|]). exact F.
Qed.
Lemma ws_ok w : ws w -> Forall okc w.
Proof. apply Forall_impl. intros c H. unfold okc. lia. Qed.
Lemma decimal_ok t n : decimal t n -> Forall (fun c => 48 <= c <= 57) t.
Proof. induction 1; [constructor; [lia|constructor]|]. apply Forall_app. split; [assumption|]. constructor; [lia|constructor]. Qed.
Lemma number_chars t : number t -> Forall (fun c => 48 <= c <= 57 \/ c = 45 \/ c = 43 \/ c = 46 \/ c = 69 \/ c = 101) t.
Proof.
  assert (D : forall l, Forall (fun c => 48 <= c <= 57) l -> Forall (fun c => 48 <= c <= 57 \/ c = 45 \/ c = 43 \/ c = 46 \/ c = 69 \/ c = 101) l)
    by (intros l; apply Forall_impl; intros; lia).
  intros [sign int frac exp H1 H2 H3 H4]. apply Forall_app. split; [|apply Forall_app; split; [|apply Forall_app; split]].
  - destruct H1 as [->| ->]; [constructor|constructor; [lia|constructor]].
  - destruct H2 as [->|[[_ H2] _]]; [constructor; [lia|constructor]|apply D; exact H2].
  - destruct H3 as [->|(f & -> & _ & Hf)]; [constructor|]. constructor; [lia|apply D; exact Hf].
  - destruct H4 as [->|(e & s & f & -> & He & Hs & _ & Hf)]; [constructor|]. constructor; [lia|]. apply Forall_app. split; [|apply D; exact Hf].
    destruct Hs as [->|[->| ->]]; [constructor|constructor; [lia|constructor]|constructor; [lia|constructor]].
Qed.
Lemma json_ok : (forall v t, json v t -> Forall okc t) /\ (forall l t, elements l t -> Forall okc t) /\ (forall l t, members l t -> Forall okc t).
Proof.
  apply json_mutual; intros; repeat match goal with H : ws _ |- _ => apply ws_ok in H | H : chars _ _ |- _ => apply chars_ok in H end; fa.
  - apply decimal_ok in H. revert H. apply Forall_impl. intros; lia.
  - apply number_chars in H. revert H. apply Forall_impl. intros; lia.
Qed.
(** Outside strings there is no letter i. *)
Inductive sst := Out | Ins | Esc.
Definition sstep (s : option sst) (c : N) : option sst :=
  match s with
  | None => None
  | Some Out => if c =? 34 then Some Ins else if c =? 105 then None else Some Out
  | Some Ins => if c =? 34 then Some Out else if c =? 92 then Some Esc else Some Ins
  | Some Esc => Some Ins
  end.
Definition scan (s : sst) (t : list N) : option sst := fold_left sstep t (Some s).
Lemma scan_app s s' t u : scan s t = Some s' -> scan s (t ++ u) = scan s' u.
Proof. unfold scan. intros H. rewrite fold_left_app, H. reflexivity. Qed.
Lemma scan_out t : Forall (fun c => c <> 34 /\ c <> 105) t -> scan Out t = Some Out.
Proof.
  unfold scan. induction 1 as [|c t [H1 H2] F IH]; [reflexivity|]. cbn [fold_left sstep]. rewrite (proj2 (N.eqb_neq _ _) H1), (proj2 (N.eqb_neq _ _) H2). exact IH.
Qed.
Lemma scan_in c t : c <> 34 -> c <> 92 -> scan Ins (c :: t) = scan Ins t.
Proof. intros H1 H2. unfold scan. cbn [fold_left sstep]. rewrite (proj2 (N.eqb_neq _ _) H1), (proj2 (N.eqb_neq _ _) H2). reflexivity. Qed.
Lemma scan_chars t s : chars t s -> scan Ins t = Some Ins.
Proof.
  induction 1 as [|c t s Hc H F|e c t s He H F|h1 h2 h3 h4 c t s H1 H2 H3 H4 H F]; [reflexivity| | |].
  - unfold special in Hc. rewrite scan_in by lia. exact F.
  - change (scan Ins (92 :: e :: t)) with (scan Ins t). exact F.
  - unfold hex in *. change (scan Ins (92 :: 117 :: h1 :: h2 :: h3 :: h4 :: t)) with (scan Ins (h1 :: h2 :: h3 :: h4 :: t)). rewrite !scan_in by lia. exact F.
Qed.
Lemma scan_string t s u : chars t s -> scan Out (([34] ++ t ++ [34]) ++ u) = scan Out u.
Proof.
  intros H. cbn [app]. change (scan Out (34 :: (t ++ [34]) ++ u)) with (scan Ins ((t ++ [34]) ++ u)). rewrite <- app_assoc.
  rewrite (scan_app _ _ _ _ (scan_chars _ _ H)). reflexivity.
Qed.
Lemma scan_ws w u : ws w -> scan Out (w ++ u) = scan Out u.
Proof. intros H. apply scan_app, scan_out. revert H. apply Forall_impl. intros; lia. Qed.
Lemma json_scan : (forall v t, json v t -> scan Out t = Some Out) /\ (forall l t, elements l t -> scan Out t = Some Out) /\ (forall l t, members l t -> scan Out t = Some Out).
Proof.
  apply json_mutual.
  - intros t s H. rewrite <- (app_nil_r ([34] ++ t ++ [34])). rewrite (scan_string _ _ _ H). reflexivity.
  - intros n t H _. apply scan_out. apply decimal_ok in H. revert H. apply Forall_impl. intros; lia.
  - intros t H. apply scan_out. apply number_chars in H. revert H. apply Forall_impl. intros; lia.
  - reflexivity.
  - reflexivity.
  - reflexivity.
  - intros l t _ H. rewrite (scan_app Out Out [91]) by reflexivity. rewrite (scan_app _ _ _ _ H). reflexivity.
  - intros l t _ H. rewrite (scan_app Out Out [123]) by reflexivity. rewrite (scan_app _ _ _ _ H). reflexivity.
  - intros w H. rewrite <- (app_nil_r w). rewrite (scan_ws _ _ H). reflexivity.
  - intros v t w1 w2 _ H H1 H2. rewrite (scan_ws _ _ H1), (scan_app _ _ _ _ H). rewrite <- (app_nil_r w2). rewrite (scan_ws _ _ H2). reflexivity.
  - intros v t l u w1 w2 _ H H1 H2 _ _ HU. rewrite (scan_ws _ _ H1), (scan_app _ _ _ _ H), (scan_ws _ _ H2), (scan_app Out Out [44]) by reflexivity. exact HU.
  - intros w H. rewrite <- (app_nil_r w). rewrite (scan_ws _ _ H). reflexivity.
  - intros k kt v t w1 w2 w3 w4 Hk _ H H1 H2 H3 H4.
    rewrite (scan_ws _ _ H1), (scan_string _ _ _ Hk), (scan_ws _ _ H2), (scan_app Out Out [58]), (scan_ws _ _ H3), (scan_app _ _ _ _ H) by reflexivity.
    rewrite <- (app_nil_r w4). rewrite (scan_ws _ _ H4). reflexivity.
  - intros k kt v t l u w1 w2 w3 w4 Hk _ H H1 H2 H3 H4 _ _ HU.
    rewrite (scan_ws _ _ H1), (scan_string _ _ _ Hk), (scan_ws _ _ H2), (scan_app Out Out [58]), (scan_ws _ _ H3), (scan_app _ _ _ _ H) by reflexivity.
    rewrite (scan_ws _ _ H4), (scan_app Out Out [44]) by reflexivity. exact HU.
Qed.
