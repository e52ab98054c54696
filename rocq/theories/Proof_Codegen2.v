(** The generated text read back: numbers, vectors, statements, the whole program. *)
From Coq Require Import String.
From Verif Require Import Base BaseLemmas BytesLemmas Spec_Bytes Spec_Codec Spec_App Model_App Model_Codegen Spec_Cpp Spec_Codegen Proof_Codec16 Proof_CodecMem Proof_App4 Proof_Codegen.
Local Open Scope N_scope.

(** *** Numbers *)
Definition stops (t : list N) : Prop := match t with [] => True | c :: _ => (48 <=? c) && (c <=? 57) = false end.
Lemma digits_stop v t : stops t -> digits_from v t = (v, t).
Proof. destruct t as [|c t]; [reflexivity|]. cbn [stops digits_from]. intros ->. reflexivity. Qed.
Lemma digit_char d : d < 10 -> (48 <=? 48 + d) && (48 + d <=? 57) = true.
Proof. intros H. apply andb_true_intro. split; apply N.leb_le; lia. Qed.
Lemma digits_decimal s n : decimal s n -> forall v t, digits_from v (s ++ t) = digits_from (v * 10 ^ N.of_nat (length s) + n) t.
Proof.
  induction 1 as [d Hd|s n d H IH Hd]; intros v t.
  - cbn [app digits_from length]. rewrite digit_char by exact Hd. f_equal. change (10 ^ N.of_nat 1) with 10. lia.
  - rewrite <- app_assoc, IH. cbn [app digits_from]. rewrite digit_char by exact Hd. f_equal. rewrite app_length. cbn [length].
    rewrite Nat2N.inj_add, N.pow_add_r. change (10 ^ N.of_nat 1) with 10. lia.
Qed.
Lemma dec_decimal n : decimal (dec n) n /\ (dec n = [48] \/ hd 0 (dec n) <> 48).
Proof. destruct (dec_loop_spec _ n (size_nat_bound n)) as [D L]. unfold dec. split; [exact D|]. destruct L as [[_ L]|[_ L]]; auto. Qed.
Lemma number_dec n t : stops t -> number (dec n ++ t) = Some (n, t).
Proof.
  intros Ht. destruct (dec_decimal n) as [D Z]. pose proof (digits_decimal _ _ D 0 t) as E. rewrite N.mul_0_l, N.add_0_l, (digits_stop n t Ht) in E.
  pose proof (decimal_ok _ _ D) as R. destruct (dec n) as [|c s]; [inversion D; destruct s; discriminate|]. cbn [app] in *. pose proof (Forall_inv R) as Rc. cbn beta in Rc.
  unfold number. destruct Z as [Z|Z].
  - injection Z as -> ->. cbn [app]. change ((49 <=? 48) && (48 <=? 57)) with false. change (48 =? 48) with true. cbn iota.
    cbn [digits_from app] in E. change ((48 <=? 48) && (48 <=? 57)) with true in E. cbn iota in E. rewrite digits_stop in E by exact Ht.
    assert (n = 0) by (injection E as E1; lia). subst n. destruct t as [|x t]; [reflexivity|]. cbn [stops] in Ht. rewrite Ht. reflexivity.
  - cbn [hd] in Z. replace ((49 <=? c) && (c <=? 57)) with true by (symmetry; apply andb_true_intro; split; apply N.leb_le; lia).
    cbn [digits_from] in E. replace ((48 <=? c) && (c <=? 57)) with true in E by (symmetry; apply andb_true_intro; split; apply N.leb_le; lia).
    change (10 * 0 + (c - 48)) with (c - 48) in E. rewrite E. reflexivity.
Qed.
Lemma after_app s t : after s (s ++ t) = Some t.
Proof. induction s as [|c s IH]; [reflexivity|]. cbn [app after]. rewrite N.eqb_refl. exact IH. Qed.
Lemma eq_dec_refl {B} (l : list N) (x y : B) : (if list_eq_dec N.eq_dec l l then x else y) = x.
Proof. destruct (list_eq_dec N.eq_dec l l); [reflexivity|contradiction]. Qed.
Lemma expect_cons l ls : expect l (l :: ls) = Some ls.
Proof. unfold expect. apply eq_dec_refl. Qed.
Lemma expects_app es ls : expects es (es ++ ls) = Some ls.
Proof. induction es as [|e es IH]; [reflexivity|]. cbn [app expects]. rewrite expect_cons. exact IH. Qed.

(** *** Members *)
Lemma hexv_value c : is_byte c -> hexv c = hex_value c.
Proof.
  intros H. assert (X : forall c, c < 256 -> match hexv c, hex_value c with Some a, Some b => a =? b | None, None => true | _, _ => false end = true).
  { apply (below_sweep 256). vm_compute. reflexivity. }
  specialize (X c H). destruct (hexv c), (hex_value c); try discriminate; [apply N.eqb_eq in X; congruence|reflexivity].
Qed.
Lemma fromhex_spec t : forall b, spec_unhex t = Some b -> fromhex (JText t) = Some b.
Proof.
  cbn [fromhex]. induction t as [|a|c d t IH] using pair_ind; intros b H; cbn [spec_unhex] in H; [exact H|discriminate|].
  destruct (hex_value c) as [x|] eqn:Ec; [|discriminate]. destruct (hex_value d) as [y|] eqn:Ed; [|discriminate]. destruct (spec_unhex t) as [l|]; [|discriminate].
  cbn [fromhex_loop]. pose proof (hex_value_ascii _ _ Ec) as Ac. pose proof (hex_value_ascii _ _ Ed) as Ad.
  assert (W : (c =? 32) || ((9 <=? c) && (c <=? 13)) = false).
  { assert (X : forall c, c < 128 -> match hex_value c with Some _ => negb ((c =? 32) || ((9 <=? c) && (c <=? 13))) | None => true end = true) by (apply (below_sweep 128); vm_compute; reflexivity).
    specialize (X c Ac). rewrite Ec in X. apply negb_true_iff in X. exact X. }
  rewrite W, (hexv_value c), Ec by (unfold is_byte; lia). cbn [bind]. rewrite (hexv_value d), Ed by (unfold is_byte; lia). cbn [bind]. rewrite (IH l eq_refl). cbn [bind]. exact H.
Qed.

(** *** Lines that are there and stay as they are *)
Definition oneline (s : list N) : Prop := Forall (fun c => c <> 10) s.
Definition good (s : list N) : Prop := oneline s /\ exists c r, s = c :: r /\ c <> 32.
Lemma good_clean s : good s -> clean s.
Proof. intros [H (c & r & -> & Hc)]. split; [exact H|exact Hc]. Qed.
Lemma good_filter l : Forall good l -> filter nonempty l = l.
Proof. induction 1 as [|s l (_ & c & r & -> & _) _ IH]; [reflexivity|]. cbn [filter nonempty]. rewrite IH. reflexivity. Qed.
Lemma good_cons c r : c <> 10 -> c <> 32 -> oneline r -> good (c :: r).
Proof. intros H1 H2 H3. split; [constructor; assumption|]. exists c, r. split; [reflexivity|exact H2]. Qed.
Lemma oneline_app a b : oneline a -> oneline b -> oneline (a ++ b).
Proof. intros. apply Forall_app. split; assumption. Qed.
Lemma oneline_text s : forallb (fun c => negb (c =? 10)) s = true -> oneline s.
Proof. intros H. apply Forall_forall. intros c Hc. pose proof (proj1 (forallb_forall _ _) H c Hc) as X. cbn beta in X. destruct (N.eqb_spec c 10); [discriminate|assumption]. Qed.
Lemma oneline_dec n : oneline (dec n).
Proof. destruct (dec_decimal n) as [D _]. apply decimal_ok in D. eapply Forall_impl; [|exact D]. cbn beta. intros c Hc E. subst. lia. Qed.
Lemma name_oneline n : name n -> oneline n.
Proof. intros [_ H]. eapply Forall_impl; [|exact H]. unfold name_char. intros c Hc E. subst. lia. Qed.
Lemma oneline_sub n (l : list N) : oneline l -> oneline (firstn n l) /\ oneline (skipn n l).
Proof. intros H. rewrite <- (firstn_skipn n l) in H. apply Forall_app in H. exact H. Qed.
Lemma good_slices (f : list N -> list N) (P : list N -> Prop) w e : oneline e -> (forall n l, P l -> P (firstn n l) /\ P (skipn n l)) -> (forall c, P c -> oneline (f c)) ->
  forall fuel l, P l -> Forall good (add_end (map (fun c => [34] ++ f c ++ [34]) (slices fuel w l)) e).
Proof.
  intros He Hs Hf fuel. induction fuel as [|fuel IH]; intros l Hl; [destruct l; constructor|]. destruct l as [|x l]; [constructor|].
  destruct (Hs w (x :: l) Hl) as [P1 P2]. cbn [slices map]. specialize (IH _ P2). set (Z := map _ (slices fuel w _)) in *.
  assert (G : forall e', oneline e' -> good (([34] ++ f (firstn w (x :: l)) ++ [34]) ++ e')).
  { intros e' Oe. cbn [app]. apply good_cons; [discriminate|discriminate|]. apply oneline_app; [|exact Oe]. apply oneline_app; [apply Hf, P1|]. constructor; [discriminate|constructor]. }
  destruct Z as [|z Z]; cbn [add_end].
  - constructor; [apply G, He|constructor].
  - constructor; [|exact IH]. specialize (G [] (Forall_nil _)). rewrite app_nil_r in G. exact G.
Qed.
Lemma nibble_not d : d < 16 -> nibble d <> 10.
Proof. intros H. unfold nibble. destruct (d <? 10); lia. Qed.
Lemma oneline_escapes b : bytes b -> oneline (flat_map hex_escape b).
Proof.
  induction 1 as [|x b Hx _ IH]; [constructor|]. cbn [flat_map]. apply oneline_app; [|exact IH]. unfold is_byte in Hx. unfold hex_escape.
  apply Forall_cons; [discriminate|]. apply Forall_cons; [discriminate|]. apply Forall_cons; [apply nibble_not; apply N.div_lt_upper_bound; lia|].
  apply Forall_cons; [apply nibble_not; apply N.mod_lt; discriminate|constructor].
Qed.
Lemma good_bytes b e : bytes b -> oneline e -> Forall good (flat (gen_bytes_to_hex_str b e)).
Proof.
  intros Hb He. unfold gen_bytes_to_hex_str. cbv zeta. cbn [flat]. rewrite flat_lines. destruct b as [|x b].
  - cbn [length slices map app]. constructor; [|constructor]. apply good_cons; [discriminate|discriminate|constructor; [discriminate|exact He]].
  - assert (Y : forall (l : list (list N)) (y z : list (list N)), l <> [] -> match l with [] => y | _ => z end = z) by (intros [|? ?]; [contradiction|reflexivity]).
    rewrite Y by discriminate. apply (good_slices (flat_map hex_escape) bytes); [exact He| |intros c Hc; apply oneline_escapes, Hc|exact Hb].
    intros n l H. split; [apply bytes_firstn, H|apply bytes_skipn, H].
Qed.
Lemma good_text t e : plain_text t -> oneline e -> Forall good (flat (gen_str t e)).
Proof.
  intros [Hn Ht] He. unfold gen_str. cbv zeta. cbn [flat]. rewrite flat_lines.
  assert (Y : forall (l : list (list N)) (y z : list (list N)), l <> [] -> match l with [] => y | _ => z end = z) by (intros [|? ?]; [contradiction|reflexivity]).
  rewrite Y by (destruct t; [contradiction|discriminate]). apply (good_slices (fun c => c) oneline); [exact He|apply oneline_sub|auto|].
  eapply Forall_impl; [|exact Ht]. cbn beta. intros c Hc E. subst. lia.
Qed.

(** *** Members and vectors *)
Definition names (ms : list (list N * member)) : list (list N * bool) := map (fun m => (fst m, match snd m with MNumber => true | _ => false end)) ms.
Lemma unhex_is_bytes t : forall l, spec_unhex t = Some l -> bytes l.
Proof.
  induction t as [|a|c d t IH] using pair_ind; intros l H; cbn [spec_unhex] in H.
  - assert (l = []) by congruence. subst. constructor.
  - discriminate.
  - destruct (hex_value c) as [x|] eqn:Ex; [|discriminate]. destruct (hex_value d) as [y|] eqn:Ey; [|discriminate].
    destruct (spec_unhex t) as [l'|]; [|discriminate]. assert (l = x * 16 + y :: l') by congruence. subst.
    pose proof (hex_value_lt _ _ Ex). pose proof (hex_value_lt _ _ Ey). constructor; [unfold is_byte; lia|]. apply IH. reflexivity.
Qed.
Lemma members_ok o : forall ms vs, Forall (fun m => name (fst m)) ms ->
  Forall2 (fun m x => exists j, key (fst m) o = Some j /\ denotes (snd m) j x) ms vs ->
  exists ps, gen_members ms o = Some ps /\ Forall good (flat_map flat ps) /\ forall ls, members (names ms) (flat_map flat ps ++ ls) = Some (vs, ls).
Proof.
  induction ms as [|[n k] ms IH]; intros vs Hn H; inversion H as [|m x ms' vs' (j & Ej & D) H' E1 E2]; subst.
  - exists []. split; [reflexivity|]. split; [constructor|]. intros ls. reflexivity.
  - pose proof (name_oneline _ (Forall_inv Hn)) as On. cbn [fst snd] in *. destruct (IH vs' (Forall_inv_tail Hn) H') as (ps & Ep & Gp & Rp).
    cbn [gen_members]. cbv zeta. rewrite Ej. cbn [bind]. rewrite Ep. cbn [names map]. fold (names ms). cbn [members fst snd]. cbv zeta.
    set (comma := match ms with [] => [] | _ => txt "," end).
    assert (Cm : match names ms with [] => [] | _ => text "," end = comma) by (unfold comma, names; destruct ms; reflexivity). rewrite Cm.
    assert (Oc : oneline comma) by (unfold comma; destruct ms; [constructor|repeat constructor; discriminate]).
    assert (Ge : good (txt "." ++ n ++ txt " =")) by (apply good_cons; [discriminate|discriminate|apply oneline_app; [exact On|apply oneline_text; reflexivity]]).
    assert (Oe : oneline (txt "_cv" ++ comma)) by (apply oneline_app; [apply oneline_text; reflexivity|exact Oc]).
    inversion D as [t b U|t P|v L]; subst; cbn iota.
    + rewrite (fromhex_spec _ _ U). cbn [bind]. eexists. split; [reflexivity|]. pose proof (unhex_is_bytes _ _ U) as Hb. split.
      * cbn [flat_map app]. constructor; [exact Ge|]. apply Forall_app. split; [apply good_bytes; assumption|exact Gp].
      * intros ls. cbn [flat_map app]. cbn [flat app]. rewrite eq_dec_refl. rewrite <- app_assoc. fold (flat (gen_bytes_to_hex_str b (txt "_cv" ++ comma))).
        rewrite (literal_bytes b (txt "_cv" ++ comma)) by (exact Hb || discriminate). cbn [bind].
        rewrite eq_dec_refl. cbn [bind fst snd]. rewrite Rp. reflexivity.
    + cbn [bind]. eexists. split; [reflexivity|]. split.
      * cbn [flat_map app]. constructor; [exact Ge|]. apply Forall_app. split; [apply good_text; assumption|exact Gp].
      * intros ls. cbn [flat_map app]. cbn [flat app]. rewrite eq_dec_refl. rewrite <- app_assoc. fold (flat (gen_str t (txt "_cv" ++ comma))).
        rewrite (literal_text t (txt "_cv" ++ comma)) by (exact P || discriminate). cbn [bind].
        rewrite eq_dec_refl. cbn [bind fst snd]. rewrite Rp. reflexivity.
    + cbn [bind]. eexists. split; [reflexivity|]. cbn [show]. split.
      * cbn [flat_map app]. constructor; [|exact Gp]. apply good_cons; [discriminate|discriminate|]. apply oneline_app; [exact On|].
        apply oneline_app; [apply oneline_text; reflexivity|]. apply oneline_app; [apply oneline_dec|exact Oc].
      * intros ls. cbn [flat_map app]. cbn [flat app].
        assert (A : after (text "." ++ n ++ text " = ") (46 :: n ++ txt " = " ++ dec v ++ comma) = Some (dec v ++ comma)).
        { replace (46 :: n ++ txt " = " ++ dec v ++ comma) with ((text "." ++ n ++ text " = ") ++ dec v ++ comma); [apply after_app|]. rewrite <- !app_assoc. reflexivity. }
        match goal with |- context [after ?a ?b] => replace (after a b) with (Some (dec v ++ comma)) by (symmetry; exact A) end.
        cbn [bind]. rewrite number_dec by (unfold comma; destruct ms; exact I || reflexivity). cbn [bind]. rewrite eq_dec_refl.
        rewrite (proj2 (N.ltb_lt _ _) L). cbn [bind fst snd]. rewrite Rp. reflexivity.
Qed.

Lemma text_id : txt "id" = text "id". Proof. reflexivity. Qed.
Lemma vector_ok sc o v : Forall (fun m => name (fst m)) (sc_members sc) -> vector_of sc o v ->
  exists p, gen_vector sc o = Some p /\ Forall good (flat p) /\ forall ls, read_vector (names (sc_members sc)) (flat p ++ ls) = Some (v, ls).
Proof.
  intros Hn (Ei & Li & Hm). destruct (members_ok o _ _ Hn Hm) as (ps & Ep & Gp & Rp). unfold gen_vector. change (txt "id") with (text "id"). rewrite Ei. cbn [bind]. rewrite Ep. cbn [bind].
  eexists. split; [reflexivity|]. cbn [show]. set (i := vec_id v) in *.
  assert (F : flat (Flat [Line (txt "test_vector"); Deep [gen_block (Line (txt ".id = " ++ dec i ++ txt ",") :: ps) (txt ",")]])
              = txt "test_vector" :: txt "{" :: (txt ".id = " ++ dec i ++ txt ",") :: flat_map flat ps ++ [txt "},"]).
  { unfold gen_block. cbn [flat flat_map]. rewrite !app_nil_r. cbn [app]. reflexivity. }
  rewrite F. split.
  - apply Forall_cons; [apply good_cons; [discriminate|discriminate|apply oneline_text; reflexivity]|].
    apply Forall_cons; [apply good_cons; [discriminate|discriminate|apply oneline_text; reflexivity]|].
    apply Forall_cons; [apply good_cons; [discriminate|discriminate|]|].
    + apply (oneline_app (txt "id = ")); [apply oneline_text; reflexivity|]. apply oneline_app; [apply oneline_dec|apply oneline_text; reflexivity].
    + apply Forall_app. split; [exact Gp|]. apply Forall_cons; [apply good_cons; [discriminate|discriminate|apply oneline_text; reflexivity]|constructor].
  - intros ls. clear F. unfold read_vector. cbn [app]. change (txt "test_vector") with (text "test_vector"). rewrite expect_cons. cbn [bind].
    change (txt "{") with (text "{"). rewrite expect_cons. cbn [bind]. change (txt ".id = ") with (text ".id = "). rewrite after_app. cbn [bind].
    rewrite number_dec by reflexivity. cbn [bind]. change (txt ",") with (text ","). rewrite eq_dec_refl. rewrite (proj2 (N.leb_gt _ _) Li).
    rewrite <- app_assoc, Rp. cbn [bind app]. change (txt "},") with (text "},"). rewrite expect_cons. cbn [bind]. unfold i. destruct v; reflexivity.
Qed.
Lemma vectors_ok sc : Forall (fun m => name (fst m)) (sc_members sc) -> forall os vs, Forall2 (vector_of sc) os vs ->
  exists ps, mapM (gen_vector sc) os = Some ps /\ Forall good (flat_map flat ps) /\
    forall ls, read_vectors (length os) (names (sc_members sc)) (flat_map flat ps ++ ls) = Some (vs, ls).
Proof.
  intros Hn. induction 1 as [|o v os vs H _ (ps & Ep & Gp & Rp)].
  - exists []. split; [reflexivity|]. split; [constructor|]. intros ls. reflexivity.
  - destruct (vector_ok sc o v Hn H) as (p & E & G & R). exists (p :: ps). cbn [mapM]. rewrite E. cbn [bind]. rewrite Ep. cbn [bind]. split; [reflexivity|]. split.
    + cbn [flat_map]. apply Forall_app. split; assumption.
    + intros ls. cbn [length read_vectors flat_map]. rewrite <- app_assoc, R. cbn [bind]. rewrite Rp. reflexivity.
Qed.

(** *** Statements *)
Lemma upto_app c a r : Forall (fun x => x <> c) a -> upto c (a ++ c :: r) = Some (a, r).
Proof.
  induction 1 as [|x a Hx _ IH]; cbn [app upto]; [rewrite N.eqb_refl; reflexivity|]. destruct (N.eqb_spec x c) as [E|_]; [contradiction|]. rewrite IH. reflexivity.
Qed.
Lemma name_free c n : name n -> ~ name_char c -> Forall (fun x => x <> c) n.
Proof. intros [_ H] Hc. eapply Forall_impl; [|exact H]. intros x Hx ->. contradiction. Qed.
Lemma not_name_paren : ~ name_char 41. Proof. unfold name_char. lia. Qed.
Lemma not_name_comma : ~ name_char 44. Proof. unfold name_char. lia. Qed.
Lemma read_cpltime n : name n -> read_statement (txt "TEST_CPLTIME(" ++ n ++ txt ");") = Some (Cpltime n).
Proof.
  intros H. unfold read_statement. change (txt "TEST_CPLTIME(") with (text "TEST_CPLTIME("). rewrite after_app. change (txt ");") with (41 :: text ";").
  rewrite upto_app by (apply (name_free _ _ H), not_name_paren). cbn [bind]. rewrite eq_dec_refl. reflexivity.
Qed.
Lemma read_runtime n : name n -> read_statement (txt "TEST_RUNTIME(" ++ n ++ txt ");") = Some (Runtime n).
Proof.
  intros H. unfold read_statement. assert (E : after (text "TEST_CPLTIME(") (txt "TEST_RUNTIME(" ++ n ++ txt ");") = None) by reflexivity. rewrite E.
  change (txt "TEST_RUNTIME(") with (text "TEST_RUNTIME("). rewrite after_app. change (txt ");") with (41 :: text ";").
  rewrite upto_app by (apply (name_free _ _ H), not_name_paren). cbn [bind]. rewrite eq_dec_refl. reflexivity.
Qed.
Lemma read_differential a b : name a -> name b -> read_statement (txt "TEST_DIFFERENTIAL(" ++ a ++ txt ", " ++ b ++ txt ");") = Some (Differential a b).
Proof.
  intros Ha Hb. unfold read_statement. assert (E : after (text "TEST_CPLTIME(") (txt "TEST_DIFFERENTIAL(" ++ a ++ txt ", " ++ b ++ txt ");") = None) by reflexivity. rewrite E.
  assert (E2 : after (text "TEST_RUNTIME(") (txt "TEST_DIFFERENTIAL(" ++ a ++ txt ", " ++ b ++ txt ");") = None) by reflexivity. rewrite E2.
  change (txt "TEST_DIFFERENTIAL(") with (text "TEST_DIFFERENTIAL("). rewrite after_app. change (txt ", " ++ b ++ txt ");") with (44 :: text " " ++ b ++ 41 :: text ";").
  rewrite upto_app by (apply (name_free _ _ Ha), not_name_comma). cbn [bind]. rewrite after_app. cbn [bind].
  rewrite upto_app by (apply (name_free _ _ Hb), not_name_paren). cbn [bind]. rewrite eq_dec_refl. reflexivity.
Qed.
Definition stated (ls : list (list N)) (ss : list statement) : Prop := Forall2 (fun l s => read_statement l = Some s /\ l <> text "}" /\ good l) ls ss.
Lemma stated_read ls ss : stated ls ss -> read_statements (ls ++ [text "}"]) = Some ss.
Proof.
  induction 1 as [|l s ls ss (R & N & _) _ IH]; [reflexivity|]. cbn [app read_statements]. destruct (list_eq_dec N.eq_dec l (text "}")) as [E|_]; [contradiction|].
  rewrite R. cbn [bind]. rewrite IH. reflexivity.
Qed.
Lemma stated_good ls ss : stated ls ss -> Forall good ls.
Proof. induction 1 as [|l s ls ss (_ & _ & G) _ IH]; constructor; assumption. Qed.
Lemma stated_map {A} (P : A -> Prop) (f : A -> list N) (g : A -> statement) l : (forall a, P a -> read_statement (f a) = Some (g a) /\ f a <> text "}" /\ good (f a)) ->
  Forall P l -> stated (map f l) (map g l).
Proof. intros H. induction 1 as [|x l Hx _ IH]; [constructor|]. cbn [map]. constructor; [apply H, Hx|exact IH]. Qed.
Lemma name_tail n s : name n -> oneline s -> oneline (n ++ s).
Proof. intros H1 H2. apply oneline_app; [apply name_oneline, H1|exact H2]. Qed.
Lemma pairs_all {A} (l : list A) : pairs l = all_pairs l.
Proof.
  induction l as [|x l IH]; [reflexivity|]. cbn [pairs all_pairs]. rewrite IH. reflexivity.
Qed.
Lemma all_pairs_of {A} (P : A -> Prop) l : Forall P l -> Forall (fun p => P (fst p) /\ P (snd p)) (all_pairs l).
Proof.
  induction 1 as [|x l Hx Hl IH]; [constructor|]. cbn [all_pairs]. apply Forall_app. split; [|exact IH]. clear IH. induction Hl as [|y l Hy _ IH]; [constructor|].
  cbn [flat_map app]. constructor; [split; assumption|exact IH].
Qed.

(** *** The whole program *)
Definition cleanb (s : list N) : bool := forallb (fun c => negb (c =? 10)) s && negb (hd 0 s =? 32).
Lemma cleanb_ok l : forallb cleanb l = true -> Forall clean l.
Proof.
  intros H. apply Forall_forall. intros s Hs. pose proof (proj1 (forallb_forall _ _) H s Hs) as X. unfold cleanb in X. apply andb_prop in X as [X Y].
  split; [apply oneline_text, X|]. destruct (N.eqb_spec (hd 0 s) 32); [discriminate|assumption].
Qed.
Definition lines_eqb (a b : list (list N)) : bool := if list_eq_dec (list_eq_dec N.eq_dec) a b then true else false.
Lemma lines_eqb_ok a b : lines_eqb a b = true -> a = b.
Proof. unfold lines_eqb. destruct (list_eq_dec (list_eq_dec N.eq_dec) a b); [auto|discriminate]. Qed.
(** The fixed parts of the ten schemes. *)
Definition struct_lines (sc : scheme) : list (list N) :=
  flat (gen_struct (txt "test_vector") (Line (txt "const size_t id;") :: flat_map gen_member_decl (sc_members sc))).
Definition core_lines (sc : scheme) : list (list N) :=
  flat (gen_core (sc_call sc) (map fst (sc_members sc))) ++ [] :: macros (sc_differential sc) ++
  [[]; txt "auto"; txt "main("; txt ") noexcept(false) -> int"; txt "{"; txt "using namespace milo::primitive;"].
Definition name_charb (c : N) : bool := (48 <=? c) && (c <=? 58) || (65 <=? c) && (c <=? 90) || (c =? 95) || (97 <=? c) && (c <=? 122).
Definition scheme_okb (sc : scheme) : bool :=
  forallb (fun m => nonempty (fst m) && forallb name_charb (fst m)) (sc_members sc) &&
  (forallb cleanb (struct_lines sc) && lines_eqb (filter nonempty (struct_lines sc)) (struct_source (source_of sc))) &&
  (forallb cleanb (core_lines sc) && lines_eqb (filter nonempty (core_lines sc)) (test_source (source_of sc))) && cleanb (sc_header sc).
Lemma name_charb_ok c : name_charb c = true -> name_char c.
Proof.
  unfold name_charb, name_char. intros H. apply orb_prop in H as [H|H]; [apply orb_prop in H as [H|H]; [apply orb_prop in H as [H|H]|]|];
    try (apply andb_prop in H as [H1 H2]; apply N.leb_le in H1; apply N.leb_le in H2; lia). apply N.eqb_eq in H. lia.
Qed.
Lemma include_clean h : Forall (fun c => c <> 10) h -> good (txt "#include " ++ h).
Proof. intros H. apply good_cons; [discriminate|discriminate|]. apply (oneline_app (txt "include ")); [apply oneline_text; reflexivity|exact H]. Qed.
Lemma header_oneline h : header h -> oneline h.
Proof. intros H. eapply Forall_impl; [|exact H]. cbn beta. intros c Hc ->. lia. Qed.
Lemma skip_all is ls : read_includes (map (fun i => txt "#include " ++ i) is ++ text "using namespace milo::literal;" :: ls) = Some (is, ls).
Proof.
  induction is as [|i is IH].
  - cbn [map app read_includes]. assert (E : after (text "#include ") (text "using namespace milo::literal;") = None) by reflexivity. rewrite E. apply eq_dec_refl.
  - cbn [map app]. cbn [read_includes]. change (txt "#include ") with (text "#include "). change (txt "#include ") with (text "#include ") in IH. rewrite after_app, IH. reflexivity.
Qed.
Lemma flat_map_lines {A} (f : A -> list N) l : flat_map flat (map (fun i => Line (f i)) l) = map f l.
Proof. induction l as [|x l IH]; [reflexivity|]. cbn [map flat_map flat app]. rewrite IH. reflexivity. Qed.
Definition includes (sc : scheme) (c : config) : list (list N) := [txt "<iostream>"; txt "<milo/internal.h>"; txt "<milo/literal.h>"] ++ cf_include c ++ [sc_header sc].
Definition stmt_lines (sc : scheme) (c : config) : list (list N) :=
  map (fun i => txt "TEST_CPLTIME(" ++ i ++ txt ");") (cf_cpltime c) ++ map (fun i => txt "TEST_RUNTIME(" ++ i ++ txt ");") (cf_runtime c) ++
  match sc_differential sc with Some _ => map (fun p => txt "TEST_DIFFERENTIAL(" ++ fst p ++ txt ", " ++ snd p ++ txt ");") (all_pairs (cf_runtime c)) | None => [] end ++
  [txt "return " ++ (match cf_cpltime c, cf_runtime c with [], [] => txt "1" | _, _ => txt "0" end) ++ txt ";"].
Lemma stmt_ok sc c : config_ok c -> stated (stmt_lines sc c) (statements_of sc c).
Proof.
  intros (H1 & H2 & _). unfold stmt_lines, statements_of. apply Forall2_app; [|apply Forall2_app; [|apply Forall2_app]].
  - apply (stated_map name); [|exact H1]. intros n Hn. split; [apply read_cpltime, Hn|]. split; [discriminate|].
    apply good_cons; [discriminate|discriminate|]. apply (oneline_app (txt "EST_CPLTIME(")); [apply oneline_text; reflexivity|]. apply name_tail; [exact Hn|apply oneline_text; reflexivity].
  - apply (stated_map name); [|exact H2]. intros n Hn. split; [apply read_runtime, Hn|]. split; [discriminate|].
    apply good_cons; [discriminate|discriminate|]. apply (oneline_app (txt "EST_RUNTIME(")); [apply oneline_text; reflexivity|]. apply name_tail; [exact Hn|apply oneline_text; reflexivity].
  - destruct (sc_differential sc); [|constructor].
    replace (map (fun '(a, b) => Differential a b) (all_pairs (cf_runtime c))) with (map (fun p => Differential (fst p) (snd p)) (all_pairs (cf_runtime c)))
      by (apply map_ext; intros [a b]; reflexivity).
    apply (stated_map (fun p => name (fst p) /\ name (snd p))); [|apply all_pairs_of, H2]. intros [a b] [Ha Hb]. cbn [fst snd] in *. split; [apply read_differential; assumption|]. split; [discriminate|].
    apply good_cons; [discriminate|discriminate|]. apply (oneline_app (txt "EST_DIFFERENTIAL(")); [apply oneline_text; reflexivity|].
    apply name_tail; [exact Ha|]. apply (oneline_app (txt ", ")); [apply oneline_text; reflexivity|]. apply name_tail; [exact Hb|apply oneline_text; reflexivity].
  - constructor; [|constructor]. destruct (cf_cpltime c), (cf_runtime c); (split; [reflexivity|split; [discriminate|apply good_cons; [discriminate|discriminate|apply oneline_text; reflexivity]]]).
Qed.
Definition array_line (n : nat) : list N := txt "constexpr milo::container::array<test_vector, " ++ dec (N.of_nat n) ++ txt "> test_vectors".
Definition inc (i : list N) : list N := txt "#include " ++ i.
Definition body (sc : scheme) (c : config) (ps : list part) : list part :=
  [ Line []; Line []; gen_include [txt "<iostream>"]; Line []; gen_include [txt "<milo/internal.h>"; txt "<milo/literal.h>"]; Line [];
    gen_include (cf_include c); gen_include [sc_header sc]; Line []; Line []; Line (txt "using namespace milo::literal;"); Line [];
    gen_struct (txt "test_vector") (Line (txt "const size_t id;") :: flat_map gen_member_decl (sc_members sc)); Line [];
    Line (array_line (length (concat (cf_vectors c))));
    Deep [gen_block ps (txt ";")]; Line [];
    gen_core (sc_call sc) (map fst (sc_members sc)); Line [];
    Flat (map Line (macros (sc_differential sc))); Line [];
    gen_main (cf_cpltime c) (cf_runtime c) (match sc_differential sc with Some _ => true | None => false end); Line []].
Definition raw (sc : scheme) (c : config) (ps : list part) : list (list N) :=
  [[]; []; inc (txt "<iostream>"); []; inc (txt "<milo/internal.h>"); inc (txt "<milo/literal.h>"); []] ++ map inc (cf_include c) ++
  [inc (sc_header sc); []; []; txt "using namespace milo::literal;"; []] ++ struct_lines sc ++ [[]; array_line (length (concat (cf_vectors c))); txt "{"] ++
  flat_map flat ps ++ [txt "};"; []] ++ core_lines sc ++
  [[]] ++ map (fun i => txt "TEST_CPLTIME(" ++ i ++ txt ");") (cf_cpltime c) ++ [[]] ++ map (fun i => txt "TEST_RUNTIME(" ++ i ++ txt ");") (cf_runtime c) ++ [[]] ++
  match sc_differential sc with Some _ => map (fun p => txt "TEST_DIFFERENTIAL(" ++ fst p ++ txt ", " ++ snd p ++ txt ");") (all_pairs (cf_runtime c)) ++ [[]] | None => [] end ++
  [txt "return " ++ (match cf_cpltime c, cf_runtime c with [], [] => txt "1" | _, _ => txt "0" end) ++ txt ";"; txt "}"; []].
Lemma flat_main cpl run d : flat (gen_main cpl run d) =
  [txt "auto"; txt "main("; txt ") noexcept(false) -> int"; txt "{"; txt "using namespace milo::primitive;"; []] ++
  map (fun i => txt "TEST_CPLTIME(" ++ i ++ txt ");") cpl ++ [[]] ++ map (fun i => txt "TEST_RUNTIME(" ++ i ++ txt ");") run ++ [[]] ++
  (if d then map (fun p => txt "TEST_DIFFERENTIAL(" ++ fst p ++ txt ", " ++ snd p ++ txt ");") (all_pairs run) ++ [[]] else []) ++
  [txt "return " ++ (match cpl, run with [], [] => txt "1" | _, _ => txt "0" end) ++ txt ";"; txt "}"].
Proof.
  unfold gen_main, gen_function, gen_block. cbn [flat flat_map app]. rewrite pairs_all.
  rewrite !flat_map_app, !flat_map_lines. cbn [flat flat_map app]. rewrite !app_nil_r.
  assert (D : flat_map flat (if d then map (fun '(a, b) => Line (txt "TEST_DIFFERENTIAL(" ++ a ++ txt ", " ++ b ++ txt ");")) (all_pairs run) ++ [Line []] else [])
    = if d then map (fun p => txt "TEST_DIFFERENTIAL(" ++ fst p ++ txt ", " ++ snd p ++ txt ");") (all_pairs run) ++ [[]] else []).
  { destruct d; [|reflexivity]. rewrite flat_map_app. f_equal.
    rewrite <- (flat_map_lines (fun p => txt "TEST_DIFFERENTIAL(" ++ fst p ++ txt ", " ++ snd p ++ txt ");")). f_equal. apply map_ext. intros [a b]. reflexivity. }
  rewrite D. rewrite <- !app_assoc. cbn [app]. reflexivity.
Qed.
Lemma flat_body sc c ps : flat_map flat (body sc c ps) = raw sc c ps.
Proof.
  unfold body, raw. cbn [flat_map]. rewrite flat_main. change (flat (gen_struct (txt "test_vector") (Line (txt "const size_t id;") :: flat_map gen_member_decl (sc_members sc)))) with (struct_lines sc).
  unfold core_lines. set (core := flat (gen_core _ _)). set (st := struct_lines sc). clearbody core st. unfold gen_include, gen_block. cbn [flat flat_map map].
  rewrite flat_map_lines, flat_lines. cbn [flat flat_map app]. rewrite ?app_nil_r. rewrite <- !app_assoc. cbn [app]. rewrite <- ?app_assoc. cbn [app]. destruct (sc_differential sc); cbn [app]; rewrite <- ?app_assoc; reflexivity.
Qed.

Lemma good_map {A} (P : A -> Prop) f l : (forall a, P a -> good (f a)) -> Forall P l -> Forall good (map f l).
Proof. intros H. induction 1; constructor; auto. Qed.
Lemma array_good n : good (array_line n).
Proof.
  apply good_cons; [discriminate|discriminate|]. apply (oneline_app (txt "onstexpr milo::container::array<test_vector, ")); [apply oneline_text; reflexivity|].
  apply oneline_app; [apply oneline_dec|apply oneline_text; reflexivity].
Qed.
Lemma clean_all l : Forall good l -> Forall clean l.
Proof. apply Forall_impl. exact good_clean. Qed.
Lemma clean_nil : clean []. Proof. split; [constructor|discriminate]. Qed.
Lemma scheme_parts sc : scheme_okb sc = true ->
  Forall (fun m => name (fst m)) (sc_members sc) /\ (Forall clean (struct_lines sc) /\ filter nonempty (struct_lines sc) = struct_source (source_of sc)) /\
  (Forall clean (core_lines sc) /\ filter nonempty (core_lines sc) = test_source (source_of sc)) /\ oneline (sc_header sc).
Proof.
  unfold scheme_okb. intros H. apply andb_prop in H as [H H4]. apply andb_prop in H as [H H3]. apply andb_prop in H as [H1 H2].
  apply andb_prop in H2 as [H2 H2']. apply andb_prop in H3 as [H3 H3']. split; [|split; [|split]].
  - apply Forall_forall. intros m Hm. pose proof (proj1 (forallb_forall _ _) H1 m Hm) as X. cbn beta in X. apply andb_prop in X as [X Y]. split; [destruct (fst m); discriminate|].
    apply Forall_forall. intros c Hc. apply name_charb_ok. exact (proj1 (forallb_forall _ _) Y c Hc).
  - split; [apply cleanb_ok, H2|apply lines_eqb_ok, H2'].
  - split; [apply cleanb_ok, H3|apply lines_eqb_ok, H3'].
  - apply andb_prop in H4 as [H4 _]. apply oneline_text, H4.
Qed.
Lemma program_text sc c vs : scheme_okb sc = true -> config_ok c -> Forall2 (vector_of sc) (concat (cf_vectors c)) vs ->
  exists t, gen sc c = Some t /\ read_program (source_of sc) t = Some (program_of sc c vs).
Proof.
  intros Hs Hc Hv. destruct (scheme_parts sc Hs) as (Nm & (C1 & F1) & (C2 & F2) & Oh). destruct (vectors_ok sc Nm _ _ Hv) as (ps & Ep & Gp & Rp).
  assert (Eg : gen sc c = Some (gen_body (body sc c ps))).
  { unfold gen. cbv zeta. rewrite Ep. cbn [bind]. reflexivity. }
  exists (gen_body (body sc c ps)). split; [exact Eg|]. clear Eg.
  pose proof (stmt_ok sc c Hc) as St. pose proof (stated_good _ _ St) as Gs. destruct Hc as (Hc1 & Hc2 & Hc3).
  assert (Gi : Forall good (map inc (cf_include c))).
  { apply (good_map header); [|exact Hc3]. intros h Hh. apply include_clean, header_oneline, Hh. }
  assert (Gh : good (inc (sc_header sc))) by (apply include_clean, Oh).
  pose proof (array_good (length (concat (cf_vectors c)))) as Ga.
  unfold stmt_lines in Gs. apply Forall_app in Gs as [G1 Gs]. apply Forall_app in Gs as [G2 Gs]. apply Forall_app in Gs as [G3 G4].
  assert (Cl : Forall clean (raw sc c ps)).
  { unfold raw. apply Forall_app. split; [apply cleanb_ok; reflexivity|]. apply Forall_app. split; [apply clean_all, Gi|].
    apply Forall_app. split; [apply Forall_cons; [apply good_clean, Gh|apply cleanb_ok; reflexivity]|]. apply Forall_app. split; [exact C1|].
    apply Forall_app. split; [apply Forall_cons; [exact clean_nil|]; apply Forall_cons; [apply good_clean, Ga|]; apply cleanb_ok; reflexivity|].
    apply Forall_app. split; [apply clean_all, Gp|]. apply Forall_app. split; [apply cleanb_ok; reflexivity|]. apply Forall_app. split; [exact C2|].
    apply Forall_app. split; [apply cleanb_ok; reflexivity|]. apply Forall_app. split; [apply clean_all, G1|].
    apply Forall_app. split; [apply cleanb_ok; reflexivity|]. apply Forall_app. split; [apply clean_all, G2|].
    apply Forall_app. split; [apply cleanb_ok; reflexivity|]. apply Forall_app. split.
    - destruct (sc_differential sc); [|constructor]. apply Forall_app. split; [apply clean_all, G3|apply cleanb_ok; reflexivity].
    - apply Forall_cons; [apply good_clean, (Forall_inv G4)|apply cleanb_ok; reflexivity]. }
  unfold read_program. rewrite lines_body by (rewrite flat_body; exact Cl). rewrite flat_body.
  assert (Fl : filter nonempty (raw sc c ps) = map inc (includes sc c) ++ text "using namespace milo::literal;" :: struct_source (source_of sc) ++
    array_line (length (concat (cf_vectors c))) :: text "{" :: flat_map flat ps ++ text "};" :: test_source (source_of sc) ++ stmt_lines sc c ++ [text "}"]).
  { unfold raw. rewrite !filter_app', F1, F2, (good_filter _ Gp), (good_filter _ Gi), (good_filter _ G1), (good_filter _ G2).
    assert (D : filter nonempty (match sc_differential sc with Some _ => map (fun p => txt "TEST_DIFFERENTIAL(" ++ fst p ++ txt ", " ++ snd p ++ txt ");") (all_pairs (cf_runtime c)) ++ [[]] | None => [] end)
      = match sc_differential sc with Some _ => map (fun p => txt "TEST_DIFFERENTIAL(" ++ fst p ++ txt ", " ++ snd p ++ txt ");") (all_pairs (cf_runtime c)) | None => [] end).
    { destruct (sc_differential sc); [|reflexivity]. rewrite filter_app', (good_filter _ G3). cbn [filter nonempty]. apply app_nil_r. }
    rewrite D. unfold includes, stmt_lines. rewrite !map_app. set (st := struct_source _). set (ts := test_source _). set (al := array_line _) in *.
    assert (Fa : filter nonempty [[]; al; txt "{"] = [al; txt "{"]). { destruct Ga as (_ & x & r & Ea & _). clearbody al. subst al. reflexivity. }
    rewrite Fa.
    assert (Fr : forall x, filter nonempty [txt "return " ++ x ++ txt ";"; txt "}"; []] = [txt "return " ++ x ++ txt ";"; txt "}"]) by reflexivity.
    rewrite Fr. clearbody st ts al. clear. 
    change (filter nonempty [[]; []; inc (txt "<iostream>"); []; inc (txt "<milo/internal.h>"); inc (txt "<milo/literal.h>"); []]) with (map inc [txt "<iostream>"; txt "<milo/internal.h>"; txt "<milo/literal.h>"]).
    change (filter nonempty [inc (sc_header sc); []; []; txt "using namespace milo::literal;"; []]) with [inc (sc_header sc); text "using namespace milo::literal;"].
    change (filter nonempty [txt "};"; []]) with [text "};"]. change (filter nonempty [[]]) with (@nil (list N)).
    rewrite <- !app_assoc. cbn [map app]. rewrite <- ?app_assoc. cbn [app]. reflexivity. }
  rewrite Fl. unfold inc. rewrite skip_all. cbn [bind]. rewrite expects_app. cbn [bind]. unfold array_line.
  change (txt "constexpr milo::container::array<test_vector, ") with (text "constexpr milo::container::array<test_vector, "). rewrite after_app. cbn [bind].
  rewrite number_dec by reflexivity. cbn [bind]. change (txt "> test_vectors") with (text "> test_vectors"). rewrite eq_dec_refl. rewrite expect_cons. cbn [bind].
  rewrite Nat2N.id. change (so_members (source_of sc)) with (names (sc_members sc)). rewrite Rp. cbn [bind]. rewrite expect_cons. cbn [bind].
  rewrite expects_app. cbn [bind]. rewrite (stated_read _ _ St). reflexivity.
Qed.
