(** The generated text read back. *)
From Verif Require Import Base BaseLemmas BytesLemmas Spec_Bytes Spec_Codec Spec_App Model_App Model_Codegen Spec_Cpp Spec_Codegen Proof_Codec16 Proof_CodecMem.
Local Open Scope N_scope.

(** *** Lines *)
Fixpoint flat (p : part) : list (list N) :=
  match p with Line s => [s] | Deep l => flat_map flat l | Flat l => flat_map flat l end.
Definition clean (s : list N) : Prop := Forall (fun c => c <> 10) s /\ hd 0 s <> 32.
Lemma lines_from_more cur s t : cur <> [] -> Forall (fun c => c <> 10) s -> lines_from cur (s ++ 10 :: t) = (cur ++ s) :: lines_from [] t.
Proof.
  revert cur. induction s as [|c s IH]; intros cur Hc Hs; cbn [app lines_from].
  - change (10 =? newline) with true. cbn iota. rewrite app_nil_r. destruct cur; [contradiction|reflexivity].
  - pose proof (Forall_inv Hs) as H. destruct (N.eqb_spec c newline) as [E|_]; [contradiction|].
    destruct cur as [|x cur]; [contradiction|]. rewrite andb_false_r. rewrite IH; [|destruct cur; discriminate|exact (Forall_inv_tail Hs)].
    rewrite <- app_assoc. reflexivity.
Qed.
Lemma lines_line k s t : clean s -> lines_from [] (repeat 32 k ++ s ++ 10 :: t) = keep s (lines_from [] t).
Proof.
  intros [H1 H2]. induction k as [|k IH].
  - cbn [repeat app]. destruct s as [|c s].
    + cbn [app lines_from]. change (10 =? newline) with true. reflexivity.
    + cbn [app lines_from]. pose proof (Forall_inv H1) as H. destruct (N.eqb_spec c newline) as [E|_]; [contradiction|]. cbn [hd] in H2.
      destruct (N.eqb_spec c space) as [E|_]; [contradiction|]. cbn [andb app]. rewrite lines_from_more; [reflexivity|discriminate|exact (Forall_inv_tail H1)].
  - cbn [repeat app lines_from]. change (32 =? newline) with false. change (32 =? space) with true. cbn [andb]. exact IH.
Qed.
Definition nonempty (s : list N) : bool := match s with [] => false | _ => true end.
Lemma keep_filter s r : keep s r = filter nonempty [s] ++ r.
Proof. destruct s; reflexivity. Qed.
Lemma filter_app' {A} (f : A -> bool) l r : filter f (l ++ r) = filter f l ++ filter f r.
Proof. induction l as [|x l IH]; [reflexivity|]. cbn. destruct (f x); cbn; rewrite IH; reflexivity. Qed.
Fixpoint psize (p : part) : nat := match p with Line _ => 1%nat | Deep l => S (list_sum (map psize l)) | Flat l => S (list_sum (map psize l)) end.
Lemma lines_part : forall n p i t, (psize p <= n)%nat -> Forall clean (flat p) -> lines_from [] (gen_part i p ++ t) = filter nonempty (flat p) ++ lines_from [] t.
Proof.
  induction n as [|n IH]; intros p i t Hn Hp; [destruct p; cbn in Hn; lia|].
  assert (L : forall l i t, (list_sum (map psize l) <= n)%nat -> Forall clean (flat_map flat l) ->
    lines_from [] (flat_map (gen_part i) l ++ t) = filter nonempty (flat_map flat l) ++ lines_from [] t).
  { induction l as [|q l IHl]; intros j u Hl Hc; [reflexivity|]. change (list_sum (map psize (q :: l))) with (psize q + list_sum (map psize l))%nat in Hl. cbn [flat_map] in *. apply Forall_app in Hc as [C1 C2].
    rewrite <- app_assoc, IH by (assumption || lia). rewrite IHl by (assumption || lia). rewrite filter_app', app_assoc. reflexivity. }
  destruct p as [s|l|l]; cbn [gen_part flat psize] in *.
  - rewrite <- !app_assoc. cbn [app]. rewrite lines_line by exact (Forall_inv Hp). apply keep_filter.
  - apply L; [lia|exact Hp].
  - apply L; [lia|exact Hp].
Qed.
Lemma lines_body l : Forall clean (flat_map flat l) -> lines (gen_body l) = filter nonempty (flat_map flat l).
Proof.
  intros H. unfold lines, gen_body. induction l as [|p l IH]; [reflexivity|]. cbn [flat_map] in *. apply Forall_app in H as [C1 C2].
  rewrite (lines_part (psize p)) by (assumption || lia). rewrite IH by assumption. rewrite filter_app'. reflexivity.
Qed.

(** *** Literals *)
Lemma nibble_value d : d < 16 -> hex_value (nibble d) = Some d.
Proof.
  intros H. assert (X : forall d, d < 16 -> match hex_value (nibble d) with Some x => x =? d | None => false end = true).
  { apply (below_sweep 16). vm_compute. reflexivity. }
  specialize (X d H). destruct (hex_value (nibble d)) as [x|]; [|discriminate]. apply N.eqb_eq in X. congruence.
Qed.
Lemma chars_plain_34 t : chars Plain (34 :: t) = Some ([], t). Proof. reflexivity. Qed.
Lemma chars_hex : forall b r, bytes b -> chars Plain (flat_map hex_escape b ++ 34 :: r) = Some (b, r).
Proof.
  induction b as [|x b IH]; intros r Hb; [reflexivity|]. pose proof (Forall_inv Hb) as Hx. unfold is_byte in Hx.
  assert (N1 : hex_value (nibble (x / 16)) = Some (x / 16)) by (apply nibble_value, N.div_lt_upper_bound; lia).
  assert (N2 : hex_value (nibble (x mod 16)) = Some (x mod 16)) by (apply nibble_value, N.mod_lt; discriminate).
  assert (V : 16 * (x / 16) + x mod 16 = x) by (symmetry; apply N.div_mod; discriminate).
  cbn [flat_map]. unfold hex_escape at 1. cbn [app chars]. change (92 =? 34) with false. change (92 =? 92) with true. change (120 =? 120) with true. cbn iota.
  rewrite N1. rewrite N2, V.
  specialize (IH r (Forall_inv_tail Hb)).
  assert (E : forall t, chars (Hex (Some x)) (34 :: t) = push x (chars Plain (34 :: t)) /\ chars (Hex (Some x)) (92 :: t) = push x (chars Plain (92 :: t))).
  { intros t. cbn [chars]. change (hex_value 34) with (@None N). change (hex_value 92) with (@None N). destruct (N.ltb_spec x 256); [split; reflexivity|lia]. }
  destruct b as [|y b]; cbn [flat_map app] in *.
  - rewrite (proj1 (E _)). rewrite IH. reflexivity.
  - unfold hex_escape at 1. unfold hex_escape at 1 in IH. cbn [app] in *. rewrite (proj2 (E _)). rewrite IH. reflexivity.
Qed.
Lemma chars_text : forall t r, Forall (fun c => 32 <= c < 127 /\ c <> 34 /\ c <> 92) t -> chars Plain (t ++ 34 :: r) = Some (t, r).
Proof.
  induction t as [|c t IH]; intros r H; [reflexivity|]. pose proof (Forall_inv H) as (A & B & C). cbn [app chars].
  destruct (N.eqb_spec c 34) as [E|_]; [contradiction|]. destruct (N.eqb_spec c 92) as [E|_]; [contradiction|]. rewrite IH by exact (Forall_inv_tail H). reflexivity.
Qed.
Lemma add_end_cons x l e : l <> [] -> add_end (x :: l) e = x :: add_end l e.
Proof. destruct l; [contradiction|reflexivity]. Qed.
(** [f]: how a chunk is written *)
Lemma literal_slices (f : list N -> list N) (P : list N -> Prop) w e ls : (0 < w)%nat -> e <> [] ->
  (forall n l, P l -> P (firstn n l) /\ P (skipn n l)) -> (forall c r, P c -> chars Plain (f c ++ 34 :: r) = Some (c, r)) ->
  forall fuel l, (length l <= fuel)%nat -> l <> [] -> P l -> literal (add_end (map (fun c => [34] ++ f c ++ [34]) (slices fuel w l)) e ++ ls) = Some (l, e, ls).
Proof.
  intros Hw He Hs Hf. induction fuel as [|fuel IH]; intros l Hl Hn Hp; [destruct l; [contradiction|cbn in Hl; lia]|].
  assert (Es : slices (S fuel) w l = firstn w l :: slices fuel w (skipn w l)) by (destruct l; [contradiction|reflexivity]).
  rewrite Es. cbn [map]. destruct (Hs w l Hp) as [P1 P2].
  destruct (skipn w l) as [|x r] eqn:Er.
  - assert (Z : slices fuel w [] = []) by (destruct fuel; reflexivity). rewrite Z. cbn [map add_end app literal].
    replace ((f (firstn w l) ++ [34]) ++ e) with (f (firstn w l) ++ 34 :: e) by (rewrite <- app_assoc; reflexivity).
    rewrite Hf by exact P1. destruct e as [|c e]; [contradiction|].
    rewrite firstn_all2; [reflexivity|]. pose proof (skipn_length w l) as L. rewrite Er in L. cbn in L. lia.
  - rewrite <- Er in *. assert (Nr : skipn w l <> []) by (rewrite Er; discriminate).
    assert (Lr : (length (skipn w l) <= fuel)%nat) by (rewrite skipn_length; destruct l; [contradiction|cbn [length] in *; lia]).
    rewrite add_end_cons.
    2:{ destruct fuel as [|fuel]; [rewrite Er in Lr; cbn in Lr; lia|]. rewrite Er. discriminate. }
    cbn [app literal]. rewrite Hf by exact P1. rewrite IH by assumption. rewrite firstn_skipn. reflexivity.
Qed.
Lemma flat_lines l : flat_map flat (map Line l) = l.
Proof. induction l as [|x l IH]; [reflexivity|]. cbn. rewrite IH. reflexivity. Qed.
Lemma literal_bytes b e ls : bytes b -> e <> [] -> literal (flat (gen_bytes_to_hex_str b e) ++ ls) = Some (b, e, ls).
Proof.
  intros Hb He. unfold gen_bytes_to_hex_str. cbv zeta. cbn [flat]. rewrite flat_lines. destruct b as [|x b].
  - cbn [length slices map app]. cbn [literal]. rewrite chars_plain_34. destruct e; [contradiction|reflexivity].
  - assert (Y : forall (l : list (list N)) (y z : list (list N)), l <> [] -> match l with [] => y | _ => z end = z) by (intros [|? ?]; [contradiction|reflexivity]).
    rewrite Y by discriminate.
    apply (literal_slices (flat_map hex_escape) bytes 16 e ls ltac:(lia) He);
      [intros n l H; split; [apply bytes_firstn, H|apply bytes_skipn, H]|intros c r Hc; apply chars_hex, Hc|lia|discriminate|exact Hb].
Qed.
Lemma literal_text t e ls : plain_text t -> e <> [] -> literal (flat (gen_str t e) ++ ls) = Some (t, e, ls).
Proof.
  intros [Hn Ht] He. unfold gen_str. cbv zeta. cbn [flat]. rewrite flat_lines.
  assert (Y : forall (l : list (list N)) (y z : list (list N)), l <> [] -> match l with [] => y | _ => z end = z) by (intros [|? ?]; [contradiction|reflexivity]).
  rewrite Y by (destruct t; [contradiction|discriminate]).
  apply (literal_slices (fun c => c) (Forall (fun c => 32 <= c < 127 /\ c <> 34 /\ c <> 92)) 64 e ls ltac:(lia) He); [|intros c r Hc; apply chars_text, Hc|lia|exact Hn|exact Ht].
  intros n l H. rewrite <- (firstn_skipn n l) in H. apply Forall_app in H. exact H.
Qed.
