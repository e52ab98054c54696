(** Proofs of C64. *)
From Verif Require Import Base BaseLemmas Model_Memory Model_Update Model_Container Model_Codec Model_Sha Model_Mac
  Model_Kdf Model_Cipher Model_Aead Model_Alloc Spec_Alloc.
Local Open Scope N_scope.

Lemma resize_list_len l n : length (resize_list l n) = n.
Proof. unfold resize_list. rewrite app_length, firstn_length, repeat_length. lia. Qed.

(** Growing succeeds, or fails and there is a failure less. *)
Lemma aresize_cases h c n : exists h',
  (aresize h c n = (Some (cresize c n), h') /\ failures h' = failures h) \/
  (aresize h c n = (None, h') /\ S (failures h') = failures h /\ must_grow c n).
Proof.
  destruct c as [l|l]; cbn [aresize].
  - destruct (Nat.leb_spec n (length l)) as [H|H].
    + exists h. left. auto.
    + destruct h as [|[|] h]; [exists []|exists h|exists h]; cbn [failures must_grow]; auto.
  - exists h. left. auto.
Qed.
Lemma aresize_small h c n : (n <= length (cdata c))%nat -> aresize h c n = (Some (cresize c n), h).
Proof. destruct c as [l|l]; cbn [aresize cdata]; [|reflexivity]. intros H. destruct (Nat.leb_spec n (length l)); [reflexivity|lia]. Qed.
Lemma must_grow_dyn c n : must_grow c n -> is_static c = false.
Proof. destruct c; [reflexivity|intros []]. Qed.

(** *** Histories in general *)
Section Generic.
  Context {O C X : Type} (step : O -> C -> option (O * X)) (step_a : O -> C -> heap -> option (O * ended X container * heap)).
  Context (run : O -> list C -> option (O * list X)).
  Context (run_nil : forall o, run o [] = Some (o, [])).
  Context (run_cons : forall o c cs, run o (c :: cs) = ('(o, x) <- step o c ;; '(o, xs) <- run o cs ;; Some (o, x :: xs))).
  Context (acts : C -> bool) (target : C -> option (container * nat)) (good : O -> Prop) (ok : C -> Prop).
  Context (total : forall o c, good o -> ok c -> exists o' x, step o c = Some (o', x) /\ good o').
  Context (one : forall o c o' x, good o -> ok c -> step o c = Some (o', x) -> forall h, exists h',
    (step_a o c h = Some (o', Done x, h') /\ failures h' = failures h) \/
    (exists k n, step_a o c h = Some (if acts c then o' else o, NoMemory k, h') /\ S (failures h') = failures h /\
       target c = Some (k, n) /\ must_grow k n)).

  Lemma explained_all calls : Forall ok calls -> forall o h, good o -> explained acts target run step_a o calls h.
  Proof.
    induction 1 as [|c calls Hc _ IH]; intros o h Ho; unfold explained.
    - exists o, [], h, []. cbn. rewrite run_nil. auto.
    - destruct (total o c Ho Hc) as (o1 & x & E & G1). destruct (one o c o1 x Ho Hc E h) as (h1 & [[S F]|(k & n & S & F & T & M)]).
      + destruct (IH o1 h1 G1) as (o' & rs & h' & os & R & Fs & U & N & A).
        exists o', (Done x :: rs), h', (x :: os). cbn [run_a exceptions effective same_answers]. rewrite S. cbn [bind]. rewrite R. cbn [bind].
        split; [reflexivity|]. split; [lia|]. split; [constructor; [exact I|exact U]|]. split; [|auto].
        rewrite run_cons, E. cbn [bind]. rewrite N. reflexivity.
      + assert (G2 : good (if acts c then o1 else o)) by (destruct (acts c); assumption).
        destruct (IH _ h1 G2) as (o' & rs & h' & os & R & Fs & U & N & A).
        exists o', (NoMemory k :: rs), h', (if acts c then x :: os else os).
        cbn [run_a exceptions effective same_answers]. rewrite S. cbn [bind]. rewrite R. cbn [bind].
        split; [reflexivity|]. split; [lia|].
        split; [constructor; [exists n; auto|exact U]|].
        destruct (acts c); [|auto]. split; [|exact A]. rewrite run_cons, E. cbn [bind]. rewrite N. reflexivity.
  Qed.

  (** Reachable objects of a class whose calls are all defined. *)
  Context (o0 : O).
  Lemma run_app a : forall o b, run o (a ++ b) = ('(o, xs) <- run o a ;; '(o, ys) <- run o b ;; Some (o, xs ++ ys)).
  Proof.
    induction a as [|c a IH]; intros o b; cbn [app].
    - rewrite run_nil. cbn [bind]. destruct (run o b) as [[o' ys]|]; reflexivity.
    - rewrite !run_cons. destruct (step o c) as [[o1 x]|]; [|reflexivity]. cbn [bind]. rewrite IH.
      destruct (run o1 a) as [[o2 xs]|]; [|reflexivity]. cbn [bind]. destruct (run o2 b) as [[o3 ys]|]; reflexivity.
  Qed.
End Generic.

Section Reach.
  Context {O C X : Type} (step : O -> C -> option (O * X)).
  Context (run : O -> list C -> option (O * list X)).
  Context (run_nil : forall o, run o [] = Some (o, [])).
  Context (run_cons : forall o c cs, run o (c :: cs) = ('(o, x) <- step o c ;; '(o, xs) <- run o cs ;; Some (o, x :: xs))).
  Context (ok : C -> Prop) (o0 : O) (defined : forall calls, Forall ok calls -> exists r, run o0 calls = Some r).
  Definition reached (o : O) : Prop := exists calls xs, Forall ok calls /\ run o0 calls = Some (o, xs).
  Lemma reached_start : reached o0.
  Proof. exists [], []. split; [constructor|apply run_nil]. Qed.
  Lemma reached_total o c : reached o -> ok c -> exists o' x, step o c = Some (o', x) /\ reached o'.
  Proof.
    intros (cs & xs & Hcs & R) Hc.
    destruct (defined (cs ++ [c])) as [[o' ys] E]; [apply Forall_app; auto|].
    pose proof E as E'. rewrite (run_app step run run_nil run_cons), R in E. cbn [bind] in E. rewrite run_cons in E.
    destruct (step o c) as [[o1 x]|] eqn:S; [|discriminate]. cbn [bind] in E. rewrite run_nil in E. cbn [bind] in E. injection E as <- <-.
    exists o1, x. split; [reflexivity|]. exists (cs ++ [c]), (xs ++ [x]). split; [apply Forall_app; auto|exact E'].
  Qed.
End Reach.

(** *** Hash *)
Lemma hash_one cx al p c p' x : hash_step cx al p c = Some (p', x) -> forall h, exists h',
  (hash_step_a cx al p c h = Some (p', Done x, h') /\ failures h' = failures h) \/
  (exists k n, hash_step_a cx al p c h = Some (p', NoMemory k, h') /\ S (failures h') = failures h /\
     hash_target (ha_digest_size al) c = Some (k, n) /\ must_grow k n).
Proof.
  intros E h. destruct c as [|m|d s|c s].
  1-3: exists h; left; split; [|reflexivity]; unfold hash_step_a; rewrite E; reflexivity.
  cbn [hash_step hash_step_a hash_target] in *. unfold hapie_digest_c in E. unfold hapie_digest_a.
  destruct (hapie_do_finalize cx al p) as [q|] eqn:Q; [|discriminate]. cbn [bind] in *.
  assert (Fq : hapie_do_finalize cx al q = Some q).
  { unfold hapie_do_finalize in Q |- *. destruct (hp_finalized p) eqn:Fp; [injection Q as <-; rewrite Fp; reflexivity|].
    destruct (hash_finalize cx al (hp_impl p)); [|discriminate]. injection Q as <-. reflexivity. }
  destruct (aresize_cases h c (Nat.min s (ha_digest_size al))) as (h' & [[A F]|(A & F & M)]); exists h'; rewrite A.
  - left. destruct (cresize c _) as [c1 s1]. unfold hapie_digest in *. rewrite Fq in *. cbn [bind] in *.
    destruct (hash_digest cx al (hp_impl q) (cdata c1) s1) as [[dst n]|]; [|discriminate]. cbn [bind] in *.
    injection E as <- <-. auto.
  - right. exists c, (Nat.min s (ha_digest_size al)). rewrite (must_grow_dyn _ _ M). cbn [bind unwind].
    assert (Ep : p' = q).
    { destruct (cresize c _) as [c1 s1]. unfold hapie_digest in E. rewrite Fq in E. cbn [bind] in E.
      destruct (hash_digest cx al (hp_impl q) (cdata c1) s1) as [[dst n]|]; [|discriminate]. cbn [bind] in E.
      injection E as <- _. reflexivity. }
    rewrite Ep. auto.
Qed.
(** One container call gives the all-or-nothing statement of the free functions. *)
Lemma hash_digest_a_cases cx al p c s p' c' n : hapie_digest_c cx al p c s = Some (p', c', n) -> forall h, exists h',
  (hapie_digest_a cx al p c s h = Some (p', Done (c', n), h') /\ failures h' = failures h) \/
  (hapie_digest_a cx al p c s h = Some (p', NoMemory c, h') /\ S (failures h') = failures h /\ must_grow c (Nat.min s (ha_digest_size al))).
Proof.
  intros E h. destruct (hash_one cx al p (HDigestC c s) p' (ODigestC c' n)) with (h := h) as (h' & H).
  { cbn [hash_step]. rewrite E. reflexivity. }
  exists h'. cbn [hash_step_a hash_target] in H. destruct (hapie_digest_a cx al p c s h) as [[[q r] h1]|]; [|destruct H as [[H _]|(? & ? & H & _)]; discriminate].
  cbn [bind] in H. destruct H as [[H F]|(k & m & H & F & T & M)].
  - left. destruct r as [[c1 n1]| |]; try discriminate. injection H as <- <- <- <-. auto.
  - right. destruct r as [[c1 n1]|c1|]; try discriminate. injection H as <- <- <-. injection T as -> <-. auto.
Qed.
Lemma hash_free_alloc cx al msg c s c' n h : hash_free_digest_c cx al msg c s = Some (c', n) ->
  all_or_nothing c (Nat.min s (ha_digest_size al)) c (c', n) h (hash_free_digest_a cx al msg c s h).
Proof.
  unfold hash_free_digest_c, hash_free_digest_a, all_or_nothing. destruct (hapie_update cx al (hapie_new al) msg) as [p|]; [|discriminate]. cbn [bind].
  destruct (hapie_digest_c cx al p c s) as [[[p' c1] n1]|] eqn:E; [|discriminate]. cbn [bind]. intros H. injection H as <- <-.
  destruct (hash_digest_a_cases _ _ _ _ _ _ _ _ E h) as (h' & [[A F]|(A & F & M)]); rewrite A; exists h'; cbn [bind]; [auto|].
  rewrite (must_grow_dyn _ _ M). auto.
Qed.
Lemma hash_free_new_alloc cx al msg s d h : hash_free_digest_new cx al msg s = Some d ->
  all_or_nothing (Dynamic []) (Nat.min s (ha_digest_size al)) tt d h (hash_free_digest_new_a cx al msg s h).
Proof.
  unfold hash_free_digest_new, hash_free_digest_new_a, hapie_digest_new, hapie_digest_new_a, all_or_nothing.
  destruct (hapie_update cx al (hapie_new al) msg) as [p|]; [|discriminate]. cbn [bind].
  destruct (hapie_digest_c cx al p (Dynamic []) s) as [[[p' c1] n1]|] eqn:E; [|discriminate]. cbn [bind]. intros H. injection H as <-.
  destruct (hash_digest_a_cases _ _ _ _ _ _ _ _ E h) as (h' & [[A F]|(A & F & M)]); rewrite A; exists h'; cbn [bind unwind]; auto.
Qed.

(** *** MAC *)
Lemma mac_one cx M p c p' x : mac_step cx M p c = Some (p', x) -> forall h, exists h',
  (mac_step_a cx M p c h = Some (p', Done x, h') /\ failures h' = failures h) \/
  (exists k n, mac_step_a cx M p c h = Some (p', NoMemory k, h') /\ S (failures h') = failures h /\
     mac_target (ma_digest_size M) c = Some (k, n) /\ must_grow k n).
Proof.
  intros E h. destruct c as [k|m|d s|c s].
  1-3: exists h; left; split; [|reflexivity]; unfold mac_step_a; rewrite E; reflexivity.
  cbn [mac_step mac_step_a mac_target] in *. unfold mapie_digest_c in E. unfold mapie_digest_a.
  destruct (mapie_do_finalize cx M p) as [q|] eqn:Q; [|discriminate]. cbn [bind] in *.
  assert (Fq : mapie_do_finalize cx M q = Some q).
  { unfold mapie_do_finalize in Q |- *. destruct (mp_finalized p) eqn:Fp; [injection Q as <-; rewrite Fp; reflexivity|].
    destruct (ma_finalize M cx (mp_impl p)); [|discriminate]. injection Q as <-. reflexivity. }
  destruct (aresize_cases h c (Nat.min s (ma_digest_size M))) as (h' & [[A F]|(A & F & G)]); exists h'; rewrite A.
  - left. destruct (cresize c _) as [c1 s1]. unfold mapie_digest in *. rewrite Fq in *. cbn [bind] in *.
    destruct (ma_digest M cx (mp_impl q) (cdata c1) s1) as [[dst n]|]; [|discriminate]. cbn [bind] in *.
    injection E as <- <-. auto.
  - right. exists c, (Nat.min s (ma_digest_size M)). rewrite (must_grow_dyn _ _ G). cbn [bind unwind].
    assert (Ep : p' = q).
    { destruct (cresize c _) as [c1 s1]. unfold mapie_digest in E. rewrite Fq in E. cbn [bind] in E.
      destruct (ma_digest M cx (mp_impl q) (cdata c1) s1) as [[dst n]|]; [|discriminate]. cbn [bind] in E.
      injection E as <- _. reflexivity. }
    rewrite Ep. auto.
Qed.
Lemma mac_digest_a_cases cx M p c s p' c' n : mapie_digest_c cx M p c s = Some (p', c', n) -> forall h, exists h',
  (mapie_digest_a cx M p c s h = Some (p', Done (c', n), h') /\ failures h' = failures h) \/
  (mapie_digest_a cx M p c s h = Some (p', NoMemory c, h') /\ S (failures h') = failures h /\ must_grow c (Nat.min s (ma_digest_size M))).
Proof.
  intros E h. destruct (mac_one cx M p (MDigestC c s) p' (ODigestC c' n)) with (h := h) as (h' & H).
  { cbn [mac_step]. rewrite E. reflexivity. }
  exists h'. cbn [mac_step_a mac_target] in H. destruct (mapie_digest_a cx M p c s h) as [[[q r] h1]|]; [|destruct H as [[H _]|(? & ? & H & _)]; discriminate].
  cbn [bind] in H. destruct H as [[H F]|(k & m & H & F & T & G)].
  - left. destruct r as [[c1 n1]| |]; try discriminate. injection H as <- <- <- <-. auto.
  - right. destruct r as [[c1 n1]|c1|]; try discriminate. injection H as <- <- <-. injection T as -> <-. auto.
Qed.
Lemma mac_free_alloc cx M key msg c s c' n h : mac_free_digest_c cx M key msg c s = Some (c', n) ->
  all_or_nothing c (Nat.min s (ma_digest_size M)) c (c', n) h (mac_free_digest_a cx M key msg c s h).
Proof.
  unfold mac_free_digest_c, mac_free_digest_a, all_or_nothing. destruct (mapie_new cx M key) as [p0|]; [|discriminate]. cbn [bind].
  destruct (mapie_update cx M p0 msg) as [p|]; [|discriminate]. cbn [bind].
  destruct (mapie_digest_c cx M p c s) as [[[p' c1] n1]|] eqn:E; [|discriminate]. cbn [bind]. intros H. injection H as <- <-.
  destruct (mac_digest_a_cases _ _ _ _ _ _ _ _ E h) as (h' & [[A F]|(A & F & G)]); rewrite A; exists h'; cbn [bind]; [auto|].
  rewrite (must_grow_dyn _ _ G). auto.
Qed.
Lemma mac_free_new_alloc cx M key msg s d h : mac_free_digest_new cx M key msg s = Some d ->
  all_or_nothing (Dynamic []) (Nat.min s (ma_digest_size M)) tt d h (mac_free_digest_new_a cx M key msg s h).
Proof.
  unfold mac_free_digest_new, mac_free_digest_new_a, mapie_digest_new, mapie_digest_new_a, all_or_nothing.
  destruct (mapie_new cx M key) as [p0|]; [|discriminate]. cbn [bind].
  destruct (mapie_update cx M p0 msg) as [p|]; [|discriminate]. cbn [bind].
  destruct (mapie_digest_c cx M p (Dynamic []) s) as [[[p' c1] n1]|] eqn:E; [|discriminate]. cbn [bind]. intros H. injection H as <-.
  destruct (mac_digest_a_cases _ _ _ _ _ _ _ _ E h) as (h' & [[A F]|(A & F & G)]); rewrite A; exists h'; cbn [bind unwind]; auto.
Qed.

(** *** Key derivation *)
Lemma kdf_derive_a_cases cx K env o c s o' c' n : kapie_derive_c cx K env o c s = Some (o', c', n) -> forall h, exists h',
  (kapie_derive_a cx K env o c s h = Some (o', Done (c', n), h') /\ failures h' = failures h) \/
  (kapie_derive_a cx K env o c s h = Some (o, NoMemory c, h') /\ S (failures h') = failures h /\ must_grow c s).
Proof.
  unfold kapie_derive_c, kapie_derive_a. intros E h.
  destruct (aresize_cases h c s) as (h' & [[A F]|(A & F & M)]); exists h'; rewrite A.
  - left. destruct (cresize c s) as [c1 s1]. destruct (ka_derive K cx env o (cdata c1) s1) as [[[q key] m]|]; [|discriminate].
    cbn [bind] in *. injection E as <- <- <-. auto.
  - right. rewrite (must_grow_dyn _ _ M). auto.
Qed.
Lemma kdf_one cx K env o c o' x : kdf_step cx K env o c = Some (o', x) -> forall h, exists h',
  (kdf_step_a cx K env o c h = Some (o', Done x, h') /\ failures h' = failures h) \/
  (exists k n, kdf_step_a cx K env o c h = Some (o, NoMemory k, h') /\ S (failures h') = failures h /\
     kdf_target c = Some (k, n) /\ must_grow k n).
Proof.
  intros E h. destruct c as [a|d s|c s].
  1-2: exists h; left; split; [|reflexivity]; unfold kdf_step_a; rewrite E; reflexivity.
  cbn [kdf_step kdf_step_a kdf_target] in *. destruct (kapie_derive_c cx K env o c s) as [[[q c1] n]|] eqn:D; [|discriminate].
  cbn [bind] in E. injection E as <- <-.
  destruct (kdf_derive_a_cases _ _ _ _ _ _ _ _ _ D h) as (h' & [[A F]|(A & F & M)]); rewrite A; exists h'; cbn [bind]; [auto|].
  right. exists c, s. auto.
Qed.
Lemma kdf_free_alloc cx K env a c s c' n h : kdf_free_c cx K env a c s = Some (c', n) ->
  all_or_nothing c s c (c', n) h (kdf_free_a cx K env a c s h).
Proof.
  unfold kdf_free_c, kdf_free_a, all_or_nothing. destruct (kapie_new cx K env a) as [o|]; [|discriminate]. cbn [bind].
  destruct (kapie_derive_c cx K env o c s) as [[[o' c1] n1]|] eqn:E; [|discriminate]. cbn [bind]. intros H. injection H as <- <-.
  destruct (kdf_derive_a_cases _ _ _ _ _ _ _ _ _ E h) as (h' & [[A F]|(A & F & M)]); rewrite A; exists h'; cbn [bind]; [auto|].
  rewrite (must_grow_dyn _ _ M). auto.
Qed.
Lemma kdf_free_new_alloc cx K env a s d h : kdf_free_new cx K env a s = Some d ->
  all_or_nothing (Dynamic []) s tt d h (kdf_free_new_a cx K env a s h).
Proof.
  unfold kdf_free_new, kdf_free_new_a, kapie_derive_new, kapie_derive_new_a, all_or_nothing.
  destruct (kapie_new cx K env a) as [o|]; [|discriminate]. cbn [bind].
  destruct (kapie_derive_c cx K env o (Dynamic []) s) as [[[o' c1] n1]|] eqn:E; [|discriminate]. cbn [bind]. intros H. injection H as <-.
  destruct (kdf_derive_a_cases _ _ _ _ _ _ _ _ _ E h) as (h' & [[A F]|(A & F & M)]); rewrite A; exists h'; cbn [bind unwind]; auto.
Qed.

(** *** Codec *)
Lemma wr_len {A} (l : list A) i v l' : wr l i v = Some l' -> length l' = length l /\ (i < length l)%nat.
Proof.
  unfold wr, wrs. cbn [length]. destruct (Nat.leb_spec (i + 1) (length l)) as [H|H]; [|discriminate]. intros E. injection E as <-.
  rewrite app_length, firstn_length. cbn [app length]. rewrite skipn_length. lia.
Qed.
Ltac wrs_len := repeat match goal with
  | E : wr _ _ _ = Some _ |- _ => let H := fresh "W" in let G := fresh "W" in destruct (wr_len _ _ _ _ E) as [H G]; clear E
  end.
Ltac binds H := repeat match type of H with
  | bind ?x _ = Some _ => let E := fresh "E" in destruct x eqn:E; [cbn [bind] in H|discriminate H]
  | (if ?b then _ else _) = Some _ => destruct b eqn:?
  end.
Lemma b16_encode_loop_len from : forall to off to', (off <= length to)%nat -> b16_encode_loop from to off = Some to' ->
  length to' = length to /\ (off + 2 * length from <= length to)%nat.
Proof.
  induction from as [|b from IH]; intros to off to' Ho H; cbn [b16_encode_loop length] in *.
  - injection H as <-. lia.
  - binds H. wrs_len. apply IH in H; lia.
Qed.
Lemma b64_encode_loop_len from : forall n to fp tp to' fp' tp', (tp <= length to)%nat ->
  b64_encode_loop from to n fp tp = Some (to', fp', tp') ->
  length to' = length to /\ tp' = (tp + 4 * n)%nat /\ (tp' <= length to)%nat.
Proof.
  induction n as [|n IH]; intros to fp tp to' fp' tp' Ho H; cbn [b64_encode_loop] in *.
  - injection H as <- <- <-. lia.
  - binds H. wrs_len. apply IH in H; lia.
Qed.
Definition codec_fits (k : codec) : Prop :=
  (forall from d d' s, co_encode k from d = Some (d', s) -> length d' = length d /\ (s <= length d)%nat) /\
  (forall from d e d' s e', co_decode k from d e = Some (d', s, e') -> length d' = length d) /\
  (forall from d e d' s n, co_decode k from d e = Some (d', s, err_none) -> co_decode_size k from = Some n ->
     (s <= Nat.max n (length d))%nat).
Lemma b16_decode_loop_len sg from : forall n to i fp tb r, b16_decode_loop sg from to n i fp tb = Some r ->
  match r with inl to' => length to' = length to | inr (to', _) => length to' = length to end.
Proof.
  induction n as [|n IH]; intros to i fp tb r H; cbn [b16_decode_loop] in H.
  - injection H as <-. reflexivity.
  - binds H; [injection H as <-; reflexivity|]. apply IH in H. wrs_len. destruct r as [?|[? ?]]; lia.
Qed.
Lemma b16_fits sg : codec_fits (base_16 sg).
Proof.
  split; [|split]; cbn [base_16 co_encode co_decode co_decode_size].
  - intros from d d' s H. unfold b16_encode in H. binds H. injection H as <- <-. apply b16_encode_loop_len in E; lia.
  - intros from d e d' s e' H. unfold b16_decode in H. destruct (Nat.odd (length from)) eqn:O; binds H.
    + injection H as <- <- <-. reflexivity.
    + wrs_len. match goal with L : b16_decode_loop _ _ _ _ _ _ _ = Some ?r |- _ => apply b16_decode_loop_len in L; rename r into s0 end. destruct s0 as [?|[? ?]]; injection H as <- <- <-; lia.
    + match goal with L : b16_decode_loop _ _ _ _ _ _ _ = Some ?r |- _ => apply b16_decode_loop_len in L; rename r into s0 end. destruct s0 as [?|[? ?]]; injection H as <- <- <-; lia.
  - intros from d e d' s n H Hn. injection Hn as <-. unfold b16_decode_size. unfold b16_decode in H.
    destruct (Nat.odd (length from)) eqn:O; binds H; try discriminate; match type of H with match ?r with _ => _ end = _ => destruct r as [?|[? ?]] end; try discriminate; injection H as <- <-; lia.
Qed.
Lemma b64_decode_loop_len sg from : forall n to fp tp r, (tp <= length to)%nat -> b64_decode_loop sg from to n fp tp = Some r ->
  match r with
  | inl (to', _, tp') => length to' = length to /\ (tp' <= length to)%nat
  | inr (to', s) => length to' = length to /\ (s <= length to)%nat
  end.
Proof.
  induction n as [|n IH]; intros to fp tp r Ho H; cbn [b64_decode_loop] in H.
  - injection H as <-. auto.
  - binds H; [injection H as <-; auto|]. wrs_len. apply IH in H; [|lia]. destruct r as [[[? ?] ?]|[? ?]]; lia.
Qed.
Lemma b64_decode_len sg from d e d' s e' : b64_decode sg from d e = Some (d', s, e') -> length d' = length d /\ (s <= length d)%nat.
Proof.
  intros H. unfold b64_decode in H. destruct (negb _); [injection H as <- <- <-; lia|].
  destruct (b64_decode_loop sg from d _ 0 0) as [r|] eqn:L; [|discriminate]. cbn [bind] in H.
  apply b64_decode_loop_len in L; [|lia]. destruct r as [[[to fp] tp]|[to n]].
  2:{ injection H as <- <- <-. exact L. }
  destruct L as [L1 L2]. destruct (0 <? _)%nat; [|injection H as <- <- <-; lia].
  destruct (rd from fp) as [c0|]; [|discriminate]. cbn [bind] in H.
  destruct (rd from (fp + 1)) as [c1|]; [|discriminate]. cbn [bind] in H.
  destruct (rd from (fp + 2)) as [c2|]; [|discriminate]. cbn [bind] in H.
  destruct (rd from (fp + 3)) as [c3|]; [|discriminate]. cbn [bind] in H.
  destruct (c2 =? 61) eqn:P0; destruct (c3 =? 61) eqn:P1; cbn [negb andb] in H; rewrite ?andb_true_r, ?andb_false_r, ?orb_false_r, ?orb_true_r in H; cbn [orb] in H; binds H; subst;
    repeat match goal with E : Some _ = Some _ |- _ => injection E; clear E; intros end; subst; wrs_len; try lia.
Qed.
Lemma b64_fits sg : codec_fits (base_64 sg).
Proof.
  split; [|split]; cbn [base_64 co_encode co_decode co_decode_size].
  - intros from d d' s H. unfold b64_encode in H. destruct (b64_encode_loop from d _ 0 0) as [[[to fp] tp]|] eqn:L; [|discriminate]. cbn [bind] in H.
    apply b64_encode_loop_len in L; [|lia]. destruct L as (L1 & L2 & L3).
    set (q := (length from / 3)%nat) in *. clearbody q.
    destruct (length from mod 3 =? 0)%nat; [injection H as <- <-; lia|]. binds H. wrs_len. injection H as <- <-. lia.
  - intros from d e d' s e' H. apply (b64_decode_len _ _ _ _ _ _ _ H).
  - intros from d e d' s n H _. apply b64_decode_len in H. lia.
Qed.

Lemma cset_len c l : length (cdata (cset c l)) = length l.
Proof. destruct c; reflexivity. Qed.
Lemma is_static_cset c l : is_static (cset c l) = is_static c.
Proof. destruct c; reflexivity. Qed.
Lemma cresize_dyn c n : is_static c = false -> length (cdata (fst (cresize c n))) = n.
Proof. destruct c; [intros _; apply resize_list_len|discriminate]. Qed.
Lemma cresize_static c n : is_static (fst (cresize c n)) = is_static c.
Proof. destruct c; reflexivity. Qed.
(** The second resize of a call does not grow a container that the first one has made large enough. *)
Lemma aresize_second h c n : (is_static c = false -> (n <= length (cdata c))%nat) -> aresize h c n = (Some (cresize c n), h).
Proof. destruct c as [l|l]; [intros H; apply aresize_small, H; reflexivity|reflexivity]. Qed.

Lemma encode_alloc k from to to' size h : codec_fits k -> apie_encode k from to = Some (to', size) ->
  all_or_nothing to (co_encode_size k from) to (to', size) h (apie_encode_a k from to h).
Proof.
  intros (F1 & _) E. unfold apie_encode, apie_encode_a, all_or_nothing in *. set (n := co_encode_size k from) in *. clearbody n.
  destruct (aresize_cases h to n) as (h' & [[A F]|(A & F & M)]); exists h'; rewrite A.
  - left. destruct (cresize to n) as [c1 n1]. destruct (co_encode k from (cdata c1)) as [[d s]|] eqn:K; [|discriminate]. cbn [bind] in *.
    destruct (F1 _ _ _ _ K) as [L1 L2]. rewrite aresize_second by (intros _; rewrite cset_len; lia).
    destruct (cresize (cset c1 d) s) as [c2 n2]. injection E as <- <-. auto.
  - right. rewrite (must_grow_dyn _ _ M). auto.
Qed.
Lemma encode_new_alloc k from l h : codec_fits k -> apie_encode_new k from = Some l ->
  all_or_nothing (Dynamic []) (co_encode_size k from) tt l h (apie_encode_new_a k from h).
Proof.
  intros F E. unfold apie_encode_new, apie_encode_new_a in *. destruct (apie_encode k from (Dynamic [])) as [[c n]|] eqn:K; [|discriminate].
  cbn [bind] in E. injection E as <-. destruct (encode_alloc k from _ _ _ h F K) as (h' & [[A G]|(A & G & M)]); exists h'; rewrite A; cbn [bind unwind]; auto.
Qed.
Lemma decode_alloc k from to e to' size e' n h : codec_fits k -> co_decode_size k from = Some n ->
  apie_decode k from to e = Some (to', size, e') ->
  (e' = err_none \/ (forall d e d' s e', co_decode k from d e = Some (d', s, e') -> (s <= length d)%nat)) ->
  all_or_nothing to n (to, e) (to', size, e') h (apie_decode_a k from to e h).
Proof.
  intros (_ & F2 & F3) Hn E Hs. unfold apie_decode, apie_decode_a, all_or_nothing in *. rewrite Hn in *. cbn [bind] in *.
  destruct (aresize_cases h to n) as (h' & [[A F]|(A & F & M)]); exists h'; rewrite A.
  - left. pose proof (cresize_dyn to n) as Hc. pose proof (cresize_static to n) as Hc2.
    destruct (cresize to n) as [c1 n1]. cbn [fst] in *. destruct (co_decode k from (cdata c1) e) as [[[d s] e1]|] eqn:K; [|discriminate]. cbn [bind] in *.
    rewrite aresize_second.
    + destruct (cresize (cset c1 d) s) as [c2 n2]. injection E as <- <- <-. auto.
    + destruct (cresize (cset c1 d) s) as [c2 n2]. injection E as <- <- <-. rewrite is_static_cset, Hc2. intros Z. specialize (Hc Z).
      rewrite cset_len, (F2 _ _ _ _ _ _ K), Hc. destruct Hs as [->|Hs].
      * pose proof (F3 _ _ _ _ _ _ K Hn) as Q. rewrite Hc in Q. lia.
      * rewrite <- Hc. exact (Hs _ _ _ _ _ K).
  - right. rewrite (must_grow_dyn _ _ M). auto.
Qed.
Lemma decode_throw_alloc k from to r to' n h : codec_fits k -> co_decode_size k from = Some n ->
  apie_decode_throw k from to = Some (r, to') ->
  all_or_nothing to n to (r, to') h (apie_decode_throw_a k from to h).
Proof.
  intros (_ & F2 & F3) Hn E. unfold apie_decode_throw, apie_decode_throw_a, all_or_nothing in *. rewrite Hn in *. cbn [bind] in *.
  destruct (aresize_cases h to n) as (h' & [[A F]|(A & F & M)]); exists h'; rewrite A.
  - left. pose proof (cresize_dyn to n) as Hc. pose proof (cresize_static to n) as Hc2.
    destruct (cresize to n) as [c1 n1]. cbn [fst] in *. destruct (co_decode k from (cdata c1) err_none) as [[[d s] e1]|] eqn:K; [|discriminate]. cbn [bind] in *.
    destruct (err_bool e1) eqn:Eb; [injection E as <- <-; auto|].
    assert (e1 = err_none) by (destruct e1; [reflexivity|discriminate..]). subst e1.
    rewrite aresize_second.
    + destruct (cresize (cset c1 d) s) as [c2 n2]. injection E as <- <-. auto.
    + rewrite is_static_cset, Hc2. intros Z. specialize (Hc Z). rewrite cset_len, (F2 _ _ _ _ _ _ K), Hc.
      pose proof (F3 _ _ _ _ _ _ K Hn) as Q. rewrite Hc in Q. lia.
  - right. auto.
Qed.
Lemma decode_new_alloc k from r n h : codec_fits k -> co_decode_size k from = Some n ->
  apie_decode_new k from = Some r ->
  all_or_nothing (Dynamic []) n tt r h (apie_decode_new_a k from h).
Proof.
  intros F Hn E. unfold apie_decode_new, apie_decode_new_a in *. destruct (apie_decode_throw k from (Dynamic [])) as [[o c]|] eqn:K; [|discriminate].
  cbn [bind] in E. destruct (decode_throw_alloc k from _ _ _ _ h F Hn K) as (h' & [[A G]|(A & G & M)]); exists h'; rewrite A; cbn [bind unwind]; [|auto].
  left. destruct o; injection E as <-; auto.
Qed.
