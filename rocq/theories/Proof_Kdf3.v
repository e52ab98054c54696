(** KDF: overloads and histories, for both algorithms. *)
From Verif Require Import Base BaseLemmas BytesLemmas Spec_Bytes Spec_Range Spec_Hash Spec_Kdf Model_Memory Model_Update Model_Container
  Model_Sha Model_Mac Model_Hmac Model_Cipher Model_Kdf Spec_ChaCha
  Proof_Memory Proof_Memory2 Proof_Memory3 Proof_CodecApi Proof_Mac Proof_ShaCore Proof_ChaChaCore Proof_ShaApi Proof_Hmac Proof_Range Proof_Kdf Proof_Kdf2 Spec_Sha Spec_Hmac.
Local Open Scope N_scope.

(** [lim first n]: the stream is as specified for a request of [n] bytes, [first] of them given before. *)
Record kdf_ok (K : kdf_alg) (cx : ctx) {V : Type} (D : V -> nat -> list N) (lim : nat -> nat -> Prop)
  (argv : list N -> ka_arg K -> V -> Prop) (keq : list N -> ka_obj K -> ka_obj K -> Prop)
  (hold : V -> nat -> ka_obj K -> Prop) (sees : list N -> V -> ka_obj K -> Prop)
  (later : list N -> ka_arg K -> V -> Prop) : Prop := {
  ko_later : forall env a v, argv env a v -> later env a v;
  ko_new : forall env, keq env (ka_new K) (ka_new K);
  ko_lr : forall env o1 o2, keq env o1 o2 -> keq env o1 o1 /\ keq env o2 o2;
  ko_init : forall env o1 o2 a v, keq env o1 o1 -> keq env o2 o2 -> argv env a v ->
    exists o1' o2', ka_initialize K cx env o1 a = Some o1' /\ ka_initialize K cx env o2 a = Some o2' /\ keq env o1' o2' /\
      hold v 0%nat o1' /\ sees env v o1' /\ (forall env', cx_ce cx = true \/ later env' a v -> sees env' v o1');
  ko_der : forall env o1 o2 n, keq env o1 o2 -> exists r, bytes r /\ length r = n /\ forall key, bytes key -> (n <= length key)%nat ->
    exists o1' o2', ka_derive K cx env o1 key n = Some (o1', r ++ skipn n key, n) /\
      ka_derive K cx env o2 key n = Some (o2', r ++ skipn n key, n) /\ keq env o1' o2';
  ko_hold : forall env v pos o key n, hold v pos o -> sees env v o -> lim pos n -> bytes key -> (n <= length key)%nat ->
    exists o', ka_derive K cx env o key n = Some (o', piece (D v) pos n ++ skipn n key, n) /\ hold v (pos + n)%nat o' /\
      (forall env', sees env' v o -> sees env' v o');
  ko_len : forall env a v L, argv env a v -> length (D v L) = L;
  ko_prefix : forall env a v m L, argv env a v -> (m <= L)%nat -> firstn m (D v L) = D v m
}.

Section K.
  Context {K : kdf_alg} {cx : ctx} {V : Type} {D : V -> nat -> list N} {lim : nat -> nat -> Prop}
    {argv : list N -> ka_arg K -> V -> Prop} {keq : list N -> ka_obj K -> ka_obj K -> Prop}
    {hold : V -> nat -> ka_obj K -> Prop} {sees : list N -> V -> ka_obj K -> Prop}
    {later : list N -> ka_arg K -> V -> Prop}
    (OK : kdf_ok K cx D lim argv keq hold sees later).

  Lemma piece_0 v n : piece (D v) 0 n = D v n.
  Proof. reflexivity. Qed.

  Lemma resize_bytes l n : bytes l -> bytes (resize_list l n).
  Proof. intros H. unfold resize_list. apply bytes_app. split; [apply bytes_firstn, H|]. apply Forall_forall. intros x Hx. apply repeat_spec in Hx. subst. reflexivity. Qed.

  (** [derive] into a container, from any state. *)
  Lemma kder_c env o1 o2 c s : keq env o1 o2 -> bytes (cdata c) ->
    exists o1' o2' c' n, kapie_derive_c cx K env o1 c s = Some (o1', c', n) /\ kapie_derive_c cx K env o2 c s = Some (o2', c', n) /\ keq env o1' o2'.
  Proof.
    intros E Hb. unfold kapie_derive_c. destruct c as [l|l]; cbn [cresize cdata] in *.
    - destruct (ko_der _ _ _ _ _ _ _ _ _ OK env o1 o2 s E) as (r & Br & Lr & X).
      destruct (X (resize_list l s) (resize_bytes l s Hb)) as (o1' & o2' & X1 & X2 & E'); [rewrite resize_list_length; lia|].
      rewrite X1, X2. cbn [bind]. exists o1', o2'. eexists. eexists. split; [reflexivity|]. split; [reflexivity|exact E'].
    - destruct (ko_der _ _ _ _ _ _ _ _ _ OK env o1 o2 (Nat.min s (length l)) E) as (r & Br & Lr & X).
      destruct (X l Hb) as (o1' & o2' & X1 & X2 & E'); [lia|].
      rewrite X1, X2. cbn [bind]. exists o1', o2'. eexists. eexists. split; [reflexivity|]. split; [reflexivity|exact E'].
  Qed.
  Definition argok (env : list N) (a : ka_arg K) : Prop := exists v, argv env a v.
  Lemma kstep_eq env o1 o2 c : keq env o1 o2 -> kcall_ok (argok env) c ->
    exists o1' o2' x, kdf_step cx K env o1 c = Some (o1', x) /\ kdf_step cx K env o2 c = Some (o2', x) /\ keq env o1' o2'.
  Proof.
    intros E Hc. destruct c as [a|k s|c s]; cbn [kcall_ok kdf_step] in *.
    - destruct Hc as [v A]. destruct (ko_lr _ _ _ _ _ _ _ _ _ OK env o1 o2 E) as [E1 E2].
      destruct (ko_init _ _ _ _ _ _ _ _ _ OK env o1 o2 a v E1 E2 A) as (o1' & o2' & I1 & I2 & E' & _).
      rewrite I1, I2. cbn [bind]. exists o1', o2', KNone. auto.
    - destruct (ko_der _ _ _ _ _ _ _ _ _ OK env o1 o2 s E) as (r & Br & Lr & X).
      destruct (X k (proj1 Hc) (proj2 Hc)) as (o1' & o2' & X1 & X2 & E'). rewrite X1, X2. cbn [bind].
      eexists. eexists. eexists. split; [reflexivity|]. split; [reflexivity|exact E'].
    - destruct (kder_c env o1 o2 c s E Hc) as (o1' & o2' & c' & n & X1 & X2 & E'). rewrite X1, X2. cbn [bind].
      eexists. eexists. eexists. split; [reflexivity|]. split; [reflexivity|exact E'].
  Qed.
  Lemma krun_eq env : forall calls o1 o2, keq env o1 o2 -> Forall (kcall_ok (argok env)) calls ->
    exists o1' o2' outs, kdf_run cx K env o1 calls = Some (o1', outs) /\ kdf_run cx K env o2 calls = Some (o2', outs) /\ keq env o1' o2'.
  Proof.
    induction calls as [|c calls IH]; intros o1 o2 E Hc; [exists o1, o2, []; auto|]. inversion Hc as [|? ? Hc1 Hc2]; subst.
    destruct (kstep_eq env o1 o2 c E Hc1) as (o1' & o2' & x & X1 & X2 & E'). destruct (IH o1' o2' E' Hc2) as (p1 & p2 & xs & Y1 & Y2 & E'').
    cbn [kdf_run]. rewrite X1, X2. cbn [bind]. rewrite Y1, Y2. cbn [bind]. exists p1, p2, (x :: xs). auto.
  Qed.
  Lemma krun_total env a calls : argok env a -> Forall (kcall_ok (argok env)) calls ->
    exists o r, kapie_new cx K env a = Some o /\ kdf_run cx K env o calls = Some r.
  Proof.
    intros [v A] Hc. pose proof (ko_new _ _ _ _ _ _ _ _ _ OK env) as E0.
    destruct (ko_init _ _ _ _ _ _ _ _ _ OK env _ _ a v E0 E0 A) as (o & oz & I & _ & E & _).
    destruct (krun_eq env calls o o (proj1 (ko_lr _ _ _ _ _ _ _ _ _ OK _ _ _ E)) Hc) as (o' & oy & xs & R & _).
    exists o. eexists. split; [exact I|exact R].
  Qed.
  Lemma krun_reinit env a before a' after : argok env a -> argok env a' ->
    Forall (kcall_ok (argok env)) before -> Forall (kcall_ok (argok env)) after ->
    exists o o1 outs0 o2 o3 o4 o5 outs,
      kapie_new cx K env a = Some o /\ kdf_run cx K env o before = Some (o1, outs0) /\
      ka_initialize K cx env o1 a' = Some o2 /\ kdf_run cx K env o2 after = Some (o3, outs) /\
      kapie_new cx K env a' = Some o4 /\ kdf_run cx K env o4 after = Some (o5, outs).
  Proof.
    intros [v A] [v' A'] Hb Hl. pose proof (ko_new _ _ _ _ _ _ _ _ _ OK env) as E0.
    destruct (ko_init _ _ _ _ _ _ _ _ _ OK env _ _ a v E0 E0 A) as (o & oz & I & _ & E & _).
    destruct (krun_eq env before o o (proj1 (ko_lr _ _ _ _ _ _ _ _ _ OK _ _ _ E)) Hb) as (o1 & oy & xs & R & _ & E1).
    destruct (ko_init _ _ _ _ _ _ _ _ _ OK env o1 (ka_new K) a' v' (proj1 (ko_lr _ _ _ _ _ _ _ _ _ OK _ _ _ E1)) E0 A') as (o2 & o4 & I2 & I4 & E2 & _).
    destruct (krun_eq env after o2 o4 E2 Hl) as (o3 & o5 & outs & R2 & R4 & _).
    exists o, o1, xs, o2, o3, o4, o5, outs. repeat split; assumption.
  Qed.

  (** The answers to [derive] calls. *)
  Definition shape (c : kdf_call (ka_arg K)) : Prop :=
    match c with KInit _ => False | KDerive k s => bytes k /\ (s <= length k)%nat | KDeriveC c s => bytes (cdata c) end.
  Lemma shape_ok argk c : is_derive c -> kcall_ok argk c -> shape c.
  Proof. destruct c; [intros []|intros _ H; exact H..]. Qed.
  Lemma kstep_hold env v pos o c : (forall p n, length (piece (D v) p n) = n) -> hold v pos o -> sees env v o -> lim pos (asked c) -> shape c ->
    exists o', kdf_step cx K env o c = Some (o', kanswer (D v) pos c) /\ hold v (pos + asked c)%nat o' /\ (forall env', sees env' v o -> sees env' v o').
  Proof.
    intros HL H S L Hs. destruct c as [a|k s|[l|l] s]; cbn [shape asked kanswer kdf_step] in *; [contradiction| | |].
    - destruct (ko_hold _ _ _ _ _ _ _ _ _ OK env v pos o k s H S L (proj1 Hs) (proj2 Hs)) as (o' & X & H' & S'). rewrite X. cbn [bind].
      exists o'. auto.
    - unfold kapie_derive_c. cbn [cresize cdata] in *.
      destruct (ko_hold _ _ _ _ _ _ _ _ _ OK env v pos o (resize_list l s) s H S L (resize_bytes l s Hs)) as (o' & X & H' & S').
      { rewrite resize_list_length. lia. }
      rewrite X. cbn [bind cset]. rewrite skipn_all2 by (rewrite resize_list_length; lia). rewrite app_nil_r. exists o'. auto.
    - unfold kapie_derive_c. cbn [cresize cdata] in *.
      destruct (ko_hold _ _ _ _ _ _ _ _ _ OK env v pos o l (Nat.min s (length l)) H S L Hs) as (o' & X & H' & S'); [lia|].
      rewrite X. cbn [bind cset]. exists o'. auto.
  Qed.
  Fixpoint lims (pos : nat) (cs : list (kdf_call (ka_arg K))) : Prop :=
    match cs with [] => True | c :: cs => lim pos (asked c) /\ lims (pos + asked c) cs end.
  Lemma krun_in_hold v : (forall p n, length (piece (D v) p n) = n) -> forall calls pos o, hold v pos o ->
    Forall (fun p => sees (fst p) v o) calls -> lims pos (map snd calls) -> Forall shape (map snd calls) ->
    exists o', kdf_run_in cx K o calls = Some (o', kanswers (D v) pos (map snd calls)).
  Proof.
    intros HL. induction calls as [|[env c] calls IH]; intros pos o H S L Hs; [exists o; reflexivity|].
    cbn [map snd] in *. inversion S as [|? ? S1 S2]; subst. inversion Hs as [|? ? Hs1 Hs2]; subst. destruct L as [L1 L2].
    destruct (kstep_hold env v pos o c HL H S1 L1 Hs1) as (o' & X & H' & S').
    destruct (IH (pos + asked c)%nat o' H') as (o'' & Y); [|exact L2|exact Hs2|].
    - apply Forall_forall. intros p Hp. apply S'. rewrite Forall_forall in S2. apply S2, Hp.
    - cbn [kdf_run_in kanswers]. rewrite X. cbn [bind]. rewrite Y. cbn [bind]. exists o''. reflexivity.
  Qed.
  Lemma run_in_run env : forall calls o, kdf_run_in cx K o (map (fun c => (env, c)) calls) = kdf_run cx K env o calls.
  Proof. induction calls as [|c calls IH]; intros o; [reflexivity|]. cbn [map kdf_run_in kdf_run]. destruct (kdf_step cx K env o c) as [[o' x]|]; [|reflexivity]. cbn [bind]. rewrite IH. reflexivity. Qed.

  Lemma piece_length env a v : argv env a v -> forall p n, length (piece (D v) p n) = n.
  Proof. intros A p n. unfold piece. rewrite skipn_length, (ko_len _ _ _ _ _ _ _ _ _ OK env a v _ A). lia. Qed.

  Lemma khistory_in env a v calls : argv env a v ->
    Forall (fun p => cx_ce cx = true \/ later (fst p) a v) calls -> lims 0 (map snd calls) -> Forall shape (map snd calls) ->
    exists o o', kapie_new cx K env a = Some o /\ kdf_run_in cx K o calls = Some (o', kanswers (D v) 0 (map snd calls)).
  Proof.
    intros A S L Hs. pose proof (ko_new _ _ _ _ _ _ _ _ _ OK env) as E0.
    destruct (ko_init _ _ _ _ _ _ _ _ _ OK env _ _ a v E0 E0 A) as (o & oz & I & _ & _ & H & _ & Q).
    destruct (krun_in_hold v (piece_length env a v A) calls 0 o H) as (o' & R).
    - apply Forall_forall. intros p Hp. rewrite Forall_forall in S. apply Q, S, Hp.
    - exact L.
    - exact Hs.
    - exists o, o'. auto.
  Qed.
  Lemma khistory env a v calls : argv env a v -> lims 0 calls -> Forall shape calls ->
    exists o o', kapie_new cx K env a = Some o /\ kdf_run cx K env o calls = Some (o', kanswers (D v) 0 calls).
  Proof.
    intros A L Hs. destruct (khistory_in env a v (map (fun c => (env, c)) calls) A) as (o & o' & I & R).
    - apply Forall_forall. intros p Hp. apply in_map_iff in Hp. destruct Hp as (c & <- & _). right. exact (ko_later _ _ _ _ _ _ _ _ _ OK env a v A).
    - rewrite map_map, map_id. exact L.
    - rewrite map_map, map_id. exact Hs.
    - rewrite run_in_run, map_map, map_id in R. exists o, o'. auto.
  Qed.

  Lemma kreturns env a v (P : nat -> Prop) : argv env a v -> (forall n, P n -> lim 0%nat n) ->
    kdf_returns cx K env a P (D v).
  Proof.
    intros A HP. pose proof (ko_new _ _ _ _ _ _ _ _ _ OK env) as E0.
    destruct (ko_init _ _ _ _ _ _ _ _ _ OK env _ _ a v E0 E0 A) as (o & oz & I & _ & _ & H & S & _).
    pose proof (piece_length env a v A) as HL.
    assert (R1 : forall L key, P L -> bytes key -> (L <= length key)%nat -> exists o', ka_derive K cx env o key L = Some (o', D v L ++ skipn L key, L)).
    { intros L key HPL Hk Hn. destruct (ko_hold _ _ _ _ _ _ _ _ _ OK env v 0 o key L H S (HP L HPL) Hk Hn) as (o' & X & _). exists o'. exact X. }
    assert (R2 : forall L l, P L -> bytes l -> exists o', kapie_derive_c cx K env o (Dynamic l) L = Some (o', Dynamic (D v L), L)).
    { intros L l HPL Hl. unfold kapie_derive_c. cbn [cresize cdata].
      destruct (R1 L (resize_list l L) HPL (resize_bytes l L Hl)) as (o' & X); [rewrite resize_list_length; lia|]. rewrite X. cbn [bind cset].
      rewrite skipn_all2 by (rewrite resize_list_length; lia). rewrite app_nil_r. exists o'. reflexivity. }
    assert (R3 : forall L l, bytes l -> let n := Nat.min L (length l) in P n ->
              exists o', kapie_derive_c cx K env o (Static l) L = Some (o', Static (D v n ++ skipn n l), n)).
    { intros L l Hl n HPL. unfold kapie_derive_c. cbn [cresize cdata]. fold n.
      destruct (R1 n l HPL Hl) as (o' & X); [unfold n; lia|]. rewrite X. cbn [bind cset]. exists o'. reflexivity. }
    assert (R4 : forall L, P L -> exists o', kapie_derive_new cx K env o L = Some (o', D v L)).
    { intros L HPL. unfold kapie_derive_new. destruct (R2 L [] HPL) as (o' & X); [constructor|]. rewrite X. cbn [bind cdata]. exists o'. reflexivity. }
    assert (R5 : forall junk, P (length junk) -> bytes junk -> exists o', kapie_derive_static cx K env o junk = Some (o', D v (length junk))).
    { intros junk HPL Hj. unfold kapie_derive_static. destruct (R3 (length junk) junk Hj) as (o' & X); [rewrite Nat.min_id; exact HPL|].
      rewrite X. cbn [bind cdata]. rewrite Nat.min_id, skipn_all2, app_nil_r by lia. exists o'. reflexivity. }
    unfold kdf_returns. unfold kdf_free, kdf_free_c, kdf_free_new, kdf_free_static. change (kapie_new cx K env a = Some o) in I. rewrite I. cbn [bind].
    split; [|split; [|split; [|split; [|split; [|exists o; split; [reflexivity|auto]]]]]].
    - intros L key HPL Hk Hn. destruct (R1 L key HPL Hk Hn) as (o' & X). rewrite X. reflexivity.
    - intros L l HPL Hl. destruct (R2 L l HPL Hl) as (o' & X). rewrite X. reflexivity.
    - intros L l Hl HPL. destruct (R3 L l Hl HPL) as (o' & X). rewrite X. reflexivity.
    - intros L HPL. destruct (R4 L HPL) as (o' & X). rewrite X. reflexivity.
    - intros junk HPL Hj. destruct (R5 junk HPL Hj) as (o' & X). rewrite X. reflexivity.
  Qed.

  Lemma piece_app env a v pos m n : argv env a v -> piece (D v) pos (m + n) = piece (D v) pos m ++ piece (D v) (pos + m) n.
  Proof.
    intros A. unfold piece. rewrite <- (ko_prefix _ _ _ _ _ _ _ _ _ OK env a v (pos + m) (pos + (m + n)) A) by lia.
    replace (pos + m + n)%nat with (pos + (m + n))%nat by lia.
    pose proof (ko_len _ _ _ _ _ _ _ _ _ OK env a v (pos + (m + n)) A) as L. set (X := D v (pos + (m + n))%nat) in *.
    rewrite <- (firstn_skipn (pos + m) X) at 1. rewrite skipn_app, firstn_length. replace (pos - Nat.min (pos + m) (length X))%nat with 0%nat by lia.
    rewrite skipn_O. reflexivity.
  Qed.
  Lemma kpieces env a v : argv env a v -> forall sizes pos o, hold v pos o -> sees env v o ->
    (forall p n, (p + n <= pos + total sizes)%nat -> lim p n) ->
    exists o' ps, derive_pieces cx K env o sizes = Some (o', ps) /\ map (@length N) ps = sizes /\ concat ps = piece (D v) pos (total sizes).
  Proof.
    intros A. pose proof (piece_length env a v A) as HL. induction sizes as [|n sizes IH]; intros pos o H S L.
    - exists o, []. split; [reflexivity|]. split; [reflexivity|]. cbn [concat total fold_right]. symmetry. apply length_zero_iff_nil, HL.
    - cbn [total fold_right] in *. fold (total sizes) in *.
      destruct (kstep_hold env v pos o (KDeriveC (Dynamic []) n) HL H S) as (o' & X & H' & S').
      + apply L. cbn [asked]. lia.
      + constructor.
      + cbn [kdf_step asked kanswer] in X, H'.
        assert (X' : kapie_derive_c cx K env o (Dynamic []) n = Some (o', Dynamic (piece (D v) pos n), n)).
        { destruct (kapie_derive_c cx K env o (Dynamic []) n) as [[[q c] z]|]; [|discriminate X]. cbn [bind] in X. congruence. }
        destruct (IH (pos + n)%nat o' H' (S' env S)) as (o'' & ps & Y & HLs & HN); [intros p m Hp; apply L; lia|].
        exists o'', (piece (D v) pos n :: ps). cbn [derive_pieces]. unfold kapie_derive_new. rewrite X'. cbn [bind cdata]. rewrite Y. cbn [bind].
        split; [reflexivity|]. split; [cbn [map]; rewrite HL, HLs; reflexivity|].
        cbn [concat]. rewrite HN. symmetry. apply (piece_app env a v pos n (total sizes) A).
  Qed.
  Lemma kpieces_new env a v sizes : argv env a v -> (forall p n, (p + n <= total sizes)%nat -> lim p n) ->
    exists o o' ps, kapie_new cx K env a = Some o /\ derive_pieces cx K env o sizes = Some (o', ps) /\ map (@length N) ps = sizes /\
      concat ps = D v (total sizes).
  Proof.
    intros A L. pose proof (ko_new _ _ _ _ _ _ _ _ _ OK env) as E0.
    destruct (ko_init _ _ _ _ _ _ _ _ _ OK env _ _ a v E0 E0 A) as (o & oz & I & _ & _ & H & S & _).
    destruct (kpieces env a v A sizes 0%nat o H S L) as (o' & ps & R & Ls & C). exists o, o', ps. auto.
  Qed.
  Lemma lims_total : forall calls pos, (forall p n, (p + n <= pos + requested calls)%nat -> lim p n) -> lims pos calls.
  Proof.
    induction calls as [|c calls IH]; intros pos L; [exact I|]. change (requested (c :: calls)) with (asked c + requested calls)%nat in L.
    cbn [lims]. split; [apply L; lia|]. apply IH. intros p n Hp. apply L. lia.
  Qed.
  Lemma shapes calls argk : Forall is_derive calls -> Forall (kcall_ok argk) calls -> Forall shape calls.
  Proof. intros H1 H2. rewrite Forall_forall in *. intros c Hc. apply (shape_ok argk); [apply H1, Hc|apply H2, Hc]. Qed.
End K.

(** *** Streams of blocks as functions of the length *)
Lemma sseg_skipn blk es pos n : skipn pos (sseg blk es 0 (pos + n)) = sseg blk es pos n.
Proof. rewrite sseg_app, skipn_app, sseg_length, Nat.sub_diag, skipn_O. rewrite skipn_all2 by (rewrite sseg_length; lia). reflexivity. Qed.

(** *** HKDF *)
Section H.
  Context {M : mac_alg} {cx : ctx} {T : list N -> list N -> list N}
    {eqv : ma_obj M -> ma_obj M -> Prop} {hold : list N -> list N -> ma_obj M -> Prop}
    {out : ma_obj M -> list N} (OK : mac_ok M cx chunk T eqv hold out).
  Let es := ma_digest_size M.
  Context (Hes : (0 < es <= 64)%nat) (TB : forall k m, bytes k -> bytes m -> bytes (T k m) /\ length (T k m) = es).

  Definition hargv (env : list N) (a : range * range * range) (v : list N * list N * list N) : Prop :=
    has env (fst (fst a)) (fst (fst v)) /\ has env (snd (fst a)) (snd (fst v)) /\ has env (snd a) (snd v) /\
    chunk (fst (fst v)) /\ chunk (snd (fst v)) /\ chunk (snd v).
  Definition hD (v : list N * list N * list N) (L : nat) : list N := hkdf T es (fst (fst v)) (snd (fst v)) (snd v) L.
  Lemma hD_sseg v L : chunk (fst (fst v)) -> chunk (snd (fst v)) -> chunk (snd v) -> hD v L = sseg (hstream (T := T) v) es 0 L.
  Proof.
    destruct v as [[ikm salt] info]. cbn [fst snd]. intros C1 C2 C3. unfold hD, hkdf, hkdf_expand, hkdf_extract. cbn [fst snd hstream].
    apply stream_blocks_for; [lia|]. intros i.
    apply (hkdf_T_ok TB); [apply TB; [apply C2|apply C1]|apply C3].
  Qed.
  Lemma hD_piece v pos n : chunk (fst (fst v)) -> chunk (snd (fst v)) -> chunk (snd v) -> piece (hD v) pos n = sseg (hstream (T := T) v) es pos n.
  Proof. intros C1 C2 C3. unfold piece. rewrite hD_sseg by assumption. apply sseg_skipn. Qed.

  Lemma hkdf_ok : kdf_ok (kdf_hkdf M) cx hD (fun pos n => (pos + n <= 255 * es)%nat) hargv
    (fun env => hkeq (eqv := eqv) env) (hhold (T := T) (eqv := eqv)) (fun env v o => view_read env (hk_info o) = Some (snd v))
    (fun env a v => has env (snd a) (snd v)).
  Proof.
    constructor; cbn [kdf_hkdf ka_obj ka_arg ka_new ka_initialize ka_derive].
    - intros env a v A. apply A.
    - intros env. exact (hkeq_new OK Hes TB env).
    - intros env o1 o2. apply hkeq_lr.
    - intros env o1 o2 a [[ikm salt] info] E1 E2 (A1 & A2 & A3 & C1 & C2 & C3). cbn [fst snd] in *.
      destruct (hk_init_spec OK Hes TB env o1 o2 ikm salt info a E1 E2 A1 A2 A3 C1 C2 C3) as (o1' & o2' & I1 & I2 & E & H & VO & VR & _).
      exists o1', o2'. split; [exact I1|]. split; [exact I2|]. split; [exact E|]. split; [exact H|]. split; [exact VR|].
      intros env' [Hce|B3].
      + unfold view_of in VO. rewrite Hce in VO. destruct (rds env (fst (snd a)) (snd (snd a))) as [l|]; [|discriminate].
        cbn [bind] in VO. injection VO as VO. rewrite <- VO in VR |- *. cbn [view_read] in *. exact VR.
      + cbn [fst snd] in B3. unfold view_of in VO. destruct (cx_ce cx).
        * destruct (rds env (fst (snd a)) (snd (snd a))) as [l|]; [|discriminate].
          cbn [bind] in VO. injection VO as VO. rewrite <- VO in VR |- *. cbn [view_read] in *. exact VR.
        * injection VO as VO. rewrite <- VO. pose proof (has_read _ _ _ B3) as R. unfold range_read in R. cbn [view_read]. destruct (snd (snd a)); exact R.
    - intros env o1 o2 n E. exact (hkeq_derive OK Hes TB env o1 o2 n E).
    - intros env v pos o key n H S L Hk Hn.
      destruct (hhold_derive OK Hes TB env v pos o key n H S (or_introl L) Hk Hn) as (o' & X & H' & I').
      exists o'. rewrite hD_piece by apply H. split; [exact X|]. split; [exact H'|]. intros env' S'. rewrite I'. exact S'.
    - intros env a v L (A1 & A2 & A3 & C1 & C2 & C3). rewrite hD_sseg by assumption. apply sseg_length.
    - intros env a v m L (A1 & A2 & A3 & C1 & C2 & C3) Hm. rewrite !hD_sseg by assumption. apply sseg_firstn, Hm.
  Qed.
  (** One [derive] of any size on a fresh object. *)
  Lemma hkdf_first env a v key n : hargv env a v -> bytes key -> (n <= length key)%nat ->
    kdf_free cx (kdf_hkdf M) env a key n = Some (hD v n ++ skipn n key, n).
  Proof.
    intros A Hk Hn. pose proof A as (A1 & A2 & A3 & C1 & C2 & C3). pose proof (hkeq_new OK Hes TB env) as E0.
    destruct (hk_init_spec OK Hes TB env _ _ _ _ _ a E0 E0 A1 A2 A3 C1 C2 C3) as (o & oz & I & _ & _ & H & _ & VR & CT).
    unfold kdf_free, kapie_new. cbn [kdf_hkdf ka_obj ka_arg ka_new ka_initialize ka_derive]. rewrite I. cbn [bind].
    destruct v as [[ikm salt] info]. cbn [fst snd] in *.
    destruct (hhold_derive OK Hes TB env (ikm, salt, info) 0 o key n H VR (or_intror (conj eq_refl CT)) Hk Hn) as (o' & X & _).
    rewrite X. cbn [bind]. rewrite <- hD_sseg by assumption. reflexivity.
  Qed.
  (** After 256 blocks read as 255 and one, the object starts again. *)
  Lemma hkdf_wraps env a v : hargv env a v ->
    exists o o1 o2, kapie_new cx (kdf_hkdf M) env a = Some o /\
      kapie_derive_new cx (kdf_hkdf M) env o (255 * es) = Some (o1, hD v (255 * es)) /\
      kapie_derive_new cx (kdf_hkdf M) env o1 es = Some (o2, hblk (T := T) (T (snd (fst v)) (fst (fst v))) (snd v) (hstream (T := T) v 255) 0) /\
      forall n, exists o3, kapie_derive_new cx (kdf_hkdf M) env o2 n = Some (o3, hD v n).
  Proof.
    intros A. pose proof A as (A1 & A2 & A3 & C1 & C2 & C3). pose proof (hkeq_new OK Hes TB env) as E0.
    destruct (hk_init_spec OK Hes TB env _ _ _ _ _ a E0 E0 A1 A2 A3 C1 C2 C3) as (o & oz & I & _ & _ & H & VO & VR & CT).
    destruct v as [[ikm salt] info]. cbn [fst snd] in *.
    assert (DN : forall o n, kapie_derive_new cx (kdf_hkdf M) env o n = '(o', k, _) <- hk_derive cx M env o (repeat 0 n) n ;; Some (o', k)).
    { intros o' n. unfold kapie_derive_new, kapie_derive_c. cbn [cresize cdata kdf_hkdf ka_derive].
      replace (resize_list [] n) with (repeat 0 n) by (unfold resize_list; rewrite firstn_nil, Nat.sub_0_r; reflexivity).
      destruct (hk_derive cx M env o' (repeat 0 n) n) as [[[q k] z]|]; reflexivity. }
    assert (Z : forall n, bytes (repeat 0 n)) by (intros n; apply bytes_zeros).
    assert (SK : forall n, skipn n (repeat 0 n) = []) by (intros n; apply skipn_all2; rewrite repeat_length; lia).
    destruct (hhold_derive OK Hes TB env (ikm, salt, info) 0 o (repeat 0 (255 * es)) (255 * es) H VR (or_introl (le_n _)) (Z _)
                ltac:(rewrite repeat_length; apply le_n)) as (o1 & X1 & H1 & I1).
    exists o, o1. cbn [Nat.add] in H1.
    (* the second read takes the buffered block 256 *)
    pose proof H1 as [Hm1 _ Hp1 Hb1 Hs1 (g & Hc1 & Hpos1 & Hg1)]. cbn [fst snd] in *.
    assert (W1 : hkwf (eqv := eqv) env info o1).
    { constructor; try assumption; [rewrite I1; exact VR|rewrite Hc1; apply N.mod_lt; discriminate|rewrite Hp1; apply TB; [apply C2|apply C1]]. }
    (* g is 255 or 256; the buffer is full *)
    assert (EX : hk_size o1 = es /\ g = 256%nat).
    { pose proof (hderive_spec OK Hes TB env info o (repeat 0 (255 * es)) (255 * es)) as D.
      assert (W : hkwf (eqv := eqv) env info o).
      { destruct H as [Hm0 Hi0 Hp0 Hb0 Hs0 Hg0]. cbn [fst snd] in *. constructor; try assumption; [rewrite CT; reflexivity|]. rewrite Hp0. apply TB; [apply C2|apply C1]. }
      specialize (D W (Z _) ltac:(rewrite repeat_length; apply le_n)). cbn zeta in D. destruct D as (oo & E & _ & _ & _ & _ & _ & S').
      rewrite E in X1. injection X1 as -> _.
      assert (S0 : hk_size o = 0%nat).
      { destruct H as [_ _ _ _ Hs0 (g0 & Hc0 & Hp0 & _)]. rewrite CT in Hc0. assert (g0 = 0 \/ g0 = 1)%nat by nia.
        destruct H as [->| ->]; [lia|discriminate Hc0]. }
      rewrite S0, Nat.min_0_r, !Nat.sub_0_r in S'. rewrite (proj2 (Nat.eqb_neq (255 * es) 0)) in S' by lia.
      fold es in S'. rewrite Nat.div_mul in S' by lia. split; nia. }
    destruct EX as [S1 G1]. subst g.
    assert (B1 : hk_buffer o1 = hkdf_T T (T salt ikm) info 256) by (apply Hg1; lia).
    pose proof (hderive_spec OK Hes TB env info o1 (repeat 0 es) es W1 (Z _) ltac:(rewrite repeat_length; apply le_n)) as D.
    cbn zeta in D. destruct D as (o2 & E2 & W2 & P2 & I2 & C2' & B2 & S2).
    fold es in E2, C2', B2, S2. rewrite S1, Nat.min_id, !Nat.sub_diag in E2, C2', B2, S2. cbn [Nat.eqb Nat.iter nat_rect hchain concat] in E2, C2', B2, S2. rewrite skipn_O in E2. cbn [app] in E2.
    exists o2. split; [exact I|]. split; [|split].
    - rewrite DN. fold es. rewrite X1. cbn [bind]. rewrite SK, app_nil_r. rewrite <- hD_sseg by assumption. reflexivity.
    - rewrite DN. fold es. rewrite E2. cbn [bind]. rewrite SK, app_nil_r. rewrite firstn_all2 by (rewrite (proj2 Hb1); apply le_n). rewrite B1. reflexivity.
    - intros n.
      assert (H2 : hhold (T := T) (eqv := eqv) (ikm, salt, info) 0 o2).
      { destruct W2. constructor; try assumption; cbn [fst snd]; [auto|congruence|]. exists 0%nat. split; [rewrite C2', Hc1; reflexivity|].
        split; [|lia]. rewrite S2. cbn. lia. }
      destruct (hhold_derive OK Hes TB env (ikm, salt, info) 0 o2 (repeat 0 n) n H2) as (o3 & X3 & _).
      + rewrite I2, I1. exact VR.
      + right. split; [reflexivity|]. rewrite C2', Hc1. reflexivity.
      + apply Z.
      + rewrite repeat_length. apply le_n.
      + exists o3. rewrite DN, X3. cbn [bind]. rewrite SK, app_nil_r, <- hD_sseg by assumption. reflexivity.
  Qed.

  (** At run time the bytes of [info] are those at the time of [derive]. *)
  Lemma hkdf_late env a ikm salt info env' info' o key n : cx_ce cx = false -> hargv env a (ikm, salt, info) -> has env' (snd a) info' -> chunk info' ->
    kapie_new cx (kdf_hkdf M) env a = Some o -> bytes key -> (n <= length key)%nat ->
    exists o', hk_derive cx M env' o key n = Some (o', hD (ikm, salt, info') n ++ skipn n key, n).
  Proof.
    intros Hce A B C' I Hk Hn. pose proof A as (A1 & A2 & A3 & C1 & C2 & C3). cbn [fst snd] in *. pose proof (hkeq_new OK Hes TB env) as E0.
    destruct (hk_init_spec OK Hes TB env _ _ _ _ _ a E0 E0 A1 A2 A3 C1 C2 C3) as (o' & oz & I' & _ & _ & H & VO & VR & CT).
    unfold kapie_new in I. cbn [kdf_hkdf ka_initialize ka_new] in I. rewrite I' in I. injection I as ->.
    assert (VR' : view_read env' (hk_info o) = Some info').
    { unfold view_of in VO. rewrite Hce in VO. injection VO as VO. rewrite <- VO. pose proof (has_read _ _ _ B) as R. unfold range_read in R. cbn [view_read]. destruct (snd (snd a)); exact R. }
    assert (H' : hhold (T := T) (eqv := eqv) (ikm, salt, info') 0 o).
    { destruct H as [Hm Hi Hp Hb Hs (g & Hc & Hpos & Hg)]. cbn [fst snd] in *. constructor; try assumption; cbn [fst snd]; [destruct Hi as (? & ? & ?); auto|].
      rewrite CT in Hc. assert (g = 0 \/ g = 1)%nat as [->| ->] by nia; [|discriminate Hc].
      exists 0%nat. split; [rewrite CT; reflexivity|]. split; [exact Hpos|lia]. }
    destruct (hhold_derive OK Hes TB env' (ikm, salt, info') 0 o key n H' VR' (or_intror (conj eq_refl CT)) Hk Hn) as (o' & X & _).
    exists o'. rewrite X. rewrite <- hD_sseg by assumption. reflexivity.
  Qed.
  (** ... and if that memory is gone, it is read all the same. *)
  Lemma hkdf_gone env a ikm salt info env' o key n : cx_ce cx = false -> hargv env a (ikm, salt, info) ->
    kapie_new cx (kdf_hkdf M) env a = Some o -> (0 < length info)%nat -> (length env' < fst (snd a) + length info)%nat -> bytes key -> (0 < n)%nat ->
    hk_derive cx M env' o key n = None.
  Proof.
    intros Hce A I Hi Hgone Hk Hn. pose proof A as (A1 & A2 & A3 & C1 & C2 & C3). cbn [fst snd] in *. pose proof (hkeq_new OK Hes TB env) as E0.
    destruct (hk_init_spec OK Hes TB env _ _ _ _ _ a E0 E0 A1 A2 A3 C1 C2 C3) as (o' & oz & I' & _ & _ & H & VO & VR & CT).
    unfold kapie_new in I. cbn [kdf_hkdf ka_initialize ka_new] in I. rewrite I' in I. injection I as ->.
    assert (S0 : hk_size o = 0%nat).
    { destruct H as [_ _ _ _ Hs0 (g0 & Hc0 & Hp0 & _)]. rewrite CT in Hc0. assert (g0 = 0 \/ g0 = 1)%nat as [->| ->] by nia; [lia|discriminate Hc0]. }
    assert (VN : view_read env' (hk_info o) = None).
    { unfold view_of in VO. rewrite Hce in VO. injection VO as VO. rewrite <- VO. destruct A3 as (_ & SZ & _). rewrite SZ. cbn [view_read].
      destruct (length info) as [|m] eqn:Lm; [lia|]. unfold rds. rewrite (proj2 (Nat.leb_gt _ _)) by lia. reflexivity. }
    unfold hk_derive. rewrite S0. cbn [Nat.ltb Nat.leb bind]. rewrite Nat.sub_0_r. rewrite (proj2 (Nat.eqb_neq n 0)) by lia. fold es.
    rewrite (proj2 (Nat.eqb_neq es 0)) by lia. unfold hk_expand. rewrite VN. cbn [bind]. destruct (n / es =? 0)%nat; reflexivity.
  Qed.
End H.

(** *** PBKDF2 *)
Section P.
  Context {M : mac_alg} {cx : ctx} {T : list N -> list N -> list N}
    {eqv : ma_obj M -> ma_obj M -> Prop} {hold : list N -> list N -> ma_obj M -> Prop}
    {out : ma_obj M -> list N} (OK : mac_ok M cx chunk T eqv hold out).
  Let es := ma_digest_size M.
  Context (Hes : (0 < es <= 64)%nat) (TB : forall k m, bytes k -> bytes m -> bytes (T k m) /\ length (T k m) = es).

  Definition pargv (env : list N) (a : range * range * N) (v : pval) : Prop :=
    has env (fst (fst a)) (fst (fst v)) /\ has env (snd (fst a)) (snd (fst v)) /\ snd a = snd v /\
    chunk (fst (fst v)) /\ chunk (snd (fst v)).
  Definition pD (v : pval) (L : nat) : list N := pbkdf2 T es (fst (fst v)) (snd (fst v)) (Nat.max 1 (N.to_nat (snd v))) L.
  Lemma pD_sseg v L : chunk (fst (fst v)) -> chunk (snd (fst v)) -> pD v L = sseg (pstream (T := T) v) es 0 L.
  Proof. intros C1 C2. unfold pD, pbkdf2. apply stream_blocks_for; [lia|]. intros i. apply (pstream_ok Hes TB); assumption. Qed.
  Lemma pD_piece v pos n : chunk (fst (fst v)) -> chunk (snd (fst v)) -> piece (pD v) pos n = sseg (pstream (T := T) v) es pos n.
  Proof. intros C1 C2. unfold piece. rewrite pD_sseg by assumption. apply sseg_skipn. Qed.

  Lemma view_again env r (l : list N) v env' : has env r l -> view_of cx env r = Some v -> cx_ce cx = true \/ has env' r l -> view_read env' v = Some l.
  Proof.
    intros A VO H. destruct (has_view cx env r l A) as (v' & VO' & _ & VC). rewrite VO in VO'. injection VO' as <-.
    destruct (cx_ce cx) eqn:CE.
    - rewrite (VC eq_refl). reflexivity.
    - destruct H as [H|B]; [discriminate|]. unfold view_of in VO. rewrite CE in VO. injection VO as <-.
      pose proof (has_read _ _ _ B) as R. unfold range_read in R. cbn [view_read]. destruct (snd r); exact R.
  Qed.

  Lemma pbkdf2_ok : kdf_ok (kdf_pbkdf_2 M) cx pD (fun _ _ => True) pargv
    (fun env => pbeq (eqv := eqv) env) (phold (T := T) (eqv := eqv))
    (fun env v o => view_read env (pb_ikm o) = Some (fst (fst v)) /\ view_read env (pb_salt o) = Some (snd (fst v)))
    (fun env a v => has env (fst (fst a)) (fst (fst v)) /\ has env (snd (fst a)) (snd (fst v))).
  Proof.
    constructor; cbn [kdf_pbkdf_2 ka_obj ka_arg ka_new ka_initialize ka_derive].
    - intros env a v A. split; apply A.
    - intros env. exact (pbeq_new OK Hes TB env).
    - intros env o1 o2. apply pbeq_lr.
    - intros env o1 o2 a [[P S] it] E1 E2 (A1 & A2 & A3 & C1 & C2). cbn [fst snd] in *.
      destruct (pb_init_spec (cx := cx) Hes TB env o1 o2 P S it a E1 E2 A1 A2 A3 C1 C2) as (o1' & o2' & I1 & I2 & E & H & VI & VS & RI & RS).
      exists o1', o2'. split; [exact I1|]. split; [exact I2|]. split; [exact E|]. split; [exact H|]. split; [auto|].
      intros env' B. split.
      + apply (view_again env (fst (fst a)) P _ env' A1 VI). destruct B as [B|(B & _)]; [left; exact B|right; exact B].
      + apply (view_again env (snd (fst a)) S _ env' A2 VS). destruct B as [B|(_ & B)]; [left; exact B|right; exact B].
    - intros env o1 o2 n E. exact (pbeq_derive OK Hes TB env o1 o2 n E).
    - intros env v pos o key n H [S1 S2] _ Hk Hn.
      destruct (phold_derive OK Hes TB env v pos o key n H S1 S2 Hk Hn) as (o' & X & H' & I1 & I2).
      exists o'. rewrite pD_piece by apply H. split; [exact X|]. split; [exact H'|]. intros env' [Q1 Q2]. rewrite I1, I2. auto.
    - intros env a v L (A1 & A2 & A3 & C1 & C2). rewrite pD_sseg by assumption. apply sseg_length.
    - intros env a v m L (A1 & A2 & A3 & C1 & C2) Hm. rewrite !pD_sseg by assumption. apply sseg_firstn, Hm.
  Qed.

  (** At run time password and salt are read at the time of [derive]. *)
  Lemma pbkdf2_late env a v env' P' S' o key n : cx_ce cx = false -> pargv env a v ->
    has env' (fst (fst a)) P' -> has env' (snd (fst a)) S' -> chunk P' -> chunk S' ->
    kapie_new cx (kdf_pbkdf_2 M) env a = Some o -> bytes key -> (n <= length key)%nat ->
    exists o', pb_derive cx M env' o key n = Some (o', pD (P', S', snd v) n ++ skipn n key, n).
  Proof.
    intros Hce (A1 & A2 & A3 & C1 & C2) B1 B2 C1' C2' I Hk Hn. destruct v as [[P S] it]. cbn [fst snd] in *. pose proof (pbeq_new OK Hes TB env) as E0.
    destruct (pb_init_spec (cx := cx) Hes TB env _ _ P S it a E0 E0 A1 A2 A3 C1 C2) as (o' & oz & I' & _ & E & H & VI & VS & RI & RS).
    unfold kapie_new in I. cbn [kdf_pbkdf_2 ka_initialize ka_new] in I. rewrite I' in I. injection I as ->.
    assert (V : forall r v l, view_of cx env r = Some v -> has env' r l -> view_read env' v = Some l).
    { intros r v l VO B. unfold view_of in VO. rewrite Hce in VO. injection VO as <-. pose proof (has_read _ _ _ B) as R. unfold range_read in R. cbn [view_read]. destruct (snd r); exact R. }
    assert (Z : pb_size o = 0%nat).
    { unfold pb_initialize in I'. destruct (view_of cx env (fst (fst a))); [|discriminate]. cbn [bind] in I'.
      destruct (view_of cx env (snd (fst a))); [|discriminate]. cbn [bind] in I'. injection I' as <-. reflexivity. }
    assert (H' : phold (T := T) (eqv := eqv) (P', S', it) 0 o).
    { destruct H as [Hm Hi Ht Hb Hs (g & Hc & Hpos & Hg)]. cbn [fst snd] in *. constructor; try assumption; cbn [fst snd]; [auto|].
      exists g. split; [exact Hc|]. split; [exact Hpos|]. rewrite Z. lia. }
    destruct (phold_derive OK Hes TB env' (P', S', it) 0 o key n H' (V _ _ _ VI B1) (V _ _ _ VS B2) Hk Hn) as (o' & X & _).
    exists o'. rewrite X. rewrite <- pD_sseg by assumption. reflexivity.
  Qed.
  Lemma pbkdf2_gone env a v env' o key n : cx_ce cx = false -> pargv env a v ->
    kapie_new cx (kdf_pbkdf_2 M) env a = Some o ->
    (0 < length (fst (fst v)) /\ length env' < fst (fst (fst a)) + length (fst (fst v)))%nat -> bytes key -> (0 < n)%nat ->
    pb_derive cx M env' o key n = None.
  Proof.
    intros Hce (A1 & A2 & A3 & C1 & C2) I Hgone Hk Hn. unfold kapie_new in I. cbn [kdf_pbkdf_2 ka_initialize ka_new] in I.
    unfold pb_initialize, view_of in I. rewrite Hce in I. cbn [bind] in I. injection I as <-.
    unfold pb_derive. cbn [pb_new pb_mac pb_ikm pb_salt pb_iterations pb_counter pb_buffer pb_size]. change (0 <? 0)%nat with false. cbn [bind]. rewrite Nat.sub_0_r.
    rewrite (proj2 (Nat.eqb_neq n 0)) by lia. fold es. rewrite (proj2 (Nat.eqb_neq es 0)) by lia.
    assert (X : forall h it c dst off, pb_expand cx M env' h (VPtr (fst (fst (fst a))) (snd (fst (fst a)))) (VPtr (fst (snd (fst a))) (snd (snd (fst a)))) it c dst off = None).
    { intros h it c dst off. unfold pb_expand. destruct (mem_stor_be cx 4 1 (repeat 0 4) 0 c); [|reflexivity]. cbn [bind].
      destruct A1 as (_ & SZ & _). rewrite SZ. cbn [view_read]. destruct (length (fst (fst v))) as [|m] eqn:Lm; [lia|].
      unfold rds. rewrite (proj2 (Nat.leb_gt _ _)) by lia. reflexivity. }
    destruct (n / es)%nat as [|f] eqn:F; cbn [pb_blocks].
    - cbn [bind]. rewrite (proj2 (Nat.ltb_lt 0 (n mod es))); [rewrite X; reflexivity|].
      pose proof (Nat.div_mod n es ltac:(lia)). lia.
    - rewrite X. reflexivity.
  Qed.
End P.

(** *** Over HMAC *)
Lemma hmac_tag_ok a dsz : (dsz <= sha_digest_size a)%nat -> forall k m, bytes k -> bytes m -> bytes (hmac_tag a dsz k m) /\ length (hmac_tag a dsz k m) = dsz.
Proof.
  intros Hd k m Hk Hm. unfold hmac_tag. split.
  - apply bytes_firstn. unfold hmac. rewrite <- D_fips. apply H_bytes.
  - rewrite firstn_length, hmac_length by assumption. lia.
Qed.
Lemma sha_64 a : (sha_digest_size a <= 64)%nat.
Proof. destruct a; cbn; lia. Qed.
Lemma hmac_es a dsz : (1 <= dsz <= sha_digest_size a)%nat -> (0 < dsz <= 64)%nat.
Proof. pose proof (sha_64 a). lia. Qed.
