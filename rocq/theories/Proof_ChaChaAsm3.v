(** The whole routines: every block of the output is the ChaCha block of its counter. *)
From Verif Require Import Base BaseLemmas BytesLemmas Spec_Bytes Spec_Range Proof_Range Spec_ChaCha Model_Memory Model_Cipher Spec_Cipher Model_X86 Spec_ChaChaAsm Model_ChaChaAsm Proof_ChaChaCore
  Proof_X86Sym Proof_ChaChaAsm Proof_ChaChaAsm2.
Local Open Scope N_scope.

(** *** The key stream for any number of double rounds *)
Definition kw (r : nat) (st : list N) (j : nat) : N :=
  let s := at_ctr st (N.of_nat (j / 16)) in nth (j mod 16) (add_words s (Nat.iter r inner_block s)) 0.
Definition kbyte (r : nat) (st : list N) (p : nat) : N := nth (p mod 4) (le_enc 4 (kw r st (p / 4))) 0.

Lemma inner_block_length s : length s = 16%nat -> length (inner_block s) = 16%nat.
Proof. intros H. rewrite inner_block_halves by exact H. destruct (list16 s H) as (x0 & x1 & x2 & x3 & x4 & x5 & x6 & x7 & x8 & x9 & x10 & x11 & x12 & x13 & x14 & x15 & ->). reflexivity. Qed.
Lemma iter_inner_length r s : length s = 16%nat -> length (Nat.iter r inner_block s) = 16%nat.
Proof. intros H. induction r as [|r IH]; [exact H|]. cbn [Nat.iter nat_rect]. apply inner_block_length, IH. Qed.

Lemma kbyte_10 st p : length st = 16%nat -> words 32 st -> st_byte st p = kbyte 10 st p.
Proof.
  intros L W. unfold st_byte, kbyte, kw, core_block.
  replace (p / 4 / 16)%nat with (p / 64)%nat by (rewrite Nat.div_div by discriminate; reflexivity).
  set (s := at_ctr st (N.of_nat (p / 64))).
  assert (LS : length s = 16%nat) by (apply (at_ctr_ok st _ L W)).
  assert (LI := iter_inner_length 10 s LS). set (t := Nat.iter 10 inner_block s) in *. clearbody t.
  assert (E : (p mod 64 = 4 * ((p / 4) mod 16) + p mod 4)%nat).
  { change 64%nat with (4 * 16)%nat. rewrite Nat.mod_mul_r by discriminate. lia. }
  rewrite E. apply nth_serialize; [apply Nat.mod_upper_bound; discriminate|].
  rewrite add_words_length by lia. rewrite LS. apply Nat.mod_upper_bound. discriminate.
Qed.
Lemma nth_add_words : forall a b j, length a = length b -> (j < length a)%nat -> nth j (add_words a b) 0 = add32 (nth j a 0) (nth j b 0).
Proof.
  induction a as [|x a IH]; intros [|y b] j L H; cbn in L, H; try lia. destruct j as [|j]; [reflexivity|]. cbn [add_words nth]. apply IH; lia.
Qed.

(** *** Words to bytes *)
Lemma chunks_flat L o : forall cnt, flat_map vbytes (chunks L cnt o) = flat_map (le_enc 4) (map o (seq 0 (L * cnt))).
Proof.
  unfold chunks. intros cnt.
  assert (H : forall n k, flat_map vbytes (map (fun k => map o (seq (L * k) L)) (seq k n)) = flat_map (le_enc 4) (map o (seq (L * k) (L * n)))).
  { induction n as [|n IH]; intros k; [rewrite Nat.mul_0_r; reflexivity|]. cbn [seq map flat_map]. rewrite IH.
    replace (L * S n)%nat with (L + L * n)%nat by lia. rewrite seq_app, map_app, flat_map_app. f_equal.
    replace (L * k + L)%nat with (L * S k)%nat by lia. reflexivity. }
  rewrite H, Nat.mul_0_r. reflexivity.
Qed.
Lemma kbyte_word r st J p : (p < 4)%nat -> kbyte r st (4 * J + p) = nth p (le_enc 4 (kw r st J)) 0.
Proof.
  intros H. unfold kbyte. replace ((4 * J + p) mod 4)%nat with p by (rewrite Nat.add_comm, Nat.mul_comm, Nat.mod_add, Nat.mod_small by lia; reflexivity).
  replace ((4 * J + p) / 4)%nat with J; [reflexivity|]. rewrite Nat.add_comm, Nat.mul_comm, Nat.div_add, Nat.div_small by lia. reflexivity.
Qed.
Lemma transform_bytes r st J m s : bytes m -> forall n c, (s + 4 * (c + n) <= length m)%nat ->
  flat_map (le_enc 4) (map (fun j => N.lxor (kw r st (J + j)) (src_word m s j)) (seq c n))
  = xor_with (kbyte r st) (4 * (J + c)) (slice m (s + 4 * c) (4 * n)).
Proof.
  intros Hm. induction n as [|n IH]; intros c H; [rewrite Nat.mul_0_r; reflexivity|].
  cbn [seq map flat_map]. rewrite IH by lia. replace (4 * S n)%nat with (4 + 4 * n)%nat by lia.
  rewrite slice_app, xor_with_app, slice_length by lia. f_equal.
  - unfold src_word. set (l := slice m (s + 4 * c) 4). assert (Ll : length l = 4%nat) by (apply slice_length; lia).
    rewrite <- Ll at 1. rewrite le_enc_lxor by (apply slice_bytes, Hm). rewrite Ll. apply xor_with_ext.
    intros i Hi. cbn [Nat.add]. rewrite kbyte_word by lia. reflexivity.
  - f_equal; [lia|]. f_equal. lia.
Qed.
Lemma generate_bytes r st J : forall n c,
  flat_map (le_enc 4) (map (fun j => kw r st (J + j)) (seq c n)) = map (kbyte r st) (seq (4 * (J + c)) (4 * n)).
Proof.
  induction n as [|n IH]; intros c; [rewrite Nat.mul_0_r; reflexivity|].
  cbn [seq map flat_map]. rewrite IH. replace (4 * S n)%nat with (4 + 4 * n)%nat by lia.
  rewrite seq_app, map_app. f_equal.
  - rewrite seq_from, map_map. cbn [seq map]. rewrite !kbyte_word by lia. rewrite <- (le_enc_length 4 (kw r st (J + c))) at 1.
    cbn [le_enc nth]. reflexivity.
  - do 2 f_equal. lia.
Qed.

(** *** The registers of a block *)
Lemma V_ext L f g : (forall i l, (i < 16)%nat -> (l < L)%nat -> f i l = g i l) -> V L f = V L g.
Proof.
  intros H. unfold V. apply map_ext_in. intros i Hi. apply in_seq in Hi. apply map_ext_in. intros l Hl. apply in_seq in Hl. apply H; lia.
Qed.
Lemma nth_map_seq {A} (f : nat -> A) n i x : (i < n)%nat -> nth i (map f (seq 0 n)) x = f i.
Proof. intros H. rewrite (nth_indep _ x (f 0%nat)) by (rewrite map_length, seq_length; exact H). rewrite map_nth, seq_nth by exact H. reflexivity. Qed.
Lemma V_ok L f : (forall i l, f i l < 2 ^ 32) -> vregs L (V L f).
Proof.
  intros H. split; [unfold V; rewrite map_length, seq_length; reflexivity|]. apply Forall_forall. intros v Hv.
  apply in_map_iff in Hv. destruct Hv as (i & <- & _). split; [rewrite map_length, seq_length; reflexivity|].
  apply Forall_forall. intros x Hx. apply in_map_iff in Hx. destruct Hx as (l & <- & _). apply H.
Qed.
Lemma lane_V L f l : (l < L)%nat -> lane l (V L f) = map (fun i => f i l) (seq 0 16).
Proof. intros H. unfold lane, V. rewrite map_map. apply map_ext. intros i. apply nth_map_seq. exact H. Qed.
Definition unV (regs : list vec) (i l : nat) : N := nth l (nth i regs []) 0.
Lemma V_unV L regs : vregs L regs -> regs = V L (unV regs).
Proof.
  intros [H1 H2]. unfold V. apply (nth_ext _ _ [] []); [rewrite map_length, seq_length; exact H1|]. intros i Hi. unfold vec in *. rewrite H1 in Hi.
  rewrite nth_map_seq by exact Hi. assert (Q : length (nth i regs []) = L).
  { apply (proj1 (Forall_forall _ _) H2). apply nth_In. rewrite H1. exact Hi. }
  apply (nth_ext _ _ 0 0); [rewrite map_length, seq_length; exact Q|]. intros l Hl. rewrite Q in Hl. rewrite nth_map_seq by exact Hl. reflexivity.
Qed.
Lemma unV_lane regs i l : length regs = 16%nat -> (i < 16)%nat -> unV regs i l = nth i (lane l regs) 0.
Proof.
  intros H Hi. unfold lane, unV. rewrite (nth_indep (map _ _) 0 ((fun v => nth l v 0) [])) by (rewrite map_length; unfold vec in *; lia).
  rewrite (map_nth (fun v => nth l v 0)). reflexivity.
Qed.

(** Base registers before block group [k]. *)
Definition G (L : nat) (st : list N) (k i l : nat) : N :=
  if (i =? 12)%nat then (nth 12 st 0 + N.of_nat (L * k + (L - 1 - l))) mod 2 ^ 32 else nth i st 0.
Lemma G_lt L st k : words 32 st -> forall i l, G L st k i l < 2 ^ 32.
Proof. intros W i l. unfold G. destruct (i =? 12)%nat; [apply N.mod_lt; discriminate|]. apply nth_words, W. Qed.
Lemma G_lane L st k l : length st = 16%nat -> (l < L)%nat -> lane l (V L (G L st k)) = at_ctr st (N.of_nat (L * k + (L - 1 - l))).
Proof.
  intros H Hl. rewrite lane_V by exact Hl. unfold at_ctr, G.
  destruct (list16 st H) as (x0 & x1 & x2 & x3 & x4 & x5 & x6 & x7 & x8 & x9 & x10 & x11 & x12 & x13 & x14 & x15 & ->).
  set (n := N.of_nat (L * k + (L - 1 - l))). clearbody n. reflexivity.
Qed.
Lemma G_step L st k : V L (step_base L (G L st k)) = V L (G L st (S k)).
Proof.
  apply V_ext. intros i l Hi Hl. unfold step_base, G. destruct (Nat.eqb_spec i 12) as [->|]; [|reflexivity].
  cbn [Nat.eqb]. unfold lane_add. rewrite N.add_mod_idemp_l by discriminate. f_equal. lia.
Qed.

Lemma times_pos n : (1 <= times n)%nat.
Proof.
  unfold times. destruct (N.eqb_spec n 0) as [|H]; [|lia].
  assert (Q : (0 < 2 ^ 64)%N) by reflexivity. set (x := (2 ^ 64)%N) in *. clearbody x. lia.
Qed.
Lemma list6 (l : list vec) : length l = 6%nat -> exists t0 t1 t2 t3 t4 t5, l = [t0; t1; t2; t3; t4; t5].
Proof. intros H. do 7 (destruct l as [|? l]; try discriminate). repeat eexists. Qed.

(** Bytes for positions [p], [p + 1], ... of the stream: the source xored with them, or themselves. *)
Definition outb (r : nat) (st : list N) (tr : bool) (p : nat) (m : list N) (s n : nat) : list N :=
  if tr then xor_with (kbyte r st) p (slice m s n) else map (kbyte r st) (seq p n).
Lemma outb_length r st tr p m s n : (tr = true -> s + n <= length m)%nat -> length (outb r st tr p m s n) = n.
Proof. intros H. destruct tr; cbn [outb]; [rewrite xor_with_length; apply slice_length, H; reflexivity|rewrite map_length, seq_length; reflexivity]. Qed.

Lemma nth_byte (l : list N) j : bytes l -> nth j l 0 < 256.
Proof.
  intros H. destruct (Nat.lt_ge_cases j (length l)) as [Q|Q]; [exact (proj1 (Forall_forall _ _) H _ (nth_In _ _ Q))|].
  rewrite nth_overflow by exact Q. reflexivity.
Qed.
Section BODY.
  Variables (w L : nat) (tr : bool) (body : list instr).
  Hypothesis Hwidth : width w.
  Hypothesis HL : L = lanes w.
  Hypothesis Hbody : body = straight body ++ AddDst (16 * w) :: (if tr then [AddSrc (16 * w)] else []).
  Hypothesis Hsym : forall X f g t2 t3 t4 t5, exists regs' tmp', length regs' = 16%nat /\ length tmp' = 6%nat /\
    arun w tr X (straight body)
      {| a_reg := V L f; a_tmp := [vreg L f 15; vreg L f 12; t2; t3; t4; t5]; a_base := V L g; a_out := repeat None 16 |}
    = Some {| a_reg := regs'; a_tmp := tmp'; a_base := V L (step_base L g);
              a_out := map Some (chunks L 16 (fun j => if tr then N.lxor (out_word L f g j) (X j) else out_word L f g j)) |}.
  Variables (rounds : N) (st : list N).
  Hypothesis Hst : length st = 16%nat.
  Hypothesis Wst : words 32 st.
  Let r := times rounds.

  Lemma w_L : w = (4 * L)%nat /\ (1 <= L)%nat.
  Proof. rewrite HL. destruct Hwidth as [->| ->]; split; cbn; lia. Qed.

  Lemma out_word_kw k regs' j : vregs L regs' ->
    (forall i, (i < L)%nat -> lane i regs' = Nat.iter r inner_block (lane i (V L (G L st k)))) -> (j < L * 16)%nat ->
    out_word L (unV regs') (G L st k) j = kw r st (16 * (L * k) + j).
  Proof.
    intros VR E Hj. unfold out_word, kw. cbv zeta.
    assert (D : (j / 16 < L)%nat) by (apply Nat.div_lt_upper_bound; lia).
    assert (M : (j mod 16 < 16)%nat) by (apply Nat.mod_upper_bound; discriminate).
    replace ((16 * (L * k) + j) mod 16)%nat with (j mod 16)%nat by (rewrite Nat.add_comm, Nat.mul_comm, Nat.mod_add by discriminate; reflexivity).
    replace ((16 * (L * k) + j) / 16)%nat with (L * k + j / 16)%nat by (rewrite (Nat.add_comm (16 * _)), (Nat.mul_comm 16), Nat.div_add by discriminate; lia).
    set (l := (L - 1 - j / 16)%nat). assert (Hl : (l < L)%nat) by (unfold l; lia).
    rewrite unV_lane by (try exact (proj1 VR); exact M). rewrite E by exact Hl.
    replace (G L st k (j mod 16) l) with (nth (j mod 16) (lane l (V L (G L st k))) 0).
    2:{ rewrite lane_V by exact Hl. apply (nth_map_seq (fun i => G L st k i l)). exact M. }
    rewrite G_lane by (try exact Hst; exact Hl). replace (L * k + (L - 1 - l))%nat with (L * k + j / 16)%nat by (unfold l; lia).
    set (s := at_ctr st _). assert (LS : length s = 16%nat) by (apply (at_ctr_ok st _ Hst Wst)).
    rewrite nth_add_words by (rewrite ?iter_inner_length by exact LS; lia).
    unfold lane_add, add32. rewrite N.add_comm. reflexivity.
  Qed.

  Lemma block_run k tmp m d s : length tmp = 6%nat -> bytes m -> (d + 64 * L <= length m)%nat ->
    (tr = true -> s + 64 * L <= length m)%nat -> (tr = true -> apart d s (64 * L)) ->
    exists regs' tmp', length regs' = 16%nat /\ length tmp' = 6%nat /\
    one_block w body rounds (mk (V L (G L st k)) tmp (V L (G L st k)) m d s st)
    = Some (mk regs' tmp' (V L (G L st (S k))) (put m d (outb r st tr (64 * (L * k)) m s (64 * L))) (d + 64 * L)
              (if tr then s + 64 * L else s)%nat st).
  Proof.
    intros HT Hm Hd Hs Hap. destruct w_L as [WL L1]. destruct (list6 tmp HT) as (t0 & t1 & t2 & t3 & t4 & t5 & ->).
    unfold one_block. fold r.
    assert (VG : vregs (lanes w) (V L (G L st k))) by (rewrite <- HL; apply V_ok, G_lt, Wst).
    destruct (run_doubles w r (V L (G L st k)) t0 t1 [t2; t3; t4; t5] (V L (G L st k)) m d s st Hwidth VG (times_pos rounds)) as (R & VR & E & ->).
    cbn [bind]. rewrite <- HL in VR, E.
    destruct (Hsym (src_word m s) (unV R) (G L st k) t2 t3 t4 t5) as (regs' & tmp' & L1' & L2' & S).
    exists regs', tmp'. split; [exact L1'|]. split; [exact L2'|].
    rewrite Hbody, run_app.
    replace (nth 15 R []) with (vreg L (unV R) 15).
    2:{ rewrite (V_unV L R VR) at 2. symmetry. apply (nth_map_seq (fun i => vreg L (unV R) i)). lia. }
    replace (nth 12 R []) with (vreg L (unV R) 12).
    2:{ rewrite (V_unV L R VR) at 2. symmetry. apply (nth_map_seq (fun i => vreg L (unV R) i)). lia. }
    rewrite (V_unV L R VR) at 1. unfold mk at 1.
    rewrite (run_block w 16 tr m d s st ltac:(destruct Hwidth as [->| ->]; reflexivity) ltac:(lia) ltac:(lia)
               ltac:(intros T; specialize (Hs T); lia) ltac:(intros T; replace (w * 16)%nat with (64 * L)%nat by lia; exact (Hap T)) _ _ _ _ _ _ _ _ S).
    cbn [bind]. rewrite chunks_flat, G_step.
    replace (flat_map (le_enc 4) _) with (outb r st tr (64 * (L * k)) m s (64 * L)).
    2:{ symmetry. rewrite (map_ext_in _ (fun j => if tr then N.lxor (kw r st (16 * (L * k) + j)) (src_word m s j) else kw r st (16 * (L * k) + j))).
        2:{ intros j Hj. apply in_seq in Hj. rewrite (out_word_kw k R j VR E) by lia. reflexivity. }
        unfold outb. destruct tr.
        - rewrite transform_bytes by (try exact Hm; specialize (Hs eq_refl); lia).
          rewrite Nat.mul_0_r, !Nat.add_0_r. f_equal; [lia|]. f_equal. lia.
        - rewrite generate_bytes. rewrite Nat.add_0_r. do 2 f_equal; lia. }
    replace (16 * w)%nat with (64 * L)%nat by lia. destruct tr; reflexivity.
  Qed.

  Lemma run_reload regs tmp base m d s : length regs = 16%nat -> length base = 16%nat ->
    run w reload (mk regs tmp base m d s st) = Some (mk base tmp base m d s st).
  Proof.
    intros H1 H2. destruct (vec16 _ H1) as (x0 & x1 & x2 & x3 & x4 & x5 & x6 & x7 & x8 & x9 & x10 & x11 & x12 & x13 & x14 & x15 & ->).
    destruct (vec16 _ H2) as (y0 & y1 & y2 & y3 & y4 & y5 & y6 & y7 & y8 & y9 & y10 & y11 & y12 & y13 & y14 & y15 & ->). reflexivity.
  Qed.

  (** One block and then [n] more. *)
  Lemma blocks_run n : forall k tmp m d s, length tmp = 6%nat -> bytes m -> (d + 64 * L * S n <= length m)%nat ->
    (tr = true -> s + 64 * L * S n <= length m)%nat -> (tr = true -> apart d s (64 * L * S n)) ->
    exists m', (m1 <- one_block w body rounds (mk (V L (G L st k)) tmp (V L (G L st k)) m d s st) ;; more_blocks w body rounds n m1) = Some m' /\
      mc_mem m' = put m d (outb r st tr (64 * (L * k)) m s (64 * L * S n)).
  Proof.
    induction n as [|n IH]; intros k tmp m d s HT Hm Hd Hs Hap; destruct w_L as [WL L1].
    - destruct (block_run k tmp m d s HT Hm ltac:(lia) ltac:(intros T; specialize (Hs T); lia) ltac:(intros T; specialize (Hap T); rewrite Nat.mul_1_r in Hap; exact Hap))
        as (regs' & tmp' & R1 & R2 & ->). cbn [bind more_blocks]. eexists. split; [reflexivity|]. rewrite Nat.mul_1_r. reflexivity.
    - assert (AP : tr = true -> apart d s (64 * L)). { intros T. specialize (Hap T). unfold apart in *. nia. }
      destruct (block_run k tmp m d s HT Hm ltac:(nia) ltac:(intros T; specialize (Hs T); nia) AP) as (regs' & tmp' & R1 & R2 & ->).
      cbn [bind more_blocks]. set (o1 := outb r st tr (64 * (L * k)) m s (64 * L)).
      assert (O1 : length o1 = (64 * L)%nat) by (apply outb_length; intros T; specialize (Hs T); nia).
      assert (B1 : bytes (put m d o1)).
      { apply put_bytes; [exact Hm|]. unfold o1, outb. destruct tr.
        - apply xor_with_bytes; [intros j; unfold kbyte; apply nth_byte, le_enc_bytes|apply slice_bytes, Hm].
        - apply Forall_forall. intros x Hx. apply in_map_iff in Hx. destruct Hx as (j & <- & _). unfold kbyte. apply nth_byte, le_enc_bytes. }
      assert (LM : length (put m d o1) = length m) by (apply put_length; nia).
      rewrite run_reload by (try exact R1; unfold V; rewrite map_length, seq_length; reflexivity). cbn [bind].
      set (s1 := if tr then (s + 64 * L)%nat else s).
      destruct (IH (S k) tmp' (put m d o1) (d + 64 * L)%nat s1 R2 B1 ltac:(rewrite LM; nia)
                  ltac:(intros T; specialize (Hs T); rewrite LM; unfold s1; rewrite T; nia)
                  ltac:(intros T; specialize (Hap T); unfold s1; rewrite T; unfold apart in *; nia)) as (m' & E & M).
      exists m'. split; [exact E|]. rewrite M.
      replace (outb r st tr (64 * (L * S k)) (put m d o1) s1 (64 * L * S n)) with (outb r st tr (64 * (L * k) + 64 * L) m (s + 64 * L) (64 * L * S n)).
      2:{ unfold outb, s1. destruct tr; [|f_equal; f_equal; lia]. f_equal; [lia|].
          destruct (Hap eq_refl) as [->|D].
          - symmetry. apply slice_put_other; rewrite ?O1; specialize (Hs eq_refl); nia.
          - symmetry. apply slice_put_other; rewrite ?O1; specialize (Hs eq_refl); nia. }
      rewrite put_put.
      + f_equal. unfold o1, outb. replace (64 * L * S (S n))%nat with (64 * L + 64 * L * S n)%nat by nia. destruct tr.
        * rewrite slice_app, xor_with_app, slice_length by (specialize (Hs eq_refl); nia). reflexivity.
        * rewrite seq_app, map_app. reflexivity.
      + rewrite O1. reflexivity.
      + rewrite O1, outb_length; [nia|]. intros T. specialize (Hs T). nia.
  Qed.
End BODY.

(** *** Initialisation *)
Lemma init_16 st jr jt jb m d s : length st = 16%nat -> length jr = 16%nat -> length jb = 16%nat ->
  run 16 (blocks_init 16) (mk jr jt jb m d s st) = Some (mk (V 4 (G 4 st 0)) jt (V 4 (G 4 st 0)) m d s st).
Proof.
  intros H1 H2 H3. destruct (list16 st H1) as (a0 & a1 & a2 & a3 & a4 & a5 & a6 & a7 & a8 & a9 & a10 & a11 & a12 & a13 & a14 & a15 & ->).
  destruct (vec16 _ H2) as (x0 & x1 & x2 & x3 & x4 & x5 & x6 & x7 & x8 & x9 & x10 & x11 & x12 & x13 & x14 & x15 & ->).
  destruct (vec16 _ H3) as (y0 & y1 & y2 & y3 & y4 & y5 & y6 & y7 & y8 & y9 & y10 & y11 & y12 & y13 & y14 & y15 & ->).
  change (G 4) with (fun st k i l => if (i =? 12)%nat then lane_add (nth 12 st 0) (N.of_nat (4 * k + (4 - 1 - l))) else nth i st 0).
  lazy -[lane_add]. reflexivity.
Qed.
Lemma init_32 st jr jt jb m d s : length st = 16%nat -> length jr = 16%nat -> length jb = 16%nat ->
  run 32 (blocks_init 32) (mk jr jt jb m d s st) = Some (mk (V 8 (G 8 st 0)) jt (V 8 (G 8 st 0)) m d s st).
Proof.
  intros H1 H2 H3. destruct (list16 st H1) as (a0 & a1 & a2 & a3 & a4 & a5 & a6 & a7 & a8 & a9 & a10 & a11 & a12 & a13 & a14 & a15 & ->).
  destruct (vec16 _ H2) as (x0 & x1 & x2 & x3 & x4 & x5 & x6 & x7 & x8 & x9 & x10 & x11 & x12 & x13 & x14 & x15 & ->).
  destruct (vec16 _ H3) as (y0 & y1 & y2 & y3 & y4 & y5 & y6 & y7 & y8 & y9 & y10 & y11 & y12 & y13 & y14 & y15 & ->).
  change (G 8) with (fun st k i l => if (i =? 12)%nat then lane_add (nth 12 st 0) (N.of_nat (8 * k + (8 - 1 - l))) else nth i st 0).
  lazy -[lane_add]. reflexivity.
Qed.

(** *** The four routines *)
Section ROUTINE.
  Variables (w L : nat) (tr : bool) (body : list instr).
  Hypothesis Hwidth : width w.
  Hypothesis HL : L = lanes w.
  Hypothesis Hbody : body = straight body ++ AddDst (16 * w) :: (if tr then [AddSrc (16 * w)] else []).
  Hypothesis Hsym : forall X f g t2 t3 t4 t5, exists regs' tmp', length regs' = 16%nat /\ length tmp' = 6%nat /\
    arun w tr X (straight body)
      {| a_reg := V L f; a_tmp := [vreg L f 15; vreg L f 12; t2; t3; t4; t5]; a_base := V L g; a_out := repeat None 16 |}
    = Some {| a_reg := regs'; a_tmp := tmp'; a_base := V L (step_base L g);
              a_out := map Some (chunks L 16 (fun j => if tr then N.lxor (out_word L f g j) (X j) else out_word L f g j)) |}.
  Lemma routine_spec jr jt jb rounds n st m d s : junk_ok jr jt jb -> length st = 16%nat -> words 32 st -> bytes m ->
    (d + 64 * L * n <= length m)%nat -> (tr = true -> s + 64 * L * n <= length m)%nat -> (tr = true -> apart d s (64 * L * n)) ->
    routine w body jr jt jb rounds n st m d s = Some (put m d (outb (times rounds) st tr 0 m s (64 * L * n)), (L * n)%nat).
  Proof.
    intros (J1 & J2 & J3) Hst Wst Hm Hd Hs Hap. unfold routine.
    assert (RET : ((if (w =? 32)%nat then 8 else 4) * n = L * n)%nat) by (rewrite HL; destruct Hwidth as [->| ->]; reflexivity).
    rewrite RET. destruct n as [|n].
    - rewrite !Nat.mul_0_r. replace (outb (times rounds) st tr 0 m s 0) with (@nil N) by (destruct tr; reflexivity). rewrite put_nil. reflexivity.
    - assert (INIT : run w (blocks_init w) (mk jr jt jb m d s st) = Some (mk (V L (G L st 0)) jt (V L (G L st 0)) m d s st)).
      { rewrite HL. destruct Hwidth as [->| ->]; [apply init_16|apply init_32]; assumption. }
      unfold mk in INIT at 1. rewrite INIT. cbn [bind].
      destruct (blocks_run w L tr body Hwidth HL Hbody Hsym rounds st Hst Wst n 0 jt m d s J2 Hm Hd Hs Hap) as (m' & E & M).
      destruct (one_block w body rounds _) as [m1|]; [|discriminate]. cbn [bind] in *. rewrite E. cbn [bind]. rewrite M.
      rewrite Nat.mul_0_r. reflexivity.
  Qed.
End ROUTINE.

Lemma ssse_transform_spec jr jt jb rounds n st m d s : junk_ok jr jt jb -> length st = 16%nat -> words 32 st -> bytes m ->
  (d + 256 * n <= length m)%nat -> (s + 256 * n <= length m)%nat -> apart d s (256 * n) ->
  asm_ssse_transform jr jt jb rounds n st m d s
  = Some (put m d (xor_with (kbyte (times rounds) st) 0 (slice m s (256 * n))), (4 * n)%nat).
Proof.
  intros J L W Hm Hd Hs Hap. exact (routine_spec 16 4 true ssse_transform_body (or_introl eq_refl) eq_refl eq_refl ssse_transform_sym jr jt jb rounds n st m d s J L W Hm Hd (fun _ => Hs) (fun _ => Hap)).
Qed.
Lemma ssse_generate_spec jr jt jb rounds n st m d : junk_ok jr jt jb -> length st = 16%nat -> words 32 st -> bytes m ->
  (d + 256 * n <= length m)%nat ->
  asm_ssse_generate jr jt jb rounds n st m d = Some (put m d (stream_bytes (kbyte (times rounds) st) 0 (256 * n)), (4 * n)%nat).
Proof.
  intros J L W Hm Hd. exact (routine_spec 16 4 false ssse_generate_body (or_introl eq_refl) eq_refl eq_refl ssse_generate_sym jr jt jb rounds n st m d 0 J L W Hm Hd
    (fun H => match Bool.diff_false_true H with end) (fun H => match Bool.diff_false_true H with end)).
Qed.
Lemma avx_transform_spec jr jt jb rounds n st m d s : junk_ok jr jt jb -> length st = 16%nat -> words 32 st -> bytes m ->
  (d + 512 * n <= length m)%nat -> (s + 512 * n <= length m)%nat -> apart d s (512 * n) ->
  asm_avx_transform jr jt jb rounds n st m d s
  = Some (put m d (xor_with (kbyte (times rounds) st) 0 (slice m s (512 * n))), (8 * n)%nat).
Proof.
  intros J L W Hm Hd Hs Hap. exact (routine_spec 32 8 true avx_transform_body (or_intror eq_refl) eq_refl eq_refl avx_transform_sym jr jt jb rounds n st m d s J L W Hm Hd (fun _ => Hs) (fun _ => Hap)).
Qed.
Lemma avx_generate_spec jr jt jb rounds n st m d : junk_ok jr jt jb -> length st = 16%nat -> words 32 st -> bytes m ->
  (d + 512 * n <= length m)%nat ->
  asm_avx_generate jr jt jb rounds n st m d = Some (put m d (stream_bytes (kbyte (times rounds) st) 0 (512 * n)), (8 * n)%nat).
Proof.
  intros J L W Hm Hd. exact (routine_spec 32 8 false avx_generate_body (or_intror eq_refl) eq_refl eq_refl avx_generate_sym jr jt jb rounds n st m d 0 J L W Hm Hd
    (fun H => match Bool.diff_false_true H with end) (fun H => match Bool.diff_false_true H with end)).
Qed.

(** *** As backends of the cipher *)
Lemma xor_with_10 st p t : length st = 16%nat -> words 32 st -> xor_with (kbyte 10 st) p t = xor_with (st_byte st) p t.
Proof. intros L W. apply xor_with_ext. intros i _. symmetry. apply kbyte_10; assumption. Qed.
Lemma stream_10 st p n : length st = 16%nat -> words 32 st -> stream_bytes (kbyte 10 st) p n = stream_bytes (st_byte st) p n.
Proof. intros L W. unfold stream_bytes. apply map_ext. intros i. symmetry. apply kbyte_10; assumption. Qed.

Lemma ssse_3_backend cx jr jt jb : junk_ok jr jt jb -> backend_ok cx (bk_ssse_3 jr jt jb).
Proof.
  intros J. constructor; unfold bk_block; cbn [bk_ratio bk_transform bk_generate bk_ssse_3]; change (64 * 4)%nat with 256%nat.
  - lia.
  - intros n st m d s L W Hm Hd Hs Hap. rewrite ssse_transform_spec by assumption. change (times 10) with 10%nat. rewrite xor_with_10 by assumption. reflexivity.
  - intros st buf L W Hb H. rewrite ssse_generate_spec by (try assumption; lia). change (times 10) with 10%nat. rewrite stream_10 by assumption. reflexivity.
Qed.
Lemma avx_2_backend cx jr jt jb : junk_ok jr jt jb -> backend_ok cx (bk_avx_2 jr jt jb).
Proof.
  intros J. constructor; unfold bk_block; cbn [bk_ratio bk_transform bk_generate bk_avx_2]; change (64 * 8)%nat with 512%nat.
  - lia.
  - intros n st m d s L W Hm Hd Hs Hap. rewrite avx_transform_spec by assumption. change (times 10) with 10%nat. rewrite xor_with_10 by assumption. reflexivity.
  - intros st buf L W Hb H. rewrite avx_generate_spec by (try assumption; lia). change (times 10) with 10%nat. rewrite stream_10 by assumption. reflexivity.
Qed.
