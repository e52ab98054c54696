(** The vector instructions of the ChaCha routines on the address-level machine do the same as on the machine of
    Model_X86. *)
From Verif Require Import Base BaseLemmas Spec_Bytes Model_Memory BytesLemmas Model_X86 Model_ChaChaAsm Model_ShaAsm Model_Asm Spec_Range Proof_Range Proof_ShaCore Proof_X86Sym Proof_ChaChaAsm Proof_Asm.
Local Open Scope N_scope.

(** Static conditions on instructions, checked by computation on every program. *)
Definition ok_src (w : nat) (tr : bool) (o : opd) : bool :=
  match o with
  | Rg i => (i <? 16)%nat
  | Tm i => (i <? 6)%nat
  | Bs i => (i <? 16)%nat
  | Cn v => (length v =? w / 4)%nat && forallb (fun x => x <? 2 ^ 32) v
  | Src off => tr && (off + w <=? 16 * w)%nat
  | Sta i => (i <? 4)%nat && (w =? 16)%nat
  | Dst _ => false
  end.
Definition ok_dst (w : nat) (o : opd) : bool :=
  match o with
  | Rg i => (i <? 16)%nat
  | Tm i => (i <? 6)%nat
  | Bs i => (i <? 16)%nat
  | Dst off => (off + w <=? 16 * w)%nat
  | _ => false
  end.
Definition is_cn (o : opd) : bool := match o with Cn _ => true | _ => false end.
Definition ok_instr (w : nat) (tr : bool) (i : instr) : bool :=
  match i with
  | Mov al d o => ok_dst w d && ok_src w tr o && negb (is_cn o)
  | Op3 _ d a y => (d <? 16)%nat && (a <? 16)%nat && ok_src w tr y
  | Sll d a _ | Srl d a _ | Shufd d a _ => (d <? 16)%nat && (a <? 16)%nat
  | Shufb d a mask => (d <? 16)%nat && (a <? 16)%nat && (length mask =? w)%nat
  | Perm2 d a y _ => (d <? 16)%nat && (a <? 16)%nat && (y <? 16)%nat && (w =? 32)%nat
  | Bcast d (Sta i) => (d <? 16)%nat && (i <? 4)%nat && (w =? 32)%nat
  | _ => false
  end.

Lemma lset_nth {A} : forall (l : list A) i v l', lset l i v = Some l' ->
  length l' = length l /\ (i < length l)%nat /\ forall j, nth_error l' j = if (j =? i)%nat then Some v else nth_error l j.
Proof.
  induction l as [|x l IH]; intros i v l' H; [destruct i; discriminate|]. destruct i as [|i]; cbn [lset bind] in H.
  - injection H as <-. split; [reflexivity|]. split; [cbn; lia|]. intros [|j]; reflexivity.
  - destruct (lset l i v) as [l1|] eqn:E; cbn [bind] in H; [|discriminate]. injection H as <-. destruct (IH _ _ _ E) as (H1 & H2 & H3).
    split; [cbn; lia|]. split; [cbn; lia|]. intros [|j]; [reflexivity|]. cbn [nth_error]. rewrite H3. reflexivity.
Qed.
Lemma lset_ex {A} : forall (l : list A) i v, (i < length l)%nat -> exists l', lset l i v = Some l'.
Proof.
  induction l as [|x l IH]; intros [|i] v H; cbn in H; try lia; cbn [lset]; [eauto|].
  destruct (IH i v) as (l' & ->); [lia|]. cbn [bind]. eauto.
Qed.

Section Sim.
Variables (s : space) (b : abi) (w : nat) (tr : bool).
Variables (R0 F ST D0 S0 : N) (n src0 L : nat) (phi : nat -> N) (m0 : N -> N).
Hypothesis Hw : width w.

(** Where things are. *)
Record places : Prop := {
  p_al : exists q, F = q * N.of_nat w;
  p_low : sp_low s <= F; p_top : F + N.of_nat (22 * w) <= R0; p_R0 : R0 < 2 ^ 64;
  p_stack : forall x, F <= x < F + N.of_nat (22 * w) -> sp_rd s x = true /\ sp_wr s x = true;
  p_st : ST + 64 < 2 ^ 64; p_st_rd : forall x, ST <= x < ST + 64 -> sp_rd s x = true;
  p_st_out : forall x, ST <= x < ST + 64 -> x < sp_low s \/ R0 <= x;
  p_d : D0 + N.of_nat n < 2 ^ 64; p_d_wr : forall x, D0 <= x < D0 + N.of_nat n -> sp_wr s x = true;
  p_d_out : forall x, D0 <= x < D0 + N.of_nat n -> x < sp_low s \/ R0 <= x;
  p_s : tr = true -> S0 + N.of_nat n < 2 ^ 64;
  p_s_rd : tr = true -> forall x, S0 <= x < S0 + N.of_nat n -> sp_rd s x = true;
  p_s_out : tr = true -> forall x, S0 <= x < S0 + N.of_nat n -> x < sp_low s \/ R0 <= x;
  p_L : (n <= L)%nat; p_Ls : tr = true -> (src0 + n <= L)%nat;
  p_phi_d : forall o, (o < n)%nat -> phi o = D0 + N.of_nat o;
  p_phi_s : tr = true -> forall o, (o < n)%nat -> phi (src0 + o)%nat = S0 + N.of_nat o;
  p_inj : forall o o', (o < L)%nat -> (o' < n)%nat -> phi o = phi o' -> o = o';
  p_phi_out : forall o, (o < L)%nat -> phi o < sp_low s \/ R0 <= phi o;
  p_disj : D0 + N.of_nat n <= ST \/ ST + 64 <= D0 }.

(** [t]: bytes done. *)
Record rel (t : nat) (m : mach) (c : cpu) : Prop := {
  r_len : length (mc_reg m) = 16%nat /\ length (mc_tmp m) = 6%nat /\ length (mc_base m) = 16%nat /\ length (mc_mem m) = L;
  r_reg : forall i, (i < 16)%nat -> nth_error (mc_reg m) i = Some (firstn (w / 4) (c_ymm c i));
  r_ymm : forall i, vok 8 (c_ymm c i);
  r_tmp : forall i, (i < 6)%nat -> nth_error (mc_tmp m) i = Some (blanes (mread (c_mem c) (F + N.of_nat (w * i)) w));
  r_base : forall i, (i < 16)%nat -> nth_error (mc_base m) i = Some (blanes (mread (c_mem c) (F + N.of_nat (w * 6 + w * i)) w));
  r_bytes : forall x, is_byte (c_mem c x);
  r_mem : forall o, (o < L)%nat -> nth o (mc_mem m) 0 = c_mem c (phi o);
  r_state : mc_state m = blanes (mread (c_mem c) ST 64);
  r_rsp : c_gpr c rsp = F; r_st : c_gpr c (g_state b) = ST;
  r_dst : c_gpr c (g_dst b) = D0 + N.of_nat t /\ mc_dst m = t;
  r_src : tr = true -> c_gpr c (g_src b) = S0 + N.of_nat t /\ mc_src m = (src0 + t)%nat;
  r_out : forall x, (x < F \/ F + N.of_nat (22 * w) <= x) -> (x < D0 \/ D0 + N.of_nat n <= x) -> c_mem c x = m0 x }.

Hypothesis P : places.

Lemma Hw4 : (4 * (w / 4) = w)%nat /\ (w / 4 = 4 \/ w / 4 = 8)%nat /\ (16 <= w <= 32)%nat.
Proof. destruct Hw as [-> | ->]; cbn; lia. Qed.

Lemma slot_al j : (F + N.of_nat (w * j)) mod N.of_nat w = 0.
Proof.
  destruct (p_al P) as (q & E). rewrite E. replace (q * N.of_nat w + N.of_nat (w * j)) with ((q + N.of_nat j) * N.of_nat w) by lia.
  apply N.mod_mul. pose proof Hw4. lia.
Qed.
Lemma slot_load m c t j : rel t m c -> (j < 22)%nat -> load s c (F + N.of_nat (w * j)) w = Some (mread (c_mem c) (F + N.of_nat (w * j)) w).
Proof.
  intros R H. pose proof (p_top P). pose proof (p_R0 P). assert (w * j + w <= 22 * w)%nat by nia. apply load_ok; [lia|..].
  - intros x Hx. apply (p_stack P). lia.
  - intros x Hx. right. rewrite (r_rsp _ _ _ R). lia.
Qed.
Lemma slot_ea m c t j : rel t m c -> (j < 22)%nat -> opd_ea c (rsp, (w * j)%nat) = F + N.of_nat (w * j).
Proof.
  intros R H. pose proof (p_top P). pose proof (p_R0 P). assert (w * j + w <= 22 * w)%nat by nia.
  unfold opd_ea. cbn [fst snd]. rewrite ea_nat; rewrite (r_rsp _ _ _ R); [reflexivity|lia].
Qed.

Lemma low_ok v k : vok 8 v -> (k = 4 \/ k = 8)%nat -> vok k (firstn k v).
Proof.
  intros [Lv Wv] Hk. split; [rewrite firstn_length; unfold vec in *; lia|]. apply Forall_fs. exact Wv.
Qed.

Lemma mem_read m c t o k : rel t m c -> (o + k <= L)%nat -> forall a, (forall i, (i < k)%nat -> phi (o + i)%nat = a + N.of_nat i) ->
  rds (mc_mem m) o k = Some (mread (c_mem c) a k).
Proof.
  intros R H a Ha. destruct (r_len _ _ _ R) as (_ & _ & _ & Lm). unfold rds. rewrite Lm.
  destruct (Nat.leb_spec (o + k) L); [|lia]. f_equal. symmetry. apply mread_eq.
  - rewrite firstn_length, skipn_length. lia.
  - intros i Hi. rewrite <- Ha by exact Hi. rewrite <- (r_mem _ _ _ R) by lia.
    exact (nth_slice (mc_mem m) o k i 0 Hi).
Qed.

(** Sources. *)
Lemma sim_get t m c o al v : rel t m c -> (t + 16 * w <= n)%nat -> ok_src w tr o = true -> is_cn o && al = false ->
  is_mem o && al = false -> get w m o = Some v -> xget s b w w al c o = Some v /\ vok (w / 4) v.
Proof.
  intros R Ht Ho Hc Hal Hg. pose proof Hw4 as (W4 & WL & Wb). destruct (r_len _ _ _ R) as (Lr & Lt & Lb & Lm).
  destruct o as [i|i|i|u|off|off|i]; cbn [ok_src] in Ho; cbn [get] in Hg; cbn [xget mem_opd].
  - apply Nat.ltb_lt in Ho. rewrite (r_reg _ _ _ R) in Hg by exact Ho. injection Hg as <-.
    unfold xmm_low. destruct (Nat.ltb_spec i 16); [|lia]. split; [reflexivity|]. apply low_ok; [apply (r_ymm _ _ _ R)|exact WL].
  - apply Nat.ltb_lt in Ho. rewrite (r_tmp _ _ _ R) in Hg by exact Ho. injection Hg as <-.
    rewrite (slot_ea _ _ _ _ R) by lia. rewrite slot_al, N.eqb_refl. cbn [negb]. rewrite andb_false_r.
    rewrite (slot_load _ _ _ _ R) by lia. split; [reflexivity|]. apply blanes_ok; [apply mread_bytes; apply (r_bytes _ _ _ R)|].
    rewrite mread_length. lia.
  - apply Nat.ltb_lt in Ho. rewrite (r_base _ _ _ R) in Hg by exact Ho. injection Hg as <-.
    replace (w * 6 + w * i)%nat with (w * (6 + i))%nat by lia.
    rewrite (slot_ea _ _ _ _ R) by lia. rewrite slot_al, N.eqb_refl. cbn [negb]. rewrite andb_false_r.
    rewrite (slot_load _ _ _ _ R) by lia. split; [reflexivity|]. apply blanes_ok; [apply mread_bytes; apply (r_bytes _ _ _ R)|].
    rewrite mread_length. lia.
  - injection Hg as <-. cbn [is_cn andb] in Hc. rewrite Hc. cbn [andb]. split; [reflexivity|].
    apply andb_prop in Ho. destruct Ho as [H1 H2]. apply Nat.eqb_eq in H1. split; [exact H1|].
    apply words_In. intros x Hx. apply N.ltb_lt. exact (proj1 (forallb_forall _ _) H2 x Hx).
  - apply andb_prop in Ho. destruct Ho as [Htr Ho]. apply Nat.leb_le in Ho. cbn [is_mem andb] in Hal. rewrite Hal. cbn [andb].
    destruct (r_src _ _ _ R Htr) as [Gs Ms]. pose proof (p_s P Htr). pose proof (p_Ls P Htr).
    rewrite Ms in Hg. rewrite (mem_read _ _ _ _ _ R) with (a := S0 + N.of_nat t + N.of_nat off) in Hg; [|lia|].
    2:{ intros i Hi. replace (src0 + t + off + i)%nat with (src0 + (t + off + i))%nat by lia. rewrite (p_phi_s P Htr) by lia. lia. }
    cbn [bind] in Hg. injection Hg as <-.
    unfold opd_ea. cbn [fst snd]. rewrite ea_nat; rewrite Gs; [|lia].
    rewrite load_ok; [|lia|intros x Hx; apply (p_s_rd P Htr); lia|intros x Hx; rewrite (r_rsp _ _ _ R)].
    2:{ destruct (p_s_out P Htr x); [lia|left; assumption|right]. pose proof (p_top P). lia. }
    split; [reflexivity|]. apply blanes_ok; [apply mread_bytes; apply (r_bytes _ _ _ R)|]. rewrite mread_length. lia.
  - discriminate.
  - apply andb_prop in Ho. destruct Ho as [Ho E16]. apply Nat.ltb_lt in Ho. apply Nat.eqb_eq in E16. rewrite E16.
    cbn [is_mem andb] in Hal. rewrite Hal. cbn [andb].
    pose proof (p_st P). pose proof (p_top P). unfold opd_ea. cbn [fst snd]. rewrite ea_nat; rewrite (r_st _ _ _ R); [|lia].
    rewrite load_ok; [|lia|intros x Hx; apply (p_st_rd P); lia|intros x Hx; rewrite (r_rsp _ _ _ R)].
    2:{ destruct (p_st_out P x); [lia|left; assumption|right; lia]. }
    cbn [bind]. 
    assert (E : rds (mc_state m) (4 * i) 4 = Some (blanes (mread (c_mem c) (ST + N.of_nat (16 * i)) 16))).
    { rewrite (r_state _ _ _ R).
      rewrite rds_some by (rewrite blanes_length, mread_length; change (64 / 4)%nat with 16%nat; lia). f_equal.
      change 64%nat with (4 * 16)%nat. rewrite blanes_range by lia. replace (4 * (4 * i))%nat with (16 * i)%nat by lia. reflexivity. }
    rewrite E in Hg. injection Hg as <-. split; [reflexivity|]. apply blanes_ok; [apply mread_bytes; apply (r_bytes _ _ _ R)|]. rewrite mread_length. reflexivity.
Qed.

(** Registers. *)
Lemma set_reg t m c d v m' : rel t m c -> vok (w / 4) v -> setreg m d v = Some m' ->
  exists c', set_low c d v = Some c' /\ rel t m' c' /\ c_gpr c' = c_gpr c.
Proof.
  intros R [Lv Wv] H. pose proof Hw4 as (W4 & WL & Wb). unfold setreg in H. destruct (lset (mc_reg m) d v) as [l|] eqn:E; [|discriminate].
  cbn [bind] in H. injection H as <-. destruct (lset_nth _ _ _ _ E) as (H1 & H2 & H3).
  destruct (r_len _ _ _ R) as (Lr & Lt & Lb & Lm). unfold set_low. destruct (Nat.ltb_spec d 16); [|lia].
  eexists. split; [reflexivity|]. split; [|reflexivity].
  assert (Y : vok 8 (v ++ skipn (length v) (c_ymm c d))).
  { destruct (r_ymm _ _ _ R d) as [Ly Wy]. split.
    - unfold vec in *. rewrite app_length, skipn_length. lia.
    - apply Forall_app. split; [exact Wv|]. apply Forall_fs. exact Wy. }
  constructor; unfold with_reg; cbn [mc_reg mc_tmp mc_base mc_mem mc_dst mc_src mc_state set_ymm c_gpr c_ymm c_mem];
    try apply R.
  - repeat split; try assumption. lia.
  - intros i Hi. rewrite H3. destruct (Nat.eqb_spec i d) as [->|].
    + f_equal. rewrite firstn_app. unfold vec in *. rewrite Lv, Nat.sub_diag, firstn_O, app_nil_r, firstn_all2 by lia. reflexivity.
    + apply (r_reg _ _ _ R). exact Hi.
  - intros i. destruct (Nat.eqb_spec i d) as [->|]; [exact Y|apply (r_ymm _ _ _ R)].
Qed.

(** Stack slots. *)
Lemma slot_store m c t j v : rel t m c -> vok (w / 4) v -> (j < 22)%nat ->
  store s c (F + N.of_nat (w * j)) (vbytes v) = Some (set_mem c (mwrite (c_mem c) (F + N.of_nat (w * j)) (vbytes v))).
Proof.
  intros R [Lv _] H. pose proof Hw4 as (W4 & WL & Wb). pose proof (p_top P). pose proof (p_R0 P). assert (w * j + w <= 22 * w)%nat by nia.
  pose proof (vbytes_length v) as Lb. unfold vec in *. rewrite Lv in Lb. apply store_ok; [lia|..].
  - intros x Hx. apply (p_stack P). lia.
  - intros x Hx. right. rewrite (r_rsp _ _ _ R). lia.
Qed.
(** Memory after writing slot [j]. *)
Lemma slot_write t m c j v f : rel t m c -> vok (w / 4) v -> (j < 22)%nat -> f = mwrite (c_mem c) (F + N.of_nat (w * j)) (vbytes v) ->
  (forall k, (k < 22)%nat -> blanes (mread f (F + N.of_nat (w * k)) w) = if (k =? j)%nat then v else blanes (mread (c_mem c) (F + N.of_nat (w * k)) w)) /\
  (forall x, is_byte (f x)) /\
  (forall o, (o < L)%nat -> f (phi o) = c_mem c (phi o)) /\
  mread f ST 64 = mread (c_mem c) ST 64 /\
  (forall x, x < F \/ F + N.of_nat (22 * w) <= x -> f x = c_mem c x).
Proof.
  intros R [Lv Wv] Hj ->. pose proof Hw4 as (W4 & WL & Wb). pose proof (p_top P). pose proof (p_low P).
  assert (w * j + w <= 22 * w)%nat by nia. pose proof (vbytes_length v) as Lb. unfold vec in *. rewrite Lv in Lb.
  assert (O : forall x, x < F \/ F + N.of_nat (22 * w) <= x -> mwrite (c_mem c) (F + N.of_nat (w * j)) (vbytes v) x = c_mem c x).
  { intros x Hx. apply mwrite_out. lia. }
  split; [|split; [|split; [|split]]].
  - intros k Hk. destruct (Nat.eqb_spec k j) as [->|Hne].
    + rewrite mread_mwrite by lia. apply blanes_vbytes. exact Wv.
    + f_equal. apply mread_mwrite_out. assert (k + 1 <= j \/ j + 1 <= k)%nat by lia. assert (w * k + w <= w * j \/ w * j + w <= w * k)%nat by nia. lia.
  - apply mwrite_bytes; [apply (r_bytes _ _ _ R)|apply vbytes_bytes].
  - intros o Ho. apply O. destruct (p_phi_out P o Ho); lia.
  - apply mread_ext. intros x Hx. apply O. destruct (p_st_out P x); lia.
  - exact O.
Qed.
Lemma set_tmp t m c i al v m' : rel t m c -> vok (w / 4) v -> (i < 6)%nat -> set m (Tm i) v = Some m' ->
  exists c', xput s b w al c (Tm i) v = Some c' /\ rel t m' c' /\ c_gpr c' = c_gpr c.
Proof.
  intros R V Hi H. cbn [set] in H. destruct (lset (mc_tmp m) i v) as [l|] eqn:E; [|discriminate].
  cbn [bind] in H. injection H as <-. destruct (lset_nth _ _ _ _ E) as (H1 & H2 & H3).
  destruct (r_len _ _ _ R) as (Lr & Lt & Lb & Lm).
  cbn [xput mem_opd]. rewrite (slot_ea _ _ _ _ R) by lia. rewrite slot_al, N.eqb_refl. cbn [negb]. rewrite andb_false_r.
  rewrite (slot_store _ _ _ _ _ R V) by lia. eexists. split; [reflexivity|]. split; [|reflexivity].
  destruct (slot_write _ _ _ i v _ R V ltac:(lia) eq_refl) as (Q1 & Q2 & Q3 & Q4 & Q5).
  constructor; unfold with_tmp; cbn [mc_reg mc_tmp mc_base mc_mem mc_dst mc_src mc_state set_mem c_gpr c_ymm c_mem]; try apply R; try assumption.
  - repeat split; try assumption. lia.
  - intros k Hk. rewrite Q1 by lia. rewrite H3. destruct (Nat.eqb_spec k i); [reflexivity|]. apply (r_tmp _ _ _ R). exact Hk.
  - intros k Hk. replace (w * 6 + w * k)%nat with (w * (6 + k))%nat by lia. rewrite Q1 by lia.
    destruct (Nat.eqb_spec (6 + k) i); [lia|]. replace (w * (6 + k))%nat with (w * 6 + w * k)%nat by lia. apply (r_base _ _ _ R). exact Hk.
  - intros o Ho. rewrite Q3 by exact Ho. apply (r_mem _ _ _ R). exact Ho.
  - rewrite Q4. apply (r_state _ _ _ R).
  - intros x Hx Hd. rewrite Q5 by exact Hx. apply (r_out _ _ _ R); assumption.
Qed.
Lemma set_base t m c i al v m' : rel t m c -> vok (w / 4) v -> (i < 16)%nat -> set m (Bs i) v = Some m' ->
  exists c', xput s b w al c (Bs i) v = Some c' /\ rel t m' c' /\ c_gpr c' = c_gpr c.
Proof.
  intros R V Hi H. cbn [set] in H. destruct (lset (mc_base m) i v) as [l|] eqn:E; [|discriminate].
  cbn [bind] in H. injection H as <-. destruct (lset_nth _ _ _ _ E) as (H1 & H2 & H3).
  destruct (r_len _ _ _ R) as (Lr & Lt & Lb & Lm).
  cbn [xput mem_opd]. replace (w * 6 + w * i)%nat with (w * (6 + i))%nat by lia. rewrite (slot_ea _ _ _ _ R) by lia. rewrite slot_al, N.eqb_refl. cbn [negb]. rewrite andb_false_r.
  rewrite (slot_store _ _ _ _ _ R V) by lia. eexists. split; [reflexivity|]. split; [|reflexivity].
  destruct (slot_write _ _ _ (6 + i)%nat v _ R V ltac:(lia) eq_refl) as (Q1 & Q2 & Q3 & Q4 & Q5).
  constructor; unfold with_base; cbn [mc_reg mc_tmp mc_base mc_mem mc_dst mc_src mc_state set_mem c_gpr c_ymm c_mem]; try apply R; try assumption.
  - repeat split; try assumption. lia.
  - intros k Hk. rewrite Q1 by lia. destruct (Nat.eqb_spec k (6 + i)); [lia|]. apply (r_tmp _ _ _ R). exact Hk.
  - intros k Hk. replace (w * 6 + w * k)%nat with (w * (6 + k))%nat by lia. rewrite Q1 by lia. rewrite H3.
    destruct (Nat.eqb_spec (6 + k) (6 + i)), (Nat.eqb_spec k i); try lia; [reflexivity|].
    replace (w * (6 + k))%nat with (w * 6 + w * k)%nat by lia. apply (r_base _ _ _ R). exact Hk.
  - intros o Ho. rewrite Q3 by exact Ho. apply (r_mem _ _ _ R). exact Ho.
  - rewrite Q4. apply (r_state _ _ _ R).
  - intros x Hx Hd. rewrite Q5 by exact Hx. apply (r_out _ _ _ R); assumption.
Qed.

(** The destination. *)
Lemma set_dst t m c off v m' : rel t m c -> (t + 16 * w <= n)%nat -> vok (w / 4) v -> (off + w <= 16 * w)%nat -> set m (Dst off) v = Some m' ->
  exists c', xput s b w false c (Dst off) v = Some c' /\ rel t m' c' /\ c_gpr c' = c_gpr c.
Proof.
  intros R Ht V Ho H. pose proof Hw4 as (W4 & WL & Wb). destruct (r_len _ _ _ R) as (Lr & Lt & Lb & Lm). destruct (r_dst _ _ _ R) as [Gd Md].
  pose proof (p_d P). pose proof (p_top P). pose proof (p_low P). pose proof (p_L P).
  pose proof (vbytes_length v) as Lv. destruct V as [Lv' Wv]. unfold vec in *. rewrite Lv' in Lv.
  cbn [set] in H. rewrite Md in H. destruct (wrs (mc_mem m) (t + off) (vbytes v)) as [l|] eqn:E; [|discriminate]. cbn [bind] in H. injection H as <-.
  cbn [xput mem_opd andb]. unfold opd_ea. cbn [fst snd]. rewrite ea_nat; rewrite Gd; [|lia].
  rewrite store_ok; [|lia|intros x Hx; apply (p_d_wr P); lia|intros x Hx; rewrite (r_rsp _ _ _ R); destruct (p_d_out P x); [lia|left; assumption|right; lia]].
  eexists. split; [reflexivity|]. split; [|reflexivity].
  set (a := D0 + N.of_nat t + N.of_nat off) in *.
  assert (O : forall x, x < a \/ a + N.of_nat w <= x -> mwrite (c_mem c) a (vbytes v) x = c_mem c x) by (intros x Hx; apply mwrite_out; lia).
  assert (In' : forall x, F <= x < F + N.of_nat (22 * w) -> x < a \/ a + N.of_nat w <= x).
  { intros x Hx. destruct (N.lt_ge_cases x a) as [?|?]; [left; assumption|]. destruct (N.lt_ge_cases x (a + N.of_nat w)) as [?|?]; [|right; assumption].
    exfalso. destruct (p_d_out P x); lia. }
  assert (Hs : forall k, (k < 22)%nat -> mread (mwrite (c_mem c) a (vbytes v)) (F + N.of_nat (w * k)) w = mread (c_mem c) (F + N.of_nat (w * k)) w).
  { intros k Hk. apply mread_ext. intros x Hx. apply O. apply In'. assert (w * k + w <= 22 * w)%nat by nia. lia. }
  constructor; unfold with_mem; cbn [mc_reg mc_tmp mc_base mc_mem mc_dst mc_src mc_state set_mem c_gpr c_ymm c_mem]; try apply R; try assumption.
  - apply wrs_length in E. repeat split; try assumption. lia.
  - intros k Hk. rewrite Hs by lia. apply (r_tmp _ _ _ R). exact Hk.
  - intros k Hk. replace (w * 6 + w * k)%nat with (w * (6 + k))%nat by lia. rewrite Hs by lia.
    replace (w * (6 + k))%nat with (w * 6 + w * k)%nat by lia. apply (r_base _ _ _ R). exact Hk.
  - apply mwrite_bytes; [apply (r_bytes _ _ _ R)|apply vbytes_bytes].
  - intros o Hlo. rewrite wrs_some in E by lia. injection E as <-.
    destruct (Nat.lt_ge_cases o (t + off)) as [Q|Q]; [|destruct (Nat.lt_ge_cases o (t + off + w)) as [Q'|Q']].
    + rewrite app_nth1 by (rewrite firstn_length; lia). rewrite nth_firstn_lt by lia.
      rewrite O; [apply (r_mem _ _ _ R); exact Hlo|].
      rewrite (p_phi_d P) by lia. lia.
    + rewrite app_nth2 by (rewrite firstn_length; lia). rewrite firstn_length. rewrite Nat.min_l by lia.
      rewrite app_nth1 by lia. rewrite (p_phi_d P) by lia.
      replace (D0 + N.of_nat o) with (a + N.of_nat (o - (t + off))) by lia. symmetry. apply mwrite_in. lia.
    + rewrite app_nth2 by (rewrite firstn_length; lia). rewrite firstn_length. rewrite Nat.min_l by lia.
      rewrite app_nth2 by lia. rewrite Lv. rewrite nth_skipn. replace (t + off + 4 * (w / 4) + (o - (t + off) - 4 * (w / 4)))%nat with o by lia.
      rewrite O; [apply (r_mem _ _ _ R); exact Hlo|].
      destruct (N.lt_ge_cases (phi o) a) as [?|?]; [left; assumption|]. destruct (N.lt_ge_cases (phi o) (a + N.of_nat w)) as [?|?]; [|right; assumption].
      exfalso. pose proof (p_phi_d P (N.to_nat (phi o - D0)) ltac:(lia)) as X. pose proof (p_inj P o (N.to_nat (phi o - D0)) Hlo ltac:(lia) ltac:(lia)). lia.
  - rewrite (r_state _ _ _ R). f_equal. symmetry. apply mread_ext. intros x Hx. apply O. destruct (p_disj P); lia.
  - intros x Hx Hd. rewrite O by lia. apply (r_out _ _ _ R); assumption.
Qed.

(** An instruction. *)
Lemma sim t m c i m' : rel t m c -> (t + 16 * w <= n)%nat -> ok_instr w tr i = true -> exec w m i = Some m' ->
  exists c', xexec s b w c i = Some c' /\ rel t m' c' /\ c_gpr c' = c_gpr c.
Proof.
  intros R Ht Ho He. pose proof Hw4 as (W4 & WL & Wb). unfold exec in He. destruct (may_fault w i) eqn:Hf; [discriminate|].
  assert (Rg' : forall a x, nth_error (mc_reg m) a = Some x -> (a <? 16)%nat = true -> xmm_low w c a = Some x /\ vok (w / 4) x).
  { intros a x Ha Hlt. apply (sim_get t m c (Rg a) false x R Ht Hlt eq_refl eq_refl Ha). }
  destruct i as [al d o|o d a y|d a k|d a k|d a mask|d a imm|d a y imm|d o|k|k]; cbn [ok_instr] in Ho; cbn [xexec].
  - apply andb_prop in Ho. destruct Ho as [Ho Hcn]. apply andb_prop in Ho. destruct Ho as [Hd Hs].
    destruct (get w m o) as [v|] eqn:E; [|discriminate]. cbn [bind] in He.
    cbn [may_fault] in Hf.
    assert (A1 : is_cn o && al = false) by (destruct (is_cn o); [discriminate|reflexivity]).
    assert (A2 : is_mem o && al = false) by (destruct al; [|apply andb_false_r]; apply orb_false_elim in Hf; rewrite (proj2 Hf); reflexivity).
    destruct (sim_get t m c o al v R Ht Hs A1 A2 E) as [G V]. rewrite G. cbn [bind].
    destruct d as [j|j|j|u|off|off|j]; cbn [ok_dst] in Hd; try discriminate.
    + exact (set_reg _ _ _ _ _ _ R V He).
    + apply Nat.ltb_lt in Hd. exact (set_tmp _ _ _ _ _ _ _ R V Hd He).
    + apply Nat.ltb_lt in Hd. exact (set_base _ _ _ _ _ _ _ R V Hd He).
    + apply Nat.leb_le in Hd. destruct al; [discriminate|]. exact (set_dst _ _ _ _ _ _ R Ht V Hd He).
  - apply andb_prop in Ho. destruct Ho as [Ho Hy]. apply andb_prop in Ho. destruct Ho as [Hd Ha].
    destruct (nth_error (mc_reg m) a) as [x|] eqn:E1; [|discriminate]. cbn [bind] in He.
    destruct (get w m y) as [z|] eqn:E2; [|discriminate]. cbn [bind] in He.
    destruct (Rg' _ _ E1 Ha) as [G1 V1]. rewrite G1. cbn [bind]. cbn [may_fault] in Hf.
    assert (G2 : xget s b w w (w =? 16)%nat c y = Some z /\ vok (w / 4) z).
    { destruct y as [j|j|j|u|off|off|j]; try (apply (sim_get t m c _ (w =? 16)%nat z R Ht Hy); [reflexivity|exact Hf|exact E2]).
      destruct (sim_get t m c (Cn u) false z R Ht Hy eq_refl eq_refl E2) as [Q1 Q2]. split; [|exact Q2].
      cbn [xget] in *. rewrite <- Q1. destruct (w =? 16)%nat; reflexivity. }
    destruct G2 as [G2 V2]. rewrite G2. cbn [bind]. apply (set_reg _ _ _ _ _ _ R); [|exact He]. apply fun3_ok; assumption.
  - apply andb_prop in Ho. destruct Ho as [Hd Ha]. destruct (nth_error (mc_reg m) a) as [x|] eqn:E1; [|discriminate]. cbn [bind] in He.
    destruct (Rg' _ _ E1 Ha) as [G1 V1]. rewrite G1. cbn [bind]. apply (set_reg _ _ _ _ _ _ R); [|exact He]. apply pslld_ok; assumption.
  - apply andb_prop in Ho. destruct Ho as [Hd Ha]. destruct (nth_error (mc_reg m) a) as [x|] eqn:E1; [|discriminate]. cbn [bind] in He.
    destruct (Rg' _ _ E1 Ha) as [G1 V1]. rewrite G1. cbn [bind]. apply (set_reg _ _ _ _ _ _ R); [|exact He]. apply psrld_ok; assumption.
  - apply andb_prop in Ho. destruct Ho as [Ho Hm]. apply andb_prop in Ho. destruct Ho as [Hd Ha]. apply Nat.eqb_eq in Hm.
    destruct (nth_error (mc_reg m) a) as [x|] eqn:E1; [|discriminate]. cbn [bind] in He.
    destruct (Rg' _ _ E1 Ha) as [G1 V1]. rewrite G1. cbn [bind]. apply (set_reg _ _ _ _ _ _ R); [|exact He]. apply pshufb_ok; [lia|assumption].
  - apply andb_prop in Ho. destruct Ho as [Hd Ha]. destruct (nth_error (mc_reg m) a) as [x|] eqn:E1; [|discriminate]. cbn [bind] in He.
    destruct (Rg' _ _ E1 Ha) as [G1 V1]. rewrite G1. cbn [bind]. apply (set_reg _ _ _ _ _ _ R); [|exact He]. apply pshufd_ok; assumption.
  - apply andb_prop in Ho. destruct Ho as [Ho H32]. apply andb_prop in Ho. destruct Ho as [Ho Hy]. apply andb_prop in Ho. destruct Ho as [Hd Ha].
    apply Nat.eqb_eq in H32. assert (E8 : (w / 4)%nat = 8%nat) by (rewrite H32; reflexivity).
    destruct (nth_error (mc_reg m) a) as [x|] eqn:E1; [|discriminate]. cbn [bind] in He. destruct (nth_error (mc_reg m) y) as [z|] eqn:E2; [|discriminate]. cbn [bind] in He.
    destruct (Rg' _ _ E1 Ha) as [G1 V1]. rewrite G1. cbn [bind]. destruct (Rg' _ _ E2 Hy) as [G2 V2]. rewrite G2. cbn [bind].
    apply (set_reg _ _ _ _ _ _ R); [|exact He]. rewrite E8 in *. apply vperm_ok; assumption.
  - destruct o as [j|j|j|u|off|off|j]; try discriminate. apply andb_prop in Ho. destruct Ho as [Ho H32]. apply andb_prop in Ho. destruct Ho as [Hd Hi].
    apply Nat.eqb_eq in H32. assert (E8 : (w / 4)%nat = 8%nat) by (rewrite H32; reflexivity). apply Nat.ltb_lt in Hi.
    destruct (get 16 m (Sta j)) as [v|] eqn:E; [|discriminate]. cbn [bind] in He. cbn [get] in E.
    cbn [xget mem_opd andb].
    pose proof (p_st P). pose proof (p_top P). unfold opd_ea. cbn [fst snd]. rewrite ea_nat; rewrite (r_st _ _ _ R); [|lia].
    rewrite load_ok; [|lia|intros x Hx; apply (p_st_rd P); lia|intros x Hx; rewrite (r_rsp _ _ _ R)].
    2:{ destruct (p_st_out P x); [lia|left; assumption|right; lia]. }
    cbn [bind].
    assert (E' : rds (mc_state m) (4 * j) 4 = Some (blanes (mread (c_mem c) (ST + N.of_nat (16 * j)) 16))).
    { rewrite (r_state _ _ _ R).
      rewrite rds_some by (rewrite blanes_length, mread_length; change (64 / 4)%nat with 16%nat; lia). f_equal.
      change 64%nat with (4 * 16)%nat. rewrite blanes_range by lia. replace (4 * (4 * j))%nat with (16 * j)%nat by lia. reflexivity. }
    rewrite E' in E. injection E as <-.
    assert (V : vok 4 (blanes (mread (c_mem c) (ST + N.of_nat (16 * j)) 16))) by (apply blanes_ok; [apply mread_bytes; apply (r_bytes _ _ _ R)|apply mread_length]).
    apply (set_reg _ _ _ _ _ _ R); [|exact He]. rewrite E8. destruct V as [V1 V2]. split; [rewrite app_length; unfold vec in *; lia|apply Forall_app; split; assumption].
  - discriminate.
  - discriminate.
Qed.

(** Straight-line code; the trace depends on the general registers only. *)
Fixpoint xrun (p : list instr) (c : cpu) : option cpu :=
  match p with [] => Some c | i :: p => c <- xexec s b w c i ;; xrun p c end.
Definition with_gpr (g : gpr -> N) : cpu := {| c_gpr := g; c_ymm := fun _ => []; c_mem := fun _ => 0; c_zf := false |}.
Definition ptrace (g : gpr -> N) (p : list instr) : list event := flat_map (xevents b w (with_gpr g)) p.
Lemma xevents_gpr c i : xevents b w c i = xevents b w (with_gpr (c_gpr c)) i.
Proof. reflexivity. Qed.

Lemma sim_run code cpuid t : forall p m c m', rel t m c -> (t + 16 * w <= n)%nat -> forallb (ok_instr w tr) p = true -> run w p m = Some m' ->
  exists c', rel t m' c' /\ c_gpr c' = c_gpr c /\
    forall k tk ra cf, runs s b cpuid code k c' tk ra cf -> runs s b cpuid code (map (VI w) p ++ k) c (ptrace (c_gpr c) p ++ tk) ra cf.
Proof.
  induction p as [|i p IH]; intros m c m' R Ht Ho Hr.
  - injection Hr as <-. exists c. split; [exact R|]. split; [reflexivity|]. intros k tk ra cf H. exact H.
  - cbn [forallb] in Ho. apply andb_prop in Ho. destruct Ho as [Hi Ho]. cbn [run] in Hr.
    destruct (exec w m i) as [m1|] eqn:E; [|discriminate]. cbn [bind] in Hr.
    destruct (sim t m c i m1 R Ht Hi E) as (c1 & X & R1 & G1).
    destruct (IH m1 c1 m' R1 Ht Ho Hr) as (c' & R' & G' & K). exists c'. split; [exact R'|]. split; [congruence|].
    intros k tk ra cf H. specialize (K k tk ra cf H). rewrite G1 in K. cbn [map app ptrace flat_map].
    rewrite <- app_assoc. eapply runs_next; [|exact K]. cbn [step]. rewrite X. cbn [next]. rewrite xevents_gpr. reflexivity.
Qed.
End Sim.
