(** The four ChaCha functions. *)
From Verif Require Import Base BaseLemmas Spec_Bytes Model_Memory BytesLemmas Model_X86 Model_ChaChaAsm Model_ShaAsm Model_Asm Spec_Abi Spec_Range Proof_Range Proof_ShaCore Spec_ChaChaAsm Proof_X86Sym Proof_ChaChaAsm Proof_ChaChaAsm2 Proof_ChaChaAsm3 Proof_ChaChaAsm4 Proof_Asm Proof_AsmX Proof_AsmFrame Proof_AsmChaCha Proof_AsmChaCha2 Proof_AsmChaCha3.
Local Open Scope N_scope.

(** An execution is determined by where it starts. *)
Lemma runs_det s b cpuid code k c t ra cf : runs s b cpuid code k c t ra cf -> forall t' ra' cf', runs s b cpuid code k c t' ra' cf' -> t = t' /\ ra = ra' /\ cf = cf'.
Proof.
  induction 1 as [k c t ra cf E|k c t k1 c1 t1 ra cf E _ IH]; intros t' ra' cf' H; inversion H as [? ? ? ? ? E'|? ? t2 k2 c2 t3 ? ? E' Hr]; subst; rewrite E in E'; try discriminate.
  - injection E' as -> -> ->. auto.
  - injection E' as <- <- <-. destruct (IH _ _ _ Hr) as (-> & -> & ->). auto.
Qed.

Lemma xor_bytes_length : forall t k, length t = length k -> length (xor_bytes t k) = length k.
Proof. induction t as [|x t IH]; intros [|y k] H; try discriminate; [reflexivity|]. cbn [xor_bytes length] in *. rewrite IH; lia. Qed.

(** *** What stays on the stack.  Instructions that do not write slot [i]. *)
Definition keeps (i : nat) (p : instr) : bool := match p with Mov _ (Bs j) _ => negb (j =? i)%nat | _ => true end.
Lemma setreg_base m d v m' : setreg m d v = Some m' -> mc_base m' = mc_base m.
Proof. unfold setreg. destruct (lset (mc_reg m) d v); [|discriminate]. intros [= <-]. reflexivity. Qed.
Lemma lset_other {A} : forall (l : list A) j v l' i, lset l j v = Some l' -> j <> i -> nth_error l' i = nth_error l i.
Proof.
  induction l as [|x l IH]; intros j v l' i H N; [discriminate|]. cbn [lset] in H. destruct j as [|j].
  - injection H as <-. destruct i; [contradiction|reflexivity].
  - destruct (lset l j v) as [l1|] eqn:E; [|discriminate]. cbn [bind] in H. injection H as <-. destruct i as [|i]; [reflexivity|].
    cbn [nth_error]. apply (IH j v); [exact E|lia].
Qed.
Lemma exec_keeps w i p m m' : keeps i p = true -> exec w m p = Some m' -> nth_error (mc_base m') i = nth_error (mc_base m) i.
Proof.
  intros K H. unfold exec in H. destruct (may_fault w p); [discriminate|].
  destruct p; cbn [keeps] in K;
    repeat match type of H with
    | bind ?x _ = Some _ => destruct x; [cbn [bind] in H|discriminate]
    end; try (rewrite (setreg_base _ _ _ _ H); reflexivity); try (injection H as <-; reflexivity).
  destruct d; cbn [set] in H; try discriminate.
  - rewrite (setreg_base _ _ _ _ H). reflexivity.
  - destruct (lset (mc_tmp m) i0 v); [|discriminate]. injection H as <-. reflexivity.
  - destruct (lset (mc_base m) i0 v) as [r|] eqn:E; [|discriminate]. injection H as <-. cbn [with_base mc_base].
    apply (lset_other _ _ _ _ i E). apply negb_true_iff, Nat.eqb_neq in K. exact K.
  - destruct (wrs _ _ _); [|discriminate]. injection H as <-. reflexivity.
Qed.
Lemma run_keeps w i : forall p m m', forallb (keeps i) p = true -> run w p m = Some m' -> nth_error (mc_base m') i = nth_error (mc_base m) i.
Proof.
  induction p as [|x p IH]; intros m m' K H; cbn [run] in H; [congruence|]. cbn [forallb] in K. apply andb_true_iff in K. destruct K as [K1 K2].
  destruct (exec w m x) as [m1|] eqn:E; [|discriminate]. cbn [bind] in H. rewrite (IH _ _ K2 H). apply (exec_keeps w i x); assumption.
Qed.
Lemma rounds_keeps i w : width w -> forallb (keeps i) (double_round w) = true.
Proof. intros [-> | ->]; reflexivity. Qed.
Lemma reload_keeps i : forallb (keeps i) reload = true.
Proof. reflexivity. Qed.
Lemma repeat_keeps w i p : forallb (keeps i) p = true -> forall n m m', repeat_run w p n m = Some m' -> nth_error (mc_base m') i = nth_error (mc_base m) i.
Proof.
  intros K. induction n as [|n IH]; intros m m' H; cbn [repeat_run] in H; [congruence|].
  destruct (run w p m) as [m1|] eqn:E; [|discriminate]. cbn [bind] in H. rewrite (IH _ _ H). apply (run_keeps w i p); assumption.
Qed.
Lemma one_keeps w i body rounds m m' : width w -> forallb (keeps i) body = true -> one_block w body rounds m = Some m' -> nth_error (mc_base m') i = nth_error (mc_base m) i.
Proof.
  intros Hw K H. unfold one_block in H. destruct (repeat_run w (double_round w) (times rounds) m) as [m1|] eqn:E; [|discriminate]. cbn [bind] in H.
  rewrite (run_keeps w i body _ _ K H). apply (repeat_keeps w i (double_round w) (rounds_keeps i w Hw) _ _ _ E).
Qed.
Lemma more_keeps w i body rounds : width w -> forallb (keeps i) body = true -> forall n m m', more_blocks w body rounds n m = Some m' -> nth_error (mc_base m') i = nth_error (mc_base m) i.
Proof.
  intros Hw K. induction n as [|n IH]; intros m m' H; cbn [more_blocks] in H; [congruence|].
  destruct (run w reload m) as [m1|] eqn:E; [|discriminate]. cbn [bind] in H.
  destruct (one_block w body rounds m1) as [m2|] eqn:E2; [|discriminate]. cbn [bind] in H.
  rewrite (IH _ _ H), (one_keeps w i body rounds _ _ Hw K E2). apply (run_keeps w i reload); [apply reload_keeps|exact E].
Qed.
Lemma init_base w m m1 i : width w -> length (mc_reg m) = 16%nat -> length (mc_base m) = 16%nat -> length (mc_state m) = 16%nat ->
  run w (blocks_init w) m = Some m1 -> (i < 16)%nat -> i <> 12%nat -> nth_error (mc_base m1) i = Some (repeat (nth i (mc_state m) 0) (w / 4)).
Proof.
  intros Hw H1 H2 H3 H Hi Ni. destruct m as [jr jt jb mm d sr st]. cbn [mc_reg mc_base mc_state] in *.
  assert (E : forall L, nth_error (V L (G L st 0)) i = Some (repeat (nth i st 0) L)).
  { intros L. unfold V. rewrite nth_error_map_seq by exact Hi. f_equal. unfold G. destruct (Nat.eqb_spec i 12); [contradiction|].
    generalize 0%nat. induction L as [|L IH]; intros k; [reflexivity|]. cbn [seq map repeat]. f_equal. apply IH. }
  destruct Hw as [-> | ->].
  - change {| mc_reg := jr; mc_tmp := jt; mc_base := jb; mc_mem := mm; mc_dst := d; mc_src := sr; mc_state := st |} with (mk jr jt jb mm d sr st) in H.
    rewrite init_16 in H by assumption. assert (Em : m1 = mk (V 4 (G 4 st 0)) jt (V 4 (G 4 st 0)) mm d sr st) by congruence. subst m1. apply (E 4%nat).
  - change {| mc_reg := jr; mc_tmp := jt; mc_base := jb; mc_mem := mm; mc_dst := d; mc_src := sr; mc_state := st |} with (mk jr jt jb mm d sr st) in H.
    rewrite init_32 in H by assumption. assert (Em : m1 = mk (V 8 (G 8 st 0)) jt (V 8 (G 8 st 0)) mm d sr st) by congruence. subst m1. apply (E 8%nat).
Qed.
Lemma first_word f a n : (forall x, is_byte (f x)) -> (0 < n)%nat -> forall v vs, blanes (mread f a (4 * n)) = v :: vs -> mread f a 4 = le_enc 4 v.
Proof.
  intros B Hn v vs E. assert (Q : firstn 1 (skipn 0 (blanes (mread f a (4 * n)))) = blanes (mread f (a + N.of_nat (4 * 0)) (4 * 1))) by (apply blanes_range; lia).
  rewrite E in Q. cbn [skipn firstn] in Q. rewrite N.add_0_r in Q. change (4 * 1)%nat with 4%nat in Q.
  rewrite <- (vbytes_blanes (mread f a 4) 1); [|apply mread_bytes; exact B|apply mread_length]. rewrite <- Q. cbn [vbytes flat_map]. apply app_nil_r.
Qed.
(** Words 0 to 11 and 13 to 15 of the state (constants, key, nonce) are in the frame. *)
Definition key_left (b : abi) (w : nat) (c c' : cpu) : Prop := exists a, c_gpr c rsp - 1024 <= a /\ a + N.of_nat (16 * w) <= c_gpr c rsp /\
  forall i, (i < 16)%nat -> i <> 12%nat -> mread (c_mem c') (a + N.of_nat (w * i)) 4 = mread (c_mem c) (argument b c 2 + 4 * N.of_nat i) 4.
Lemma residue_key s b w tr core c c' : width w -> entered s b c -> machine c ->
  (forall i, i <> 12%nat -> forallb (keeps i) (core ++ adv w tr) = true) -> residue b w tr core c c' -> key_left b w c c'.
Proof.
  intros Hw En M Hk (B' & m0 & m1 & m2 & m3 & A1 & A2 & A3 & E1 & E2 & E3 & Q).
  pose proof (facts s b c En) as (Al & Lo & L2 & _). destruct (frame_facts b w (c_gpr c rsp) Hw Al ltac:(unfold R in *; lia)) as (Fa & FL & FT & FB).
  exists (F b w c + N.of_nat (w * 6)). unfold F, R in *.
  split; [destruct Hw as [-> | ->]; lia|]. split; [destruct Hw as [-> | ->]; lia|].
  intros i Hi Ni. specialize (Q i Hi). rewrite (more_keeps w i _ _ Hw (Hk i Ni) _ _ _ E3), (one_keeps w i _ _ _ _ Hw (Hk i Ni) E2) in Q.
  assert (L16 : length (mc_state m0) = 16%nat) by (rewrite A3, blanes_length, mread_length; reflexivity).
  rewrite (init_base w m0 m1 i Hw A1 A2 L16 E1 Hi Ni), A3 in Q.
  assert (W : (w = 4 * (w / 4) /\ 0 < w / 4)%nat) by (destruct Hw as [-> | ->]; cbn; lia). destruct W as [W1 W2].
  set (v := nth i (blanes (mread (c_mem c) (ST b c) 64)) 0) in *.
  replace (frame b w (c_gpr c rsp) + N.of_nat (w * 6) + N.of_nat (w * i)) with (frame b w (c_gpr c rsp) + N.of_nat (w * 6 + w * i)) by lia.
  transitivity (le_enc 4 v).
  - destruct (w / 4)%nat as [|k] eqn:Ek; [lia|]. cbn [repeat] in Q. 
    apply (first_word _ _ (S k) B' ltac:(lia) v (repeat v k)). rewrite <- W1. congruence.
  - assert (X : firstn 1 (skipn i (blanes (mread (c_mem c) (ST b c) (4 * 16)))) = blanes (mread (c_mem c) (ST b c + N.of_nat (4 * i)) (4 * 1))) by (apply blanes_range; lia).
    change (4 * 16)%nat with 64%nat in X.
    assert (Y : firstn 1 (skipn i (blanes (mread (c_mem c) (ST b c) 64))) = [v]).
    { unfold v. assert (Ll : (i < length (blanes (mread (c_mem c) (ST b c) 64)))%nat) by (rewrite blanes_length, mread_length; exact Hi).
      revert Ll. generalize (blanes (mread (c_mem c) (ST b c) 64)). clear. revert i. induction i as [|i IH]; intros [|x l] H; cbn [length] in H; try lia; [reflexivity|]. cbn [skipn nth]. apply IH. lia. }
    rewrite Y in X. change (4 * 1)%nat with 4%nat in X. unfold ST in X. replace (N.of_nat (4 * i)) with (4 * N.of_nat i) in X by lia.
    rewrite <- (vbytes_blanes (mread (c_mem c) (argument b c 2 + 4 * N.of_nat i) 4) 1); [|apply mread_bytes; apply M|apply mread_length].
    rewrite <- X. cbn [vbytes flat_map]. rewrite app_nil_r. reflexivity.
Qed.

Section Four.
Variables (s : space) (b : abi) (cpuid : cpuid_fun) (w : nat) (tr : bool) (core : list instr) (per : nat).
Hypothesis Hw : width w.
Hypothesis Hcore : forallb (ok_instr w tr) core = true.
Hypothesis Hper : (64 * per = 16 * w)%nat.
Hypothesis Hkeep : forall i, i <> 12%nat -> forallb (keeps i) (core ++ adv w tr) = true.
Definition result (tr : bool) (old key : list N) : list N := if tr then xor_bytes old key else key.
(** What is proved of the body on the machine of Model_X86. *)
Hypothesis Hbody : forall jr jt jb rounds n st m d sr, junk_ok jr jt jb -> rounds <> 0 -> length st = 16%nat -> words 32 st -> bytes m ->
  (d + 16 * w * n <= length m)%nat -> (tr = true -> (sr + 16 * w * n <= length m)%nat /\ apart d sr (16 * w * n)) -> (tr = false -> sr = 0%nat) ->
  exists r, Model_ChaChaAsm.routine w (core ++ adv w tr) jr jt jb rounds n st m d sr
  = Some (put m d (result tr (slice m sr (16 * w * n)) (blocks_rounds (N.to_nat rounds) st (per * n))), r).

Lemma four c : cipher_call s b (16 * w) tr c ->
  exists c', calls s b cpuid (chacha_code b w tr (core ++ adv w tr)) c
      (chacha_trace b w tr core (c_gpr c rsp) (argument b c 0) (argument b c 1) (argument b c 2) (argument b c 3) (if tr then argument b c 4 else 0)) (return_address c) c' /\
    returned b c (return_address c) c' /\ c_gpr c' rax = N.of_nat per * argument b c 1 /\
    mread (c_mem c') (argument b c 3) (16 * w * N.to_nat (argument b c 1))
    = result tr (mread (c_mem c) (argument b c 4) (16 * w * N.to_nat (argument b c 1)))
        (blocks_rounds (N.to_nat (argument b c 0)) (le_words 4 16 (mread (c_mem c) (argument b c 2) 64)) (per * N.to_nat (argument b c 1))) /\
    only_changes c c' (argument b c 3) (N.of_nat (16 * w) * argument b c 1) /\ (argument b c 1 <> 0 -> key_left b w c c').
Proof.
  intros [M En Hr [St1 St2] (D1 & D2 & D3) Hsrc].
  assert (EN : N.of_nat (16 * w) * argument b c 1 = N.of_nat (n b w c)) by (unfold n, blocks; lia).
  rewrite EN in *.
  assert (Hs : tr = true -> readable s (S0 b tr c) (N.of_nat (n b w c)) /\ off_stack s c (S0 b tr c) (N.of_nat (n b w c)) /\ (D0 b c = S0 b tr c \/ disjoint (D0 b c) (N.of_nat (n b w c)) (S0 b tr c) (N.of_nat (n b w c)))).
  { intros Ht. unfold S0, D0. rewrite Ht. apply Hsrc. exact Ht. }
  set (ms := map (fun o => c_mem c (phi b w tr c o)) (seq 0 (L b w tr c))).
  assert (Lms : length ms = L b w tr c) by (unfold ms; rewrite map_length, seq_length; reflexivity).
  set (st := blanes (mread (c_mem c) (ST b c) 64)).
  assert (Bms : bytes ms). { unfold ms. apply Forall_forall. intros x Hx. apply in_map_iff in Hx. destruct Hx as (o & <- & _). apply M. }
  assert (Lst : length st = 16%nat) by (unfold st; rewrite blanes_length, mread_length; reflexivity).
  assert (Wst : words 32 st) by (apply blanes_words, mread_bytes; apply M).
  assert (Hsr : tr = true -> (src0 b w tr c + 16 * w * N.to_nat (blocks b c) <= length ms)%nat /\ apart 0 (src0 b w tr c) (16 * w * N.to_nat (blocks b c))).
  { intros Ht. rewrite Lms. unfold L. change (16 * w * N.to_nat (blocks b c))%nat with (n b w c). split; [lia|].
    unfold src0. destruct (tr && _); [right; left; lia|left; reflexivity]. }
  assert (Hsl : tr = true -> slice ms (src0 b w tr c) (n b w c) = mread (c_mem c) (argument b c 4) (n b w c)).
  { intros Ht. symmetry. apply mread_eq.
    - rewrite slice_length; [reflexivity|]. apply (proj1 (Hsr Ht)).
    - intros i Hi. unfold slice. rewrite nth_firstn_lt by exact Hi. rewrite nth_skipn.
      pose proof (proj1 (Hsr Ht)) as Q. change (16 * w * N.to_nat (blocks b c))%nat with (n b w c) in Q. rewrite Lms in Q.
      unfold ms. erewrite nth_error_nth; [|apply nth_error_map_seq; lia]. unfold phi, src0, S0, D0. rewrite Ht. cbn [andb].
      destruct (N.eqb_spec (argument b c 3) (argument b c 4)) as [E|E]; cbn [negb].
      + destruct (Nat.ltb_spec (0 + i) (n b w c)); [rewrite E; reflexivity|lia].
      + destruct (Nat.ltb_spec (n b w c + i) (n b w c)); [lia|]. f_equal. f_equal. f_equal. lia. }
  destruct (main s b cpuid w tr core c Hw Hcore M En Hr St1 St2 D1 D2 D3 Hs
              (put ms 0 (result tr (slice ms (src0 b w tr c) (n b w c)) (blocks_rounds (N.to_nat (rounds b c)) st (per * N.to_nat (blocks b c)))))) as (c' & K & Rt & Ra & Mr & Oc & Rs).
  { intros jr jt jb J. apply Hbody; try assumption.
    - rewrite Lms. unfold L. change (16 * w * N.to_nat (blocks b c))%nat with (n b w c). lia.
    - intros Ht. unfold src0. rewrite Ht. reflexivity. }
  exists c'. split; [exact K|]. split; [exact Rt|]. split.
  { rewrite Ra. unfold ratio, blocks. destruct Hw as [Q|Q]; rewrite Q in *; cbn [Nat.eqb]; [replace per with 4%nat by lia|replace per with 8%nat by lia]; reflexivity. }
  split; [|split; [exact Oc|]].
  2: { intros Hb. exact (residue_key s b w tr core c c' Hw En M Hkeep (Rs Hb)). }
  change (16 * w * N.to_nat (argument b c 1))%nat with (n b w c). fold (D0 b c). rewrite Mr.
  assert (Lr : length (result tr (slice ms (src0 b w tr c) (n b w c)) (blocks_rounds (N.to_nat (rounds b c)) st (per * N.to_nat (blocks b c)))) = n b w c).
  { assert (Lk : length (blocks_rounds (N.to_nat (rounds b c)) st (per * N.to_nat (blocks b c))) = n b w c).
    { rewrite blocks_kbyte by assumption. rewrite map_length, seq_length. unfold n. nia. }
    unfold result. destruct tr eqn:Et; [|exact Lk]. rewrite xor_bytes_length; [exact Lk|]. rewrite Lk. apply slice_length. apply (proj1 (Hsr eq_refl)). }
  unfold put. rewrite firstn_O. cbn [app]. rewrite firstn_app, Lr, Nat.sub_diag, firstn_O, app_nil_r. rewrite firstn_all2 by lia.
  unfold result. destruct tr eqn:Et; [|reflexivity]. rewrite (Hsl eq_refl). reflexivity.
Qed.
End Four.

(** The bodies: everything but the last instructions, which advance the pointers. *)
Definition ssse_t : list instr := firstn (length ssse_transform_body - 2) ssse_transform_body.
Definition ssse_g : list instr := firstn (length ssse_generate_body - 1) ssse_generate_body.
Definition avx_t : list instr := firstn (length avx_transform_body - 2) avx_transform_body.
Definition avx_g : list instr := firstn (length avx_generate_body - 1) avx_generate_body.
Lemma ssse_t_eq : ssse_transform_body = ssse_t ++ adv 16 true. Proof. vm_compute. reflexivity. Qed.
Lemma ssse_g_eq : ssse_generate_body = ssse_g ++ adv 16 false. Proof. vm_compute. reflexivity. Qed.
Lemma avx_t_eq : avx_transform_body = avx_t ++ adv 32 true. Proof. vm_compute. reflexivity. Qed.
Lemma avx_g_eq : avx_generate_body = avx_g ++ adv 32 false. Proof. vm_compute. reflexivity. Qed.

Ltac body_keeps := intros i Hi; do 16 (destruct i as [|i]; [first [contradiction|vm_compute; reflexivity]|]); vm_compute; reflexivity.

Section Inst.
Variables (s : space) (b : abi) (cpuid : cpuid_fun).
Definition goal (code : list ainstr) (w per : nat) (tr : bool) (core : list instr) : Prop := forall c, cipher_call s b (16 * w) tr c ->
  exists c', calls s b cpuid code c
      (chacha_trace b w tr core (c_gpr c rsp) (argument b c 0) (argument b c 1) (argument b c 2) (argument b c 3) (if tr then argument b c 4 else 0)) (return_address c) c' /\
    returned b c (return_address c) c' /\ c_gpr c' rax = N.of_nat per * argument b c 1 /\
    mread (c_mem c') (argument b c 3) (16 * w * N.to_nat (argument b c 1))
    = result tr (mread (c_mem c) (argument b c 4) (16 * w * N.to_nat (argument b c 1)))
        (blocks_rounds (N.to_nat (argument b c 0)) (le_words 4 16 (mread (c_mem c) (argument b c 2) 64)) (per * N.to_nat (argument b c 1))) /\
    only_changes c c' (argument b c 3) (N.of_nat (16 * w) * argument b c 1) /\ (argument b c 1 <> 0 -> key_left b w c c').
Lemma ssse_3_transform_ok : goal (ssse_3_transform b) 16 4 true ssse_t.
Proof.
  unfold ssse_3_transform. rewrite ssse_t_eq. unfold goal. apply four.
  - left. reflexivity.
  - vm_compute. reflexivity.
  - reflexivity.
  - body_keeps.
  - intros jr jt jb rounds n st m d sr J R L W B Hd Hs _. destruct (Hs eq_refl) as [Hs1 Hs2]. eexists.
    rewrite <- ssse_t_eq. exact (ssse_transform_blocks jr jt jb rounds st m J R L W B n d sr Hd Hs1 Hs2).
Qed.
Lemma avx_2_transform_ok : goal (avx_2_transform b) 32 8 true avx_t.
Proof.
  unfold avx_2_transform. rewrite avx_t_eq. unfold goal. apply four.
  - right. reflexivity.
  - vm_compute. reflexivity.
  - reflexivity.
  - body_keeps.
  - intros jr jt jb rounds n st m d sr J R L W B Hd Hs _. destruct (Hs eq_refl) as [Hs1 Hs2]. eexists.
    rewrite <- avx_t_eq. exact (avx_transform_blocks jr jt jb rounds st m J R L W B n d sr Hd Hs1 Hs2).
Qed.
Lemma ssse_3_generate_ok : goal (ssse_3_generate b) 16 4 false ssse_g.
Proof.
  unfold ssse_3_generate. rewrite ssse_g_eq. unfold goal. apply four.
  - left. reflexivity.
  - vm_compute. reflexivity.
  - reflexivity.
  - body_keeps.
  - intros jr jt jb rounds n st m d sr J R L W B Hd _ Hs. rewrite (Hs eq_refl). eexists.
    rewrite <- ssse_g_eq. exact (ssse_generate_blocks jr jt jb rounds st m J R L W B n d Hd).
Qed.
Lemma avx_2_generate_ok : goal (avx_2_generate b) 32 8 false avx_g.
Proof.
  unfold avx_2_generate. rewrite avx_g_eq. unfold goal. apply four.
  - right. reflexivity.
  - vm_compute. reflexivity.
  - reflexivity.
  - body_keeps.
  - intros jr jt jb rounds n st m d sr J R L W B Hd _ Hs. rewrite (Hs eq_refl). eexists.
    rewrite <- avx_g_eq. exact (avx_generate_blocks jr jt jb rounds st m J R L W B n d Hd).
Qed.

(** The trace depends on the stack pointer and the arguments only. *)
Lemma goal_ct code w per tr core : goal code w per tr core -> forall c1 c2, cipher_call s b (16 * w) tr c1 -> cipher_call s b (16 * w) tr c2 ->
  c_gpr c1 rsp = c_gpr c2 rsp -> (forall i, (i < 4)%nat \/ (i < 5)%nat /\ tr = true -> argument b c1 i = argument b c2 i) ->
  forall t1 ra1 c1' t2 ra2 c2', calls s b cpuid code c1 t1 ra1 c1' -> calls s b cpuid code c2 t2 ra2 c2' -> t1 = t2.
Proof.
  intros G c1 c2 C1 C2 Es Ea t1 ra1 c1' t2 ra2 c2' H1 H2.
  destruct (G c1 C1) as (d1 & K1 & _). destruct (G c2 C2) as (d2 & K2 & _).
  destruct (runs_det _ _ _ _ _ _ _ _ _ H1 _ _ _ K1) as (-> & _). destruct (runs_det _ _ _ _ _ _ _ _ _ H2 _ _ _ K2) as (-> & _).
  rewrite Es, !Ea by lia. destruct tr; [|reflexivity]. rewrite Ea by (right; split; [lia|reflexivity]). reflexivity.
Qed.
End Inst.
