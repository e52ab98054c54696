(** The assembly backends leave the sizes; the theorems for the AEAD. *)
From Verif Require Import Base BaseLemmas Spec_Bytes Model_Memory Model_Dispatch Model_Cipher Spec_Cipher Model_Aead Spec_Aead Proof_Aead
  Model_X86 Model_ChaChaAsm Spec_ChaChaAsm Proof_ChaCha Proof_ChaChaAsm3 Model_Leak Spec_Leak Proof_Leak Proof_Leak2.
Local Open Scope N_scope.

Ltac inv_bind H := match type of H with bind ?x _ = Some _ => let E := fresh "E" in destruct x eqn:E; [cbn [bind] in H|discriminate H] end.
Lemma setreg_mem m d v m' : setreg m d v = Some m' -> length (mc_mem m') = length (mc_mem m).
Proof. unfold setreg. intros H. inv_bind H. assert (m' = with_reg m l) as -> by congruence. reflexivity. Qed.
Lemma set_mem m o v m' : Model_X86.set m o v = Some m' -> length (mc_mem m') = length (mc_mem m).
Proof.
  destruct o; cbn [Model_X86.set]; intros H; try discriminate H.
  - exact (setreg_mem _ _ _ _ H).
  - inv_bind H. assert (m' = with_tmp m l) as -> by congruence. reflexivity.
  - inv_bind H. assert (m' = with_base m l) as -> by congruence. reflexivity.
  - inv_bind H. assert (m' = with_mem m l) as -> by congruence. cbn [with_mem mc_mem]. exact (wrs_length _ _ _ _ E).
Qed.
Lemma exec_mem w m i m' : exec w m i = Some m' -> length (mc_mem m') = length (mc_mem m).
Proof.
  unfold exec. destruct (may_fault w i); [discriminate|]. destruct i; intros H; repeat inv_bind H;
    first [exact (setreg_mem _ _ _ _ H)|exact (set_mem _ _ _ _ H)|idtac].
  - assert (m' = with_ptr m (mc_dst m + n)%nat (mc_src m)) as -> by congruence. reflexivity.
  - assert (m' = with_ptr m (mc_dst m) (mc_src m + n)%nat) as -> by congruence. reflexivity.
Qed.
Lemma run_mem w : forall p m m', run w p m = Some m' -> length (mc_mem m') = length (mc_mem m).
Proof.
  induction p as [|i p IH]; intros m m' H; cbn [run] in H.
  - assert (m' = m) as -> by congruence. reflexivity.
  - inv_bind H. rewrite (IH _ _ H). exact (exec_mem _ _ _ _ E).
Qed.
Lemma repeat_run_mem w p : forall n m m', repeat_run w p n m = Some m' -> length (mc_mem m') = length (mc_mem m).
Proof.
  induction n as [|n IH]; intros m m' H; cbn [repeat_run] in H.
  - assert (m' = m) as -> by congruence. reflexivity.
  - inv_bind H. rewrite (IH _ _ H). exact (run_mem _ _ _ _ E).
Qed.
Lemma one_block_mem w body r m m' : one_block w body r m = Some m' -> length (mc_mem m') = length (mc_mem m).
Proof.
  unfold one_block. generalize (times r). intros k H. inv_bind H. rewrite (run_mem _ _ _ _ H). exact (repeat_run_mem _ _ _ _ _ E).
Qed.
Lemma more_blocks_mem w body r : forall n m m', more_blocks w body r n m = Some m' -> length (mc_mem m') = length (mc_mem m).
Proof.
  induction n as [|n IH]; intros m m' H; cbn [more_blocks] in H.
  - assert (m' = m) as -> by congruence. reflexivity.
  - inv_bind H. inv_bind H. rewrite (IH _ _ H), (one_block_mem _ _ _ _ _ E0). exact (run_mem _ _ _ _ E).
Qed.
Lemma routine_mem w body jr jt jb r n st mem d s mem' k : Model_ChaChaAsm.routine w body jr jt jb r n st mem d s = Some (mem', k) ->
  length mem' = length mem /\ k = ((if (w =? 32)%nat then 8 else 4) * n)%nat.
Proof.
  unfold Model_ChaChaAsm.routine. generalize (blocks_init w). intros bi. destruct n as [|n]; intros H.
  - split; congruence.
  - inv_bind H. inv_bind H. inv_bind H. split; [|congruence]. assert (mem' = mc_mem m1) as -> by congruence.
    rewrite (more_blocks_mem _ _ _ _ _ _ E1), (one_block_mem _ _ _ _ _ E0), (run_mem _ _ _ _ E). reflexivity.
Qed.
Lemma asm_silent cx (B : backend) c :
  (forall n st m d s m' k, bk_transform B cx n st m d s = Some (m', k) -> length m' = length m /\ k = (c * n)%nat) ->
  (forall n st b b' k, bk_generate B cx n st b = Some (b', k) -> length b' = length b /\ k = (c * n)%nat) ->
  lb_silent cx (lbk_asm B).
Proof.
  intros Ht Hg. split; intros; cbn [lb_transform lb_generate lbk_asm]; (apply same_emit; [reflexivity|]); apply same_lift;
    intros [a i] [b0 j] Ea Eb; split; cbn [fst snd].
  - unfold RL in *. destruct (Ht _ _ _ _ _ _ _ Ea) as [-> _], (Ht _ _ _ _ _ _ _ Eb) as [-> _]. assumption.
  - destruct (Ht _ _ _ _ _ _ _ Ea) as [_ ->], (Ht _ _ _ _ _ _ _ Eb) as [_ ->]. reflexivity.
  - unfold RL in *. destruct (Hg _ _ _ _ _ Ea) as [-> _], (Hg _ _ _ _ _ Eb) as [-> _]. assumption.
  - destruct (Hg _ _ _ _ _ Ea) as [_ ->], (Hg _ _ _ _ _ Eb) as [_ ->]. reflexivity.
Qed.
Lemma ssse_3_silent cx jr jt jb : lb_silent cx (lbk_asm (bk_ssse_3 jr jt jb)).
Proof.
  apply asm_silent with (c := 4%nat); cbn [bk_transform bk_generate bk_ssse_3]; unfold asm_ssse_transform, asm_ssse_generate; intros.
  - exact (routine_mem 16 _ _ _ _ _ _ _ _ _ _ _ _ H).
  - exact (routine_mem 16 _ _ _ _ _ _ _ _ _ _ _ _ H).
Qed.
Lemma avx_2_silent cx jr jt jb : lb_silent cx (lbk_asm (bk_avx_2 jr jt jb)).
Proof.
  apply asm_silent with (c := 8%nat); cbn [bk_transform bk_generate bk_avx_2]; unfold asm_avx_transform, asm_avx_generate; intros.
  - exact (routine_mem 32 _ _ _ _ _ _ _ _ _ _ _ _ H).
  - exact (routine_mem 32 _ _ _ _ _ _ _ _ _ _ _ _ H).
Qed.

Lemma shipped_ok cx B : shipped B -> backend_ok cx (lb_bk B) /\ lb_erases cx B /\ lb_silent cx B.
Proof.
  intros [->|(jr & jt & jb & J & [->| ->])].
  - split; [apply bk_sw_ok|split; [apply lbk_sw_erases|apply lbk_sw_silent]].
  - split; [apply ssse_3_backend; exact J|split; [apply lbk_asm_erases|apply ssse_3_silent]].
  - split; [apply avx_2_backend; exact J|split; [apply lbk_asm_erases|apply avx_2_silent]].
Qed.
Lemma aead_ct cx B dsz p1 p2 calls1 calls2 t1 r1 t2 r2 : shipped B -> aead_shape p1 = aead_shape p2 -> map shape calls1 = map shape calls2 ->
  l_aead_run B cx dsz p1 calls1 = Some (t1, r1) -> l_aead_run B cx dsz p2 calls2 = Some (t2, r2) -> same_trace t1 t2.
Proof.
  intros HB Hp Hc E1 E2. destruct (shipped_ok cx B HB) as (_ & _ & Hs).
  exact (proj1 (s_aead_run B cx Hs dsz calls1 calls2 p1 p2 (Rap_shape _ _ Hp) Hc _ _ _ _ E1 E2)).
Qed.
Lemma erase_some {A} (m : L A) a : erase m = Some a -> exists t, m = Some (t, a).
Proof. destruct m as [[t b]|]; [|discriminate]. cbn [erase]. intros H. exists t. congruence. Qed.
Lemma aead_ct_total cx B dsz key1 iv1 calls1 key2 iv2 calls2 : shipped B -> (dsz <= 16)%nat ->
  bytes key1 -> bytes iv1 -> bytes key2 -> bytes iv2 -> Forall (acall_ok dsz) calls1 -> Forall (acall_ok dsz) calls2 ->
  length key1 = length key2 -> length iv1 = length iv2 -> map shape calls1 = map shape calls2 ->
  exists t1 p1 outs1 t2 p2 outs2,
    l_aead_run B cx dsz aead_fresh (AInit key1 iv1 :: calls1) = Some (t1, (p1, outs1)) /\
    l_aead_run B cx dsz aead_fresh (AInit key2 iv2 :: calls2) = Some (t2, (p2, outs2)) /\ same_trace t1 t2.
Proof.
  intros HB Hd Hk1 Hv1 Hk2 Hv2 Hc1 Hc2 Lk Lv Hs. destruct (shipped_ok cx B HB) as (BO & HE & _).
  assert (T : forall key iv calls, bytes key -> bytes iv -> Forall (acall_ok dsz) calls ->
     exists t p outs, l_aead_run B cx dsz aead_fresh (AInit key iv :: calls) = Some (t, (p, outs))).
  { intros key iv calls Hk Hv Hc. destruct (arun_total cx (lb_bk B) BO dsz Hd key iv calls Hk Hv Hc) as (p & [q outs] & E & R & _).
    destruct (erase_some (l_aead_run B cx dsz aead_fresh (AInit key iv :: calls)) (q, ANone :: outs)) as [t Et]; [|exists t, q, (ANone :: outs); exact Et].
    rewrite e_aead_run by exact HE. cbn [aead_run aead_step]. unfold aapie_new, aapie_new_from in E. unfold aead_fresh. rewrite E. cbn [bind]. rewrite R. reflexivity. }
  destruct (T key1 iv1 calls1 Hk1 Hv1 Hc1) as (t1 & p1 & o1 & E1). destruct (T key2 iv2 calls2 Hk2 Hv2 Hc2) as (t2 & p2 & o2 & E2).
  exists t1, p1, o1, t2, p2, o2. split; [exact E1|split; [exact E2|]].
  refine (aead_ct cx B dsz _ _ _ _ _ _ _ _ HB eq_refl _ E1 E2). cbn [map shape]. unfold blank. rewrite Lk, Lv, Hs. reflexivity.
Qed.

(** memory_match makes no verdict-dependent step at all. *)
Definition quiet {A} (m : L A) : Prop := forall t a, m = Some (t, a) -> map hide t = t.
Lemma quiet_bind {A B} (m : L A) (f : A -> L B) : quiet m -> (forall a, quiet (f a)) -> quiet (lbind m f).
Proof.
  intros Hm Hf t b. unfold lbind. destruct m as [[u a]|]; [|discriminate]. destruct (f a) as [[v c]|] eqn:E; [|discriminate].
  intros X. assert (t = u ++ v) as -> by congruence. rewrite map_app, (Hm u a eq_refl), (Hf a v c E). reflexivity.
Qed.
Lemma quiet_emit t : map hide t = t -> quiet (emit t).
Proof. intros H u a X. unfold emit in X. assert (u = t) as -> by congruence. exact H. Qed.
Lemma quiet_ret {A} (a : A) : quiet (ret a).
Proof. intros t b X. unfold ret in X. assert (t = []) as -> by congruence. reflexivity. Qed.
Lemma quiet_lift {A} (x : option A) : quiet (lift x).
Proof. intros t b X. unfold lift in X. destruct x; [|discriminate]. assert (t = []) as -> by congruence. reflexivity. Qed.
Lemma quiet_lrd p l i : quiet (lrd p l i).
Proof. unfold lrd. apply quiet_bind; [apply quiet_emit; reflexivity|intros; apply quiet_lift]. Qed.
Lemma quiet_load_loop vs ps p a seg : forall is v, quiet (l_load_loop vs ps p a seg is v).
Proof.
  induction is as [|i is IH]; intros v; cbn [l_load_loop]; (apply quiet_bind; [apply quiet_emit; reflexivity|intros _]); [apply quiet_ret|].
  apply quiet_bind; [apply quiet_lrd|intros; apply IH].
Qed.
Lemma quiet_load cx vs ps p a off : quiet (l_load cx vs ps p a off).
Proof.
  unfold l_load. destruct (vs =? ps)%nat; [apply quiet_lrd|]. destruct (cx_ce cx).
  - cbv zeta. destruct (0 <? vs mod ps)%nat; [|apply quiet_load_loop]. apply quiet_bind; [apply quiet_lrd|intros; apply quiet_ret].
  - apply quiet_bind; [apply quiet_emit; reflexivity|intros _]. apply quiet_bind; [apply quiet_lift|intros; apply quiet_ret].
Qed.
Lemma quiet_match_loop cx pa pb p q a b : forall n i t, quiet (l_match_loop cx pa pb p q a b i n t).
Proof.
  induction n as [|n IH]; intros i t; cbn [l_match_loop]; (apply quiet_bind; [apply quiet_emit; reflexivity|intros _]); [apply quiet_ret|].
  apply quiet_bind; [apply quiet_load|intros x]. apply quiet_bind; [apply quiet_load|intros y]. apply IH.
Qed.
Lemma quiet_match cx pa pb p q a b n : quiet (l_match cx pa pb p q a b n).
Proof. unfold l_match. apply quiet_bind; [apply quiet_match_loop|intros; apply quiet_ret]. Qed.
Lemma quiet_match_c cx pa pb p q a b : quiet (l_match_c cx pa pb p q a b).
Proof. unfold l_match_c. apply quiet_bind; [apply quiet_match|intros; apply quiet_ret]. Qed.
Lemma match_ct cx pa pb p q a b a' b' n t r t' r' :
  l_match cx pa pb p q a b n = Some (t, r) -> l_match cx pa pb p q a' b' n = Some (t', r') -> t = t'.
Proof.
  intros E E'. rewrite <- (quiet_match _ _ _ _ _ _ _ _ _ _ E), <- (quiet_match _ _ _ _ _ _ _ _ _ _ E').
  exact (proj1 (s_match cx pa pb p q a a' b b' n _ _ _ _ E E')).
Qed.
Lemma match_c_ct cx pa pb p q a b a' b' t r t' r' : length a = length a' -> length b = length b' ->
  l_match_c cx pa pb p q a b = Some (t, r) -> l_match_c cx pa pb p q a' b' = Some (t', r') -> t = t'.
Proof.
  intros La Lb E E'. rewrite <- (quiet_match_c _ _ _ _ _ _ _ _ _ E), <- (quiet_match_c _ _ _ _ _ _ _ _ _ E').
  exact (proj1 (s_match_c cx pa pb p q a a' b b' La Lb _ _ _ _ E E')).
Qed.
