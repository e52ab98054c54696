(** C68 in the terms of the statements. *)
From Verif Require Import Base BaseLemmas BytesLemmas Spec_Bytes Spec_ChaCha Spec_Cipher Model_Memory Model_Cipher Model_X86
  Spec_ChaChaAsm Model_ChaChaAsm Proof_CodecApi Proof_ChaChaCore Proof_ChaCha Proof_X86Sym Proof_ChaChaAsm Proof_ChaChaAsm3 Proof_ChaChaAsm4 Proof_Moves2 Spec_Moves Spec_Range Proof_Range.
Local Open Scope N_scope.

Lemma used_ext size turn f g e t T : size <> 0%nat -> (length t mod size = 0)%nat -> (forall j, (j < length t)%nat -> f j = g j) ->
  used_text size turn f e t T -> used_text size turn g e t T.
Proof.
  intros Hs HM H [U1 U2]. split; [exact U1|]. intros q Hq. rewrite (U2 q Hq). destruct (overtaken size turn e (q mod size)) eqn:O; [|reflexivity].
  rewrite H; [reflexivity|]. unfold overtaken in O. apply andb_prop in O. destruct O as [O _]. apply Nat.ltb_lt in O.
  pose proof (Nat.div_mod q size Hs) as D. pose proof (Nat.div_mod (length t) size Hs) as E. rewrite HM, Nat.add_0_r in E.
  assert (q / size < length t / size)%nat by (apply Nat.div_lt_upper_bound; lia). nia.
Qed.
Lemma nth_ks r st n j : length st = 16%nat -> words 32 st -> (j < 64 * n)%nat -> kbyte r st j = nth j (blocks_rounds r st n) 0.
Proof.
  intros L W H. rewrite blocks_kbyte by assumption. symmetry. rewrite (nth_map_seq (kbyte r st)) by exact H. reflexivity.
Qed.
Lemma xor_ks r st n T : length st = 16%nat -> words 32 st -> length T = (64 * n)%nat -> xor_with (kbyte r st) 0 T = xor_bytes T (blocks_rounds r st n).
Proof. intros L W H. rewrite blocks_kbyte by assumption. rewrite <- H. symmetry. apply xor_bytes_with. Qed.

Lemma ssse_exact regs temp base rounds st m n dst e :
  junk_ok regs temp base -> rounds <> 0 -> length st = 16%nat -> words 32 st -> bytes m -> (dst + e + 256 * n <= length m)%nat ->
  let ks := blocks_rounds (N.to_nat rounds) st (4 * n) in
  exists text, used_text 256 ssse_turn (fun j => nth j ks 0) e (slice m (dst + e) (256 * n)) text /\
    asm_ssse_transform regs temp base rounds n st m dst (dst + e) = Some (put m dst (xor_bytes text ks), (4 * n)%nat).
Proof.
  intros J R L W Hm H ks. destruct (ssse_move regs temp base rounds n st m dst e J L W Hm H) as (T & U & _ & E).
  assert (LS : length (slice m (dst + e) (256 * n)) = (256 * n)%nat) by (apply slice_length; exact H).
  rewrite times_nonzero in U, E by exact R. exists T. split.
  - eapply used_ext; [discriminate|rewrite LS, Nat.mul_comm; apply Nat.mod_mul; discriminate| |exact U].
    intros j Hj. rewrite LS in Hj. apply nth_ks; [exact L|exact W|lia].
  - rewrite E. rewrite xor_ks with (n := (4 * n)%nat); [reflexivity|exact L|exact W|]. destruct U as [U _]. rewrite U, LS. lia.
Qed.
Lemma avx_exact regs temp base rounds st m n dst e :
  junk_ok regs temp base -> rounds <> 0 -> length st = 16%nat -> words 32 st -> bytes m -> (dst + e + 512 * n <= length m)%nat ->
  let ks := blocks_rounds (N.to_nat rounds) st (8 * n) in
  exists text, used_text 512 avx_turn (fun j => nth j ks 0) e (slice m (dst + e) (512 * n)) text /\
    asm_avx_transform regs temp base rounds n st m dst (dst + e) = Some (put m dst (xor_bytes text ks), (8 * n)%nat).
Proof.
  intros J R L W Hm H ks. destruct (avx_move regs temp base rounds n st m dst e J L W Hm H) as (T & U & _ & E).
  assert (LS : length (slice m (dst + e) (512 * n)) = (512 * n)%nat) by (apply slice_length; exact H).
  rewrite times_nonzero in U, E by exact R. exists T. split.
  - eapply used_ext; [discriminate|rewrite LS, Nat.mul_comm; apply Nat.mod_mul; discriminate| |exact U].
    intros j Hj. rewrite LS in Hj. apply nth_ks; [exact L|exact W|lia].
  - rewrite E. rewrite xor_ks with (n := (8 * n)%nat); [reflexivity|exact L|exact W|]. destruct U as [U _]. rewrite U, LS. lia.
Qed.

Section AFTER.
  Context (cx : ctx) (B : backend) (BO : backend_ok cx B) (turn : nat -> nat).
  Let BS := bk_block B.
  Hypothesis M : forall n st m d e, length st = 16%nat -> words 32 st -> bytes m -> (d + e + BS * n <= length m)%nat ->
    exists T, used_text BS turn (st_byte st) e (slice m (d + e) (BS * n)) T /\ bytes T /\
      bk_transform B cx n st m d (d + e) = Some (put m d (xor_with (st_byte st) 0 T), (bk_ratio B * n)%nat).
  Context (shift : nat -> Prop).
  Hypothesis Bad : forall e, ~ shift e -> exists q, (q + e < BS)%nat /\ overtaken BS turn e q = true /\ overtaken BS turn e (q + e) = false.
  Lemma hit_after key iv before e : bytes key -> bytes iv -> Forall ccall_ok before -> ~ shift e ->
    match stands key iv 0 before with (key', iv', pos) =>
      exists j, (j + e < 2 * BS - 1)%nat /\
      forall dir m dst n, bytes m -> (dst + e + n <= length m)%nat -> (2 * BS - 1 <= n)%nat ->
      exists o o1 outs o2 r, capie_new cx key iv = Some o /\ cipher_run B cx o before = Some (o1, outs) /\
        capie_crypt dir B cx o1 m (dst + e) n dst = Some (o2, put m dst r, n) /\ length r = n /\
        nth j r 0 = N.lxor (N.lxor (nth (dst + e + j + e) m 0) (api_byte key' iv' (pos + j + e))) (api_byte key' iv' (pos + j))
    end.
  Proof.
    intros Hk Hv Hc He. destruct (Bad e He) as (q & Q1 & Q2 & Q3).
    destruct (initialize_spec cx B cc_new key iv cc_new_wf Hk Hv) as (o & E & I).
    destruct (run_moves cx B BO (fun _ => False) (fun _ _ _ _ H => False_ind _ H) before key iv 0 o Hk Hv) as (o1 & R & S); [|exact I|].
    { eapply Forall_impl; [|exact Hc]. intros c H. left. exact H. }
    destruct (stands key iv 0 before) as [[key' iv'] pos]. destruct S as (Hk' & Hv' & I').
    destruct (api_state_ok key' iv' Hk' Hv') as [L W].
    destruct (any_hit cx B BO turn M _ L W o1 pos e q I' Q1 Q2 Q3) as (j & Hj & H). fold BS in Hj, H.
    exists j. split; [lia|]. intros dir m dst n Hm Hn Hb. destruct (H dir m dst n Hm Hn ltac:(lia)) as (o2 & r & Lr & _ & C & _ & N).
    exists o, o1, (cexpected key iv 0 before), o2, r. split; [exact E|]. split; [exact R|]. split; [exact C|]. split; [exact Lr|].
    rewrite N. rewrite !api_byte_state. reflexivity.
  Qed.
End AFTER.
