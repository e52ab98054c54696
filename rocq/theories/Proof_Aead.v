(** AEAD: correctness of every overload and history. *)
From Verif Require Import Base BaseLemmas BytesLemmas Spec_Bytes Spec_ChaCha Spec_Poly Spec_Range Spec_Cipher Spec_Hash Spec_Aead
  Model_Memory Model_Update Model_Container Model_Sha Model_Mac Model_Hmac Model_Poly Model_Cipher Model_Aead
  Proof_Memory Proof_Memory2 Proof_Memory3 Proof_CodecApi Proof_Mac Proof_Poly Proof_Range Proof_ChaChaCore Proof_ChaCha.
Local Open Scope N_scope.

Lemma put_all (l x : list N) : length x = length l -> put l 0 x = x.
Proof. intros H. unfold put. rewrite firstn_O, skipn_all2 by lia. apply app_nil_r. Qed.
Lemma put_after (t l x : list N) : length x = length t -> (length t <= length l)%nat ->
  skipn (length t) (put (t ++ l) (length t) x) = x ++ skipn (length t) l.
Proof.
  intros E H. unfold put. rewrite firstn_app, firstn_all, Nat.sub_diag, firstn_O, app_nil_r.
  rewrite skipn_app, skipn_all, Nat.sub_diag, skipn_O. cbn [app]. f_equal.
  rewrite skipn_app, skipn_all2 by lia. cbn [app]. f_equal. lia.
Qed.
Lemma slice_app_l (t l : list N) : slice (t ++ l) 0 (length t) = t.
Proof. unfold slice. rewrite skipn_O, firstn_app, firstn_all, Nat.sub_diag, firstn_O. apply app_nil_r. Qed.

Lemma mem_init_1 cx dst src : bytes src -> mem_init cx 1 1 dst src = Some (pad_to (length dst) src).
Proof.
  intros Hs. unfold mem_init. rewrite mem_zero_all. cbn [bind]. rewrite repeat_length, !Nat.mul_1_r.
  rewrite copy_bytes; [|apply bytes_repeat0|exact Hs|lia|rewrite repeat_length; lia].
  f_equal. unfold pad_to. f_equal.
  - destruct (Nat.le_ge_cases (length dst) (length src)); [rewrite Nat.min_l by lia; reflexivity|].
    rewrite Nat.min_r by lia. rewrite !firstn_all2 by lia. reflexivity.
  - rewrite skipn_repeat. f_equal. lia.
Qed.

Lemma land15 x : N.land x 15 = x mod 16.
Proof. change 15 with (N.ones 4). apply N.land_ones. Qed.
Lemma zeros_spec n : aead_zeros (N.of_nat n mod 2 ^ 64) = Some (pad16 n).
Proof.
  unfold aead_zeros, pad16. rewrite land15.
  replace ((N.of_nat n mod 2 ^ 64) mod 16) with (N.of_nat (n mod 16)).
  2:{ rewrite Nat2N.inj_mod. change (N.of_nat 16) with 16. change (2 ^ 64) with (16 * 2 ^ 60).
      rewrite N.mod_mul_r by discriminate. rewrite (N.mul_comm 16), N.mod_add by discriminate. symmetry. apply N.mod_mod. discriminate. }
  assert (H : (n mod 16 < 16)%nat) by (apply Nat.mod_upper_bound; lia).
  replace ((16 - N.of_nat (n mod 16)) mod 16) with (N.of_nat ((16 - n mod 16) mod 16)).
  2:{ rewrite Nat2N.inj_mod, Nat2N.inj_sub. reflexivity. }
  rewrite Nat2N.id. assert (H2 : ((16 - n mod 16) mod 16 < 16)%nat) by (apply Nat.mod_upper_bound; lia).
  rewrite rds_slice by (rewrite repeat_length; lia). unfold slice. rewrite skipn_O. f_equal.
  generalize dependent ((16 - n mod 16) mod 16)%nat. clear. intros k Hk.
  replace 16%nat with (k + (16 - k))%nat by lia. rewrite repeat_app, firstn_app, repeat_length, Nat.sub_diag, firstn_O, app_nil_r.
  apply firstn_all2. rewrite repeat_length. lia.
Qed.
Lemma pad16_bytes n : bytes (pad16 n).
Proof. apply bytes_repeat0. Qed.
Lemma pad16_chunk n : chunk (pad16 n).
Proof.
  split; [apply pad16_bytes|]. unfold pad16. rewrite repeat_length.
  assert (H2 : ((16 - n mod 16) mod 16 < 16)%nat) by (apply Nat.mod_upper_bound; lia). change (2 ^ 64) with 18446744073709551616. lia.
Qed.

Lemma lengths_spec cx a b : a < 2 ^ 64 -> b < 2 ^ 64 ->
  (x <- mem_stor_le cx 8 1 (repeat 0 16) 0 a ;; mem_stor_le cx 8 1 x 1 b) = Some (le_enc 8 a ++ le_enc 8 b).
Proof.
  intros Ha Hb. assert (I8 : int_size 8) by (right; right; right; reflexivity).
  rewrite mem_stor_le_bytes; [|exact I8|apply bytes_repeat0|exact Ha|cbn; lia].
  rewrite wrs_put by (rewrite le_enc_length; cbn; lia). cbn [bind]. unfold put. rewrite le_enc_length.
  change (firstn (0 * 8) (repeat 0 16)) with (@nil N). change (skipn (0 * 8 + 8) (repeat 0 16)) with (repeat 0 8). cbn [app].
  rewrite mem_stor_le_bytes; [|exact I8|apply bytes_app; split; [apply le_enc_bytes|apply bytes_repeat0]|exact Hb|rewrite app_length, le_enc_length, repeat_length; lia].
  rewrite wrs_put by (rewrite app_length, !le_enc_length, repeat_length; lia).
  reflexivity.
Qed.

Lemma le_enc_mod64 n : le_enc 8 (n mod 2 ^ 64) = le_enc 8 n.
Proof. change (2 ^ 64) with (256 ^ N.of_nat 8). apply le_enc_mod. Qed.

(** *** The state of the inner cipher *)
Definition iv16 (iv : list N) : list N := repeat 0 4 ++ pad_to 12 iv.
Lemma pad_to_length n l : length (pad_to n l) = n.
Proof. unfold pad_to. rewrite app_length, firstn_length, repeat_length. lia. Qed.
Lemma pad_to_bytes n l : bytes l -> bytes (pad_to n l).
Proof. intros H. apply bytes_app. split; [apply bytes_firstn, H|apply bytes_repeat0]. Qed.
Lemma iv16_bytes iv : bytes iv -> bytes (iv16 iv).
Proof. intros H. apply bytes_app. split; [apply bytes_repeat0|apply pad_to_bytes, H]. Qed.
Lemma iv16_length iv : length (iv16 iv) = 16%nat.
Proof. unfold iv16. rewrite app_length, repeat_length, pad_to_length. reflexivity. Qed.
Definition ast (key iv : list N) : list N := api_state key (iv16 iv).
Lemma ast_state key iv : ast key iv = chacha20_state (pad_to 32 key) 0 (pad_to 12 iv).
Proof.
  unfold ast, api_state, iv_counter, iv_nonce. rewrite (pad_to_id 16) by apply iv16_length. unfold iv16.
  change (firstn 4 (repeat 0 4 ++ pad_to 12 iv)) with ([0; 0; 0; 0]).
  change (skipn 4 (repeat 0 4 ++ pad_to 12 iv)) with (pad_to 12 iv). reflexivity.
Qed.
Lemma ast_byte key iv j : st_byte (ast key iv) (64 + j) = chacha20_byte (pad_to 32 key) 1 (pad_to 12 iv) j.
Proof.
  rewrite ast_state, <- chacha20_byte_state. unfold chacha20_byte.
  replace ((64 + j) mod 64)%nat with (j mod 64)%nat.
  2:{ replace (64 + j)%nat with (j + 1 * 64)%nat by lia. rewrite Nat.mod_add by discriminate. reflexivity. }
  replace ((64 + j) / 64)%nat with (S (j / 64)).
  2:{ replace (64 + j)%nat with (j + 1 * 64)%nat by lia. rewrite Nat.div_add by discriminate. lia. }
  apply (f_equal (fun c => nth (j mod 64) (chacha20_block (pad_to 32 key) (c mod 2 ^ 32) (pad_to 12 iv)) 0)). lia.
Qed.
Definition mkey (key iv : list N) : list N := xor_with (st_byte (ast key iv)) 0 (repeat 0 64).
Lemma mkey_bytes key iv : bytes (mkey key iv).
Proof. apply xor_with_bytes; [apply st_byte_byte|apply bytes_repeat0]. Qed.
Lemma mkey_otk key iv : bytes key -> bytes iv -> pad_to 32 (mkey key iv) = aead_otk (pad_to 32 key) (pad_to 12 iv).
Proof.
  intros Hk Hv. unfold aead_otk, chacha20_block. rewrite <- ast_state.
  destruct (api_state_ok key (iv16 iv) Hk (iv16_bytes iv Hv)) as [L W]. fold (ast key iv) in L, W.
  unfold pad_to. assert (Lm : length (mkey key iv) = 64%nat) by (unfold mkey; rewrite xor_with_length; apply repeat_length).
  replace (32 - length (mkey key iv))%nat with 0%nat by lia. cbn [repeat]. rewrite app_nil_r. apply (f_equal (firstn 32)).
  apply (nth_ext _ _ 0 0); [rewrite Lm, core_block_length by assumption; reflexivity|].
  intros i Hi. rewrite Lm in Hi. unfold mkey. rewrite nth_xor_with by (rewrite repeat_length; exact Hi).
  rewrite nth_repeat. rewrite N.lxor_0_l. cbn [Nat.add]. unfold st_byte. rewrite Nat.mod_small, Nat.div_small by exact Hi.
  change (N.of_nat 0) with 0. rewrite at_ctr_0 by assumption. reflexivity.
Qed.

Lemma wadd_count n k : wadd 64 (N.of_nat n mod 2 ^ 64) (N.of_nat k) = N.of_nat (n + k) mod 2 ^ 64.
Proof. unfold wadd. rewrite N.add_mod_idemp_l by discriminate. rewrite Nat2N.inj_add. reflexivity. Qed.

Section Aead.
  Context (cx : ctx) (B : backend) (BO : backend_ok cx B) (dsz : nat) (Hd : (dsz <= 16)%nat).
  Let OK := poly_host true cx dsz Hd.
  Let M := mac_poly dsz.
  Let out (o : poly_obj) : list N := flat_map (le_enc 4) (po_acc o).

  Lemma upd_pair o1 o2 m : peq o1 o2 -> chunk m ->
    exists o1' o2', poly_update true cx o1 m = Some o1' /\ poly_update true cx o2 m = Some o2' /\ peq o1' o2'.
  Proof. exact (mo_upd _ _ _ _ _ _ _ OK o1 o2 m). Qed.
  Lemma upd_hold k m o x : phold (host_key (cx_big cx) k) m o -> chunk x ->
    exists o', poly_update true cx o x = Some o' /\ phold (host_key (cx_big cx) k) (m ++ x) o'.
  Proof.
    intros H Hx. destruct (upd_pair o o x (peq_refl o (ph_wf _ _ _ H)) Hx) as (o' & _ & E & _).
    exists o'. split; [exact E|]. exact (mo_updh _ _ _ _ _ _ _ OK k m o x o' H Hx E).
  Qed.
  Lemma fin_pair o1 o2 : peq o1 o2 ->
    exists o1' o2', poly_finalize true cx o1 = Some o1' /\ poly_finalize true cx o2 = Some o2' /\ peq o1' o2'.
  Proof. exact (mo_fin _ _ _ _ _ _ _ OK o1 o2). Qed.
  Lemma fin_hold k m o : phold (host_key (cx_big cx) k) m o ->
    exists o', poly_finalize true cx o = Some o' /\ peq o' o' /\ firstn dsz (out o') = firstn dsz (poly1305_on (cx_big cx) (pad_to 32 k) m).
  Proof.
    intros H. destruct (fin_pair o o (peq_refl o (ph_wf _ _ _ H))) as (o1 & o2 & E1 & E2 & P).
    exists o1. split; [exact E1|]. split; [apply peq_refl; apply P|]. unfold poly1305_on. rewrite <- host_pad. exact (mo_finh _ _ _ _ _ _ _ OK k m o o1 H E1).
  Qed.
  Lemma out_len o : peq o o -> length (firstn dsz (out o)) = dsz.
  Proof. intros H. rewrite firstn_length. pose proof (mo_len _ _ _ _ _ _ _ OK o H) as L. cbn [mac_poly_ov ma_digest_size] in L. unfold out. lia. Qed.
  Lemma dig_spec o dst size : peq o o -> bytes dst -> (Nat.min size dsz <= length dst)%nat ->
    poly_digest cx dsz o dst size
    = Some (firstn (Nat.min size dsz) (out o) ++ skipn (Nat.min size dsz) dst, Nat.min size dsz).
  Proof. exact (mo_dig _ _ _ _ _ _ _ OK o dst size). Qed.

  (** *** Indistinguishable objects *)
  Definition awf (p : aead_apie) : Prop := cc_wf (ao_cipher (ap_impl p)) /\ pwf (ao_mac (ap_impl p)).
  Record aeq (p1 p2 : aead_apie) : Prop := {
    ae_c : exists st pos, length st = 16%nat /\ words 32 st /\
           stream_at B st pos (ao_cipher (ap_impl p1)) /\ stream_at B st pos (ao_cipher (ap_impl p2));
    ae_m : peq (ao_mac (ap_impl p1)) (ao_mac (ap_impl p2));
    ae_a : exists n, ao_aad (ap_impl p1) = N.of_nat n mod 2 ^ 64 /\ ao_aad (ap_impl p2) = N.of_nat n mod 2 ^ 64;
    ae_e : exists n, ao_edd (ap_impl p1) = N.of_nat n mod 2 ^ 64 /\ ao_edd (ap_impl p2) = N.of_nat n mod 2 ^ 64;
    ae_f : ap_aad_done p1 = ap_aad_done p2 /\ ap_done p1 = ap_done p2 }.
  Lemma aeq_awf p1 p2 : aeq p1 p2 -> awf p1 /\ awf p2.
  Proof.
    intros [(st & pos & L & W & S1 & S2) [W1 W2 _ _ _ _ _] _ _ _]. split; (split; [|assumption]).
    - exact (stream_at_wf B st pos _ L W S1).
    - exact (stream_at_wf B st pos _ L W S2).
  Qed.

  (** *** What an object has been given *)
  Record aholds (key iv aad ct : list N) (p : aead_apie) : Prop := {
    ah_k : bytes key; ah_v : bytes iv; ah_ba : bytes aad; ah_bc : bytes ct;
    ah_c : stream_at B (ast key iv) (64 + length ct) (ao_cipher (ap_impl p));
    ah_a : ao_aad (ap_impl p) = N.of_nat (length aad) mod 2 ^ 64;
    ah_e : ao_edd (ap_impl p) = N.of_nat (length ct) mod 2 ^ 64;
    ah_m : if ap_done p
           then peq (ao_mac (ap_impl p)) (ao_mac (ap_impl p)) /\
                firstn dsz (out (ao_mac (ap_impl p))) = firstn dsz (aead_tag_on (cx_big cx) (pad_to 32 key) (pad_to 12 iv) aad ct)
           else if ap_aad_done p then phold (host_key (cx_big cx) (mkey key iv)) (aad ++ pad16 (length aad) ++ ct) (ao_mac (ap_impl p))
           else ct = [] /\ phold (host_key (cx_big cx) (mkey key iv)) aad (ao_mac (ap_impl p)) }.

  Lemma ast_ok key iv : bytes key -> bytes iv -> length (ast key iv) = 16%nat /\ words 32 (ast key iv).
  Proof. intros Hk Hv. apply api_state_ok; [exact Hk|apply iv16_bytes, Hv]. Qed.

  Lemma aholds_aeq key iv aad ct p : aholds key iv aad ct p -> aeq p p.
  Proof.
    intros [Hk Hv Ba Bc C A E Mm]. destruct (ast_ok key iv Hk Hv) as [L W].
    constructor; auto.
    - exists (ast key iv), (64 + length ct)%nat. auto.
    - destruct (ap_done p); [apply Mm|]. destruct (ap_aad_done p); [|destruct Mm as [_ Mm]]; apply peq_refl; exact (ph_wf _ _ _ Mm).
    - exists (length aad). auto.
    - exists (length ct). auto.
  Qed.

  (** *** initialize *)
  Lemma ainit p1 p2 key iv : awf p1 -> awf p2 -> bytes key -> bytes iv ->
    exists p1' p2', aapie_initialize B cx p1 key iv = Some p1' /\ aapie_initialize B cx p2 key iv = Some p2' /\
      aeq p1' p2' /\ aholds key iv [] [] p1' /\ ap_aad_done p1' = false /\ ap_done p1' = false.
  Proof.
    intros [C1 P1] [C2 P2] Hk Hv. destruct (ast_ok key iv Hk Hv) as [L W].
    assert (S : forall o, cc_wf (ao_cipher o) ->
      exists c, aead_initialize B cx o key iv
        = (h <- poly_initialize true cx (ao_mac o) (mkey key iv) ;;
           Some {| ao_cipher := c; ao_mac := h; ao_aad := 0; ao_edd := 0 |}) /\ stream_at B (ast key iv) 64 c).
    { intros o Co. unfold aead_initialize, at_off. rewrite repeat_length. cbn [Nat.leb].
      change (skipn 4 (repeat 0 16)) with (repeat 0 12). change (firstn 4 (repeat 0 16)) with (repeat 0 4).
      rewrite mem_init_1 by exact Hv. rewrite repeat_length. cbn [bind]. fold (iv16 iv).
      destruct (initialize_spec cx B (ao_cipher o) key (iv16 iv) Co Hk (iv16_bytes iv Hv)) as (c & E & I).
      unfold capie_initialize in E. rewrite E. cbn [bind]. fold (ast key iv) in I.
      destruct (crypt_spec cx B BO (ast key iv) L W Encrypt c 0 (repeat 0 64) 0 0 64 I (bytes_repeat0 64)) as (c' & E' & I');
        [rewrite repeat_length; lia|rewrite repeat_length; lia|left; reflexivity|].
      cbn [capie_crypt] in E'. rewrite E'. cbn [bind]. exists c'. split; [|exact I'].
      rewrite put_all by (rewrite xor_with_length, slice_length; rewrite repeat_length; lia).
      change (slice (repeat 0 64) 0 64) with (repeat 0 64). reflexivity. }
    destruct (S _ C1) as (c1 & E1 & I1). destruct (S _ C2) as (c2 & E2 & I2).
    destruct (mo_init _ _ _ _ _ _ _ OK (ao_mac (ap_impl p1)) (ao_mac (ap_impl p2)) (mkey key iv)
               (peq_refl _ P1) (peq_refl _ P2) (mkey_bytes key iv)) as (h1 & h2 & F1 & F2 & Q & Hh).
    cbn [mac_poly_ov ma_initialize] in F1, F2.
    unfold aapie_initialize. rewrite E1, E2, F1, F2. cbn [bind]. do 2 eexists.
    split; [reflexivity|]. split; [reflexivity|]. split; [|split; [|split; reflexivity]].
    - constructor; cbn [ap_impl ao_cipher ao_mac ao_aad ao_edd ap_aad_done ap_done].
      + exists (ast key iv), 64%nat. auto.
      + exact Q.
      + exists 0%nat. auto.
      + exists 0%nat. auto.
      + auto.
    - constructor; cbn [ap_impl ao_cipher ao_mac ao_aad ao_edd ap_aad_done ap_done length]; auto; try constructor; try reflexivity; exact Hh.
  Qed.

  Lemma anew_wf j1 j2 b1 b2 : awf {| ap_impl := aead_new j1 j2; ap_aad_done := b1; ap_done := b2 |}.
  Proof. split; [exact cc_new_wf|exact new_pwf]. Qed.

  Lemma anew key iv : bytes key -> bytes iv ->
    exists p, aapie_new B cx key iv = Some p /\ aholds key iv [] [] p /\ ap_aad_done p = false /\ ap_done p = false.
  Proof.
    intros Hk Hv. unfold aapie_new, aapie_new_from.
    destruct (ainit _ _ key iv (anew_wf 0 0 false false) (anew_wf 0 0 false false) Hk Hv) as (p & _ & E & _ & _ & H). exists p. auto.
  Qed.
  Lemma anew_junk j1 j2 b1 b2 key iv : bytes key -> bytes iv -> aapie_new_from j1 j2 b1 b2 B cx key iv = aapie_new B cx key iv.
  Proof. reflexivity. Qed.

  (** *** aad *)
  Lemma aad_pair p1 p2 d : aeq p1 p2 -> chunk d ->
    exists p1' p2', aapie_aad cx p1 d = Some p1' /\ aapie_aad cx p2 d = Some p2' /\ aeq p1' p2'.
  Proof.
    intros [C Q (n & A1 & A2) E F] Hc. destruct (upd_pair _ _ d Q Hc) as (h1 & h2 & E1 & E2 & Q').
    unfold aapie_aad, aead_aad. rewrite E1, E2. cbn [bind]. do 2 eexists. split; [reflexivity|]. split; [reflexivity|].
    constructor; cbn [ap_impl ao_cipher ao_mac ao_aad ao_edd ap_aad_done ap_done]; auto.
    exists (n + length d)%nat. rewrite A1, A2, wadd_count. auto.
  Qed.
  Lemma aad_hold key iv aad ct p d : aholds key iv aad ct p -> chunk d -> ap_aad_done p = false -> ap_done p = false ->
    exists p', aapie_aad cx p d = Some p' /\ aholds key iv (aad ++ d) ct p' /\ ap_aad_done p' = false /\ ap_done p' = false.
  Proof.
    intros [Hk Hv Ba Bc C A E Mm] Hc F1 F2. rewrite F1, F2 in Mm. destruct Mm as [-> Mm].
    destruct (upd_hold _ _ _ d Mm Hc) as (h & Eh & Hh). unfold aapie_aad, aead_aad. rewrite Eh. cbn [bind].
    eexists. split; [reflexivity|]. cbn [ap_aad_done ap_done]. split; [|auto].
    constructor; cbn [ap_impl ao_cipher ao_mac ao_aad ao_edd ap_aad_done ap_done]; auto.
    - apply bytes_app. split; [exact Ba|apply Hc].
    - rewrite A, wadd_count, app_length. reflexivity.
    - rewrite F1, F2. auto.
  Qed.

  (** *** End of the additional data *)
  Lemma over_pair p1 p2 : aeq p1 p2 ->
    exists p1' p2', aapie_finalize_aad cx p1 = Some p1' /\ aapie_finalize_aad cx p2 = Some p2' /\ aeq p1' p2'.
  Proof.
    intros H. destruct H as [C Q (n & A1 & A2) E F] eqn:EH. clear EH. destruct F as [F G].
    unfold aapie_finalize_aad. rewrite <- F. destruct (ap_aad_done p1) eqn:F1.
    - exists p1, p2. auto.
    - unfold aead_aadover. rewrite A1, A2, zeros_spec. cbn [bind].
      destruct (upd_pair _ _ (pad16 n) Q (pad16_chunk n)) as (h1 & h2 & E1 & E2 & Q'). rewrite E1, E2. cbn [bind].
      do 2 eexists. split; [reflexivity|]. split; [reflexivity|].
      constructor; cbn [ap_impl ao_cipher ao_mac ao_aad ao_edd ap_aad_done ap_done]; auto. exists n. auto.
  Qed.
  Lemma over_hold key iv aad ct p : aholds key iv aad ct p -> ap_done p = false ->
    exists p', aapie_finalize_aad cx p = Some p' /\ aholds key iv aad ct p' /\ ap_aad_done p' = true /\ ap_done p' = false.
  Proof.
    intros H F2. destruct H as [Hk Hv Ba Bc C A E Mm] eqn:EH. clear EH. unfold aapie_finalize_aad. destruct (ap_aad_done p) eqn:F1.
    - exists p. auto.
    - rewrite F2 in Mm. destruct Mm as [-> Mm]. unfold aead_aadover. rewrite A, zeros_spec. cbn [bind].
      destruct (upd_hold _ _ _ (pad16 (length aad)) Mm (pad16_chunk _)) as (h & Eh & Hh). rewrite Eh. cbn [bind].
      eexists. split; [reflexivity|]. cbn [ap_aad_done ap_done]. split; [|auto].
      constructor; cbn [ap_impl ao_cipher ao_mac ao_aad ao_edd ap_aad_done ap_done]; auto.
      rewrite F2. rewrite app_nil_r. exact Hh.
  Qed.

  (** *** Text *)
  Definition textok (m : list N) (s n d : nat) : Prop :=
    bytes m /\ (s + n <= length m)%nat /\ (d + n <= length m)%nat /\ apart d s n /\ N.of_nat n < 2 ^ 64.

  Lemma crypt_pair dir p1 p2 m s n d : aeq p1 p2 -> textok m s n d ->
    exists p1' p2' r, aapie_crypt dir B cx p1 m s n d = Some (p1', put m d r, n) /\
      aapie_crypt dir B cx p2 m s n d = Some (p2', put m d r, n) /\ length r = n /\ aeq p1' p2'.
  Proof.
    intros H (Hm & Hs & Hdm & Ha & Hn). destruct (over_pair p1 p2 H) as (q1 & q2 & E1 & E2 & H').
    unfold aapie_crypt. rewrite E1, E2. cbn [bind]. clear H E1 E2.
    destruct H' as [(st & pos & L & W & C1 & C2) Q A (k & G1 & G2) F].
    destruct (crypt_spec cx B BO st L W dir _ pos m d s n C1 Hm Hdm Hs Ha) as (c1 & K1 & S1).
    destruct (crypt_spec cx B BO st L W dir _ pos m d s n C2 Hm Hdm Hs Ha) as (c2 & K2 & S2).
    set (r := xor_with (st_byte st) pos (slice m s n)) in *.
    assert (Lr : length r = n) by (unfold r; rewrite xor_with_length; apply slice_length; exact Hs).
    assert (Br : bytes r) by (apply xor_with_bytes; [apply st_byte_byte|apply slice_bytes, Hm]).
    destruct dir; cbn [capie_crypt] in K1, K2.
    - unfold aead_encrypt. rewrite K1, K2. cbn [bind].
      rewrite rds_slice by (rewrite put_length; lia). cbn [bind].
      assert (Sr : slice (put m d r) d n = r) by (rewrite <- Lr at 1; apply slice_put_same; lia). rewrite Sr.
      destruct (upd_pair _ _ r Q) as (h1 & h2 & U1 & U2 & Q'); [split; [exact Br|rewrite Lr; exact Hn]|].
      rewrite U1, U2. cbn [bind]. exists {| ap_impl := {| ao_cipher := c1; ao_mac := h1; ao_aad := ao_aad (ap_impl q1);
        ao_edd := wadd 64 (ao_edd (ap_impl q1)) (N.of_nat n) |}; ap_aad_done := ap_aad_done q1; ap_done := ap_done q1 |}.
      do 2 eexists. split; [reflexivity|]. split; [reflexivity|]. split; [exact Lr|].
      constructor; cbn [ap_impl ao_cipher ao_mac ao_aad ao_edd ap_aad_done ap_done]; auto.
      + exists st, (pos + n)%nat. auto.
      + exists (k + n)%nat. rewrite G1, G2, wadd_count. auto.
    - unfold aead_decrypt. rewrite rds_slice by lia. cbn [bind].
      destruct (upd_pair _ _ (slice m s n) Q) as (h1 & h2 & U1 & U2 & Q').
      { split; [apply slice_bytes, Hm|rewrite slice_length by exact Hs; exact Hn]. }
      rewrite U1, U2. cbn [bind]. rewrite K1, K2. cbn [bind].
      do 3 eexists. split; [reflexivity|]. split; [reflexivity|]. split; [exact Lr|].
      constructor; cbn [ap_impl ao_cipher ao_mac ao_aad ao_edd ap_aad_done ap_done]; auto.
      + exists st, (pos + n)%nat. auto.
      + exists (k + n)%nat. rewrite G1, G2, wadd_count. auto.
  Qed.

  (** Whatever the cipher writes to the destination, the tag covers the ciphertext. *)
  Lemma crypt_hold_gen dir key iv aad ct p m s n d (Pr : list N -> Prop) : aholds key iv aad ct p -> ap_done p = false ->
    bytes m -> (s + n <= length m)%nat -> (d + n <= length m)%nat -> N.of_nat n < 2 ^ 64 ->
    (forall c, stream_at B (ast key iv) (64 + length ct) c -> exists c' r, Pr r /\ length r = n /\ bytes r /\
       capie_crypt dir B cx c m s n d = Some (c', put m d r, n) /\ stream_at B (ast key iv) (64 + length ct + n) c') ->
    let x := slice m s n in
    exists p' r, Pr r /\ aapie_crypt dir B cx p m s n d = Some (p', put m d r, n) /\ length r = n /\
      aholds key iv aad (ct ++ match dir with Encrypt => r | Decrypt => x end) p' /\
      ap_aad_done p' = true /\ ap_done p' = false.
  Proof.
    intros H F0 Hm Hs Hdm Hn HC x. destruct (over_hold key iv aad ct p H F0) as (q & E1 & H' & F1 & F2).
    unfold aapie_crypt. rewrite E1. cbn [bind]. clear H E1 F0.
    destruct H' as [Hk Hv Ba Bc C A E Mm]. rewrite F1, F2 in Mm. destruct (ast_ok key iv Hk Hv) as [L W].
    destruct (HC _ C) as (c & r & Hr & Lr & Br & K & S).
    assert (Bx : bytes x) by apply slice_bytes, Hm.
    assert (Lx : length x = n) by (apply slice_length; exact Hs).
    rewrite <- Nat.add_assoc in S.
    destruct dir; cbn [capie_crypt] in K.
    - assert (Hl : (d + n <= length (put m d r))%nat) by (rewrite put_length; [exact Hdm|rewrite Lr; exact Hdm]).
      unfold aead_encrypt. rewrite K. cbn [bind]. rewrite (rds_slice (put m d r) d n) by exact Hl. cbn [bind].
      assert (Sr : slice (put m d r) d n = r) by (rewrite <- Lr at 1; apply slice_put_same; rewrite Lr; exact Hdm). rewrite Sr.
      destruct (upd_hold _ _ _ r Mm) as (h & U & Hh); [split; [exact Br|rewrite Lr; exact Hn]|]. rewrite U. cbn [bind].
      eexists. exists r. split; [exact Hr|]. split; [reflexivity|]. split; [exact Lr|]. cbn [ap_aad_done ap_done]. split; [|auto].
      constructor; cbn [ap_impl ao_cipher ao_mac ao_aad ao_edd ap_aad_done ap_done].
      + exact Hk.
      + exact Hv.
      + exact Ba.
      + apply bytes_app. split; assumption.
      + rewrite app_length, Lr. exact S.
      + exact A.
      + rewrite E, wadd_count, app_length, Lr. reflexivity.
      + rewrite F1, F2. rewrite <- !app_assoc in Hh. exact Hh.
    - unfold aead_decrypt. rewrite (rds_slice m s n) by exact Hs. cbn [bind]. fold x.
      destruct (upd_hold _ _ _ x Mm) as (h & U & Hh); [split; [exact Bx|rewrite Lx; exact Hn]|]. rewrite U. cbn [bind].
      rewrite K. cbn [bind].
      eexists. exists r. split; [exact Hr|]. split; [reflexivity|]. split; [exact Lr|]. cbn [ap_aad_done ap_done]. split; [|auto].
      constructor; cbn [ap_impl ao_cipher ao_mac ao_aad ao_edd ap_aad_done ap_done].
      + exact Hk.
      + exact Hv.
      + exact Ba.
      + apply bytes_app. split; assumption.
      + rewrite app_length, Lx. exact S.
      + exact A.
      + rewrite E, wadd_count, app_length, Lx. reflexivity.
      + rewrite F1, F2. rewrite <- !app_assoc in Hh. exact Hh.
  Qed.

  Definition textmv (m : list N) (s n d : nat) : Prop :=
    bytes m /\ (s + n <= length m)%nat /\ (d + n <= length m)%nat /\ movable d s n /\ pair_ok cx B d s n /\ N.of_nat n < 2 ^ 64.
  Lemma textok_mv m s n d : textok m s n d -> textmv m s n d.
  Proof.
    intros (Hm & Hs & Hdm & Ha & Hn). repeat (split; [assumption|]). split; [apply apart_movable, Ha|]. split; [exact (pair_apart cx B BO d s n Ha)|exact Hn].
  Qed.
  Lemma crypt_hold_mv dir key iv aad ct p m s n d : aholds key iv aad ct p -> ap_done p = false -> textmv m s n d ->
    let x := slice m s n in
    let r := xor_with (chacha20_byte (pad_to 32 key) 1 (pad_to 12 iv)) (length ct) x in
    exists p', aapie_crypt dir B cx p m s n d = Some (p', put m d r, n) /\ length r = n /\
      aholds key iv aad (ct ++ match dir with Encrypt => r | Decrypt => x end) p' /\
      ap_aad_done p' = true /\ ap_done p' = false.
  Proof.
    intros H F0 (Hm & Hs & Hdm & Ha & Hp & Hn) x r.
    assert (Bx : bytes x) by apply slice_bytes, Hm.
    assert (Lx : length x = n) by (apply slice_length; exact Hs).
    assert (Lr : length r = n) by (unfold r; rewrite xor_with_length; exact Lx).
    assert (Br : bytes r).
    { apply xor_with_bytes; [|exact Bx]. intros j. rewrite <- ast_byte. apply st_byte_byte. }
    destruct (crypt_hold_gen dir key iv aad ct p m s n d (eq r) H F0 Hm Hs Hdm Hn) as (p' & r' & <- & E & Q).
    - intros c C. destruct H as [Hk Hv _ _ _ _ _ _]. destruct (ast_ok key iv Hk Hv) as [L W].
      destruct (crypt_mv cx B BO _ L W dir _ _ m d s n C Hm Hdm Hs Ha Hp) as (c' & K & S).
      replace (xor_with (st_byte (ast key iv)) (64 + length ct) (slice m s n)) with r in K.
      2:{ unfold r. apply xor_with_ext. intros i _. rewrite <- Nat.add_assoc. symmetry. apply ast_byte. }
      exists c', r. auto.
    - exists p'. split; [exact E|]. exact Q.
  Qed.
  Lemma crypt_hold dir key iv aad ct p m s n d : aholds key iv aad ct p -> ap_done p = false -> textok m s n d ->
    let x := slice m s n in
    let r := xor_with (chacha20_byte (pad_to 32 key) 1 (pad_to 12 iv)) (length ct) x in
    exists p', aapie_crypt dir B cx p m s n d = Some (p', put m d r, n) /\ length r = n /\
      aholds key iv aad (ct ++ match dir with Encrypt => r | Decrypt => x end) p' /\
      ap_aad_done p' = true /\ ap_done p' = false.
  Proof. intros H F T. apply crypt_hold_mv; try assumption. apply textok_mv, T. Qed.

  (** Every text call is a call on a flat memory. *)
  Definition is_text (c : aead_call) : Prop :=
    match c with ACrypt _ _ _ _ _ | ACryptC _ _ _ | ACryptSame _ _ => True | _ => False end.
  Definition adir (c : aead_call) : direction :=
    match c with ACrypt d _ _ _ _ | ACryptC d _ _ | ACryptSame d _ => d | _ => Encrypt end.
  Lemma aapie_size_id dir n : aapie_size dir n = n.
  Proof. destruct dir; reflexivity. Qed.

  Lemma text_lower c : is_text c -> acall_ok dsz c ->
    exists m s n d, textok m s n d /\ slice m s n = atext_in c /\
      forall p p' r, length r = n -> aapie_crypt (adir c) B cx p m s n d = Some (p', put m d r, n) ->
        aead_step B cx dsz p c = Some (p', atext_out r c).
  Proof.
    intros Ht Hc. destruct c as [k v|a|dir m s n d|dir t c|dir c|d s|c s|j m]; try destruct Ht; cbn [acall_ok] in Hc.
    - exists m, s, n, d. split; [exact Hc|]. split; [reflexivity|].
      intros p p' r Lr E. cbn [aead_step adir atext_out] in *. rewrite E. reflexivity.
    - destruct Hc as ((Bt & Nt) & Bc & R). 
      assert (G : exists l, cdata (fst (cresize c (length t))) = l /\ bytes l /\ (length t <= length l)%nat /\
                  fst (cresize c (length t)) = cset c l /\
                  match c with Dynamic _ => length l = length t | Static l0 => l = l0 end).
      { destruct c as [l|l]; cbn [cresize fst cdata cset]; eexists; (split; [reflexivity|]).
        - split; [|split; [rewrite resize_list_length; lia|split; [reflexivity|apply resize_list_length]]].
          cbn [cdata] in Bc. apply bytes_app. split; [apply bytes_firstn, Bc|apply bytes_repeat0].
        - auto. }
      destruct G as (l & G1 & G2 & G3 & G4 & G5).
      exists (t ++ l), 0%nat, (length t), (length t). split; [|split; [apply slice_app_l|]].
      + split; [apply bytes_app; auto|]. rewrite app_length. split; [lia|]. split; [lia|]. split; [right; right; lia|exact Nt].
      + intros p p' r Lr E. cbn [aead_step adir] in *. unfold aapie_crypt_c. rewrite aapie_size_id.
        destruct (cresize c (length t)) as [c1 z]. cbn [fst] in *. rewrite G1, E. cbn [bind].
        rewrite put_after by assumption. subst c1.
        destruct c as [l0|l0]; cbn [cset cresize bind atext_out cdata] in *.
        * rewrite skipn_all2.
          -- rewrite app_nil_r, resize_list_same by exact Lr. rewrite Lr. reflexivity.
          -- lia.
        * rewrite Lr. subst l0. reflexivity.
    - exists (cdata c), 0%nat, (length (cdata c)), 0%nat. split; [|split; [apply slice_all|]].
      + destruct Hc as [Bc Nc]. split; [exact Bc|]. split; [lia|]. split; [lia|]. split; [left; reflexivity|exact Nc].
      + intros p p' r Lr E. cbn [aead_step adir atext_out] in *. unfold aapie_crypt_same. rewrite aapie_size_id.
        assert (Ec : fst (cresize c (length (cdata c))) = c).
        { destruct c; cbn [cresize fst cdata]; [rewrite resize_list_same by reflexivity|]; reflexivity. }
        destruct (cresize c (length (cdata c))) as [c' z]. cbn [fst] in Ec. subst c'. rewrite E. cbn [bind].
        rewrite put_all by exact Lr. rewrite Lr.
        destruct c as [l|l]; cbn [cset cresize cdata] in *; [rewrite resize_list_same by exact Lr|]; reflexivity.
  Qed.

  (** *** The tag *)
  Lemma afin_pair p1 p2 : aeq p1 p2 ->
    exists p1' p2', aapie_finalize cx p1 = Some p1' /\ aapie_finalize cx p2 = Some p2' /\ aeq p1' p2' /\ ap_done p1' = true.
  Proof.
    intros H. destruct H as [C Q (n & A1 & A2) (k & E1 & E2) [F G]] eqn:EH. clear EH. unfold aapie_finalize. rewrite <- G.
    destruct (ap_done p1) eqn:F1.
    - exists p1, p2. auto.
    - unfold aead_finalize. rewrite A1, A2, E1, E2, zeros_spec. cbn [bind].
      destruct (upd_pair _ _ (pad16 k) Q (pad16_chunk k)) as (h1 & h2 & U1 & U2 & Q1). rewrite U1, U2. cbn [bind].
      pose proof (lengths_spec cx (N.of_nat n mod 2 ^ 64) (N.of_nat k mod 2 ^ 64)) as Ls.
      destruct (mem_stor_le cx 8 1 (repeat 0 16) 0 (N.of_nat n mod 2 ^ 64)) as [b|];
        [|discriminate Ls; apply N.mod_lt; discriminate]. cbn [bind] in *.
      rewrite Ls by (apply N.mod_lt; discriminate). cbn [bind].
      destruct (upd_pair _ _ (le_enc 8 (N.of_nat n mod 2 ^ 64) ++ le_enc 8 (N.of_nat k mod 2 ^ 64)) Q1) as (g1 & g2 & V1 & V2 & Q2).
      { split; [apply bytes_app; split; apply le_enc_bytes|]. rewrite app_length, !le_enc_length. reflexivity. }
      rewrite V1, V2. cbn [bind]. destruct (fin_pair _ _ Q2) as (f1 & f2 & X1 & X2 & Q3). rewrite X1, X2. cbn [bind].
      do 2 eexists. split; [reflexivity|]. split; [reflexivity|]. cbn [ap_done]. split; [|reflexivity].
      constructor; cbn [ap_impl ao_cipher ao_mac ao_aad ao_edd ap_aad_done ap_done]; auto.
      + exists n. auto.
      + exists k. auto.
  Qed.
  Lemma afin_hold key iv aad ct p : aholds key iv aad ct p ->
    (ap_aad_done p || (length aad mod 16 =? 0)%nat) = true ->
    exists p', aapie_finalize cx p = Some p' /\ aholds key iv aad ct p' /\ ap_done p' = true /\ ap_aad_done p' = ap_aad_done p.
  Proof.
    intros H R. destruct H as [Hk Hv Ba Bc C A E Mm] eqn:EH. clear EH. unfold aapie_finalize. destruct (ap_done p) eqn:F.
    - exists p. auto.
    - assert (Hh : phold (host_key (cx_big cx) (mkey key iv)) (aad ++ pad16 (length aad) ++ ct) (ao_mac (ap_impl p))).
      { destruct (ap_aad_done p); [exact Mm|]. cbn [orb] in R. apply Nat.eqb_eq in R. destruct Mm as [-> Mm].
        unfold pad16. rewrite R. change (repeat 0 ((16 - 0) mod 16)) with (@nil N). rewrite !app_nil_r. exact Mm. }
      unfold aead_finalize. rewrite A, E, zeros_spec. cbn [bind].
      destruct (upd_hold _ _ _ (pad16 (length ct)) Hh (pad16_chunk _)) as (h1 & U1 & H1). rewrite U1. cbn [bind].
      set (a := N.of_nat (length aad)) in *. set (c := N.of_nat (length ct)) in *.
      pose proof (lengths_spec cx (a mod 2 ^ 64) (c mod 2 ^ 64)) as Ls.
      destruct (mem_stor_le cx 8 1 (repeat 0 16) 0 (a mod 2 ^ 64)) as [b|];
        [|discriminate Ls; apply N.mod_lt; discriminate]. cbn [bind] in *.
      rewrite Ls by (apply N.mod_lt; discriminate). cbn [bind]. clear Ls b.
      destruct (upd_hold _ _ _ (le_enc 8 (a mod 2 ^ 64) ++ le_enc 8 (c mod 2 ^ 64)) H1) as (h2 & U2 & H2).
      { split; [apply bytes_app; split; apply le_enc_bytes|]. rewrite app_length, !le_enc_length. reflexivity. }
      rewrite U2. cbn [bind]. destruct (fin_hold _ _ _ H2) as (h3 & U3 & P3 & T3). rewrite U3. cbn [bind].
      eexists. split; [reflexivity|]. cbn [ap_done ap_aad_done]. split; [|auto].
      constructor; cbn [ap_impl ao_cipher ao_mac ao_aad ao_edd ap_aad_done ap_done];
        [exact Hk|exact Hv|exact Ba|exact Bc|exact C|reflexivity|reflexivity|].
      split; [exact P3|]. rewrite T3, mkey_otk by assumption. unfold aead_tag_on, aead_mac_data. rewrite !le_enc_mod64.
      fold a c. rewrite <- !app_assoc. reflexivity.
  Qed.

  Definition atag (p : aead_apie) : list N := firstn dsz (out (ao_mac (ap_impl p))).

  Lemma adigest_closed p d s : peq (ao_mac (ap_impl p)) (ao_mac (ap_impl p)) -> ap_done p = true -> bytes d ->
    (Nat.min s dsz <= length d)%nat ->
    aapie_digest cx dsz p d s = Some (p, firstn s (atag p) ++ skipn (Nat.min s dsz) d, Nat.min s dsz).
  Proof.
    intros Q F Hb Hl. unfold aapie_digest, aapie_finalize, aead_digest. rewrite F. cbn [bind].
    rewrite dig_spec by assumption. cbn [bind]. unfold atag. rewrite firstn_firstn. reflexivity.
  Qed.
  Lemma adigest_c_closed p c s : peq (ao_mac (ap_impl p)) (ao_mac (ap_impl p)) -> ap_done p = true -> bytes (cdata c) ->
    let n := match c with Dynamic _ => Nat.min s dsz | Static l => Nat.min (Nat.min s dsz) (length l) end in
    aapie_digest_c cx dsz p c s
    = Some (p, cset c (firstn n (atag p) ++ match c with Dynamic _ => [] | Static l => skipn n l end), n).
  Proof.
    intros Q F Hb n. unfold aapie_digest_c, aapie_finalize. rewrite F. cbn [bind].
    destruct c as [l|l]; cbn [cresize cdata cset] in *.
    - rewrite adigest_closed; [|assumption|assumption| |rewrite resize_list_length; lia].
      2:{ apply bytes_app. split; [apply bytes_firstn, Hb|apply bytes_repeat0]. }
      cbn [bind]. rewrite (Nat.min_l (Nat.min s dsz) dsz) by lia.
      rewrite (skipn_all2 (resize_list _ _)) by (rewrite resize_list_length; lia). reflexivity.
    - rewrite adigest_closed; [|assumption|assumption|assumption|lia].
      cbn [bind]. rewrite (Nat.min_l (Nat.min (Nat.min s dsz) (length l)) dsz) by lia. reflexivity.
  Qed.
  Lemma firstn_min_len (l : list N) s : firstn (Nat.min s (length l)) l = firstn s l.
  Proof. rewrite <- firstn_firstn, firstn_all. reflexivity. Qed.

  Lemma atag_step p c : peq (ao_mac (ap_impl p)) (ao_mac (ap_impl p)) -> ap_done p = true ->
    is_tag_call c = true -> acall_ok dsz c -> aead_step B cx dsz p c = Some (p, atag_out (atag p) c).
  Proof.
    intros Q F Ht Hc. pose proof (out_len _ Q) as L. fold (atag p) in L.
    destruct c as [k v|a|dir m s n d|dir t c|dir c|d s|c s|j m]; try discriminate Ht; cbn [acall_ok aead_step] in *.
    - destruct Hc. rewrite adigest_closed by assumption. cbn [bind atag_out]. rewrite L. reflexivity.
    - rewrite adigest_c_closed by assumption. cbn [bind]. destruct c as [l|l]; cbn [cset atag_out]; rewrite L.
      + rewrite app_nil_r. rewrite <- (firstn_min_len (atag p) s), L. reflexivity.
      + reflexivity.
    - destruct Hc as (Bj & Lj & Bm). unfold aapie_verify, aapie_digest_static.
      rewrite adigest_c_closed by assumption. cbn [bind cset cdata].
      rewrite Lj, Nat.min_id, Nat.min_id. rewrite skipn_all2 by lia. rewrite app_nil_r, (firstn_all2 (atag p)) by lia.
      destruct (mem_match_c_bytes cx (atag p) m) as (r & E & Hr); [|exact Bm|].
      { unfold atag. apply bytes_firstn. unfold out. apply serialize_bytes. }
      rewrite E. cbn [bind atag_out]. do 3 f_equal.
      destruct (list_eq_dec N.eq_dec m (atag p)) as [e|e].
      + rewrite (proj2 Hr (eq_sym e)). reflexivity.
      + destruct r; [|reflexivity]. destruct e. symmetry. apply Hr. reflexivity.
  Qed.

  Lemma atag_open p c : is_tag_call c = true ->
    aead_step B cx dsz p c = (q <- aapie_finalize cx p ;; aead_step B cx dsz q c).
  Proof.
    intros Ht. unfold aapie_finalize.
    destruct (ap_done p) eqn:F; cbn [bind].
    - reflexivity.
    - destruct c as [k v|a|dir m s n d|dir t c|dir c|d s|c s|j m]; try discriminate Ht; cbn [aead_step];
      unfold aapie_verify, aapie_digest_static, aapie_digest_c, aapie_digest, aapie_finalize; rewrite ?F;
      destruct (aead_finalize cx (ap_impl p)); reflexivity.
  Qed.

  Lemma call_kind c : (exists k v, c = AInit k v) \/ (exists d, c = AAad d) \/ is_text c \/ is_tag_call c = true.
  Proof. destruct c; eauto; cbn; auto. Qed.

  (** *** Histories *)
  Lemma aeq_step p1 p2 c : aeq p1 p2 -> acall_ok dsz c ->
    exists p1' p2' o, aead_step B cx dsz p1 c = Some (p1', o) /\ aead_step B cx dsz p2 c = Some (p2', o) /\ aeq p1' p2'.
  Proof.
    intros H Hc. destruct (call_kind c) as [(k & v & ->)|[(d & ->)|[Ht|Ht]]].
    - destruct Hc as [Hk Hv]. destruct (aeq_awf _ _ H) as [W1 W2].
      destruct (ainit p1 p2 k v W1 W2 Hk Hv) as (q1 & q2 & E1 & E2 & Q & _). cbn [aead_step]. rewrite E1, E2. cbn [bind].
      exists q1, q2, ANone. auto.
    - destruct (aad_pair p1 p2 d H Hc) as (q1 & q2 & E1 & E2 & Q). cbn [aead_step]. rewrite E1, E2. cbn [bind].
      exists q1, q2, ANone. auto.
    - destruct (text_lower c Ht Hc) as (m & s & n & d & T & _ & X).
      destruct (crypt_pair (adir c) p1 p2 m s n d H T) as (q1 & q2 & r & E1 & E2 & Lr & Q).
      exists q1, q2, (atext_out r c). split; [exact (X _ _ _ Lr E1)|]. split; [exact (X _ _ _ Lr E2)|exact Q].
    - destruct (afin_pair p1 p2 H) as (q1 & q2 & E1 & E2 & Q & F). rewrite !atag_open by exact Ht. rewrite E1, E2. cbn [bind].
      assert (F2 : ap_done q2 = true) by (rewrite <- F; symmetry; apply Q).
      assert (P1 : peq (ao_mac (ap_impl q1)) (ao_mac (ap_impl q1))) by (apply peq_refl; apply (ae_m _ _ Q)).
      assert (P2 : peq (ao_mac (ap_impl q2)) (ao_mac (ap_impl q2))) by (apply peq_refl; apply (ae_m _ _ Q)).
      exists q1, q2, (atag_out (atag q1) c). split; [apply atag_step; assumption|]. split; [|exact Q].
      replace (atag q1) with (atag q2); [apply atag_step; assumption|]. unfold atag, out. rewrite (pe_a _ _ (ae_m _ _ Q)). reflexivity.
  Qed.
  Lemma aeq_run : forall calls p1 p2, aeq p1 p2 -> Forall (acall_ok dsz) calls ->
    exists p1' p2' os, aead_run B cx dsz p1 calls = Some (p1', os) /\ aead_run B cx dsz p2 calls = Some (p2', os) /\ aeq p1' p2'.
  Proof.
    induction calls as [|c calls IH]; intros p1 p2 H Hc.
    - exists p1, p2, []. auto.
    - inversion Hc as [|? ? Hc1 Hc2]; subst.
      destruct (aeq_step p1 p2 c H Hc1) as (q1 & q2 & o & E1 & E2 & H').
      destruct (IH q1 q2 H' Hc2) as (r1 & r2 & os & F1 & F2 & H'').
      cbn [aead_run]. rewrite E1, E2. cbn [bind]. rewrite F1, F2. cbn [bind]. exists r1, r2, (o :: os). auto.
  Qed.

  Lemma arun_total key iv calls : bytes key -> bytes iv -> Forall (acall_ok dsz) calls ->
    exists p r, aapie_new B cx key iv = Some p /\ aead_run B cx dsz p calls = Some r /\ awf (fst r).
  Proof.
    intros Hk Hv Hc. destruct (anew key iv Hk Hv) as (p & E & H & _).
    destruct (aeq_run calls p p (aholds_aeq _ _ _ _ _ H) Hc) as (p1 & p2 & os & R & _ & Q).
    exists p, (p1, os). split; [exact E|]. split; [exact R|]. apply (aeq_awf _ _ Q).
  Qed.
  Lemma arun_reinit key iv before key' iv' later : bytes key -> bytes iv -> bytes key' -> bytes iv' ->
    Forall (acall_ok dsz) before -> Forall (acall_ok dsz) later ->
    exists p p1 outs0 p2 p3 p4 p5 outs,
      aapie_new B cx key iv = Some p /\ aead_run B cx dsz p before = Some (p1, outs0) /\
      aapie_initialize B cx p1 key' iv' = Some p2 /\ aead_run B cx dsz p2 later = Some (p3, outs) /\
      aapie_new B cx key' iv' = Some p4 /\ aead_run B cx dsz p4 later = Some (p5, outs).
  Proof.
    intros Hk Hv Hk' Hv' Hb Hl. destruct (arun_total key iv before Hk Hv Hb) as (p & [p1 os0] & E & R & W). cbn [fst] in W.
    destruct (ainit p1 _ key' iv' W (anew_wf 0 0 false false) Hk' Hv') as (p2 & p4 & E2 & E4 & Q & _).
    destruct (aeq_run later p2 p4 Q Hl) as (p3 & p5 & os & R3 & R5 & _).
    exists p, p1, os0, p2, p3, p4, p5, os. repeat split; assumption.
  Qed.

  Lemma text_step key iv aad ct p c : aholds key iv aad ct p -> ap_done p = false -> is_text c -> acall_ok dsz c ->
    let x := atext_in c in
    let r := xor_with (chacha20_byte (pad_to 32 key) 1 (pad_to 12 iv)) (length ct) x in
    exists p', aead_step B cx dsz p c = Some (p', atext_out r c) /\ aholds key iv aad (ct ++ acipher c x r) p' /\
      ap_aad_done p' = true /\ ap_done p' = false.
  Proof.
    intros H F Ht Hc x r. destruct (text_lower c Ht Hc) as (m & s & n & d & T & Sx & X).
    destruct (crypt_hold (adir c) key iv aad ct p m s n d H F T) as (p' & E & Lr & H' & F1 & F2).
    rewrite Sx in *. exists p'. split; [exact (X _ _ _ Lr E)|]. split; [|auto].
    replace (acipher c x r) with (match adir c with Encrypt => r | Decrypt => x end); [exact H'|].
    destruct c as [k v|a|[] m1 s1 n1 d1|[] t1 c1|[] c1|d1 s1|c1 s1|j1 m1]; try destruct Ht; reflexivity.
  Qed.
  Lemma tag_step key iv aad ct p c : aholds key iv aad ct p -> (ap_aad_done p || (length aad mod 16 =? 0)%nat) = true ->
    is_tag_call c = true -> acall_ok dsz c ->
    exists p', aead_step B cx dsz p c = Some (p', atag_out (firstn dsz (aead_tag_on (cx_big cx) (pad_to 32 key) (pad_to 12 iv) aad ct)) c) /\
      aholds key iv aad ct p' /\ ap_done p' = true /\ ap_aad_done p' = ap_aad_done p.
  Proof.
    intros H R Ht Hc. destruct (afin_hold key iv aad ct p H R) as (q & E & H' & F & G).
    exists q. split; [|auto]. rewrite atag_open by exact Ht. rewrite E. cbn [bind].
    pose proof (ah_m _ _ _ _ _ H') as Mm. rewrite F in Mm. destruct Mm as [Q T].
    rewrite atag_step by assumption. unfold atag. rewrite T. reflexivity.
  Qed.

  Lemma aorderly_run : forall calls key iv aad ct p, aholds key iv aad ct p -> Forall (acall_ok dsz) calls ->
    aorderly (ap_aad_done p) (ap_done p) (length aad) calls = true ->
    exists p', aead_run B cx dsz p calls = Some (p', aexpected_on (cx_big cx) dsz key iv aad ct calls).
  Proof.
    induction calls as [|c calls IH]; intros key iv aad ct p H Hc Ho; [exists p; reflexivity|].
    inversion Hc as [|? ? Hc1 Hc2]; subst. cbn [aead_run].
    destruct (call_kind c) as [(k & v & ->)|[(d & ->)|[Ht|Ht]]].
    - cbn [aorderly aexpected_on aead_step] in *. destruct Hc1 as [Hk Hv].
      destruct (aeq_awf _ _ (aholds_aeq _ _ _ _ _ H)) as [W _].
      destruct (ainit p p k v W W Hk Hv) as (q & _ & E & _ & _ & H' & F1 & F2). rewrite E. cbn [bind].
      destruct (IH k v [] [] q H' Hc2) as (r & Er); [rewrite F1, F2; exact Ho|]. rewrite Er. cbn [bind]. exists r. reflexivity.
    - cbn [aorderly aexpected_on aead_step] in *. apply andb_true_iff in Ho. destruct Ho as [Ho Ho2].
      apply andb_true_iff in Ho. destruct Ho as [F1 F2]. apply negb_true_iff in F1, F2. rewrite F1, F2 in Ho2.
      destruct (aad_hold key iv aad ct p d H Hc1 F1 F2) as (q & E & H' & G1 & G2). rewrite E. cbn [bind].
      destruct (IH key iv _ ct q H' Hc2) as (r & Er); [rewrite G1, G2, app_length; exact Ho2|]. rewrite Er. cbn [bind].
      exists r. reflexivity.
    - assert (Ho' : negb (ap_done p) && aorderly true (ap_done p) (length aad) calls = true)
        by (destruct c; try destruct Ht; exact Ho).
      apply andb_true_iff in Ho'. destruct Ho' as [F Ho']. apply negb_true_iff in F. rewrite F in Ho'.
      destruct (text_step key iv aad ct p c H F Ht Hc1) as (q & E & H' & G1 & G2). rewrite E. cbn [bind].
      destruct (IH key iv aad _ q H' Hc2) as (r & Er); [rewrite G1, G2; exact Ho'|]. rewrite Er. cbn [bind].
      exists r. destruct c; try destruct Ht; reflexivity.
    - assert (Ho' : (ap_aad_done p || (length aad mod 16 =? 0)%nat) && aorderly (ap_aad_done p) true (length aad) calls = true)
        by (destruct c; try discriminate Ht; exact Ho).
      apply andb_true_iff in Ho'. destruct Ho' as [F Ho'].
      destruct (tag_step key iv aad ct p c H F Ht Hc1) as (q & E & H' & G1 & G2). rewrite E. cbn [bind].
      destruct (IH key iv aad ct q H' Hc2) as (r & Er); [rewrite G1, G2; exact Ho'|]. rewrite Er. cbn [bind].
      exists r. destruct c; try discriminate Ht; reflexivity.
  Qed.

  Lemma aorderly_new key iv calls : bytes key -> bytes iv -> Forall (acall_ok dsz) calls -> aorderly false false 0 calls = true ->
    exists p p', aapie_new B cx key iv = Some p /\ aead_run B cx dsz p calls = Some (p', aexpected_on (cx_big cx) dsz key iv [] [] calls).
  Proof.
    intros Hk Hv Hc Ho. destruct (anew key iv Hk Hv) as (p & E & H & F1 & F2).
    destruct (aorderly_run calls key iv [] [] p H Hc) as (p' & R); [rewrite F1, F2; exact Ho|]. exists p, p'. auto.
  Qed.

  (** *** Pieces *)
  Lemma aad_pieces_hold key iv : forall ads aad p, aholds key iv aad [] p -> Forall chunk ads ->
    ap_aad_done p = false -> ap_done p = false ->
    exists p', aad_pieces cx p ads = Some p' /\ aholds key iv (aad ++ concat ads) [] p' /\ ap_aad_done p' = false /\ ap_done p' = false.
  Proof.
    induction ads as [|d ads IH]; intros aad p H Hc F1 F2.
    - exists p. cbn [concat]. rewrite app_nil_r. auto.
    - inversion Hc as [|? ? Hc1 Hc2]; subst. cbn [aad_pieces concat].
      destruct (aad_hold key iv aad [] p d H Hc1 F1 F2) as (q & E & H' & G1 & G2). rewrite E. cbn [bind].
      destruct (IH _ q H' Hc2 G1 G2) as (r & Er & Hr & R1 & R2). exists r. rewrite <- app_assoc in Hr. auto.
  Qed.
  Lemma crypt_new_hold dir key iv aad ct p t : aholds key iv aad ct p -> ap_done p = false -> chunk t ->
    let r := xor_with (chacha20_byte (pad_to 32 key) 1 (pad_to 12 iv)) (length ct) t in
    exists p', aapie_crypt_new dir B cx p t = Some (p', r) /\
      aholds key iv aad (ct ++ match dir with Encrypt => r | Decrypt => t end) p' /\ ap_aad_done p' = true /\ ap_done p' = false.
  Proof.
    intros H F Ht r. destruct (text_step key iv aad ct p (ACryptC dir t (Dynamic [])) H F I) as (p' & E & H' & F1 & F2).
    { split; [exact Ht|]. split; [constructor|exact I]. }
    cbn [aead_step atext_in] in *. fold r in E, H'. exists p'. unfold aapie_crypt_new.
    destruct (aapie_crypt_c dir B cx p t (Dynamic [])) as [[[q c] n]|]; [|discriminate E]. cbn [bind] in *.
    cbn [atext_out] in E. split; [injection E as -> -> _; reflexivity|]. split; [|auto]. destruct dir; exact H'.
  Qed.
  Lemma text_pieces_hold dir key iv aad : forall ts ct p, aholds key iv aad ct p -> Forall chunk ts -> ap_done p = false ->
    exists p' rs, text_pieces dir B cx p ts = Some (p', rs) /\
      concat rs = xor_with (chacha20_byte (pad_to 32 key) 1 (pad_to 12 iv)) (length ct) (concat ts) /\
      aholds key iv aad (ct ++ match dir with Encrypt => concat rs | Decrypt => concat ts end) p' /\
      ap_done p' = false /\ ap_aad_done p' = match ts with [] => ap_aad_done p | _ => true end.
  Proof.
    induction ts as [|t ts IH]; intros ct p H Hc F.
    - exists p, []. split; [reflexivity|]. split; [reflexivity|]. cbn [concat].
      replace (ct ++ match dir with Encrypt => [] | Decrypt => [] end) with ct by (destruct dir; rewrite app_nil_r; reflexivity). auto.
    - inversion Hc as [|? ? Hc1 Hc2]; subst. cbn [text_pieces concat].
      destruct (crypt_new_hold dir key iv aad ct p t H F Hc1) as (q & E & H' & F1 & F2). rewrite E. cbn [bind].
      destruct (IH _ q H' Hc2 F2) as (r & rs & Er & Ec & Hr & G1 & G2). rewrite Er. cbn [bind].
      do 2 eexists. split; [reflexivity|]. cbn [concat]. split; [|split; [|split; [exact G1|]]].
      + rewrite Ec. rewrite xor_with_app. f_equal. f_equal.
        rewrite app_length. destruct dir; rewrite ?xor_with_length; reflexivity.
      + rewrite <- app_assoc in Hr. destruct dir; exact Hr.
      + destruct ts; [rewrite G2; exact F1|exact G2].
  Qed.

  Lemma aholds_returns key iv aad ct p : aholds key iv aad ct p -> (ap_aad_done p || (length aad mod 16 =? 0)%nat) = true ->
    areturns cx dsz p (firstn dsz (aead_tag_on (cx_big cx) (pad_to 32 key) (pad_to 12 iv) aad ct)).
  Proof.
    intros H R. set (D := firstn dsz (aead_tag_on (cx_big cx) (pad_to 32 key) (pad_to 12 iv) aad ct)).
    assert (LD : length D = dsz) by (unfold D; rewrite firstn_length; unfold aead_tag_on; rewrite poly1305_on_length; lia).
    assert (X : forall c, is_tag_call c = true -> acall_ok dsz c -> exists p', aead_step B cx dsz p c = Some (p', atag_out D c)).
    { intros c Ht Hc. destruct (tag_step key iv aad ct p c H R Ht Hc) as (p' & E & _). exists p'. exact E. }
    assert (Y : forall c s, bytes (cdata c) -> exists p', aapie_digest_c cx dsz p c s
      = Some (p', match atag_out D (ADigestC c s) with ATagC c n => c | _ => c end,
                  match atag_out D (ADigestC c s) with ATagC c n => n | _ => 0%nat end)).
    { intros c s Hb. destruct (X (ADigestC c s) eq_refl Hb) as (p' & E). exists p'. cbn [aead_step] in E.
      destruct (aapie_digest_c cx dsz p c s) as [[[q c1] n1]|]; [|discriminate E]. cbn [bind] in E.
      destruct c; cbn [atag_out] in *; congruence. }
    unfold areturns. split; [|split; [|split; [|split]]].
    - intros dst size Hb Hl. rewrite LD in Hl. destruct (X (ADigest dst size) eq_refl) as (p' & E); [split; assumption|].
      exists p'. cbn [aead_step atag_out] in E. destruct (aapie_digest cx dsz p dst size) as [[[q d1] n1]|]; [|discriminate E].
      cbn [bind] in E. congruence.
    - intros l size Hb. exact (Y (Dynamic l) size Hb).
    - intros l size Hb. exact (Y (Static l) size Hb).
    - intros size. destruct (Y (Dynamic []) size ltac:(constructor)) as (p' & E). exists p'. unfold aapie_digest_new. rewrite E. reflexivity.
    - intros junk Hb. destruct (Y (Static junk) (length junk) Hb) as (p' & E). exists p'. unfold aapie_digest_static. rewrite E.
      cbn [bind atag_out cdata]. do 2 f_equal. rewrite LD.
      replace (Nat.min (Nat.min (length junk) dsz) (length junk)) with (Nat.min (length junk) dsz) by lia.
      rewrite <- LD. rewrite firstn_min_len. f_equal.
      destruct (Nat.le_ge_cases (length junk) (length D)); [|rewrite Nat.min_r by lia; reflexivity].
      rewrite Nat.min_l by lia. rewrite !skipn_all2 by lia. reflexivity.
  Qed.


  (** *** Free functions *)
  Definition ktext (key iv text : list N) : list N := aead_text (pad_to 32 key) (pad_to 12 iv) text.
  Definition ktag (key iv aad ct : list N) : list N := firstn dsz (aead_tag_on (cx_big cx) (pad_to 32 key) (pad_to 12 iv) aad ct).
  Lemma ktag_length key iv aad ct : length (ktag key iv aad ct) = dsz.
  Proof. unfold ktag, aead_tag_on. rewrite firstn_length, poly1305_on_length. apply Nat.min_l. exact Hd. Qed.

  Lemma new_aad key iv aad : bytes key -> bytes iv -> chunk aad ->
    exists p0 p, aapie_new B cx key iv = Some p0 /\ aapie_aad cx p0 aad = Some p /\ aholds key iv aad [] p /\ ap_done p = false.
  Proof.
    intros Hk Hv Ha. destruct (anew key iv Hk Hv) as (p0 & E & H & F1 & F2).
    destruct (aad_hold key iv [] [] p0 aad H Ha F1 F2) as (p & E2 & H2 & _ & G2).
    exists p0, p. auto.
  Qed.

  Lemma step_verify key iv aad ct p j m : aholds key iv aad ct p -> ap_aad_done p = true -> bytes j -> length j = dsz -> bytes m ->
    exists p', aapie_verify cx dsz p j m
      = Some (p', if list_eq_dec N.eq_dec m (ktag key iv aad ct) then err_none else err_aead_verify).
  Proof.
    intros H F Hj Lj Hm. destruct (tag_step key iv aad ct p (AVerify j m) H) as (p' & E & _).
    { rewrite F. reflexivity. } { reflexivity. } { cbn. auto. }
    exists p'. cbn [aead_step atag_out] in E. destruct (aapie_verify cx dsz p j m) as [[q e]|]; [|discriminate E].
    cbn [bind] in E. fold (ktag key iv aad ct) in E. congruence.
  Qed.
  Lemma crypt_c_hold dir key iv aad ct p t c : aholds key iv aad ct p -> ap_done p = false -> chunk t -> bytes (cdata c) ->
    match c with Dynamic _ => True | Static l => (length t <= length l)%nat end ->
    let r := xor_with (chacha20_byte (pad_to 32 key) 1 (pad_to 12 iv)) (length ct) t in
    exists p', aapie_crypt_c dir B cx p t c
        = Some (p', match c with Dynamic _ => Dynamic r | Static l => Static (r ++ skipn (length t) l) end, length t) /\
      aholds key iv aad (ct ++ match dir with Encrypt => r | Decrypt => t end) p' /\ ap_aad_done p' = true /\ ap_done p' = false.
  Proof.
    intros H F Ht Hb Hl r. destruct (text_step key iv aad ct p (ACryptC dir t c) H F I) as (p' & E & H' & F1 & F2).
    { cbn. auto. }
    cbn [aead_step atext_in] in *. fold r in E, H'. exists p'.
    destruct (aapie_crypt_c dir B cx p t c) as [[[q c1] n]|]; [|discriminate E]. cbn [bind] in *.
    assert (Lr : length r = length t) by apply xor_with_length.
    split; [|split; [destruct dir; exact H'|auto]].
    destruct c; cbn [atext_out] in E; rewrite Lr in E; congruence.
  Qed.

  (** Encryption. *)
  Lemma free_encrypt_mv key iv aad m s n d mac : bytes key -> bytes iv -> chunk aad -> textmv m s n d ->
    bytes mac -> (dsz <= length mac)%nat ->
    let c := ktext key iv (slice m s n) in
    aead_free_encrypt B cx dsz key iv aad m s n d mac
    = Some (put m d c, ktag key iv aad c ++ skipn dsz mac, n, dsz).
  Proof.
    intros Hk Hv Ha T Hm Lm c. destruct (new_aad key iv aad Hk Hv Ha) as (p0 & p & E0 & E1 & H & F).
    unfold aead_free_encrypt. rewrite E0. cbn [bind]. rewrite E1. cbn [bind].
    destruct (crypt_hold_mv Encrypt key iv aad [] p m s n d H F T) as (p' & E & Lr & H' & F1 & F2).
    cbn [length app] in E, H'. fold c in H'. change (xor_with _ 0 _) with c in *. rewrite E. cbn [bind].
    destruct (aholds_returns key iv aad c p' H') as (R & _); [rewrite F1; reflexivity|].
    fold (ktag key iv aad c) in R. destruct (R mac dsz Hm) as (q & Eq); [rewrite ktag_length; lia|].
    rewrite Eq. cbn [bind]. rewrite ktag_length, Nat.min_id. rewrite firstn_all2 by (rewrite ktag_length; lia). reflexivity.
  Qed.
  Lemma free_encrypt_spec key iv aad m s n d mac : bytes key -> bytes iv -> chunk aad -> textok m s n d ->
    bytes mac -> (dsz <= length mac)%nat ->
    let c := ktext key iv (slice m s n) in
    aead_free_encrypt B cx dsz key iv aad m s n d mac
    = Some (put m d c, ktag key iv aad c ++ skipn dsz mac, n, dsz).
  Proof. intros Hk Hv Ha T. apply free_encrypt_mv; try assumption. apply textok_mv, T. Qed.
  Lemma free_encrypt_c_spec key iv aad t c mac : bytes key -> bytes iv -> chunk aad -> chunk t ->
    bytes (cdata c) -> bytes (cdata mac) ->
    match c with Dynamic _ => True | Static l => (length t <= length l)%nat end ->
    let e := ktext key iv t in
    let tag := ktag key iv aad e in
    aead_free_encrypt_c B cx dsz key iv aad t c mac
    = Some (match c with Dynamic _ => Dynamic e | Static l => Static (e ++ skipn (length t) l) end,
            match mac with
            | Dynamic _ => Dynamic tag
            | Static l => Static (firstn (length l) tag ++ skipn dsz l)
            end, length t, match mac with Dynamic _ => dsz | Static l => Nat.min dsz (length l) end).
  Proof.
    intros Hk Hv Ha Ht Hc Hm Hl e tag. destruct (new_aad key iv aad Hk Hv Ha) as (p0 & p & E0 & E1 & H & F).
    unfold aead_free_encrypt_c. rewrite E0. cbn [bind]. rewrite E1. cbn [bind].
    destruct (crypt_c_hold Encrypt key iv aad [] p t c H F Ht Hc Hl) as (p' & E & H' & F1 & F2).
    cbn [length app] in E, H'. change (xor_with _ 0 _) with e in *. rewrite E. cbn [bind].
    destruct (aholds_returns key iv aad e p' H') as (_ & R1 & R2 & _); [rewrite F1; reflexivity|].
    fold (ktag key iv aad e) in R1, R2. fold tag in R1, R2. assert (LT : length tag = dsz) by apply ktag_length. rewrite LT in R1, R2.
    destruct mac as [l|l]; cbn [cdata] in Hm.
    - destruct (R1 l dsz Hm) as (q & Eq). rewrite Eq. cbn [bind]. rewrite Nat.min_id, firstn_all2 by lia. reflexivity.
    - destruct (R2 l dsz Hm) as (q & Eq). rewrite Eq. cbn [bind]. rewrite Nat.min_id.
      do 5 f_equal. destruct (Nat.le_ge_cases dsz (length l)).
      + rewrite Nat.min_l by lia. rewrite !firstn_all2 by lia. reflexivity.
      + rewrite Nat.min_r by lia. rewrite !skipn_all2 by lia. reflexivity.
  Qed.
  Lemma free_encrypt_new_spec key iv aad t junk : bytes key -> bytes iv -> chunk aad -> chunk t ->
    bytes junk -> length junk = dsz ->
    let e := ktext key iv t in
    aead_free_encrypt_new B cx dsz key iv aad t junk = Some (e, ktag key iv aad e).
  Proof.
    intros Hk Hv Ha Ht Hj Lj e. destruct (new_aad key iv aad Hk Hv Ha) as (p0 & p & E0 & E1 & H & F).
    unfold aead_free_encrypt_new. rewrite E0. cbn [bind]. rewrite E1. cbn [bind].
    destruct (crypt_new_hold Encrypt key iv aad [] p t H F Ht) as (p' & E & H' & F1 & F2).
    cbn [length app] in E, H'. change (xor_with _ 0 _) with e in *. rewrite E. cbn [bind].
    destruct (aholds_returns key iv aad e p' H') as (_ & _ & _ & _ & R); [rewrite F1; reflexivity|].
    fold (ktag key iv aad e) in R. destruct (R junk Hj) as (q & Eq). rewrite Eq. cbn [bind].
    rewrite skipn_all2 by (rewrite ktag_length; lia). rewrite firstn_all2 by (rewrite ktag_length; lia). rewrite app_nil_r. reflexivity.
  Qed.

  (** Decryption: [good] says whether [mac] is the tag. *)
  Definition good (key iv aad ct mac : list N) : bool :=
    if list_eq_dec N.eq_dec mac (ktag key iv aad ct) then true else false.
  Lemma free_decrypt_mv key iv aad m s n d junk mac : bytes key -> bytes iv -> chunk aad -> textmv m s n d ->
    bytes junk -> length junk = dsz -> bytes mac ->
    let x := slice m s n in
    aead_free_decrypt B cx dsz key iv aad m s n junk mac d
      = Some (put m d (ktext key iv x), if good key iv aad x mac then Returns n else Terminates) /\
    aead_free_decrypt_err B cx dsz key iv aad m s n junk mac d
      = Some (put m d (ktext key iv x), n, if good key iv aad x mac then err_none else err_aead_verify).
  Proof.
    intros Hk Hv Ha T Hj Lj Hm x. destruct (new_aad key iv aad Hk Hv Ha) as (p0 & p & E0 & E1 & H & F).
    unfold aead_free_decrypt, aead_free_decrypt_err. rewrite E0. cbn [bind]. rewrite E1. cbn [bind].
    destruct (crypt_hold_mv Decrypt key iv aad [] p m s n d H F T) as (p' & E & Lr & H' & F1 & F2).
    cbn [length app] in E, H'. fold x in E, H'. change (xor_with _ 0 _) with (ktext key iv x) in *. rewrite E. cbn [bind].
    destruct (step_verify key iv aad x p' junk mac H' F1 Hj Lj Hm) as (q & Eq).
    unfold aapie_verify_throw. rewrite Eq. cbn [bind]. unfold good.
    destruct (list_eq_dec N.eq_dec mac (ktag key iv aad x)); split; reflexivity.
  Qed.
  Lemma free_decrypt_spec key iv aad m s n d junk mac : bytes key -> bytes iv -> chunk aad -> textok m s n d ->
    bytes junk -> length junk = dsz -> bytes mac ->
    let x := slice m s n in
    aead_free_decrypt B cx dsz key iv aad m s n junk mac d
      = Some (put m d (ktext key iv x), if good key iv aad x mac then Returns n else Terminates) /\
    aead_free_decrypt_err B cx dsz key iv aad m s n junk mac d
      = Some (put m d (ktext key iv x), n, if good key iv aad x mac then err_none else err_aead_verify).
  Proof. intros Hk Hv Ha T. apply free_decrypt_mv; try assumption. apply textok_mv, T. Qed.
  Lemma free_decrypt_c_spec key iv aad t c junk mac : bytes key -> bytes iv -> chunk aad -> chunk t -> bytes (cdata c) ->
    match c with Dynamic _ => True | Static l => (length t <= length l)%nat end ->
    bytes junk -> length junk = dsz -> bytes mac ->
    let r := match c with Dynamic _ => Dynamic (ktext key iv t) | Static l => Static (ktext key iv t ++ skipn (length t) l) end in
    aead_free_decrypt_c B cx dsz key iv aad t junk mac c
      = Some (r, if good key iv aad t mac then Returns (length t)
                 else match c with Dynamic _ => Throws err_aead_verify | Static _ => Terminates end) /\
    aead_free_decrypt_c_err B cx dsz key iv aad t junk mac c
      = Some (r, length t, if good key iv aad t mac then err_none else err_aead_verify).
  Proof.
    intros Hk Hv Ha Ht Hb Hl Hj Lj Hm r. destruct (new_aad key iv aad Hk Hv Ha) as (p0 & p & E0 & E1 & H & F).
    unfold aead_free_decrypt_c, aead_free_decrypt_c_err. rewrite E0. cbn [bind]. rewrite E1. cbn [bind].
    destruct (crypt_c_hold Decrypt key iv aad [] p t c H F Ht Hb Hl) as (p' & E & H' & F1 & F2).
    cbn [length app] in E, H'. change (xor_with _ 0 _) with (ktext key iv t) in *. rewrite E. cbn [bind].
    destruct (step_verify key iv aad t p' junk mac H' F1 Hj Lj Hm) as (q & Eq).
    unfold aapie_verify_throw. rewrite Eq. cbn [bind]. unfold good.
    destruct (list_eq_dec N.eq_dec mac (ktag key iv aad t)), c; split; reflexivity.
  Qed.
  Lemma free_decrypt_new_spec key iv aad t junk mac : bytes key -> bytes iv -> chunk aad -> chunk t ->
    bytes junk -> length junk = dsz -> bytes mac ->
    aead_free_decrypt_new B cx dsz key iv aad t junk mac
      = Some (if good key iv aad t mac then Returns (ktext key iv t) else Throws err_aead_verify) /\
    aead_free_decrypt_new_err B cx dsz key iv aad t junk mac
      = Some (ktext key iv t, if good key iv aad t mac then err_none else err_aead_verify).
  Proof.
    intros Hk Hv Ha Ht Hj Lj Hm. destruct (new_aad key iv aad Hk Hv Ha) as (p0 & p & E0 & E1 & H & F).
    unfold aead_free_decrypt_new, aead_free_decrypt_new_err. rewrite E0. cbn [bind]. rewrite E1. cbn [bind].
    destruct (crypt_new_hold Decrypt key iv aad [] p t H F Ht) as (p' & E & H' & F1 & F2).
    cbn [length app] in E, H'. change (xor_with _ 0 _) with (ktext key iv t) in *. rewrite E. cbn [bind].
    destruct (step_verify key iv aad t p' junk mac H' F1 Hj Lj Hm) as (q & Eq).
    unfold aapie_verify_throw. rewrite Eq. cbn [bind]. unfold good.
    destruct (list_eq_dec N.eq_dec mac (ktag key iv aad t)); split; reflexivity.
  Qed.

  (** *** C34: the tag without text *)
  Lemma tag_without_text key iv ads : bytes key -> bytes iv -> Forall chunk ads ->
    exists p p', aapie_new B cx key iv = Some p /\ aad_pieces cx p ads = Some p' /\
      aholds key iv (concat ads) [] p' /\ ap_aad_done p' = false.
  Proof.
    intros Hk Hv Ha. destruct (anew key iv Hk Hv) as (p & E & H & F1 & F2).
    destruct (aad_pieces_hold key iv ads [] p H Ha F1 F2) as (p' & E' & H' & G1 & G2). exists p, p'. auto.
  Qed.
  Lemma stream_spec dir key iv ads ts : bytes key -> bytes iv -> Forall chunk ads -> Forall chunk ts ->
    (ts <> [] \/ (length (concat ads) mod 16 = 0)%nat) ->
    exists p p1 p2 rs, aapie_new B cx key iv = Some p /\ aad_pieces cx p ads = Some p1 /\
      text_pieces dir B cx p1 ts = Some (p2, rs) /\
      concat rs = ktext key iv (concat ts) /\
      areturns cx dsz p2 (ktag key iv (concat ads) (match dir with Encrypt => concat rs | Decrypt => concat ts end)).
  Proof.
    intros Hk Hv Ha Ht Hne. destruct (tag_without_text key iv ads Hk Hv Ha) as (p & p1 & E & E1 & H & F).
    assert (F2 : ap_done p1 = false).
    { destruct (anew key iv Hk Hv) as (p' & E' & H' & G1 & G2). replace p' with p in * by congruence.
      destruct (aad_pieces_hold key iv ads [] p H' Ha G1 G2) as (q & Eq & _ & _ & X). congruence. }
    destruct (text_pieces_hold dir key iv (concat ads) ts [] p1 H Ht F2) as (p2 & rs & E2 & C & H2 & G1 & G2).
    exists p, p1, p2, rs. split; [exact E|]. split; [exact E1|]. split; [exact E2|]. split; [exact C|].
    apply aholds_returns; [exact H2|]. rewrite G2. destruct ts; [|reflexivity].
    destruct Hne as [Hne|Hne]; [congruence|]. rewrite F, Hne. reflexivity.
  Qed.
  (** Without text the additional data is not padded. *)
  Lemma unpadded_tag key iv ads : bytes key -> bytes iv -> Forall chunk ads ->
    let aad := concat ads in
    exists p p1, aapie_new B cx key iv = Some p /\ aad_pieces cx p ads = Some p1 /\
    forall dst size, bytes dst -> (Nat.min size dsz <= length dst)%nat ->
    exists p2, aapie_digest cx dsz p1 dst size
      = Some (p2, firstn size (firstn dsz (poly1305_on (cx_big cx) (aead_otk (pad_to 32 key) (pad_to 12 iv))
                (aad ++ le_enc 8 (N.of_nat (length aad)) ++ le_enc 8 0))) ++ skipn (Nat.min size dsz) dst, Nat.min size dsz).
  Proof.
    intros Hk Hv Ha aad. destruct (anew key iv Hk Hv) as (p & E & H & F1 & F2).
    destruct (aad_pieces_hold key iv ads [] p H Ha F1 F2) as (p1 & E1 & H1 & G1 & G2). cbn [app] in H1. fold aad in H1.
    exists p, p1. split; [exact E|]. split; [exact E1|]. intros dst size Hb Hl.
    destruct H1 as [_ _ Ba _ C A Ed Mm]. rewrite G1, G2 in Mm. destruct Mm as [_ Mm]. cbn [length] in Ed.
    assert (X : exists p2, aapie_finalize cx p1 = Some p2 /\ ap_done p2 = true /\ peq (ao_mac (ap_impl p2)) (ao_mac (ap_impl p2)) /\
      atag p2 = firstn dsz (poly1305_on (cx_big cx) (aead_otk (pad_to 32 key) (pad_to 12 iv))
                (aad ++ le_enc 8 (N.of_nat (length aad)) ++ le_enc 8 0))).
    { unfold aapie_finalize. rewrite G2. unfold aead_finalize. rewrite A, Ed, zeros_spec. cbn [bind].
      destruct (upd_hold _ _ _ (pad16 0) Mm (pad16_chunk _)) as (h1 & U1 & P1). rewrite U1. cbn [bind].
      set (a := N.of_nat (length aad)) in *. set (c := N.of_nat 0) in *.
      pose proof (lengths_spec cx (a mod 2 ^ 64) (c mod 2 ^ 64)) as Ls.
      destruct (mem_stor_le cx 8 1 (repeat 0 16) 0 (a mod 2 ^ 64)) as [b|];
        [|discriminate Ls; apply N.mod_lt; discriminate]. cbn [bind] in *.
      rewrite Ls by (apply N.mod_lt; discriminate). cbn [bind]. clear Ls b.
      destruct (upd_hold _ _ _ (le_enc 8 (a mod 2 ^ 64) ++ le_enc 8 (c mod 2 ^ 64)) P1) as (h2 & U2 & P2).
      { split; [apply bytes_app; split; apply le_enc_bytes|]. rewrite app_length, !le_enc_length. reflexivity. }
      rewrite U2. cbn [bind]. destruct (fin_hold _ _ _ P2) as (h3 & U3 & P3 & T3). rewrite U3. cbn [bind].
      eexists. split; [reflexivity|]. cbn [ap_done ap_aad_done ap_impl ao_mac]. split; [reflexivity|]. split; [exact P3|].
      unfold atag. cbn [ap_impl ao_mac]. rewrite T3, mkey_otk by assumption. rewrite !le_enc_mod64.
      change (pad16 0) with (@nil N). rewrite app_nil_r. reflexivity. }
    destruct X as (p2 & X1 & X2 & X3 & X4). exists p2.
    pose proof (atag_open p1 (ADigest dst size) eq_refl) as O. rewrite X1 in O. cbn [bind] in O.
    rewrite (atag_step p2 (ADigest dst size) X3 X2 eq_refl (conj Hb Hl)) in O.
    rewrite X4 in O. cbn [atag_out aead_step] in O.
    destruct (aapie_digest cx dsz p1 dst size) as [[[q d1] n1]|]; [|discriminate O]. cbn [bind] in O.
    assert (LT : length (atag p2) = dsz) by (apply out_len; exact X3). rewrite X4 in LT. rewrite LT in O. congruence.
  Qed.
End Aead.

(** *** Two sides *)
Lemma aead_text_twice key nonce t : aead_text key nonce (aead_text key nonce t) = t.
Proof. unfold aead_text, chacha20. apply xor_with_twice. Qed.
Lemma aead_text_length key nonce t : length (aead_text key nonce t) = length t.
Proof. apply xor_with_length. Qed.

Lemma aead_verify_exact : forall cx B dsz dir key iv ads ts,
  backend_ok cx B -> (dsz <= 16)%nat -> bytes key -> bytes iv ->
  Forall chunk ads -> Forall chunk ts -> ts <> [] ->
  exists p p1 p2 rs,
    aapie_new B cx key iv = Some p /\ aad_pieces cx p ads = Some p1 /\ text_pieces dir B cx p1 ts = Some (p2, rs) /\
  forall junk mac, bytes junk -> length junk = dsz -> bytes mac ->
    let tag := firstn dsz (aead_tag_on (cx_big cx) (pad_to 32 key) (pad_to 12 iv) (concat ads)
                 (match dir with Encrypt => concat rs | Decrypt => concat ts end)) in
    length tag = dsz /\
    exists p3 e, aapie_verify cx dsz p2 junk mac = Some (p3, e) /\
      (mac = tag -> e = err_none) /\ (mac <> tag -> e = err_aead_verify).
Proof.
  intros cx B dsz dir key iv ads ts BO Hd Hk Hv Ha Ht Hne.
  destruct (anew cx B BO dsz Hd key iv Hk Hv) as (p & E & H & F1 & F2).
  destruct (aad_pieces_hold cx B dsz Hd key iv ads [] p H Ha F1 F2) as (p1 & E1 & H1 & G1 & G2). cbn [app] in H1.
  destruct (text_pieces_hold cx B BO dsz Hd dir key iv (concat ads) ts [] p1 H1 Ht G2) as (p2 & rs & E2 & C & H2 & K1 & K2).
  exists p, p1, p2, rs. split; [exact E|]. split; [exact E1|]. split; [exact E2|].
  intros junk mac Hj Lj Hm tag. split; [exact (ktag_length cx dsz Hd key iv _ _)|].
  assert (K3 : ap_aad_done p2 = true) by (rewrite K2; destruct ts; [congruence|reflexivity]).
  cbn [app] in H2.
  destruct (step_verify cx B dsz Hd key iv _ _ p2 junk mac H2 K3 Hj Lj Hm) as (p3 & E3).
  eexists. eexists. split; [exact E3|]. unfold ktag. fold tag.
  destruct (list_eq_dec N.eq_dec mac tag); split; intros; congruence.
Qed.

Lemma aead_round_trip : forall cx1 cx2 B1 B2 dsz key iv ads ads' ts ts',
  backend_ok cx1 B1 -> backend_ok cx2 B2 -> cx_big cx1 = cx_big cx2 -> (dsz <= 16)%nat ->
  bytes key -> bytes iv -> Forall chunk ads -> Forall chunk ads' -> concat ads = concat ads' ->
  Forall chunk ts -> ts <> [] -> Forall chunk ts' -> ts' <> [] ->
  exists p p1 p2 cs p3 tag,
    aapie_new B1 cx1 key iv = Some p /\ aad_pieces cx1 p ads = Some p1 /\
    text_pieces Encrypt B1 cx1 p1 ts = Some (p2, cs) /\ aapie_digest_new cx1 dsz p2 dsz = Some (p3, tag) /\
  (concat ts' = concat cs ->
   exists q q1 q2 rs,
     aapie_new B2 cx2 key iv = Some q /\ aad_pieces cx2 q ads' = Some q1 /\
     text_pieces Decrypt B2 cx2 q1 ts' = Some (q2, rs) /\ concat rs = concat ts /\
     (forall junk, bytes junk -> length junk = dsz -> exists q3, aapie_verify cx2 dsz q2 junk tag = Some (q3, err_none))).
Proof.
  intros cx1 cx2 B1 B2 dsz key iv ads ads' ts ts' BO1 BO2 Hb Hd Hk Hv Ha Ha' Ea Ht Hne Ht' Hne'.
  destruct (stream_spec cx1 B1 BO1 dsz Hd Encrypt key iv ads ts Hk Hv Ha Ht (or_introl Hne))
    as (p & p1 & p2 & cs & E & E1 & E2 & C & (_ & _ & _ & R & _)).
  set (tag := ktag cx1 dsz key iv (concat ads) (concat cs)) in R.
  destruct (R dsz) as (p3 & E3). rewrite firstn_all2 in E3 by (unfold tag; rewrite ktag_length by exact Hd; lia).
  exists p, p1, p2, cs, p3, tag. repeat (split; [assumption|]). intros Et.
  destruct (aead_verify_exact cx2 B2 dsz Decrypt key iv ads' ts' BO2 Hd Hk Hv Ha' Ht' Hne') as (q & q1 & q2 & rs & V & V1 & V2 & V3).
  exists q, q1, q2, rs. repeat (split; [assumption|]). split.
  - destruct (stream_spec cx2 B2 BO2 dsz Hd Decrypt key iv ads' ts' Hk Hv Ha' Ht' (or_introl Hne'))
      as (q' & q1' & q2' & rs' & W & W1 & W2 & W3 & _).
    replace q' with q in * by congruence. replace q1' with q1 in * by congruence. replace rs' with rs in * by congruence.
    rewrite W3, Et, C. apply aead_text_twice.
  - intros junk Hj Lj.
    assert (Bt : bytes tag).
    { unfold tag, ktag. apply bytes_firstn. unfold aead_tag_on, poly1305_on, poly1305. apply le_enc_bytes. }
    destruct (V3 junk tag Hj Lj Bt) as (_ & q3 & e & X & X1 & _). exists q3. rewrite X.
    rewrite X1; [reflexivity|]. unfold tag, ktag. rewrite Hb, Ea, Et. reflexivity.
Qed.

Lemma aead_round_trip_free : forall cx1 cx2 B1 B2 dsz key iv aad text junk,
  backend_ok cx1 B1 -> backend_ok cx2 B2 -> cx_big cx1 = cx_big cx2 -> (dsz <= 16)%nat ->
  bytes key -> bytes iv -> chunk aad -> chunk text -> bytes junk -> length junk = dsz ->
  exists c tag, aead_free_encrypt_new B1 cx1 dsz key iv aad text junk = Some (c, tag) /\
    aead_free_decrypt_new B2 cx2 dsz key iv aad c junk tag = Some (Returns text) /\
    aead_free_decrypt_new_err B2 cx2 dsz key iv aad c junk tag = Some (text, err_none) /\
    (forall l, bytes l -> aead_free_decrypt_c B2 cx2 dsz key iv aad c junk tag (Dynamic l)
       = Some (Dynamic text, Returns (length text))) /\
    (forall l, bytes l -> (length text <= length l)%nat -> aead_free_decrypt_c B2 cx2 dsz key iv aad c junk tag (Static l)
       = Some (Static (text ++ skipn (length text) l), Returns (length text))) /\
    (forall m src dst, bytes m -> slice m src (length c) = c -> (src + length c <= length m)%nat ->
       (dst + length c <= length m)%nat -> apart dst src (length c) ->
       aead_free_decrypt B2 cx2 dsz key iv aad m src (length c) junk tag dst = Some (put m dst text, Returns (length text))).
Proof.
  intros cx1 cx2 B1 B2 dsz key iv aad text junk BO1 BO2 Hb Hd Hk Hv Ha Ht Hj Lj.
  set (c := ktext key iv text). set (tag := ktag cx1 dsz key iv aad c). exists c, tag.
  assert (Lc : length c = length text) by apply aead_text_length.
  assert (Pc : ktext key iv c = text) by apply aead_text_twice.
  assert (Bc : bytes c).
  { unfold c, ktext, aead_text, chacha20. apply xor_with_bytes; [|apply Ht]. intros j. rewrite <- ast_byte. apply st_byte_byte. }
  assert (Cc : chunk c) by (split; [exact Bc|rewrite Lc; apply Ht]).
  assert (Bt : bytes tag).
  { unfold tag, ktag. apply bytes_firstn. unfold aead_tag_on, poly1305_on, poly1305. apply le_enc_bytes. }
  assert (G : good cx2 dsz key iv aad c tag = true).
  { unfold good. assert (Et : ktag cx2 dsz key iv aad c = tag) by (unfold tag, ktag; rewrite Hb; reflexivity). rewrite Et. destruct (list_eq_dec N.eq_dec tag tag); [reflexivity|congruence]. }
  split; [exact (free_encrypt_new_spec cx1 B1 BO1 dsz Hd key iv aad text junk Hk Hv Ha Ht Hj Lj)|].
  destruct (free_decrypt_new_spec cx2 B2 BO2 dsz Hd key iv aad c junk tag Hk Hv Ha Cc Hj Lj Bt) as [D1 D2].
  rewrite G, Pc in D1, D2. split; [exact D1|]. split; [exact D2|]. split; [|split].
  - intros l Hl. destruct (free_decrypt_c_spec cx2 B2 BO2 dsz Hd key iv aad c (Dynamic l) junk tag Hk Hv Ha Cc Hl I Hj Lj Bt) as [D _].
    rewrite G, Pc, Lc in D. exact D.
  - intros l Hl Le. destruct (free_decrypt_c_spec cx2 B2 BO2 dsz Hd key iv aad c (Static l) junk tag Hk Hv Ha Cc Hl) as [D _];
      [rewrite Lc; exact Le|exact Hj|exact Lj|exact Bt|].
    rewrite G, Pc, Lc in D. exact D.
  - intros m src dst Bm Sm Hs Hdst Hap.
    destruct (free_decrypt_spec cx2 B2 BO2 dsz Hd key iv aad m src (length c) dst junk tag Hk Hv Ha) as [D _];
      [repeat (split; [assumption|]); apply Cc|exact Hj|exact Lj|exact Bt|].
    rewrite Sm, G, Pc, Lc in D. rewrite Lc. exact D.
Qed.
