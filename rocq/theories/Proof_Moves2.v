(** Moving text while it is encrypted: the backends and call histories. *)
From Verif Require Import Base BaseLemmas BytesLemmas Spec_Bytes Spec_ChaCha Model_Memory Model_Container Model_X86 Model_Cipher Spec_Cipher Spec_ChaChaAsm Model_ChaChaAsm
  Proof_ChaChaCore Proof_ChaCha Proof_X86Sym Proof_ChaChaAsm Proof_ChaChaAsm2 Proof_ChaChaAsm3 Proof_Moves Spec_Moves Spec_Range Proof_Range.
Local Open Scope N_scope.

(** *** The order of the loads and stores *)
Lemma check16 (f : nat -> nat -> bool) : forallb (fun a => forallb (f a) (seq 0 16)) (seq 0 16) = true ->
  forall a b, (a < 16)%nat -> (b < 16)%nat -> f a b = true.
Proof.
  intros H a b Ha Hb. apply (proj1 (forallb_forall _ _)) with (x := a) in H; [|apply in_seq; lia].
  apply (proj1 (forallb_forall _ _)) with (x := b) in H; [exact H|apply in_seq; lia].
Qed.
Lemma nodup_dec (l : list nat) : (fix f l := match l with [] => true | x :: l => negb (existsb (Nat.eqb x) l) && f l end) l = true -> NoDup l.
Proof.
  induction l as [|x l IH]; intros H; [constructor|]. apply andb_prop in H. destruct H as [H1 H2]. constructor; [|exact (IH H2)].
  intros HI. apply negb_true_iff in H1. assert (existsb (Nat.eqb x) l = true) by (apply existsb_exists; exists x; split; [exact HI|apply Nat.eqb_refl]). congruence.
Qed.
Lemma all_dec (l : list nat) : forallb (fun k => existsb (Nat.eqb k) l) (seq 0 16) = true -> forall k, (k < 16)%nat -> In k l.
Proof.
  intros H k Hk. apply (proj1 (forallb_forall _ _)) with (x := k) in H; [|apply in_seq; lia].
  apply existsb_exists in H. destruct H as (x & Hx & E). apply Nat.eqb_eq in E. subst x. exact Hx.
Qed.

Lemma ssse_nds : NoDup (srcs 16 (straight ssse_transform_body)).
Proof. apply nodup_dec. vm_compute. reflexivity. Qed.
Lemma ssse_ndd : NoDup (dsts 16 (straight ssse_transform_body)).
Proof. apply nodup_dec. vm_compute. reflexivity. Qed.
Lemma ssse_all : forall k, (k < 16)%nat -> In k (srcs 16 (straight ssse_transform_body)).
Proof. apply all_dec. vm_compute. reflexivity. Qed.
Lemma avx_nds : NoDup (srcs 32 (straight avx_transform_body)).
Proof. apply nodup_dec. vm_compute. reflexivity. Qed.
Lemma avx_ndd : NoDup (dsts 32 (straight avx_transform_body)).
Proof. apply nodup_dec. vm_compute. reflexivity. Qed.
Lemma avx_all : forall k, (k < 16)%nat -> In k (srcs 32 (straight avx_transform_body)).
Proof. apply all_dec. vm_compute. reflexivity. Qed.

Lemma ssse_late e q : (q < 256)%nat -> late 16 ssse_transform_body e q = overtaken 256 ssse_turn e q.
Proof.
  intros Hq. unfold late, overtaken, ssse_turn. change (16 * 16)%nat with 256%nat. destruct (Nat.ltb_spec (q + e) 256) as [H|H]; [|reflexivity].
  assert (A : ((q + e) / 16 < 16)%nat) by (apply Nat.div_lt_upper_bound; lia). assert (B : (q / 16 < 16)%nat) by (apply Nat.div_lt_upper_bound; lia).
  cbn [andb]. apply eqb_prop.
  apply (check16 (fun a b => Bool.eqb (before 16 (straight ssse_transform_body) a b) (a mod 4 <? b mod 4)%nat)); [vm_compute; reflexivity|assumption|assumption].
Qed.
Lemma avx_late e q : (q < 512)%nat -> late 32 avx_transform_body e q = overtaken 512 avx_turn e q.
Proof.
  intros Hq. unfold late, overtaken, avx_turn. change (16 * 32)%nat with 512%nat. destruct (Nat.ltb_spec (q + e) 512) as [H|H]; [|reflexivity].
  assert (A : ((q + e) / 32 < 16)%nat) by (apply Nat.div_lt_upper_bound; lia). assert (B : (q / 32 < 16)%nat) by (apply Nat.div_lt_upper_bound; lia).
  cbn [andb]. apply eqb_prop.
  apply (check16 (fun a b => Bool.eqb (before 32 (straight avx_transform_body) a b)
     (match (a mod 4)%nat with 1 => 2 | 2 => 1 | k => k end <? match (b mod 4)%nat with 1 => 2 | 2 => 1 | k => k end)%nat)); [vm_compute; reflexivity|assumption|assumption].
Qed.

(** *** Exactly what the routines compute *)
Lemma used_of w L body turn size (f : nat -> N) e m d n T : size = (64 * L)%nat -> (1 <= L)%nat ->
  (forall q, (q < size)%nat -> late w body e q = overtaken size turn e q) ->
  (d + e + size * n <= length m)%nat -> length T = (size * n)%nat ->
  (forall q, (q < size * n)%nat -> nth q T 0 = if late w body e (q mod size) then N.lxor (nth (q + e) T 0) (f (q + e)%nat) else nth (d + e + q) m 0) ->
  used_text size turn f e (slice m (d + e) (size * n)) T.
Proof.
  intros -> L1 HL Hm LT H. unfold used_text. rewrite slice_length by exact Hm. split; [exact LT|]. intros q Hq. rewrite (H q Hq).
  rewrite HL by (apply Nat.mod_upper_bound; lia). rewrite nth_slice by exact Hq. reflexivity.
Qed.
Lemma ssse_move jr jt jb rounds n st m d e : junk_ok jr jt jb -> length st = 16%nat -> words 32 st -> bytes m ->
  (d + e + 256 * n <= length m)%nat ->
  exists T, used_text 256 ssse_turn (kbyte (times rounds) st) e (slice m (d + e) (256 * n)) T /\ bytes T /\
    asm_ssse_transform jr jt jb rounds n st m d (d + e) = Some (put m d (xor_with (kbyte (times rounds) st) 0 T), (4 * n)%nat).
Proof.
  intros J L W Hm H.
  destruct (routine_move 16 4 ssse_transform_body (or_introl eq_refl) eq_refl eq_refl ssse_transform_sym
    ssse_nds ssse_ndd ssse_all
    jr jt jb rounds n st m d e J L W Hm H) as (T & LT & BT & E & Q).
  exists T. split; [|split; [exact BT|exact E]].
  apply (used_of 16 4 ssse_transform_body ssse_turn 256 _ e m d n T); try assumption; [reflexivity|lia|intros q Hq; apply ssse_late, Hq].
Qed.
Lemma avx_move jr jt jb rounds n st m d e : junk_ok jr jt jb -> length st = 16%nat -> words 32 st -> bytes m ->
  (d + e + 512 * n <= length m)%nat ->
  exists T, used_text 512 avx_turn (kbyte (times rounds) st) e (slice m (d + e) (512 * n)) T /\ bytes T /\
    asm_avx_transform jr jt jb rounds n st m d (d + e) = Some (put m d (xor_with (kbyte (times rounds) st) 0 T), (8 * n)%nat).
Proof.
  intros J L W Hm H.
  destruct (routine_move 32 8 avx_transform_body (or_intror eq_refl) eq_refl eq_refl avx_transform_sym
    avx_nds avx_ndd avx_all
    jr jt jb rounds n st m d e J L W Hm H) as (T & LT & BT & E & Q).
  exists T. split; [|split; [exact BT|exact E]].
  apply (used_of 32 8 avx_transform_body avx_turn 512 _ e m d n T); try assumption; [reflexivity|lia|intros q Hq; apply avx_late, Hq].
Qed.

(** *** The shifts that work and the others *)
Lemma checkN a b (f : nat -> nat -> bool) : forallb (fun x => forallb (f x) (seq 0 b)) (seq 0 a) = true ->
  forall x y, (x < a)%nat -> (y < b)%nat -> f x y = true.
Proof.
  intros H x y Hx Hy. apply (proj1 (forallb_forall _ _)) with (x := x) in H; [|apply in_seq; lia].
  apply (proj1 (forallb_forall _ _)) with (x := y) in H; [exact H|apply in_seq; lia].
Qed.
Definition ssse_shiftb (e : nat) : bool := ((e =? 0) || (e =? 64) || (e =? 128) || (192 <=? e))%nat.
Definition avx_shiftb (e : nat) : bool := ((e =? 0) || (e =? 128) || (e =? 256) || (e =? 384) || (448 <=? e))%nat.
Lemma ssse_shift_dec e : reflect (ssse_shift e) (ssse_shiftb e).
Proof. apply iff_reflect. unfold ssse_shift, ssse_shiftb. rewrite !orb_true_iff, !Nat.eqb_eq, Nat.leb_le. tauto. Qed.
Lemma avx_shift_dec e : reflect (avx_shift e) (avx_shiftb e).
Proof. apply iff_reflect. unfold avx_shift, avx_shiftb. rewrite !orb_true_iff, !Nat.eqb_eq, Nat.leb_le. tauto. Qed.

Definition is_late (size : nat) (turn : list nat) (e q : nat) : bool := ((q + e <? size) && (nth (q + e) turn 0 <? nth q turn 0))%nat.
Lemma overtaken_list size turn e q : (q < size)%nat -> overtaken size turn e q = is_late size (map turn (seq 0 size)) e q.
Proof.
  intros H. unfold overtaken, is_late. destruct (Nat.ltb_spec (q + e) size) as [E|E]; [|reflexivity]. cbn [andb].
  assert (X : forall k, (k < size)%nat -> nth k (map turn (seq 0 size)) 0%nat = turn k).
  { intros k Hk. rewrite (nth_indep _ _ (turn 0%nat)) by (rewrite map_length, seq_length; exact Hk). rewrite map_nth, seq_nth by exact Hk. reflexivity. }
  rewrite !X by lia. reflexivity.
Qed.
Lemma overtaken_far size turn e q : (size <= e)%nat -> overtaken size turn e q = false.
Proof. intros H. unfold overtaken. destruct (Nat.ltb_spec (q + e) size); [lia|reflexivity]. Qed.
Lemma ssse_good e q : ssse_shift e -> (q < 256)%nat -> overtaken 256 ssse_turn e q = false.
Proof.
  intros H Hq. destruct (Nat.lt_ge_cases e 256) as [He|He]; [|apply overtaken_far, He].
  rewrite overtaken_list by exact Hq.
  assert (Q : (negb (ssse_shiftb e) || negb (is_late 256 (map ssse_turn (seq 0 256)) e q))%bool = true).
  { apply (checkN 256 256 (fun e q => (negb (ssse_shiftb e) || negb (is_late 256 (map ssse_turn (seq 0 256)) e q))%bool)); [vm_compute; reflexivity|exact He|exact Hq]. }
  destruct (ssse_shift_dec e); [|contradiction]. cbn [negb orb] in Q. apply negb_true_iff in Q. exact Q.
Qed.
Lemma avx_good e q : avx_shift e -> (q < 512)%nat -> overtaken 512 avx_turn e q = false.
Proof.
  intros H Hq. destruct (Nat.lt_ge_cases e 512) as [He|He]; [|apply overtaken_far, He].
  rewrite overtaken_list by exact Hq. set (l := map avx_turn (seq 0 512)).
  assert (Q : (negb (avx_shiftb e) || negb (is_late 512 l e q))%bool = true).
  { apply (checkN 512 512 (fun e q => (negb (avx_shiftb e) || negb (is_late 512 l e q))%bool)); [vm_compute; reflexivity|exact He|exact Hq]. }
  destruct (avx_shift_dec e); [|contradiction]. cbn [negb orb] in Q. apply negb_true_iff in Q. exact Q.
Qed.
(** With any other shift some byte is overtaken by one that is not. *)
Definition hit (size : nat) (turn : nat -> nat) (l : list nat) (e : nat) : bool :=
  existsb (fun q => is_late size l e q && negb (is_late size l e (q + e)))%bool (seq 0 size).
Lemma hit_spec size turn e : hit size turn (map turn (seq 0 size)) e = true ->
  exists q, (q + e < size)%nat /\ overtaken size turn e q = true /\ overtaken size turn e (q + e) = false.
Proof.
  unfold hit. intros H. apply existsb_exists in H. destruct H as (q & Hq & E). apply in_seq in Hq. apply andb_prop in E. destruct E as [E1 E2].
  assert (B : (q + e < size)%nat). { unfold is_late in E1. apply andb_prop in E1. destruct E1 as [E1 _]. apply Nat.ltb_lt in E1. exact E1. }
  exists q. split; [exact B|]. rewrite !overtaken_list by lia. split; [exact E1|]. apply negb_true_iff in E2. exact E2.
Qed.
Lemma ssse_bad e : ~ ssse_shift e -> exists q, (q + e < 256)%nat /\ overtaken 256 ssse_turn e q = true /\ overtaken 256 ssse_turn e (q + e) = false.
Proof.
  intros H. apply hit_spec. assert (He : (e < 256)%nat) by (unfold ssse_shift in H; lia).
  set (l := map ssse_turn (seq 0 256)).
  assert (Q : forallb (fun e => ssse_shiftb e || hit 256 ssse_turn l e)%bool (seq 0 256) = true) by (vm_compute; reflexivity).
  apply (proj1 (forallb_forall _ _)) with (x := e) in Q; [|apply in_seq; lia]. destruct (ssse_shift_dec e); [contradiction|exact Q].
Qed.
Lemma avx_bad e : ~ avx_shift e -> exists q, (q + e < 512)%nat /\ overtaken 512 avx_turn e q = true /\ overtaken 512 avx_turn e (q + e) = false.
Proof.
  intros H. apply hit_spec. assert (He : (e < 512)%nat) by (unfold avx_shift in H; lia).
  set (l := map avx_turn (seq 0 512)).
  assert (Q : forallb (fun e => avx_shiftb e || hit 512 avx_turn l e)%bool (seq 0 512) = true) by (vm_compute; reflexivity).
  apply (proj1 (forallb_forall _ _)) with (x := e) in Q; [|apply in_seq; lia]. destruct (avx_shift_dec e); [contradiction|exact Q].
Qed.
Lemma used_source size turn f e t T : size <> 0%nat -> (forall q, (q < size)%nat -> overtaken size turn e q = false) -> used_text size turn f e t T -> T = t.
Proof.
  intros Hs H [L Q]. apply list_ext; [exact L|]. intros i x Hi. rewrite L in Hi.
  rewrite (nth_indep T x 0) by lia. rewrite (nth_indep t x 0) by lia. rewrite (Q i Hi). rewrite H by (apply Nat.mod_upper_bound, Hs). reflexivity.
Qed.

(** *** As backends *)
Lemma sw_pair cx d s n : (d <= s)%nat -> pair_ok cx bk_sw d s n.
Proof.
  intros Hds a k st m L W Hm Ha Hd Hs. unfold bk_block in *. cbn [bk_sw bk_ratio bk_transform] in *. rewrite Nat.mul_1_r in *.
  unfold cc_transform. rewrite rds_slice by lia. cbn [bind].
  replace (slice st 0 16) with st by (rewrite <- L; symmetry; apply slice_all).
  rewrite cc_blocks_mv by (try assumption; unfold movable; lia). cbn [bind]. rewrite Nat.mul_1_l. reflexivity.
Qed.
Lemma ssse_pair cx jr jt jb d s n : junk_ok jr jt jb -> (d <= s)%nat -> ssse_shift (s - d) -> pair_ok cx (bk_ssse_3 jr jt jb) d s n.
Proof.
  intros J Hds HE a k st m L W Hm Ha Hd Hs. unfold bk_block in *. cbn [bk_ssse_3 bk_ratio bk_transform] in *. change (64 * 4)%nat with 256%nat in *.
  destruct (ssse_move jr jt jb 10 k st m (d + a) (s - d) J L W Hm ltac:(lia)) as (T & U & BT & E).
  replace (d + a + (s - d))%nat with (s + a)%nat in * by lia. rewrite E.
  apply used_source in U; [|discriminate|intros q Hq; apply ssse_good; assumption]. subst T.
  change (times 10) with 10%nat. rewrite xor_with_10 by assumption. reflexivity.
Qed.
Lemma avx_pair cx jr jt jb d s n : junk_ok jr jt jb -> (d <= s)%nat -> avx_shift (s - d) -> pair_ok cx (bk_avx_2 jr jt jb) d s n.
Proof.
  intros J Hds HE a k st m L W Hm Ha Hd Hs. unfold bk_block in *. cbn [bk_avx_2 bk_ratio bk_transform] in *. change (64 * 8)%nat with 512%nat in *.
  destruct (avx_move jr jt jb 10 k st m (d + a) (s - d) J L W Hm ltac:(lia)) as (T & U & BT & E).
  replace (d + a + (s - d))%nat with (s + a)%nat in * by lia. rewrite E.
  apply used_source in U; [|discriminate|intros q Hq; apply avx_good; assumption]. subst T.
  change (times 10) with 10%nat. rewrite xor_with_10 by assumption. reflexivity.
Qed.

(** *** Call histories *)
Section HIST.
  Context (cx : ctx) (B : backend) (BO : backend_ok cx B) (shift : nat -> Prop).
  Hypothesis P : forall d s n, (d <= s)%nat -> shift (s - d)%nat -> pair_ok cx B d s n.
  Lemma run_moves : forall calls key iv pos o, bytes key -> bytes iv ->
    Forall (move_ok shift) calls -> stream_at B (api_state key iv) pos o ->
    exists o', cipher_run B cx o calls = Some (o', cexpected key iv pos calls) /\
      match stands key iv pos calls with (key', iv', pos') => bytes key' /\ bytes iv' /\ stream_at B (api_state key' iv') pos' o' end.
  Proof.
    induction calls as [|c calls IH]; intros key iv pos o Hk Hv Hcs Ho.
    - exists o. split; [reflexivity|]. cbn [stands]. auto.
    - inversion Hcs as [|? ? Hc Hcs']; subst. destruct (api_state_ok key iv Hk Hv) as [L W].
      destruct Hc as [Hc|Hc].
      + destruct (cipher_run_spec cx B BO [c] key iv pos o Hk Hv (Forall_cons _ Hc (Forall_nil _)) Ho) as (o1 & E & k1 & v1 & p1 & _).
        cbn [cipher_run] in E |- *. destruct (cipher_step B cx o c) as [[o1' r]|] eqn:ES; [|discriminate]. cbn [bind] in E |- *.
        assert (S1 : o1' = o1 /\ [r] = cexpected key iv pos [c]) by (split; congruence). destruct S1 as [-> S1].
        assert (Q : exists key1 iv1, bytes key1 /\ bytes iv1 /\ exists pos1, stream_at B (api_state key1 iv1) pos1 o1 /\
          cexpected key iv pos (c :: calls) = r :: cexpected key1 iv1 pos1 calls /\
          stands key iv pos (c :: calls) = stands key1 iv1 pos1 calls).
        { destruct c as [k v|d m s n t|d t c|d c]; cbn [cipher_step] in ES.
          - destruct Hc as [Hk' Hv']. destruct (initialize_spec cx B o k v (stream_at_wf _ _ _ _ L W Ho) Hk' Hv') as (o2 & E2 & I).
            rewrite E2 in ES. cbn [bind] in ES. exists k, v. split; [exact Hk'|]. split; [exact Hv'|]. exists 0%nat. cbn [cexpected] in *.
            assert (o2 = o1 /\ r = CNone) by (split; congruence). destruct H as [-> ->]. split; [exact I|]. split; reflexivity.
          - destruct Hc as (Hm & Hs & Hd & Ha). destruct (crypt_spec cx B BO _ L W d o pos m t s n Ho Hm Hd Hs Ha) as (o2 & E2 & I).
            rewrite E2 in ES. cbn [bind] in ES. exists key, iv. split; [exact Hk|]. split; [exact Hv|]. exists (pos + n)%nat. cbn [cexpected] in *.
            assert (o2 = o1) by congruence. subst o2. split; [exact I|]. split; [|reflexivity]. cbn [ctext]. congruence.
          - destruct (crypt_c_spec cx B BO _ L W d o pos t c Ho Hc) as (o2 & E2 & I).
            destruct (capie_crypt_c d B cx o t c) as [[[o2' c2] n2]|]; [|discriminate]. cbn [option_map fst snd bind] in E2, ES.
            exists key, iv. split; [exact Hk|]. split; [exact Hv|]. exists (pos + length t)%nat. cbn [cexpected] in *.
            assert (o2' = o1) by congruence. assert (o2' = o2) by congruence. subst o2' o2. split; [exact I|]. split; [|reflexivity]. cbn [ctext]. congruence.
          - destruct (crypt_same_spec cx B BO _ L W d o pos c Ho Hc) as (o2 & E2 & I).
            rewrite E2 in ES. cbn [bind] in ES. exists key, iv. split; [exact Hk|]. split; [exact Hv|]. exists (pos + length (cdata c))%nat. cbn [cexpected] in *.
            assert (o2 = o1) by congruence. subst o2. split; [exact I|]. split; [|reflexivity]. cbn [ctext]. congruence. }
        destruct Q as (key1 & iv1 & Hk1 & Hv1 & pos1 & I & -> & ->).
        destruct (IH key1 iv1 pos1 o1 Hk1 Hv1 Hcs' I) as (o2 & R & J). rewrite R. cbn [bind]. exists o2. split; [reflexivity|exact J].
      + destruct c as [k v|d m s n t|d t c|d c]; try contradiction. destruct Hc as (Hm & Hs & Hd & He).
        destruct (crypt_mv cx B BO _ L W d o pos m t s n Ho Hm ltac:(lia) Hs ltac:(left; exact Hd) (P t s n Hd He)) as (o1 & E & I).
        assert (XX : forall t, xor_with (st_byte (api_state key iv)) pos t = xor_with (api_byte key iv) pos t)
          by (intros; apply xor_with_ext; intros; symmetry; apply api_byte_state).
        rewrite XX in E.
        cbn [cipher_run cipher_step]. rewrite E. cbn [bind]. destruct (IH key iv _ o1 Hk Hv Hcs' I) as (o2 & R & J). rewrite R. cbn [bind].
        exists o2. split; [reflexivity|exact J].
  Qed.
  Lemma moves key iv calls : bytes key -> bytes iv -> Forall (move_ok shift) calls ->
    exists o o', capie_new cx key iv = Some o /\ cipher_run B cx o calls = Some (o', cexpected key iv 0 calls).
  Proof.
    intros Hk Hv Hc. destruct (initialize_spec cx B cc_new key iv cc_new_wf Hk Hv) as (o & E & I).
    destruct (run_moves calls key iv 0 o Hk Hv Hc I) as (o' & R & _). exists o, o'. split; assumption.
  Qed.
End HIST.

(** *** The other shifts *)
Section OTHER.
  Context (cx : ctx) (B : backend) (BO : backend_ok cx B) (turn : nat -> nat).
  Let BS := bk_block B.
  Hypothesis M : forall n st m d e, length st = 16%nat -> words 32 st -> bytes m -> (d + e + BS * n <= length m)%nat ->
    exists T, used_text BS turn (st_byte st) e (slice m (d + e) (BS * n)) T /\ bytes T /\
      bk_transform B cx n st m d (d + e) = Some (put m d (xor_with (st_byte st) 0 T), (bk_ratio B * n)%nat).
  Context (st : list N) (L : length st = 16%nat) (W : words 32 st).

  (** Without bytes of the key stream left over from earlier calls. *)
  Lemma groups_call buf m d e n gen : length buf = 512%nat -> bytes buf -> bytes m -> (d + e + n <= length m)%nat ->
    exists T b g, used_text BS turn (fun j => st_byte st (64 * gen + j)) e (slice m (d + e) (BS * (n / BS))) T /\ bytes T /\
      update_block_prod_xor B cx cc_count buf 0 m d (d + e) n (at_ctr st (N.of_nat gen))
      = Some (b, (n mod BS)%nat, at_ctr st (N.of_nat g), put m d (xor_with (st_byte st) (64 * gen) (T ++ slice m (d + e + BS * (n / BS)) (n mod BS)))) /\
      stream_at B st (64 * gen + n) {| cc_state := at_ctr st (N.of_nat g); cc_buffer := b; cc_size := n mod BS |}.
  Proof.
    intros Lb Hb Hm Hn. pose proof (bs_pos cx B BO) as Hbs. fold BS in Hbs.
    assert (EN : n = (BS * (n / BS) + n mod BS)%nat) by (apply Nat.div_mod; lia).
    destruct (at_ctr_ok st (N.of_nat gen) L W) as [La Wa].
    destruct (M (n / BS) _ m d e La Wa Hm ltac:(lia)) as (T & U & BT & R).
    destruct (tail_mv cx B BO st L W buf m d (d + e) n gen T Lb Hb Hm ltac:(lia) Hn ltac:(left; lia)) as (b & g & E1 & I1).
    - fold BS. rewrite (proj1 U). apply slice_length. lia.
    - exact BT.
    - intros _. exact R.
    - exists T, b, g. split; [|split; [exact BT|split; [exact E1|exact I1]]].
      destruct U as [U1 U2]. split; [exact U1|]. intros q Hq. rewrite (U2 q Hq). rewrite st_byte_shift by exact L. reflexivity.
  Qed.

  (** From any point of the key stream: first [h] bytes one after the other, then the groups, then the rest. *)
  Lemma any_call o pos : stream_at B st pos o -> exists h, (h < BS)%nat /\
    forall dir m d e n, bytes m -> (h <= n)%nat -> (d + e + n <= length m)%nat ->
    let full := ((n - h) / BS)%nat in let last := ((n - h) mod BS)%nat in
    exists o' T, used_text BS turn (fun j => st_byte st (pos + h + j)) e (slice m (d + e + h) (BS * full)) T /\ bytes T /\
      capie_crypt dir B cx o m (d + e) n d
      = Some (o', put m d (xor_with (st_byte st) pos (slice m (d + e) h ++ T ++ slice m (d + e + h + BS * full) last)), n) /\
      stream_at B st (pos + n) o'.
  Proof.
    intros (gen & Es & Lb & Hb & Hc). pose proof (bs_pos cx B BO) as Hbs. fold BS in Hbs.
    assert (CR : forall dir m d e n b sz s' m', update_block_prod_xor B cx cc_count (cc_buffer o) (cc_size o) m d (d + e) n (cc_state o) = Some (b, sz, s', m') ->
      capie_crypt dir B cx o m (d + e) n d = Some ({| cc_state := s'; cc_buffer := b; cc_size := sz |}, m', n)).
    { intros dir m d e n b sz s' m' X. destruct dir; cbn [capie_crypt]; [unfold cc_encrypt|unfold cc_decrypt]; rewrite X; reflexivity. }
    destruct Hc as [[Sz Ep] | (Hz & Hp & Hk)].
    - exists 0%nat. split; [lia|]. intros dir m d e n Hm _ Hn full last. rewrite Sz in CR. rewrite Es in CR.
      destruct (groups_call (cc_buffer o) m d e n gen Lb Hb Hm Hn) as (T & b & g & U & BT & E & I).
      assert (n - 0 = n)%nat as N0 by lia. unfold full, last. rewrite N0. rewrite Ep, !Nat.add_0_r.
      eexists. exists T. split; [exact U|]. split; [exact BT|]. split; [|exact I].
      change (slice m (d + e) 0) with (@nil N). cbn [app]. exact (CR dir m d e n _ _ _ _ E).
    - fold BS in Hz, Hp, Hk. exists (BS - cc_size o)%nat. split; [lia|]. intros dir m d e n Hm Hh Hn full last.
      set (h := (BS - cc_size o)%nat) in *.
      set (o1 := xor_with (st_byte st) pos (slice m (d + e) h)).
      assert (Lo1 : length o1 = h) by (unfold o1; rewrite xor_with_length; apply slice_length; lia).
      assert (Bo1 : bytes o1) by (apply xor_with_bytes; [apply st_byte_byte|apply slice_bytes, Hm]).
      assert (Lm1 : length (put m d o1) = length m) by (apply put_length; lia).
      destruct (groups_call (cc_buffer o) (put m d o1) (d + h) e (n - h) gen Lb Hb) as (T & b & g & U & BT & E & I).
      { apply put_bytes; assumption. }
      { rewrite Lm1. lia. }
      fold full last in U, E, I. unfold update_block_prod_xor in E. fold BS in E. cbn [Nat.ltb Nat.leb] in E.
      pose proof (Nat.div_mod (n - h) BS ltac:(lia)) as EN. fold full last in EN.
      exists {| cc_state := at_ctr st (N.of_nat g); cc_buffer := b; cc_size := last |}, T.
      assert (LT : length T = (BS * full)%nat) by (rewrite (proj1 U); apply slice_length; rewrite Lm1; lia).
      replace (slice (put m d o1) (d + h + e) (BS * full)) with (slice m (d + e + h) (BS * full)) in U.
      2:{ replace (d + h + e)%nat with (d + e + h)%nat by lia. symmetry. apply slice_put_other; rewrite ?Lo1; lia. }
      replace (slice (put m d o1) (d + h + e + BS * full) last) with (slice m (d + e + h + BS * full) last) in E.
      2:{ replace (d + h + e)%nat with (d + e + h)%nat by lia. symmetry. apply slice_put_other; rewrite ?Lo1; lia. }
      split; [|split; [exact BT|split]].
      + destruct U as [U1 U2]. split; [exact U1|]. intros q Hq. rewrite (U2 q Hq). replace (pos + h)%nat with (64 * gen)%nat by lia. reflexivity.
      + apply CR. unfold update_block_prod_xor. fold BS. rewrite Es.
        destruct (Nat.ltb_spec 0 (cc_size o)); [|lia]. destruct (Nat.ltb_spec BS (cc_size o)); [lia|].
        fold h. rewrite (Nat.min_l h n) by exact Hh. rewrite mxor_loop_mv by (unfold movable; lia). cbn [bind].
        replace (xor_with (fun j => nth j (cc_buffer o) 0) (cc_size o) (slice m (d + e) h)) with o1.
        2:{ unfold o1. apply xor_with_ext. intros i Hi. rewrite slice_length in Hi by lia. rewrite Hk by lia. f_equal. lia. }
        destruct (Nat.ltb_spec h h); [lia|]. replace (d + e + h)%nat with (d + h + e)%nat by lia. refine (eq_trans E _). do 2 f_equal.
        rewrite put_put; [|rewrite Lo1; reflexivity|rewrite Lo1, xor_with_length, app_length, LT, slice_length; lia].
        rewrite (xor_with_app _ (slice m (d + e) h)). unfold o1. rewrite slice_length by lia. replace (pos + h)%nat with (64 * gen)%nat by lia.
        replace (d + e + h)%nat with (d + h + e)%nat by lia. reflexivity.
      + replace (pos + n)%nat with (64 * gen + (n - h))%nat by lia. exact I.
  Qed.

  (** A byte that is overtaken by one that is not: what is encrypted in its place is a byte of the result. *)
  Lemma any_hit o pos e q : stream_at B st pos o -> (q + e < BS)%nat -> overtaken BS turn e q = true -> overtaken BS turn e (q + e) = false ->
    exists j, (j + e + 1 < 2 * BS)%nat /\
    forall dir m d n, bytes m -> (d + e + n <= length m)%nat -> (2 * BS <= n + 1)%nat ->
    exists o' r, length r = n /\ bytes r /\ capie_crypt dir B cx o m (d + e) n d = Some (o', put m d r, n) /\ stream_at B st (pos + n) o' /\
      nth j r 0 = N.lxor (N.lxor (nth (d + e + j + e) m 0) (st_byte st (pos + j + e))) (st_byte st (pos + j)).
  Proof.
    intros Ho Hq O1 O2. pose proof (bs_pos cx B BO) as Hbs. fold BS in Hbs. destruct (any_call o pos Ho) as (h & Hh & H). exists (h + q)%nat. split; [lia|].
    intros dir m d n Hm Hn Hb. destruct (H dir m d e n Hm ltac:(lia) Hn) as (o' & T & [U1 U2] & BT & E & I). clear H.
    exists o'. eexists. split; [|split; [|split; [exact E|split; [exact I|]]]].
    all: assert (EN : (n - h = BS * ((n - h) / BS) + (n - h) mod BS)%nat) by (apply Nat.div_mod; lia).
    all: assert (Hf : (1 <= (n - h) / BS)%nat) by (apply Nat.div_le_lower_bound; lia).
    all: set (full := ((n - h) / BS)%nat) in *; set (last := ((n - h) mod BS)%nat) in *; clearbody full last.
    all: assert (LS : length (slice m (d + e + h) (BS * full)) = (BS * full)%nat) by (apply slice_length; lia); rewrite LS in U1, U2.
    all: assert (LL : length (slice m (d + e + h + BS * full) last) = last) by (apply slice_length; lia).
    all: assert (LH : length (slice m (d + e) h) = h) by (apply slice_length; lia).
    - rewrite xor_with_length, !app_length. lia.
    - apply xor_with_bytes; [apply st_byte_byte|]. apply bytes_app. split; [apply slice_bytes, Hm|]. apply bytes_app. split; [exact BT|apply slice_bytes, Hm].
    - rewrite nth_xor_with by (rewrite !app_length; nia). rewrite app_nth2 by lia. rewrite LH. replace (h + q - h)%nat with q by lia. rewrite app_nth1 by nia.
      rewrite (U2 q) by nia. rewrite Nat.mod_small by lia. rewrite O1. rewrite (U2 (q + e)%nat) by nia. rewrite Nat.mod_small by lia. rewrite O2.
      rewrite nth_slice by nia. rewrite !Nat.add_assoc. reflexivity.
  Qed.
End OTHER.
Lemma ssse_st jr jt jb cx n st m d e : junk_ok jr jt jb -> length st = 16%nat -> words 32 st -> bytes m -> (d + e + 256 * n <= length m)%nat ->
  exists T, used_text 256 ssse_turn (st_byte st) e (slice m (d + e) (256 * n)) T /\ bytes T /\
    bk_transform (bk_ssse_3 jr jt jb) cx n st m d (d + e) = Some (put m d (xor_with (st_byte st) 0 T), (4 * n)%nat).
Proof.
  intros J L W Hm H. destruct (ssse_move jr jt jb 10 n st m d e J L W Hm H) as (T & [U1 U2] & BT & E). exists T.
  split; [split; [exact U1|]|].
  - intros q Hq. rewrite (U2 q Hq). change (times 10) with 10%nat. rewrite kbyte_10 by assumption. reflexivity.
  - split; [exact BT|]. cbn [bk_transform bk_ssse_3]. rewrite E. change (times 10) with 10%nat. rewrite xor_with_10 by assumption. reflexivity.
Qed.
Lemma avx_st jr jt jb cx n st m d e : junk_ok jr jt jb -> length st = 16%nat -> words 32 st -> bytes m -> (d + e + 512 * n <= length m)%nat ->
  exists T, used_text 512 avx_turn (st_byte st) e (slice m (d + e) (512 * n)) T /\ bytes T /\
    bk_transform (bk_avx_2 jr jt jb) cx n st m d (d + e) = Some (put m d (xor_with (st_byte st) 0 T), (8 * n)%nat).
Proof.
  intros J L W Hm H. destruct (avx_move jr jt jb 10 n st m d e J L W Hm H) as (T & [U1 U2] & BT & E). exists T.
  split; [split; [exact U1|]|].
  - intros q Hq. rewrite (U2 q Hq). change (times 10) with 10%nat. rewrite kbyte_10 by assumption. reflexivity.
  - split; [exact BT|]. cbn [bk_transform bk_avx_2]. rewrite E. change (times 10) with 10%nat. rewrite xor_with_10 by assumption. reflexivity.
Qed.
