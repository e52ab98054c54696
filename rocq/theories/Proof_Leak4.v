(** The instrumented hashes, MACs, cipher and key derivation functions compute the same values. *)
From Verif Require Import Base BaseLemmas Spec_Sha Model_Memory Model_Update Model_Container Model_X86 Model_Sha Model_ShaAsm Model_Mac Model_Hmac Model_Poly
  Model_Cipher Model_Kdf Model_Leak Model_Leak2 Proof_Leak.
Local Open Scope N_scope.

Lemma e_for {A B} (f : A -> B -> L A) g : (forall a x, erase (f a x) = g a x) -> forall l a, erase (l_for f l a) = foldM g l a.
Proof. intros H. induction l as [|x l IH]; intros a; cbn [l_for foldM]; er; first [apply H|apply IH]. Qed.
Lemma e_put cap sch i v : erase (l_put cap sch i v) = put cap sch i v.
Proof. unfold l_put. er. Qed.
#[global] Hint Resolve e_put : er.
Lemma e_sha1_00_15 cx q src sch j : erase (l_sha1_00_15 cx q src sch j) = sha1_schedule_00_15 cx src sch j.
Proof. unfold l_sha1_00_15, sha1_schedule_00_15. er. Qed.
Lemma e_sha1_16_79 sch j : erase (l_sha1_16_79 sch j) = sha1_schedule_16_79 sch j.
Proof. unfold l_sha1_16_79, sha1_schedule_16_79. er. Qed.
Lemma e_sha1_round k fn sch v j : erase (l_sha1_round k fn sch v j) = sha1_sw_round k fn sch v j.
Proof. unfold l_sha1_round, sha1_sw_round, sha1_scalars. destruct v as [[[[a b] c] d] e]. er. Qed.
#[global] Hint Resolve e_sha1_00_15 e_sha1_16_79 e_sha1_round : er.
Lemma e_sha1_load cx q src p j : erase (l_sha1_load cx q src p j) = sha1_step_load cx src p j.
Proof. unfold l_sha1_load, sha1_step_load. destruct p as [sch v]. cbn [fst snd]. er. Qed.
Lemma e_sha1_mix k fn p j : erase (l_sha1_mix k fn p j) = sha1_step_mix k fn p j.
Proof. unfold l_sha1_mix, sha1_step_mix. destruct p as [sch v]. cbn [fst snd]. er. Qed.
Lemma e_sha1_block cx v0 q src : erase (l_sha1_block cx v0 q src) = sha1_sw_block cx v0 src.
Proof.
  unfold l_sha1_block, sha1_sw_block. destruct v0 as [[[[ap bp] cp] dp] ep].
  do 5 (rewrite erase_bind; apply bind_ext2; [apply e_for; intros; first [apply e_sha1_load|apply e_sha1_mix]|intros]).
  destruct a3 as [sch [[[[a4 b] c] d] e]]. reflexivity.
Qed.
#[global] Hint Resolve e_sha1_block : er.
Lemma e_sha1_loop cx : forall n v q src, erase (l_sha1_loop cx n v q src) = sha1_sw_loop cx n v src.
Proof. induction n as [|n IH]; intros v q src; cbn [l_sha1_loop sha1_sw_loop]; er; try apply IH. Qed.
#[global] Hint Resolve e_sha1_loop : er.
Lemma e_sha1_blocks cx n st q src : erase (l_sha1_blocks cx n st q src) = sha1_sw_blocks cx n st src.
Proof. unfold l_sha1_blocks, sha1_sw_blocks. er. Qed.

Lemma e_sha2_00_15 cx p q src sch j : erase (l_sha2_00_15 cx p q src sch j) = sha2_schedule_00_15 cx p src sch j.
Proof. unfold l_sha2_00_15, sha2_schedule_00_15. er. Qed.
Lemma e_sha2_16 p sch j : erase (l_sha2_16 p sch j) = sha2_schedule_16 p sch j.
Proof. unfold l_sha2_16, sha2_schedule_16. er. Qed.
Lemma e_sha2_round p sch v j : erase (l_sha2_round p sch v j) = sha2_sw_round p sch v j.
Proof. unfold l_sha2_round, sha2_sw_round, sha2_scalars. destruct v as [[[[[[[a b] c] d] e] f] g] h]. er. Qed.
#[global] Hint Resolve e_sha2_00_15 e_sha2_16 e_sha2_round : er.
Lemma e_sha2_load cx p q src x j : erase (l_sha2_load cx p q src x j) = sha2_step_load cx p src x j.
Proof. unfold l_sha2_load, sha2_step_load. destruct x as [sch v]. cbn [fst snd]. er. Qed.
Lemma e_sha2_mix p x j : erase (l_sha2_mix p x j) = sha2_step_mix p x j.
Proof. unfold l_sha2_mix, sha2_step_mix. destruct x as [sch v]. cbn [fst snd]. er. Qed.
Lemma e_sha2_block cx p v0 q src : erase (l_sha2_block cx p v0 q src) = sha2_sw_block cx p v0 src.
Proof.
  unfold l_sha2_block, sha2_sw_block. destruct v0 as [[[[[[[ap bp] cp] dp] ep] fp] gp] hp].
  do 2 (rewrite erase_bind; apply bind_ext2; [apply e_for; intros; first [apply e_sha2_load|apply e_sha2_mix]|intros]).
  destruct a0 as [sch [[[[[[[a1 b] c] d] e] f] g] h]]. reflexivity.
Qed.
#[global] Hint Resolve e_sha2_block : er.
Lemma e_sha2_loop cx p : forall n v q src, erase (l_sha2_loop cx p n v q src) = sha2_sw_loop cx p n v src.
Proof. induction n as [|n IH]; intros v q src; cbn [l_sha2_loop sha2_sw_loop]; er; try apply IH. Qed.
#[global] Hint Resolve e_sha2_loop : er.
Lemma e_sha2_blocks cx p n st q src : erase (l_sha2_blocks cx p n st q src) = sha2_sw_blocks cx p n st src.
Proof. unfold l_sha2_blocks, sha2_sw_blocks. cbv zeta. er. Qed.

(** A hash class and its instrumentation agree. *)
Definition lh_erases (cx : ctx) (H : lhash) : Prop := forall n st q src, erase (lh_blocks H cx n st q src) = ha_blocks (lh_al H) cx n st src.
Lemma lh_sw_erases cx a dsz : lh_erases cx (lh_sw a dsz).
Proof.
  intros n st q src. destruct a; cbn [lh_sw lh_blocks lh_al]; first [exact (e_sha1_blocks cx n st q src)|exact (e_sha2_blocks cx _ n st q src)].
Qed.
Lemma lh_ni_erases cx a j dsz : lh_erases cx (lh_ni a j dsz).
Proof.
  intros n st q src. change (lh_al (lh_ni a j dsz)) with (ni_hash_opt a j dsz).
  assert (E : erase (lh_blocks (lh_sw a dsz) cx n st q src) = ha_blocks (milo_hash_opt a dsz) cx n st src) by exact (lh_sw_erases cx a dsz n st q src).
  unfold ni_hash_opt, ni_blocks. cbn [lh_ni lh_blocks ha_blocks]. destruct (cx_ce cx) eqn:C; [exact E|].
  destruct a; first [exact E|rewrite erase_emit; unfold ni_hash_opt, ni_blocks; cbn [ha_blocks]; rewrite C; exact (erase_lift _)].
Qed.

Lemma e_stor_words64 cx p : forall ws a i, erase (l_stor_words64 cx p a i ws) = stor_words64 cx a i ws.
Proof. induction ws as [|w ws IH]; intros a i; cbn [l_stor_words64 stor_words64]; er; try apply IH. Qed.
#[global] Hint Resolve e_stor_words64 : er.
Section Hash.
Variables (cx : ctx) (H : lhash).
Hypothesis HE : lh_erases cx H.
Lemma e_hash_update o q msg : erase (l_hash_update cx H o q msg) = hash_update cx (lh_al H) o msg.
Proof. unfold l_hash_update, hash_update. er; try (apply e_soak; intros; apply HE). Qed.
Lemma e_hash_finalize o : erase (l_hash_finalize cx H o) = hash_finalize cx (lh_al H) o.
Proof. unfold l_hash_finalize, hash_finalize. cbv zeta. er; try apply HE. Qed.
Lemma e_hash_digest o p dst size : erase (l_hash_digest cx H o p dst size) = hash_digest cx (lh_al H) o dst size.
Proof. unfold l_hash_digest, hash_digest. er. Qed.
Lemma e_hapie_finalize p : erase (l_hapie_do_finalize cx H p) = hapie_do_finalize cx (lh_al H) p.
Proof. unfold l_hapie_do_finalize, hapie_do_finalize. er; apply e_hash_finalize. Qed.
Lemma e_hapie_digest p d s : erase (l_hapie_digest cx H p d s) = hapie_digest cx (lh_al H) p d s.
Proof. unfold l_hapie_digest, hapie_digest. er; first [apply e_hapie_finalize|apply e_hash_digest]. Qed.
Lemma e_hapie_digest_c p c s : erase (l_hapie_digest_c cx H p c s) = hapie_digest_c cx (lh_al H) p c s.
Proof. unfold l_hapie_digest_c, hapie_digest_c. er; first [apply e_hapie_finalize|apply e_hapie_digest]. Qed.
Lemma e_hash_step p c : erase (l_hash_step cx H p c) = hash_step cx (lh_al H) p c.
Proof.
  destruct c; cbn [l_hash_step hash_step]; unfold l_hapie_initialize, hapie_initialize, l_hash_initialize, l_hapie_update, hapie_update.
  - reflexivity.
  - er. apply e_hash_update.
  - er. apply e_hapie_digest.
  - er. apply e_hapie_digest_c.
Qed.
Lemma e_hash_run : forall calls p, erase (l_hash_run cx H p calls) = hash_run cx (lh_al H) p calls.
Proof. induction calls as [|c calls IH]; intros p; cbn [l_hash_run hash_run]; er; first [apply e_hash_step|apply IH]. Qed.

Lemma e_init_bind {B} o (f : hash_obj -> L B) : erase (lbind (l_hash_initialize H o) f) = erase (f (hash_initialize (lh_al H) o)).
Proof. unfold l_hash_initialize. rewrite erase_bind, erase_emit. reflexivity. Qed.
Lemma e_pad_step bs b i : erase (l_pad_step bs b i) = hmac_pad_step bs b i.
Proof. unfold l_pad_step, hmac_pad_step. er. Qed.
Lemma rds_all (l : list N) : rds l 0 (length l) = Some l.
Proof. unfold rds. rewrite Nat.leb_refl. cbn [skipn]. rewrite firstn_all. reflexivity. Qed.
Lemma e_hmac_initialize o q key : erase (l_hmac_initialize cx H o q key) = hmac_initialize cx (lh_al H) o key.
Proof.
  unfold l_hmac_initialize, hmac_initialize. cbv zeta. rewrite erase_bind, erase_lif. apply bind_ext2.
  - destruct (ha_block_size (lh_al H) <? length key)%nat.
    + rewrite e_init_bind. er; first [apply e_hash_update|apply e_hash_finalize|apply e_hash_digest].
    + rewrite erase_bind, e_lrds, rds_all. cbn [bind]. rewrite erase_bind, e_lwrs. apply bind_ext2; [reflexivity|intros b].
      rewrite erase_bind, e_lrds, rds_all. cbn [bind]. er.
  - intros [[h b] ksz]. destruct (ha_block_size (lh_al H) <? ksz)%nat; [reflexivity|].
    do 2 (rewrite erase_bind; apply bind_ext2; [apply e_lat; intros; apply e_set|intros]).
    rewrite erase_bind; apply bind_ext2; [apply e_for; intros; apply e_pad_step|intros].
    rewrite erase_bind, erase_lift; apply bind_ext2; [reflexivity|intros].
    rewrite e_init_bind. er. apply e_hash_update.
Qed.
Lemma e_hmac_update o q msg : erase (l_hmac_update cx H o q msg) = hmac_update cx (lh_al H) o msg.
Proof. unfold l_hmac_update, hmac_update. er. apply e_hash_update. Qed.
Lemma e_hmac_finalize o : erase (l_hmac_finalize cx H o) = hmac_finalize cx (lh_al H) o.
Proof.
  unfold l_hmac_finalize, hmac_finalize. cbv zeta.
  rewrite erase_bind; apply bind_ext2; [apply e_hash_finalize|intros h].
  rewrite erase_bind; apply bind_ext2; [apply e_lat; intros; er; apply e_hash_digest|intros b].
  rewrite erase_bind, erase_lift; apply bind_ext2; [reflexivity|intros l].
  rewrite e_init_bind. er; first [apply e_hash_update|apply e_hash_finalize].
Qed.
End Hash.

(** A MAC class and its instrumentation agree. *)
Record lm_erases (cx : ctx) (M : lmac) : Prop := {
  me_initialize : forall o q k, erase (lm_initialize M cx o q k) = ma_initialize (lm_M M) cx o k;
  me_update : forall o q m, erase (lm_update M cx o q m) = ma_update (lm_M M) cx o m;
  me_finalize : forall o, erase (lm_finalize M cx o) = ma_finalize (lm_M M) cx o;
  me_digest : forall o p d s, erase (lm_digest M cx o p d s) = ma_digest (lm_M M) cx o d s }.
Lemma lm_hmac_erases cx H dsz : lh_erases cx H -> lm_erases cx (lm_hmac H dsz).
Proof.
  intros HE. split; intros; cbn [lm_hmac lm_initialize lm_update lm_finalize lm_digest lm_M mac_hmac ma_initialize ma_update ma_finalize ma_digest].
  - apply e_hmac_initialize. exact HE.
  - apply e_hmac_update. exact HE.
  - apply e_hmac_finalize. exact HE.
  - apply e_hash_digest.
Qed.
Lemma lm_poly_erases cx dsz : lm_erases cx (lm_poly dsz).
Proof.
  split; intros; cbn [lm_poly lm_initialize lm_update lm_finalize lm_digest lm_M mac_poly_ov ma_initialize ma_update ma_finalize ma_digest].
  - apply e_poly_initialize.
  - apply e_poly_update.
  - apply e_poly_finalize.
  - apply e_poly_digest.
Qed.
Section Mac.
Variables (cx : ctx) (M : lmac).
Hypothesis HM : lm_erases cx M.
Lemma e_mapie_finalize p : erase (l_mapie_do_finalize cx M p) = mapie_do_finalize cx (lm_M M) p.
Proof. unfold l_mapie_do_finalize, mapie_do_finalize. er; apply (me_finalize _ _ HM). Qed.
Lemma e_mapie_digest p d s : erase (l_mapie_digest cx M p d s) = mapie_digest cx (lm_M M) p d s.
Proof. unfold l_mapie_digest, mapie_digest. er; first [apply e_mapie_finalize|apply (me_digest _ _ HM)]. Qed.
Lemma e_mapie_digest_c p c s : erase (l_mapie_digest_c cx M p c s) = mapie_digest_c cx (lm_M M) p c s.
Proof. unfold l_mapie_digest_c, mapie_digest_c. er; first [apply e_mapie_finalize|apply e_mapie_digest]. Qed.
Lemma e_mac_step p c : erase (l_mac_step cx M p c) = mac_step cx (lm_M M) p c.
Proof.
  destruct c; cbn [l_mac_step mac_step]; unfold l_mapie_initialize, mapie_initialize, l_mapie_update, mapie_update; er;
    first [apply (me_initialize _ _ HM)|apply (me_update _ _ HM)|apply e_mapie_digest|apply e_mapie_digest_c].
Qed.
Lemma e_mac_run : forall calls p, erase (l_mac_run cx M p calls) = mac_run cx (lm_M M) p calls.
Proof. induction calls as [|c calls IH]; intros p; cbn [l_mac_run mac_run]; er; first [apply e_mac_step|apply IH]. Qed.

Lemma e_view_of env r : erase (l_view_of cx env r) = view_of cx env r.
Proof. unfold l_view_of. rewrite erase_emit. apply erase_lift. Qed.
Lemma e_seq {A B C} (f : A -> B -> L A) (g : A -> C -> option A) (h : B -> C) : (forall a x, erase (f a x) = g a (h x)) ->
  forall l a, erase (l_seq f l a) = foldM g (map h l) a.
Proof. intros E. induction l as [|x l IH]; intros a; cbn [l_seq foldM map]; er; first [apply E|apply IH]. Qed.
Lemma e_mac_once h q key msgs p dst off : erase (l_mac_once cx M h q key msgs p dst off) = mac_once cx (lm_M M) h key (map snd msgs) dst off.
Proof.
  unfold l_mac_once, mac_once.
  rewrite erase_bind; apply bind_ext2; [apply (me_initialize _ _ HM)|intros h1].
  rewrite erase_bind; apply bind_ext2; [apply e_seq; intros; apply (me_update _ _ HM)|intros h2].
  rewrite erase_bind; apply bind_ext2; [apply (me_finalize _ _ HM)|intros h3].
  rewrite erase_bind; apply bind_ext2; [apply e_lat; intros; er; apply (me_digest _ _ HM)|intros; reflexivity].
Qed.
Lemma e_hk_initialize env o ikm salt info : erase (l_hk_initialize cx M env o ikm salt info) = hk_initialize cx (lm_M M) env o ikm salt info.
Proof. unfold l_hk_initialize, hk_initialize. er; first [apply e_view_of|apply e_mac_once]. Qed.
Lemma e_hk_expand env h prk v c qp prev p dst off : erase (l_hk_expand cx M env h prk v c qp prev p dst off) = hk_expand cx (lm_M M) env h prk v c prev dst off.
Proof. unfold l_hk_expand, hk_expand. er. apply e_mac_once. Qed.
Lemma e_hk_loop env prk v : forall n h c key tmp, erase (l_hk_loop cx M env prk v h c key tmp n) = hk_loop cx (lm_M M) env prk v h c key tmp n.
Proof. induction n as [|n IH]; intros h c key tmp; cbn [l_hk_loop hk_loop]; er; first [apply e_hk_expand|apply IH]. Qed.
Lemma e_hk_derive env o key a_size : erase (l_hk_derive cx M env o key a_size) = hk_derive cx (lm_M M) env o key a_size.
Proof.
  unfold l_hk_derive, hk_derive. cbv zeta. rewrite erase_bind. apply bind_ext2; [er; apply e_lat; intros; apply e_copy|intros key1].
  rewrite erase_lif. match goal with |- (if ?b then _ else _) = _ => destruct b; [reflexivity|] end.
  match goal with |- erase (if ?b then _ else _) = _ => destruct b; [reflexivity|] end.
  rewrite erase_emit, erase_bind. apply bind_ext2.
  - rewrite erase_lif. match goal with |- (if ?b then _ else _) = _ => destruct b end; er; first [apply e_hk_expand|apply e_hk_loop].
  - intros [[[[h c] k] buf] at_]. er; apply e_lat; intros; apply e_copy.
Qed.
Lemma e_pb_initialize env o ikm salt it : erase (l_pb_initialize cx M env o ikm salt it) = pb_initialize cx (lm_M M) env o ikm salt it.
Proof. unfold l_pb_initialize, pb_initialize. er; apply e_view_of. Qed.
Lemma e_pb_loop env vi : forall n h b0 b1, erase (l_pb_loop cx M env vi h b0 b1 n) = pb_loop cx (lm_M M) env vi h b0 b1 n.
Proof. induction n as [|n IH]; intros h b0 b1; cbn [l_pb_loop pb_loop]; er; first [apply e_mac_once|apply IH]. Qed.
Lemma e_pb_expand env h vi vs it c p dst off : erase (l_pb_expand cx M env h vi vs it c p dst off) = pb_expand cx (lm_M M) env h vi vs it c dst off.
Proof.
  unfold l_pb_expand, pb_expand. cbv zeta. er; first [apply e_mac_once|apply e_pb_loop|apply e_lat; intros; apply e_copy].
Qed.
Lemma e_pb_blocks env vi vs it : forall n h c key off, erase (l_pb_blocks cx M env vi vs it h c key off n) = pb_blocks cx (lm_M M) env vi vs it h c key off n.
Proof. induction n as [|n IH]; intros h c key off; cbn [l_pb_blocks pb_blocks]; er; first [apply e_pb_expand|apply IH]. Qed.
Lemma e_pb_derive env o key a_size : erase (l_pb_derive cx M env o key a_size) = pb_derive cx (lm_M M) env o key a_size.
Proof.
  unfold l_pb_derive, pb_derive. cbv zeta. rewrite erase_bind. apply bind_ext2; [er; apply e_lat; intros; apply e_copy|intros key1].
  rewrite erase_lif. match goal with |- (if ?b then _ else _) = _ => destruct b; [reflexivity|] end.
  match goal with |- erase (if ?b then _ else _) = _ => destruct b; [reflexivity|] end.
  rewrite erase_bind. apply bind_ext2; [apply e_pb_blocks|]. intros [[[h c] k] off].
  rewrite erase_lif. match goal with |- (if ?b then _ else _) = _ => destruct b; [|reflexivity] end.
  er; first [apply e_pb_expand|apply e_lat; intros; apply e_copy].
Qed.
End Mac.

Record lk_erases (cx : ctx) (K : lkdf) : Prop := {
  ke_initialize : forall env o a, erase (lk_initialize K cx env o a) = ka_initialize (lk_K K) cx env o a;
  ke_derive : forall env o k s, erase (lk_derive K cx env o k s) = ka_derive (lk_K K) cx env o k s }.
Lemma lk_hkdf_erases cx M : lm_erases cx M -> lk_erases cx (lk_hkdf M).
Proof.
  intros HM. split; intros; cbn [lk_hkdf lk_initialize lk_derive lk_K kdf_hkdf ka_initialize ka_derive].
  - apply e_hk_initialize. exact HM.
  - apply e_hk_derive. exact HM.
Qed.
Lemma lk_pbkdf_2_erases cx M : lm_erases cx M -> lk_erases cx (lk_pbkdf_2 M).
Proof.
  intros HM. split; intros; cbn [lk_pbkdf_2 lk_initialize lk_derive lk_K kdf_pbkdf_2 ka_initialize ka_derive].
  - apply e_pb_initialize.
  - apply e_pb_derive. exact HM.
Qed.
Lemma e_kdf_run_in cx K : lk_erases cx K -> forall calls o, erase (l_kdf_run_in cx K o calls) = kdf_run_in cx (lk_K K) o calls.
Proof.
  intros HK. induction calls as [|[env c] calls IH]; intros o; cbn [l_kdf_run_in kdf_run_in]; [reflexivity|].
  rewrite erase_bind. apply bind_ext2; [|intros [o1 x]; er; apply IH].
  destruct c; cbn [l_kdf_step kdf_step]; unfold l_kapie_derive_c, kapie_derive_c; er; first [apply (ke_initialize _ _ HK)|apply (ke_derive _ _ HK)].
Qed.

(** The cipher. *)
Lemma e_cipher_run B cx : lb_erases cx B -> forall calls o, erase (l_cipher_run B cx o calls) = cipher_run (lb_bk B) cx o calls.
Proof.
  intros HB. induction calls as [|c calls IH]; intros o; cbn [l_cipher_run cipher_run]; [reflexivity|].
  rewrite erase_bind. apply bind_ext2; [|intros [o1 x]; er; apply IH].
  destruct c as [k v|dir m s n t|dir t c|dir c]; cbn [l_cipher_step cipher_step]; unfold capie_initialize, l_capie_crypt_c, capie_crypt_c, l_capie_crypt_same, capie_crypt_same, capie_crypt.
  - er.
  - er; apply e_cc_crypt; exact HB.
  - er; apply e_cc_crypt; exact HB.
  - er; apply e_cc_crypt; exact HB.
Qed.
