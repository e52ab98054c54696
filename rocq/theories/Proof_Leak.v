(** The instrumented code computes the same values. *)
From Verif Require Import Base BaseLemmas Model_Memory Model_Update Model_Container Model_Sha Model_Mac Model_Hmac Model_Poly Model_Cipher Model_Aead Model_Leak.
Local Open Scope N_scope.

Lemma erase_bind {A B} (m : L A) (f : A -> L B) : erase (lbind m f) = bind (erase m) (fun a => erase (f a)).
Proof. destruct m as [[t a]|]; cbn; [destruct (f a) as [[t' b]|]|]; reflexivity. Qed.
Lemma erase_emit {B} t (f : unit -> L B) : erase (lbind (emit t) f) = erase (f tt).
Proof. exact (erase_bind (emit t) f). Qed.
Lemma erase_lift {A} (x : option A) : erase (lift x) = x.
Proof. destruct x; reflexivity. Qed.
Lemma erase_lif {A} b (x y : L A) : erase (lif b x y) = if b then erase x else erase y.
Proof. unfold lif. rewrite erase_emit. destruct b; reflexivity. Qed.
Lemma bind_ext2 {A B} (x y : option A) (f g : A -> option B) : x = y -> (forall a, f a = g a) -> bind x f = bind y g.
Proof. intros -> H. destruct y; cbn; [apply H|reflexivity]. Qed.

Create HintDb er.
Ltac er1 := match goal with
| |- erase (lbind (emit _) _) = _ => rewrite erase_emit
| |- erase (lbind _ _) = bind _ _ => rewrite erase_bind; apply bind_ext2; [|intros]
| |- erase (ret _) = _ => reflexivity
| |- erase None = _ => reflexivity
| |- erase (lift ?x) = _ => exact (erase_lift x)
| |- erase (lif _ _ _) = _ => rewrite erase_lif
| |- _ => solve [auto with er nocore]
| |- context [let '_ := ?x in _] => is_var x; destruct x
| |- context [let '_ := ?x in _] => destruct x eqn:?
| |- erase (if ?b then _ else _) = _ => destruct b eqn:?
| |- (if ?b then _ else _) = (if ?b then _ else _) => destruct b eqn:?
| |- erase (let _ := _ in _) = _ => cbv zeta
| |- _ => reflexivity
end.
Ltac er := repeat er1.

Lemma e_lrd p l i : erase (lrd p l i) = rd l i. Proof. unfold lrd. er. Qed.
Lemma e_lwr p l i v : erase (lwr p l i v) = wr l i v. Proof. unfold lwr. er. Qed.
Lemma e_lrds p l i n : erase (lrds p l i n) = rds l i n. Proof. unfold lrds. er. Qed.
Lemma e_lwrs p l i v : erase (lwrs p l i v) = wrs l i v. Proof. unfold lwrs. er. Qed.
Lemma e_lat p l off f g : (forall p l, erase (f p l) = g l) -> erase (lat p l off f) = at_off l off g.
Proof. intros H. unfold lat, at_off. er; try apply H. Qed.
#[global] Hint Resolve e_lrd e_lwr e_lrds e_lwrs e_lat : er.

Lemma e_load_loop vs ps p a seg : forall is val, erase (l_load_loop vs ps p a seg is val) = load_loop vs ps a seg is val.
Proof. induction is as [|i is IH]; intros val; cbn [l_load_loop load_loop]; er; try apply IH. Qed.
#[global] Hint Resolve e_load_loop : er.
Lemma e_load cx vs ps p a off : erase (l_load cx vs ps p a off) = mem_load cx vs ps a off.
Proof. unfold l_load, mem_load. er. Qed.
#[global] Hint Resolve e_load : er.
Lemma e_load_le cx vs ps p a off : erase (l_load_le cx vs ps p a off) = mem_load_le cx vs ps a off.
Proof. unfold l_load_le, mem_load_le. er. Qed.
Lemma e_load_be cx vs ps p a off : erase (l_load_be cx vs ps p a off) = mem_load_be cx vs ps a off.
Proof. unfold l_load_be, mem_load_be. er. Qed.
#[global] Hint Resolve e_load_le e_load_be : er.
Lemma e_stor_loop ps p seg : forall is a val, erase (l_stor_loop ps p a seg is val) = stor_loop ps a seg is val.
Proof. induction is as [|i is IH]; intros a val; cbn [l_stor_loop stor_loop]; er; try apply IH. Qed.
#[global] Hint Resolve e_stor_loop : er.
Lemma e_stor_bytes cx ps p a off l : erase (l_stor_bytes cx ps p a off l) = stor_bytes cx ps a off l.
Proof. unfold l_stor_bytes. er. Qed.
#[global] Hint Resolve e_stor_bytes : er.
Lemma e_stor cx vs ps p a off v : erase (l_stor cx vs ps p a off v) = mem_stor cx vs ps a off v.
Proof. unfold l_stor, mem_stor. er. Qed.
Lemma e_stor_n cx vs ps p a off v n : erase (l_stor_n cx vs ps p a off v n) = mem_stor_n cx vs ps a off v n.
Proof. unfold l_stor_n, mem_stor_n. er. Qed.
#[global] Hint Resolve e_stor e_stor_n : er.
Lemma e_stor_le cx vs ps p a off v : erase (l_stor_le cx vs ps p a off v) = mem_stor_le cx vs ps a off v.
Proof. apply e_stor. Qed.
Lemma e_stor_be cx vs ps p a off v : erase (l_stor_be cx vs ps p a off v) = mem_stor_be cx vs ps a off v.
Proof. apply e_stor. Qed.
Lemma e_stor_le_n cx vs ps p a off v n : erase (l_stor_le_n cx vs ps p a off v n) = mem_stor_le_n cx vs ps a off v n.
Proof. apply e_stor_n. Qed.
Lemma e_stor_be_n cx vs ps p a off v n : erase (l_stor_be_n cx vs ps p a off v n) = mem_stor_be_n cx vs ps a off v n.
Proof. apply e_stor_n. Qed.
#[global] Hint Resolve e_stor_le e_stor_be e_stor_le_n e_stor_be_n : er.
Lemma e_copy_loop cx pd ps p q src : forall n dst i, erase (l_copy_loop cx pd ps p q dst src i n) = copy_loop cx pd ps dst src i n.
Proof. induction n as [|n IH]; intros dst i; cbn [l_copy_loop copy_loop]; er; try apply IH. Qed.
#[global] Hint Resolve e_copy_loop : er.
Lemma e_copy cx pd ps p q dst src n : erase (l_copy cx pd ps p q dst src n) = mem_copy cx pd ps dst src n.
Proof. unfold l_copy, mem_copy. er. Qed.
#[global] Hint Resolve e_copy : er.
Lemma e_copy_words ls st q src : (forall d i w, erase (ls d i w) = st d i w) ->
  forall n dst i, erase (l_copy_words ls q dst src i n) = copy_words st dst src i n.
Proof. intros H. induction n as [|n IH]; intros dst i; cbn [l_copy_words copy_words]; er; first [apply H|apply IH]. Qed.
Lemma e_copy_be cx pd ss p q dst src n : erase (l_copy_be cx pd ss p q dst src n) = mem_copy_be cx pd ss dst src n.
Proof. unfold l_copy_be, mem_copy_be. er; try (apply e_copy_words; intros; apply e_stor_be). Qed.
Lemma e_copy_le cx pd ss p q dst src n : erase (l_copy_le cx pd ss p q dst src n) = mem_copy_le cx pd ss dst src n.
Proof. unfold l_copy_le, mem_copy_le. er; try (apply e_copy_words; intros; apply e_stor_le). Qed.
#[global] Hint Resolve e_copy_be e_copy_le : er.
Lemma e_set_loop cx ps p v : forall n a i, erase (l_set_loop cx ps p a v i n) = set_loop cx ps a v i n.
Proof. induction n as [|n IH]; intros a i; cbn [l_set_loop set_loop]; er; try apply IH. Qed.
#[global] Hint Resolve e_set_loop : er.
Lemma e_set cx ps p a v n : erase (l_set cx ps p a v n) = mem_set cx ps a v n.
Proof. unfold l_set, mem_set. er. Qed.
#[global] Hint Resolve e_set : er.
Lemma e_match_loop cx pa pb p q a b : forall n i tmp, erase (l_match_loop cx pa pb p q a b i n tmp) = match_loop cx pa pb a b i n tmp.
Proof. induction n as [|n IH]; intros i tmp; cbn [l_match_loop match_loop]; er; try apply IH. Qed.
#[global] Hint Resolve e_match_loop : er.
Lemma e_match cx pa pb p q a b n : erase (l_match cx pa pb p q a b n) = mem_match cx pa pb a b n.
Proof. unfold l_match, mem_match. er. Qed.
#[global] Hint Resolve e_match : er.
Lemma e_match_c cx pa pb p q a b : erase (l_match_c cx pa pb p q a b) = mem_match_c cx pa pb a b.
Proof. unfold l_match_c, mem_match_c. er. Qed.
#[global] Hint Resolve e_match_c : er.
Lemma e_equal_loop cx pa pb p q a b : forall n i, erase (l_equal_loop cx pa pb p q a b i n) = equal_loop cx pa pb a b i n.
Proof. induction n as [|n IH]; intros i; cbn [l_equal_loop equal_loop]; er; try apply IH. Qed.
Lemma e_zero_loop p : forall n a i, erase (l_zero_loop p a i n) = zero_loop a i n.
Proof. induction n as [|n IH]; intros a i; cbn [l_zero_loop zero_loop]; er; try apply IH. Qed.
#[global] Hint Resolve e_zero_loop : er.
Lemma e_init cx pd ps p q dst src : erase (l_init cx pd ps p q dst src) = mem_init cx pd ps dst src.
Proof. unfold l_init, mem_init, mem_zero. er. Qed.
#[global] Hint Resolve e_init : er.
Lemma e_init_le cx pd ps p q dst src : erase (l_init_le cx pd ps p q dst src) = mem_init_le cx pd ps dst src.
Proof. unfold l_init_le, mem_init_le. er. Qed.
#[global] Hint Resolve e_init_le : er.

(** *** update.h *)
Lemma e_soak {St} bs (li : nat -> St -> ptr -> list N -> L St) inv p q buf n src st :
  (forall n st q l, erase (li n st q l) = inv n st l) ->
  erase (l_soak bs li p q buf n src st) = update_block_soak bs inv buf n src st.
Proof.
  intros H. unfold l_soak, update_block_soak. cbv zeta.
  repeat match goal with
  | |- erase (lbind (lif ?b _ _) _) = bind (if ?b then _ else _) _ => rewrite erase_bind, erase_lif; destruct b
  | |- bind (erase (lbind (li _ _ _ _) _)) _ = _ => rewrite erase_bind, H; destruct (inv _ _ _); cbn [bind erase ret]; [|reflexivity]
  | |- bind (erase (ret _)) _ = _ => cbn [bind erase ret]
  | |- erase (li _ _ _ _) = _ => apply H
  | |- bind (erase _) _ = bind _ _ => apply bind_ext2; [|intros]
  | _ => er1
  end.
Qed.
Lemma e_mxor p dst src key koff : forall n m i, erase (l_mxor_loop p m dst src key koff i n) = mxor_loop m dst src key koff i n.
Proof. induction n as [|n IH]; intros m i; cbn [l_mxor_loop mxor_loop]; er; try apply IH. Qed.
#[global] Hint Resolve e_mxor : er.
(** A backend and its instrumentation agree. *)
Record lb_erases (cx : ctx) (B : lbackend) : Prop := {
  le_transform : forall n st m d s, erase (lb_transform B cx n st m d s) = bk_transform (lb_bk B) cx n st m d s;
  le_generate : forall n st b, erase (lb_generate B cx n st b) = bk_generate (lb_bk B) cx n st b }.
Lemma e_prod_xor B cx lcb cb buf n m dst src size st : lb_erases cx B -> (forall s k, erase (lcb s k) = cb s k) ->
  erase (l_prod_xor B cx lcb buf n m dst src size st) = update_block_prod_xor (lb_bk B) cx cb buf n m dst src size st.
Proof.
  intros [Ht Hg] Hc. unfold l_prod_xor, update_block_prod_xor. cbv zeta. er; auto.
Qed.

(** *** ChaCha *)
Lemma e_cc_round a b c d s : erase (l_cc_round a b c d s) = cc_round a b c d s.
Proof. unfold l_cc_round, cc_round. er. Qed.
#[global] Hint Resolve e_cc_round : er.
Lemma e_cc_double s : erase (l_cc_double s) = cc_double s.
Proof. unfold l_cc_double, cc_double. er. Qed.
#[global] Hint Resolve e_cc_double : er.
Lemma e_cc_rounds : forall n s, erase (l_cc_rounds n s) = cc_rounds n s.
Proof. induction n as [|n IH]; intros s; cbn [l_cc_rounds cc_rounds]; er; try apply IH. Qed.
#[global] Hint Resolve e_cc_rounds : er.
Lemma e_cc_add base : forall n ev i, erase (l_cc_add ev base i n) = cc_add ev base i n.
Proof. induction n as [|n IH]; intros ev i; cbn [l_cc_add cc_add]; er; try apply IH. Qed.
#[global] Hint Resolve e_cc_add : er.
Lemma e_cc_out_transform cx ev dst src : forall n m i, erase (l_cc_out_transform cx ev m dst src i n) = cc_out_transform cx ev m dst src i n.
Proof. induction n as [|n IH]; intros m i; cbn [l_cc_out_transform cc_out_transform]; er; try apply IH. Qed.
Lemma e_cc_out_generate cx p ev dst : forall n m i, erase (l_cc_out_generate cx p ev m dst i n) = cc_out_generate cx ev m dst i n.
Proof. induction n as [|n IH]; intros m i; cbn [l_cc_out_generate cc_out_generate]; er; try apply IH. Qed.
#[global] Hint Resolve e_cc_out_transform e_cc_out_generate : er.
Lemma e_cc_blocks cx lo o : (forall ev m d s, erase (lo ev m d s) = o ev m d s) ->
  forall n base m dst src, erase (l_cc_blocks cx lo n base m dst src) = cc_blocks cx o n base m dst src.
Proof.
  intros H. induction n as [|n IH]; intros base m dst src; cbn [l_cc_blocks cc_blocks].
  - er.
  - rewrite !erase_emit. rewrite erase_bind. apply bind_ext2; [apply e_cc_rounds|intros]. er; first [apply H|apply IH].
Qed.
Lemma lbk_sw_erases cx : lb_erases cx lbk_sw.
Proof.
  split; intros; cbn [lb_transform lb_generate lb_bk lbk_sw bk_transform bk_generate bk_sw]; unfold l_cc_transform, cc_transform, l_cc_generate, cc_generate.
  - er. apply e_cc_blocks. intros. apply e_cc_out_transform.
  - er. apply e_cc_blocks. intros. apply e_cc_out_generate.
Qed.
Lemma lbk_asm_erases B cx : lb_erases cx (lbk_asm B).
Proof. split; intros; cbn [lb_transform lb_generate lb_bk lbk_asm]; er. Qed.
Lemma e_cc_initialize cx o pk pv key iv : erase (l_cc_initialize cx o pk pv key iv) = cc_initialize cx o key iv.
Proof. unfold l_cc_initialize, cc_initialize. er. Qed.
#[global] Hint Resolve e_cc_initialize : er.
Lemma e_cc_count s n : erase (l_cc_count s n) = cc_count s n.
Proof. unfold l_cc_count, cc_count. er. Qed.
Lemma e_cc_crypt B cx o m src size dst : lb_erases cx B -> erase (l_cc_crypt B cx o m src size dst) = cc_encrypt (lb_bk B) cx o m src size dst.
Proof. intros H. unfold l_cc_crypt, cc_encrypt. er. apply e_prod_xor; [exact H|exact e_cc_count]. Qed.

(** *** Poly1305 *)
Lemma e_poly_mul key acc : erase (l_poly_mul key acc) = poly_mul true key acc.
Proof.
  unfold l_poly_mul, poly_mul. destruct acc as [[[[a0 a1] a2] a3] a4].
  do 8 (rewrite erase_bind, e_lrd; apply bind_ext2; [reflexivity|intros ?]). exact (erase_lift _).
Qed.
#[global] Hint Resolve e_poly_mul : er.
Lemma e_poly_blocks cx key add : forall n acc q src, erase (l_poly_blocks cx key add n acc q src) = poly_blocks true cx key add n acc src.
Proof. induction n as [|n IH]; intros acc q src; cbn [l_poly_blocks poly_blocks]; er; try apply IH. Qed.
#[global] Hint Resolve e_poly_blocks : er.
Lemma e_poly_process cx key add n acc q src : erase (l_poly_process cx key add n acc q src) = poly_process true cx key add n acc src.
Proof. unfold l_poly_process, poly_process. er. Qed.
#[global] Hint Resolve e_poly_process : er.
Lemma e_poly_initialize cx o pk key : erase (l_poly_initialize cx o pk key) = poly_initialize true cx o key.
Proof. unfold l_poly_initialize, poly_initialize. cbv zeta. er. Qed.
Lemma e_poly_update cx o q msg : erase (l_poly_update cx o q msg) = poly_update true cx o msg.
Proof. unfold l_poly_update, poly_update. er; try (apply e_soak; intros; apply e_poly_process). Qed.
#[global] Hint Resolve e_poly_initialize e_poly_update : er.
Lemma e_poly_last cx o : erase (l_poly_last cx o) = poly_last true cx o.
Proof. unfold l_poly_last, poly_last. er; try (apply e_lat; intros; apply e_set). Qed.
Lemma e_poly_finish s acc : erase (l_poly_finish s acc) = poly_finish true s acc.
Proof. unfold l_poly_finish, poly_finish. cbv zeta. er. Qed.
#[global] Hint Resolve e_poly_last e_poly_finish : er.
Lemma e_poly_finalize cx o : erase (l_poly_finalize cx o) = poly_finalize true cx o.
Proof. unfold l_poly_finalize, poly_finalize. er. Qed.
Lemma e_poly_digest cx dsz o p dst size : erase (l_poly_digest cx dsz o p dst size) = poly_digest cx dsz o dst size.
Proof. unfold l_poly_digest, poly_digest. er. Qed.
#[global] Hint Resolve e_poly_finalize e_poly_digest : er.

(** *** The AEAD *)
Section Aead.
Variables (B : lbackend) (cx : ctx).
Hypothesis HB : lb_erases cx B.
Lemma e_crypt o m src size dst : erase (l_cc_crypt B cx o m src size dst) = cc_encrypt (lb_bk B) cx o m src size dst.
Proof. exact (e_cc_crypt B cx o m src size dst HB). Qed.
Hint Resolve e_crypt : er.
Lemma e_aead_initialize o key iv : erase (l_aead_initialize B cx o key iv) = aead_initialize (lb_bk B) cx o key iv.
Proof. unfold l_aead_initialize, aead_initialize. cbv zeta. er; try (apply e_lat; intros; apply e_init). Qed.
Lemma e_aead_aad o d : erase (l_aead_aad cx o d) = aead_aad cx o d.
Proof. unfold l_aead_aad, aead_aad. er. Qed.
Lemma e_aead_aadover o : erase (l_aead_aadover cx o) = aead_aadover cx o.
Proof. unfold l_aead_aadover, aead_aadover. er. Qed.
Hint Resolve e_aead_initialize e_aead_aad e_aead_aadover : er.
Lemma e_aead_encrypt o m src size dst : erase (l_aead_encrypt B cx o m src size dst) = aead_encrypt (lb_bk B) cx o m src size dst.
Proof. unfold l_aead_encrypt, aead_encrypt. er. Qed.
Lemma e_aead_decrypt o m src size dst : erase (l_aead_decrypt B cx o m src size dst) = aead_decrypt (lb_bk B) cx o m src size dst.
Proof. unfold l_aead_decrypt, aead_decrypt. change (@cc_decrypt) with (@cc_encrypt). er. Qed.
Lemma e_aead_finalize o : erase (l_aead_finalize cx o) = aead_finalize cx o.
Proof. unfold l_aead_finalize, aead_finalize. er. Qed.
Hint Resolve e_aead_encrypt e_aead_decrypt e_aead_finalize : er.
Lemma e_aapie_initialize p key iv : erase (l_aapie_initialize B cx p key iv) = aapie_initialize (lb_bk B) cx p key iv.
Proof. unfold l_aapie_initialize, aapie_initialize. er. Qed.
Lemma e_aapie_finalize_aad p : erase (l_aapie_finalize_aad cx p) = aapie_finalize_aad cx p.
Proof. unfold l_aapie_finalize_aad, aapie_finalize_aad. er. Qed.
Lemma e_aapie_finalize p : erase (l_aapie_finalize cx p) = aapie_finalize cx p.
Proof. unfold l_aapie_finalize, aapie_finalize. er. Qed.
Lemma e_aapie_aad p d : erase (l_aapie_aad cx p d) = aapie_aad cx p d.
Proof. unfold l_aapie_aad, aapie_aad. er. Qed.
Hint Resolve e_aapie_initialize e_aapie_finalize_aad e_aapie_finalize e_aapie_aad : er.
Lemma e_aapie_crypt dir p m src size dst : erase (l_aapie_crypt dir B cx p m src size dst) = aapie_crypt dir (lb_bk B) cx p m src size dst.
Proof. unfold l_aapie_crypt, aapie_crypt. destruct dir; er. Qed.
Hint Resolve e_aapie_crypt : er.
Lemma e_aapie_crypt_c dir p t c : erase (l_aapie_crypt_c dir B cx p t c) = aapie_crypt_c dir (lb_bk B) cx p t c.
Proof. unfold l_aapie_crypt_c, aapie_crypt_c. cbv zeta. er. Qed.
Lemma e_aapie_crypt_same dir p c : erase (l_aapie_crypt_same dir B cx p c) = aapie_crypt_same dir (lb_bk B) cx p c.
Proof. unfold l_aapie_crypt_same, aapie_crypt_same. cbv zeta. er. Qed.
Variable dsz : nat.
Lemma e_aapie_digest p q dst size : erase (l_aapie_digest cx dsz p q dst size) = aapie_digest cx dsz p dst size.
Proof. unfold l_aapie_digest, aapie_digest, aead_digest. er. Qed.
Hint Resolve e_aapie_crypt_c e_aapie_crypt_same e_aapie_digest : er.
Lemma e_aapie_digest_c p q c size : erase (l_aapie_digest_c cx dsz p q c size) = aapie_digest_c cx dsz p c size.
Proof. unfold l_aapie_digest_c, aapie_digest_c. cbv zeta. er. Qed.
Hint Resolve e_aapie_digest_c : er.
Lemma e_aapie_digest_static p j : erase (l_aapie_digest_static cx dsz p j) = aapie_digest_static cx dsz p j.
Proof. unfold l_aapie_digest_static, aapie_digest_static. er. Qed.
Hint Resolve e_aapie_digest_static : er.
Lemma e_aapie_verify p j mac : erase (l_aapie_verify cx dsz p j mac) = aapie_verify cx dsz p j mac.
Proof. unfold l_aapie_verify, aapie_verify. er. Qed.
Hint Resolve e_aapie_verify : er.
Lemma e_aead_step p c : erase (l_aead_step B cx dsz p c) = aead_step (lb_bk B) cx dsz p c.
Proof. unfold l_aead_step, aead_step. destruct c; er. Qed.
Hint Resolve e_aead_step : er.
Lemma e_aead_run : forall calls p, erase (l_aead_run B cx dsz p calls) = aead_run (lb_bk B) cx dsz p calls.
Proof.
  induction calls as [|c cs IH]; intros p; cbn [l_aead_run aead_run]; [reflexivity|].
  rewrite erase_bind, e_aead_step. destruct (aead_step _ _ _ _ _) as [[p' o]|]; [|reflexivity]. cbn [bind].
  rewrite erase_bind, IH. destruct (aead_run _ _ _ _ _) as [[p'' os]|]; reflexivity.
Qed.
End Aead.
