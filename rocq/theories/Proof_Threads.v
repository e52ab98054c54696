(** Several objects on one memory. *)
From Verif Require Import Base BaseLemmas BytesLemmas Spec_Bytes Spec_Sha Spec_ChaCha Spec_Poly Spec_Cipher Spec_Hash Spec_Aead Spec_Kdf
  Model_Memory Model_Update Model_Container Model_Sha Model_Mac Model_Hmac Model_Poly Model_Cipher Model_Aead Model_Kdf Model_KdfMem Model_Threads
  Proof_Memory Proof_Memory2 Proof_Memory3 Proof_ShaCore Proof_Soak Proof_Sha Proof_ShaApi Proof_Mac Proof_Hmac Proof_Poly Proof_ChaChaCore Proof_ChaCha Proof_Aead Proof_Kdf Proof_Kdf2 Proof_Kdf3 Proof_KdfMem
  Spec_Threads Spec_Range Proof_Range.
From Verif Require Proof_ShaHist.
Local Open Scope N_scope.

Lemma slice_agree (m g : list N) s n : (s + n <= length m)%nat -> length m = length g ->
  (forall a, within (s, n) a -> nth a m 0 = nth a g 0) -> slice m s n = slice g s n.
Proof.
  intros H L E. apply (nth_ext _ _ 0 0).
  - rewrite !slice_length by lia. reflexivity.
  - intros i Hi. rewrite slice_length in Hi by lia. rewrite !nth_slice by exact Hi. apply E. unfold within. cbn [fst snd]. lia.
Qed.
Lemma put_in (m : list N) d w r n : (d <= length m)%nat -> r = w ++ skipn n (skipn d m) -> n = length w -> firstn d m ++ r = put m d w.
Proof. intros H -> ->. unfold put. rewrite skipn_skipn, Nat.add_comm. reflexivity. Qed.

Lemma flat_bytes (f : N -> list N) l : (forall x, bytes (f x)) -> bytes (flat_map f l).
Proof. intros H. induction l as [|x l IH]; cbn [flat_map]; [constructor|]. apply bytes_app. auto. Qed.

(** *** Views *)
Definition view_in (V : nat -> Prop) (len : nat) (v : view) : Prop :=
  match v with VCopy l => chunk l | VPtr s n => inside len (s, n) /\ forall a, within (s, n) a -> V a end.
Lemma view_same (V : nat -> Prop) len v (m g : list N) : view_in V len v -> length m = len -> length g = len -> (forall a, V a -> nth a m 0 = nth a g 0) ->
  view_read m v = view_read g v.
Proof.
  destruct v as [s n|l]; [|reflexivity]. intros [[Hi _] Hv] Lm Lg E. cbn [fst snd] in Hi. cbn [view_read].
  destruct n as [|n]; [reflexivity|]. rewrite !rds_slice by lia. f_equal. apply slice_agree; [lia|congruence|]. intros a Ha. apply E, Hv, Ha.
Qed.
Lemma view_reads V len v m : view_in V len v -> length m = len -> bytes m -> exists l, view_read m v = Some l /\ chunk l.
Proof.
  destruct v as [s n|l]; [|intros H _ _; exists l; split; [reflexivity|exact H]]. intros [[Hi Hn] _] Lm Hm. cbn [fst snd] in Hi, Hn. cbn [view_read].
  exists (slice m s n). split.
  - destruct n as [|n]; [reflexivity|]. apply rds_slice. lia.
  - split; [apply slice_bytes, Hm|]. rewrite slice_length by lia. exact Hn.
Qed.
Lemma view_steady V len v m d n : view_in V len v -> length m = len -> (d + n <= len)%nat -> (forall a, within (d, n) a -> ~ V a) ->
  steady m (firstn d m) (skipn d m) n v.
Proof.
  intros Hv Lm Hd Hw key [FL FS]. rewrite skipn_length in FL.
  assert (Lf : length (firstn d m) = d) by (rewrite firstn_length; lia).
  apply (view_same V len); [exact Hv|rewrite app_length, Lf; lia|exact Lm|].
  intros a Va. destruct (Nat.lt_ge_cases a d) as [H|H].
  - rewrite app_nth1 by lia. rewrite <- (firstn_skipn d m) at 2. rewrite app_nth1 by lia. reflexivity.
  - rewrite app_nth2 by lia. rewrite Lf. destruct (Nat.lt_ge_cases a (d + n)) as [K|K].
    + destruct (Hw a); [unfold within; cbn [fst snd]; lia|exact Va].
    + replace (a - d)%nat with (n + (a - d - n))%nat by lia. rewrite <- nth_skipn, FS, !nth_skipn. f_equal. lia.
Qed.
Lemma view_of_in cx (V : nat -> Prop) len m r : length m = len -> bytes m -> inside len r -> (forall a, within r a -> V a) ->
  exists v, view_of cx m r = Some v /\ view_in V len v /\ view_read m v = Some (slice m (fst r) (snd r)).
Proof.
  intros Lm Hm Hr Hv. destruct r as [s n]. pose proof Hr as [Hi Hn]. cbn [fst snd] in *. unfold view_of. cbn [fst snd]. destruct (cx_ce cx).
  - rewrite rds_slice by lia. cbn [bind]. eexists. split; [reflexivity|]. split; [|reflexivity]. split; [apply slice_bytes, Hm|]. rewrite slice_length by lia. exact Hn.
  - eexists. split; [reflexivity|]. split; [split; [exact Hr|exact Hv]|]. cbn [view_read]. destruct n as [|n]; [reflexivity|]. apply rds_slice. lia.
Qed.
Lemma has_slice m r : inside (length m) r -> has m r (slice m (fst r) (snd r)).
Proof.
  intros [H _]. unfold has. rewrite slice_length by exact H. split; [exact H|]. split; reflexivity.
Qed.

Lemma first_occ (e : nat * scall) : forall l, In e l -> exists u v, l = u ++ e :: v /\ ~ In e u.
Proof.
  induction l as [|x l IH]; intros Hin; [destruct Hin|]. destruct (event_dec x e) as [->|N].
  - exists [], l. split; [reflexivity|intros []].
  - destruct IH as (u & v & -> & Hn); [destruct Hin as [E|Hin]; [contradiction|exact Hin]|].
    exists (x :: u), v. split; [reflexivity|]. intros [E|Hu]; [contradiction|exact (Hn Hu)].
Qed.
Definition pick (e f x : nat * scall) : bool := if event_dec x e then true else if event_dec x f then true else false.
Lemma only_filter e f l : only e f l = filter (pick e f) l.
Proof. reflexivity. Qed.
Lemma pick_iff e f x : pick e f x = true <-> x = e \/ x = f.
Proof. unfold pick. destruct (event_dec x e); [tauto|]. destruct (event_dec x f); [tauto|]. split; [discriminate|tauto]. Qed.
Lemma conflict_refl xs0 tr0 e : conflict xs0 tr0 e e.
Proof. left. reflexivity. Qed.
Lemma conflict_sym xs0 tr0 e f : conflict xs0 tr0 e f -> conflict xs0 tr0 f e.
Proof. intros [H|(a & [H|H])]; [left; congruence|right; exists a; right; tauto|right; exists a; left; tauto]. Qed.

Section Threads.
  Context (cx : ctx) (B : backend) (BO : backend_ok cx B) (len : nat).

  (** Indistinguishable objects. *)
  Definition hsame {M : mac_alg} (eqv : ma_obj M -> ma_obj M -> Prop) (V : nat -> Prop) (o1 o2 : hk_obj M) : Prop :=
    view_in V len (hk_info o1) /\ hk_info o2 = hk_info o1 /\ forall env, length env = len -> bytes env -> hkeq (eqv := eqv) env o1 o2.
  Definition psame {M : mac_alg} (eqv : ma_obj M -> ma_obj M -> Prop) (V : nat -> Prop) (o1 o2 : pb_obj M) : Prop :=
    (view_in V len (pb_ikm o1) /\ view_in V len (pb_salt o1)) /\ (pb_ikm o2 = pb_ikm o1 /\ pb_salt o2 = pb_salt o1) /\
    forall env, length env = len -> bytes env -> pbeq (eqv := eqv) env o1 o2.
  Inductive same (V : nat -> Prop) : thing -> thing -> Prop :=
  | same_hash a al p1 p2 : alg_ok a al -> (ha_digest_size al <= sha_nst a * sha_word_size a)%nat ->
      Proof_ShaHist.aeq a p1 p2 -> same V (THash al p1) (THash al p2)
  | same_mac M keyok T eqv hold out p1 p2 : mac_ok M cx keyok T eqv hold out -> (forall k, chunk k -> keyok k) ->
      (forall o, bytes (out o)) -> maeq (eqv := eqv) p1 p2 -> same V (TMac M p1) (TMac M p2)
  | same_cipher st pos o1 o2 : length st = 16%nat -> words 32 st -> stream_at B st pos o1 -> stream_at B st pos o2 -> same V (TCipher o1) (TCipher o2)
  | same_aead z p1 p2 : (z <= 16)%nat -> aeq B p1 p2 -> same V (TAead z p1) (TAead z p2)
  | same_hkdf M T eqv hold out o1 o2 : mac_ok M cx chunk T eqv hold out -> (0 < ma_digest_size M <= 64)%nat ->
      (forall k m, bytes k -> bytes m -> bytes (T k m) /\ length (T k m) = ma_digest_size M) -> hsame eqv V o1 o2 -> same V (THkdf M o1) (THkdf M o2)
  | same_pbkdf2 M T eqv hold out o1 o2 : mac_ok M cx chunk T eqv hold out -> (0 < ma_digest_size M <= 64)%nat ->
      (forall k m, bytes k -> bytes m -> bytes (T k m) /\ length (T k m) = ma_digest_size M) -> psame eqv V o1 o2 -> same V (TPbkdf2 M o1) (TPbkdf2 M o2).

  Definition der (c : scall) : Prop := match c with SDerive _ _ => True | _ => False end.
  Section Alike.
  (** A call on two such objects, on memories that agree on what it reads and on what the objects go on reading. *)
  Context (V : nat -> Prop).
  Definition steps_alike (x y : thing) (m g : list N) (c : scall) : Prop :=
    exists x' y' d w o, step B cx x m c = Some (x', put m d w, o) /\ step B cx y g c = Some (y', put g d w, o) /\ same V x' y' /\
      bytes w /\ (d + length w <= length m)%nat /\ (forall a, within (d, length w) a -> writes (tag_size x) c a) /\
      (forall l e, legal x l e -> legal x' l e) /\ tag_size x' = tag_size x.

  Lemma alike_quiet x y m g c x' y' o : step B cx x m c = Some (x', m, o) -> step B cx y g c = Some (y', g, o) -> same V x' y' ->
    (forall l e, legal x l e -> legal x' l e) -> tag_size x' = tag_size x -> steps_alike x y m g c.
  Proof.
    intros E1 E2 Q L T. exists x', y', 0%nat, (@nil N), o. rewrite !put_nil. cbn [length].
    split; [exact E1|]. split; [exact E2|]. split; [exact Q|]. split; [constructor|]. split; [lia|]. split; [|auto].
    unfold within. cbn [fst snd]. intros a. lia.
  Qed.
  Lemma chunk_slice m s n : bytes m -> inside (length m) (s, n) -> chunk (slice m s n).
  Proof. intros Hm [H1 H2]. cbn [fst snd] in *. split; [apply slice_bytes, Hm|]. rewrite slice_length by exact H1. exact H2. Qed.

  (** The result of a digest function on a pointer into the memory. *)
  Lemma at_mem_put {A} (f : list N -> option (A * list N * nat)) (p : A) w n k (m : list N) d :
    (d + n <= length m)%nat -> length w = n -> (forall l, bytes l -> (n <= length l)%nat -> f l = Some (p, w ++ skipn n l, k)) -> bytes m ->
    at_mem m d f = Some (p, put m d w, k).
  Proof.
    intros H L F Hm. unfold at_mem. destruct (Nat.leb_spec d (length m)); [|lia].
    rewrite F; [|apply bytes_skipn, Hm|rewrite skipn_length; lia]. cbn [bind].
    rewrite (put_in m d w _ n); [reflexivity|lia|reflexivity|congruence].
  Qed.

  Lemma alike_hash a al p1 p2 m g c : alg_ok a al -> (ha_digest_size al <= sha_nst a * sha_word_size a)%nat ->
    Proof_ShaHist.aeq a p1 p2 -> legal (THash al p1) (length m) c -> bytes m -> bytes g -> length m = length g ->
    (forall b, reads c b -> nth b m 0 = nth b g 0) -> steps_alike (THash al p1) (THash al p2) m g c.
  Proof.
    intros AO Hz Q Lc Hm Hg L E. destruct c as [k v|[s n]|dir s n d|d n|junk r|ki ks kf|pi ps it|d' n']; cbn [legal] in Lc; try contradiction.
    - apply (alike_quiet _ _ _ _ _ (THash al (hapie_initialize al p1)) (THash al (hapie_initialize al p2)) SNone); try reflexivity; [|auto].
      apply (same_hash V a); auto. split; [|reflexivity]. destruct Q as [H _].
      apply (Proof_ShaHist.heq_init a al AO); [exact (Proof_ShaHist.he_wf1 _ _ _ H)|exact (Proof_ShaHist.he_wf2 _ _ _ H)].
    - rename Lc into Li. destruct (Proof_ShaHist.aeq_update a al AO cx p1 p2 (slice m s n) Q (chunk_slice m s n Hm Li)) as (q1 & q2 & E1 & E2 & Q').
      destruct Li as [Li _]. cbn [fst snd] in Li.
      apply (alike_quiet _ _ _ _ _ (THash al q1) (THash al q2) SNone); [| |apply (same_hash V a); auto|auto|reflexivity]; cbn [step].
      + rewrite rds_slice by exact Li. cbn [bind]. rewrite E1. reflexivity.
      + rewrite rds_slice by lia. cbn [bind]. rewrite <- (slice_agree m g s n Li L E), E2. reflexivity.
    - rename Lc into Ld. cbn [tag_size] in Ld.
      destruct (Proof_ShaHist.aeq_do_finalize a al AO cx p1 p2 Q) as (q1 & q2 & E1 & E2 & Q' & F). pose proof Q' as [H' F'].
      set (k := Nat.min n (ha_digest_size al)) in *.
      pose proof (Proof_ShaHist.dig_length a q1 (Proof_ShaHist.he_wf1 _ _ _ H')) as Lg.
      exists (THash al q1), (THash al q2), d, (firstn k (Proof_ShaHist.dig a q1)), (SSize k). cbn [step].
      rewrite (at_mem_put _ q1 (firstn k (Proof_ShaHist.dig a q1)) k k m d Ld); [| | |exact Hm].
      2:{ rewrite firstn_length, Lg. lia. }
      2:{ intros l Hl Hk. rewrite Proof_ShaHist.digest_split, E1. cbn [bind].
          rewrite (Proof_ShaHist.digest_closed a al AO); try assumption; [reflexivity|exact (Proof_ShaHist.he_wf1 _ _ _ H')]. }
      rewrite (at_mem_put _ q2 (firstn k (Proof_ShaHist.dig a q1)) k k g d); [|lia| | |exact Hg].
      2:{ rewrite firstn_length, Lg. lia. }
      2:{ intros l Hl Hk. rewrite Proof_ShaHist.digest_split, E2. cbn [bind].
          rewrite (Proof_ShaHist.digest_closed a al AO); try assumption;
            [rewrite (Proof_ShaHist.aeq_dig a q1 q2 Q'); reflexivity|exact (Proof_ShaHist.he_wf2 _ _ _ H')|congruence]. }
      cbn [bind]. split; [reflexivity|]. split; [reflexivity|]. split; [apply (same_hash V a); auto|].
      split; [apply bytes_firstn; unfold Proof_ShaHist.dig; apply flat_bytes; intros; apply be_enc_bytes|].
      assert (Lw : length (firstn k (Proof_ShaHist.dig a q1)) = k) by (rewrite firstn_length, Lg; lia). rewrite Lw.
      split; [exact Ld|]. split; [|auto]. intros b Hb. exact Hb.
  Qed.

  Lemma alike_mac M keyok T eqv hold out (OK : mac_ok M cx keyok T eqv hold out) p1 p2 m g c : (forall k, chunk k -> keyok k) ->
    (forall o, bytes (out o)) -> maeq (eqv := eqv) p1 p2 -> legal (TMac M p1) (length m) c -> bytes m -> bytes g -> length m = length g ->
    (forall b, reads c b -> nth b m 0 = nth b g 0) -> steps_alike (TMac M p1) (TMac M p2) m g c.
  Proof.
    intros Hk Ho Q Lc Hm Hg L E. destruct c as [[s n] v|[s n]|dir s n d|d n|junk r|ki ks kf|pi ps it|d' n']; cbn [legal] in Lc; try contradiction.
    - destruct Lc as [Li _]. pose proof (chunk_slice m s n Hm Li) as Ck. destruct Li as [Li _]. cbn [fst snd] in Li.
      destruct (maeq_wf OK _ _ Q) as [W1 W2].
      destruct (maeq_init OK p1 p2 (slice m s n) W1 W2 (Hk _ Ck)) as (q1 & q2 & E1 & E2 & Q' & _).
      apply (alike_quiet _ _ _ _ _ (TMac M q1) (TMac M q2) SNone); [| |exact (same_mac V M keyok T eqv hold out q1 q2 OK Hk Ho Q')|auto|reflexivity]; cbn [step].
      + rewrite rds_slice by exact Li. cbn [bind]. rewrite E1. reflexivity.
      + rewrite rds_slice by lia. cbn [bind]. rewrite <- (slice_agree m g s n Li L), E2; [reflexivity|]. intros b Hb. apply E. left. exact Hb.
    - rename Lc into Li. pose proof (chunk_slice m s n Hm Li) as Ck. destruct Li as [Li _]. cbn [fst snd] in Li.
      destruct (maeq_update OK p1 p2 (slice m s n) Q Ck) as (q1 & q2 & E1 & E2 & Q').
      apply (alike_quiet _ _ _ _ _ (TMac M q1) (TMac M q2) SNone); [| |exact (same_mac V M keyok T eqv hold out q1 q2 OK Hk Ho Q')|auto|reflexivity]; cbn [step].
      + rewrite rds_slice by exact Li. cbn [bind]. rewrite E1. reflexivity.
      + rewrite rds_slice by lia. cbn [bind]. rewrite <- (slice_agree m g s n Li L E), E2. reflexivity.
    - rename Lc into Ld. cbn [tag_size] in Ld.
      destruct (maeq_do_finalize OK p1 p2 Q) as (q1 & q2 & E1 & E2 & Q' & F). destruct (maeq_wf OK _ _ Q') as [W1 W2]. pose proof Q' as [H' F'].
      set (k := Nat.min n (ma_digest_size M)) in *.
      pose proof (mo_len _ _ _ _ _ _ _ OK (mp_impl q1) W1) as Lg.
      set (w := firstn k (out (mp_impl q1))).
      assert (Lw : length w = k) by (unfold w; rewrite firstn_length; lia).
      exists (TMac M q1), (TMac M q2), d, w, (SSize k). cbn [step].
      rewrite (at_mem_put _ q1 w k k m d Ld); [|exact Lw| |exact Hm].
      2:{ intros l Hl Hk'. rewrite mdigest_split, E1. cbn [bind]. rewrite (mdigest_closed OK); try assumption. reflexivity. }
      rewrite (at_mem_put _ q2 w k k g d); [|lia|exact Lw| |exact Hg].
      2:{ intros l Hl Hk'. rewrite mdigest_split, E2. cbn [bind]. rewrite (mdigest_closed OK); try assumption; [|congruence].
          rewrite <- (maeq_out OK q1 q2 Q'). reflexivity. }
      cbn [bind]. split; [reflexivity|]. split; [reflexivity|]. split; [exact (same_mac V M keyok T eqv hold out q1 q2 OK Hk Ho Q')|].
      split; [apply bytes_firstn, Ho|]. rewrite Lw. split; [exact Ld|]. split; [|auto]. intros b Hb. exact Hb.
  Qed.

  Lemma alike_cipher st pos o1 o2 m g c : length st = 16%nat -> words 32 st -> stream_at B st pos o1 -> stream_at B st pos o2 ->
    legal (TCipher o1) (length m) c -> bytes m -> bytes g -> length m = length g ->
    (forall b, reads c b -> nth b m 0 = nth b g 0) -> steps_alike (TCipher o1) (TCipher o2) m g c.
  Proof.
    intros Ls Ws S1 S2 Lc Hm Hg L E. destruct c as [[s n] [s' n']|r|dir s n d|d n|junk r|ki ks kf|pi ps it|d' n']; cbn [legal] in Lc; try contradiction.
    - destruct Lc as [[Li _] [Lj _]]. cbn [fst snd] in Li, Lj.
      pose proof (slice_bytes m s n Hm) as Bk. pose proof (slice_bytes m s' n' Hm) as Bv.
      destruct (initialize_spec cx B o1 _ _ (stream_at_wf _ _ _ _ Ls Ws S1) Bk Bv) as (q1 & E1 & I1).
      destruct (initialize_spec cx B o2 _ _ (stream_at_wf _ _ _ _ Ls Ws S2) Bk Bv) as (q2 & E2 & I2).
      destruct (api_state_ok _ _ Bk Bv) as [La Wa].
      apply (alike_quiet _ _ _ _ _ (TCipher q1) (TCipher q2) SNone); [| |exact (same_cipher V _ 0 q1 q2 La Wa I1 I2)|auto|reflexivity]; cbn [step].
      + rewrite !rds_slice by lia. cbn [bind]. rewrite E1. reflexivity.
      + rewrite !rds_slice by lia. cbn [bind]. rewrite <- (slice_agree m g s n Li L), <- (slice_agree m g s' n' Lj L), E2; [reflexivity| |];
          intros b Hb; apply E; [right|left]; exact Hb.
    - destruct Lc as ([Li _] & [Lj _] & Ha). cbn [fst snd] in Li, Lj.
      destruct (crypt_spec cx B BO st Ls Ws dir o1 pos m d s n S1 Hm Lj Li Ha) as (q1 & E1 & I1).
      destruct (crypt_spec cx B BO st Ls Ws dir o2 pos g d s n S2 Hg ltac:(lia) ltac:(lia) Ha) as (q2 & E2 & I2).
      rewrite <- (slice_agree m g s n Li L E) in E2.
      set (w := xor_with (st_byte st) pos (slice m s n)) in *.
      assert (Lw : length w = n) by (unfold w; rewrite xor_with_length; apply slice_length; exact Li).
      exists (TCipher q1), (TCipher q2), d, w, (SSize n). cbn [step]. rewrite E1, E2. cbn [bind].
      split; [reflexivity|]. split; [reflexivity|]. split; [exact (same_cipher V st _ q1 q2 Ls Ws I1 I2)|].
      split; [apply xor_with_bytes; [apply st_byte_byte|apply slice_bytes, Hm]|]. rewrite Lw. split; [exact Lj|]. split; [|auto].
      intros b Hb. exact Hb.
  Qed.

  (** [crypt_pair] of [Proof_Aead] on two memories. *)
  Lemma crypt_pair2 z (Hz : (z <= 16)%nat) dir p1 p2 m g s n d : aeq B p1 p2 -> textok m s n d -> bytes g -> length m = length g -> slice m s n = slice g s n ->
    exists p1' p2' r, aapie_crypt dir B cx p1 m s n d = Some (p1', put m d r, n) /\
      aapie_crypt dir B cx p2 g s n d = Some (p2', put g d r, n) /\ length r = n /\ bytes r /\ aeq B p1' p2'.
  Proof.
    intros H (Hm & Hs & Hdm & Ha & Hn) Hg L Es. destruct (over_pair cx B z Hz p1 p2 H) as (q1 & q2 & E1 & E2 & H').
    unfold aapie_crypt. rewrite E1, E2. cbn [bind]. clear H E1 E2.
    destruct H' as [(st & pos & Lst & W & C1 & C2) Q A (k & G1 & G2) F].
    assert (Hdg : (d + n <= length g)%nat) by lia. assert (Hsg : (s + n <= length g)%nat) by lia.
    destruct (crypt_spec cx B BO st Lst W dir _ pos m d s n C1 Hm Hdm Hs Ha) as (c1 & K1 & S1).
    destruct (crypt_spec cx B BO st Lst W dir _ pos g d s n C2 Hg Hdg Hsg Ha) as (c2 & K2 & S2).
    rewrite <- Es in K2.
    set (r := xor_with (st_byte st) pos (slice m s n)) in *.
    assert (Lr : length r = n) by (unfold r; rewrite xor_with_length; apply slice_length; exact Hs).
    assert (Br : bytes r) by (apply xor_with_bytes; [apply st_byte_byte|apply slice_bytes, Hm]).
    destruct dir; cbn [capie_crypt] in K1, K2.
    - unfold aead_encrypt. rewrite K1, K2. cbn [bind].
      rewrite !rds_slice by (rewrite put_length; lia). cbn [bind].
      assert (Sr : slice (put m d r) d n = r) by (rewrite <- Lr at 1; apply slice_put_same; lia). rewrite Sr.
      assert (Sg : slice (put g d r) d n = r) by (rewrite <- Lr at 1; apply slice_put_same; lia). rewrite Sg.
      destruct (upd_pair cx z Hz _ _ r Q) as (h1 & h2 & U1 & U2 & Q'); [split; [exact Br|rewrite Lr; exact Hn]|].
      rewrite U1, U2. cbn [bind]. do 3 eexists. split; [reflexivity|]. split; [reflexivity|]. split; [exact Lr|]. split; [exact Br|].
      constructor; cbn [ap_impl ao_cipher ao_mac ao_aad ao_edd ap_aad_done ap_done]; auto.
      + exists st, (pos + n)%nat. auto.
      + exists (k + n)%nat. rewrite G1, G2, wadd_count. auto.
    - unfold aead_decrypt. rewrite !rds_slice by lia. cbn [bind]. rewrite <- Es.
      destruct (upd_pair cx z Hz _ _ (slice m s n) Q) as (h1 & h2 & U1 & U2 & Q').
      { split; [apply slice_bytes, Hm|rewrite slice_length by exact Hs; exact Hn]. }
      rewrite U1, U2. cbn [bind]. rewrite K1, K2. cbn [bind].
      do 3 eexists. split; [reflexivity|]. split; [reflexivity|]. split; [exact Lr|]. split; [exact Br|].
      constructor; cbn [ap_impl ao_cipher ao_mac ao_aad ao_edd ap_aad_done ap_done]; auto.
      + exists st, (pos + n)%nat. auto.
      + exists (k + n)%nat. rewrite G1, G2, wadd_count. auto.
  Qed.

  Lemma alike_aead z p1 p2 m g c : (z <= 16)%nat -> aeq B p1 p2 ->
    legal (TAead z p1) (length m) c -> bytes m -> bytes g -> length m = length g ->
    (forall b, reads c b -> nth b m 0 = nth b g 0) -> steps_alike (TAead z p1) (TAead z p2) m g c.
  Proof.
    intros Hz Q Lc Hm Hg L E. destruct c as [[s n] [s' n']|[s n]|dir s n d|d n|junk [s n]|ki ks kf|pi ps it|d' n']; cbn [legal] in Lc; try contradiction.
    - destruct Lc as [[Li _] [Lj _]]. cbn [fst snd] in Li, Lj. destruct (aeq_awf B p1 p2 Q) as [W1 W2].
      destruct (ainit cx B BO z Hz p1 p2 (slice m s n) (slice m s' n') W1 W2 (slice_bytes m s n Hm) (slice_bytes m s' n' Hm)) as (q1 & q2 & E1 & E2 & Q' & _).
      apply (alike_quiet _ _ _ _ _ (TAead z q1) (TAead z q2) SNone); [| |exact (same_aead V z q1 q2 Hz Q')|auto|reflexivity]; cbn [step].
      + rewrite !rds_slice by lia. cbn [bind]. rewrite E1. reflexivity.
      + rewrite !rds_slice by lia. cbn [bind]. rewrite <- (slice_agree m g s n Li L), <- (slice_agree m g s' n' Lj L), E2; [reflexivity| |];
          intros b Hb; apply E; [right|left]; exact Hb.
    - rename Lc into Li. pose proof (chunk_slice m s n Hm Li) as Ck. destruct Li as [Li _]. cbn [fst snd] in Li.
      destruct (aad_pair cx B z Hz p1 p2 (slice m s n) Q Ck) as (q1 & q2 & E1 & E2 & Q').
      apply (alike_quiet _ _ _ _ _ (TAead z q1) (TAead z q2) SNone); [| |exact (same_aead V z q1 q2 Hz Q')|auto|reflexivity]; cbn [step].
      + rewrite rds_slice by exact Li. cbn [bind]. rewrite E1. reflexivity.
      + rewrite rds_slice by lia. cbn [bind]. rewrite <- (slice_agree m g s n Li L E), E2. reflexivity.
    - destruct Lc as ([Li Ni] & [Lj _] & Ha). cbn [fst snd] in Li, Lj, Ni.
      destruct (crypt_pair2 z Hz dir p1 p2 m g s n d Q) as (q1 & q2 & w & E1 & E2 & Lw & Bw & Q');
        [repeat split; assumption|exact Hg|exact L|exact (slice_agree m g s n Li L E)|].
      exists (TAead z q1), (TAead z q2), d, w, (SSize n). cbn [step]. rewrite E1, E2. cbn [bind].
      split; [reflexivity|]. split; [reflexivity|]. split; [exact (same_aead V z q1 q2 Hz Q')|].
      split; [exact Bw|]. rewrite Lw. split; [exact Lj|]. split; [|auto]. intros b Hb. exact Hb.
    - rename Lc into Ld. cbn [tag_size] in Ld.
      destruct (afin_pair cx B z Hz p1 p2 Q) as (q1 & q2 & E1 & E2 & Q' & F).
      assert (F2 : ap_done q2 = true) by (rewrite <- F; symmetry; apply Q').
      assert (P1 : peq (ao_mac (ap_impl q1)) (ao_mac (ap_impl q1))) by (apply peq_refl; apply (ae_m _ _ _ Q')).
      assert (P2 : peq (ao_mac (ap_impl q2)) (ao_mac (ap_impl q2))) by (apply peq_refl; apply (ae_m _ _ _ Q')).
      assert (At : atag z q1 = atag z q2) by (unfold atag; rewrite (pe_a _ _ (ae_m _ _ _ Q')); reflexivity).
      assert (Lt : length (atag z q1) = z) by exact (out_len cx z Hz _ P1).
      assert (Bt : bytes (atag z q1)) by (unfold atag; apply bytes_firstn, serialize_bytes).
      set (k := Nat.min n z) in *. set (w := firstn n (atag z q1)).
      assert (Lw : length w = k) by (unfold w; rewrite firstn_length, Lt; reflexivity).
      assert (Fs : forall p l, aapie_digest cx z p l n = (q <- aapie_finalize cx p ;; aapie_digest cx z q l n)).
      { intros p l. unfold aapie_digest, aapie_finalize. destruct (ap_done p) eqn:D; cbn [bind]; [rewrite D; reflexivity|].
        destruct (aead_finalize cx (ap_impl p)); reflexivity. }
      exists (TAead z q1), (TAead z q2), d, w, (SSize k). cbn [step].
      rewrite (at_mem_put _ q1 w k k m d Ld Lw); [| |exact Hm].
      2:{ intros l Hl Hk. rewrite Fs, E1. cbn [bind]. exact (adigest_closed cx z Hz q1 l n P1 F Hl Hk). }
      rewrite (at_mem_put _ q2 w k k g d); [|lia|exact Lw| |exact Hg].
      2:{ intros l Hl Hk. rewrite Fs, E2. cbn [bind]. unfold w. rewrite At. exact (adigest_closed cx z Hz q2 l n P2 F2 Hl Hk). }
      cbn [bind]. split; [reflexivity|]. split; [reflexivity|]. split; [exact (same_aead V z q1 q2 Hz Q')|].
      split; [apply bytes_firstn, Bt|]. rewrite Lw. split; [exact Ld|]. split; [|auto]. intros b Hb. exact Hb.
    - destruct Lc as ([Li Ni] & Bj & Lj). cbn [fst snd tag_size] in Li, Ni, Lj.
      assert (Ok : acall_ok z (AVerify junk (slice m s n))).
      { cbn [acall_ok]. split; [exact Bj|]. split; [exact Lj|apply slice_bytes, Hm]. }
      destruct (aeq_step cx B BO z Hz p1 p2 _ Q Ok) as (q1 & q2 & o & E1 & E2 & Q'). cbn [aead_step] in E1, E2.
      destruct (aapie_verify cx z p1 junk (slice m s n)) as [[r1 e1]|] eqn:V1; [|discriminate E1].
      destruct (aapie_verify cx z p2 junk (slice m s n)) as [[r2 e2]|] eqn:V2; [|discriminate E2]. cbn [bind] in E1, E2.
      assert (r1 = q1) by congruence. assert (r2 = q2) by congruence. assert (e1 = e2) by congruence. subst r1 r2 e2.
      apply (alike_quiet _ _ _ _ _ (TAead z q1) (TAead z q2) (SError e1)); [| |exact (same_aead V z q1 q2 Hz Q')|auto|reflexivity]; cbn [step].
      + rewrite rds_slice by exact Li. cbn [bind]. rewrite V1. reflexivity.
      + rewrite rds_slice by lia. cbn [bind]. rewrite <- (slice_agree m g s n Li L E), V2. reflexivity.
  Qed.

  Lemma range_same m g r : inside len r -> length m = len -> length g = len -> (forall a, within r a -> nth a m 0 = nth a g 0) ->
    range_read m r = range_read g r /\ view_of cx m r = view_of cx g r.
  Proof.
    destruct r as [s n]. intros [Hi _] Lm Lg E. cbn [fst snd] in Hi.
    assert (R : rds m s n = rds g s n) by (rewrite !rds_slice by lia; f_equal; apply slice_agree; [lia|congruence|exact E]).
    unfold range_read, view_of. cbn [fst snd]. rewrite R. split; [|reflexivity]. destruct n; [reflexivity|exact R].
  Qed.
  Lemma steady2 v m g d n : view_in V len v -> length m = len -> length g = len -> (forall a, V a -> nth a m 0 = nth a g 0) ->
    (d + n <= len)%nat -> (forall a, within (d, n) a -> ~ V a) -> steady m (firstn d g) (skipn d g) n v.
  Proof.
    intros Hv Lm Lg E Hd Hw key Hf. rewrite (view_steady V len v g d n Hv Lg Hd Hw key Hf). symmetry. exact (view_same V len v m g Hv Lm Lg E).
  Qed.

  Lemma hkeq_any {M : mac_alg} {eqv : ma_obj M -> ma_obj M -> Prop} env env' (o1 o2 : hk_obj M) : hkeq (eqv := eqv) env o1 o2 ->
    view_in V len (hk_info o1) -> hk_info o2 = hk_info o1 -> length env' = len -> bytes env' -> hkeq (eqv := eqv) env' o1 o2.
  Proof.
    intros [(i & W1 & W2) Qp Qc Qs Qb] Hv He L Be. destruct (view_reads V len _ env' Hv L Be) as (l & R & C).
    constructor; try assumption. exists l. destruct W1, W2. split; constructor; try assumption. rewrite He. exact R.
  Qed.
  Lemma pbeq_any {M : mac_alg} {eqv : ma_obj M -> ma_obj M -> Prop} env env' (o1 o2 : pb_obj M) : pbeq (eqv := eqv) env o1 o2 ->
    view_in V len (pb_ikm o1) -> view_in V len (pb_salt o1) -> pb_ikm o2 = pb_ikm o1 -> pb_salt o2 = pb_salt o1 ->
    length env' = len -> bytes env' -> pbeq (eqv := eqv) env' o1 o2.
  Proof.
    intros [(i & s & W1 & W2) Qp Qc Qs Qb] Hv Hs He Hf L Be. destruct (view_reads V len _ env' Hv L Be) as (l & R & C).
    destruct (view_reads V len _ env' Hs L Be) as (l' & R' & C').
    constructor; try assumption. exists l, l'. destruct W1, W2. split; constructor; try assumption; [rewrite He; exact R|rewrite Hf; exact R'].
  Qed.

  Lemma alike_hkdf M T eqv hold out o1 o2 m g c (OK : mac_ok M cx chunk T eqv hold out) (Hes : (0 < ma_digest_size M <= 64)%nat)
    (TB : forall k m, bytes k -> bytes m -> bytes (T k m) /\ length (T k m) = ma_digest_size M) : hsame eqv V o1 o2 ->
    legal (THkdf M o1) len c -> bytes m -> bytes g -> length m = len -> length g = len ->
    (forall b, reads c b \/ der c /\ V b -> nth b m 0 = nth b g 0) -> (forall b, keeps c b -> V b) ->
    (forall d n, c = SDerive d n -> forall b, within (d, n) b -> ~ V b) -> steps_alike (THkdf M o1) (THkdf M o2) m g c.
  Proof.
    intros (Hv & He & Hq) Lc Hm Hg Lm Lg E Hk Hd. destruct c as [k v|r|dir s n d|d n|junk r|ki ks kf|pi ps it|d n]; cbn [legal] in Lc; try contradiction.
    - destruct Lc as (L1 & L2 & L3). cbn [reads keeps] in E, Hk.
      assert (H1 := L1). assert (H2 := L2). assert (H3 := L3). rewrite <- Lm in H1, H2, H3.
      assert (C1 : chunk (slice m (fst ki) (snd ki))) by (apply chunk_slice; [exact Hm|destruct ki; exact H1]).
      assert (C2 : chunk (slice m (fst ks) (snd ks))) by (apply chunk_slice; [exact Hm|destruct ks; exact H2]).
      assert (C3 : chunk (slice m (fst kf) (snd kf))) by (apply chunk_slice; [exact Hm|destruct kf; exact H3]).
      pose proof (Hq m Lm Hm) as Q. destruct (hkeq_lr m o1 o2 Q) as [Q1 Q2].
      destruct (hk_init_spec OK Hes TB m o1 o2 _ _ _ (ki, ks, kf) Q1 Q2 (has_slice m ki H1) (has_slice m ks H2) (has_slice m kf H3) C1 C2 C3)
        as (q1 & q2 & E1 & E2 & Q' & _ & VO & _). cbn [fst snd] in E1, E2, VO.
      assert (G2 : hk_initialize cx M g o2 ki ks kf = Some q2).
      { rewrite <- E2. unfold hk_initialize.
        destruct (range_same m g ki L1 Lm Lg) as [R1 _]; [intros b Hb; apply E; left; left; exact Hb|].
        destruct (range_same m g ks L2 Lm Lg) as [R2 _]; [intros b Hb; apply E; left; right; left; exact Hb|].
        destruct (range_same m g kf L3 Lm Lg) as [_ R3]; [intros b Hb; apply E; left; right; right; exact Hb|].
        rewrite R1, R2, R3. reflexivity. }
      assert (I2 : hk_info q2 = hk_info q1).
      { clear - E1 E2. unfold hk_initialize in E1, E2. destruct (view_of cx m kf) as [v|]; [|discriminate E1]. cbn [bind] in E1, E2.
        destruct (range_read m ki) as [a|]; [|discriminate E1]. cbn [bind] in E1, E2. destruct (range_read m ks) as [b|]; [|discriminate E1]. cbn [bind] in E1, E2.
        destruct (mac_once cx M (hk_mac o1) b [a] (hk_prk o1) 0) as [[h1 p1]|]; [|discriminate E1].
        destruct (mac_once cx M (hk_mac o2) b [a] (hk_prk o2) 0) as [[h2 p2]|]; [|discriminate E2]. cbn [bind] in E1, E2.
        injection E1 as <-. injection E2 as <-. reflexivity. }
      destruct (view_of_in cx V len m kf Lm Hm L3 Hk) as (v & VO' & VI & _).
      assert (v = hk_info q1) by congruence. subst v.
      apply (alike_quiet _ _ _ _ _ (THkdf M q1) (THkdf M q2) SNone); [| | |auto|reflexivity]; cbn [step].
      + rewrite E1. reflexivity.
      + rewrite G2. reflexivity.
      + apply (same_hkdf V M T eqv hold out q1 q2 OK Hes TB). split; [exact VI|]. split; [exact I2|].
        intros env' L' B'. exact (hkeq_any m env' q1 q2 Q' VI I2 L' B').
    - pose proof (Hd d n eq_refl) as Av. pose proof (Hq m Lm Hm) as Q. pose proof Q as [(info & W1 & W2) _ _ _ _].
      assert (Ev : forall a, V a -> nth a m 0 = nth a g 0) by (intros a Va; apply E; right; split; [exact I|exact Va]).
      destruct (hkeq_derive OK Hes TB m o1 o2 n Q) as (r & Br & Lr & D).
      assert (Bs : bytes (skipn d m)) by apply bytes_skipn, Hm. assert (Bt : bytes (skipn d g)) by apply bytes_skipn, Hg.
      assert (Ls : (n <= length (skipn d m))%nat) by (rewrite skipn_length; lia). assert (Lt : (n <= length (skipn d g))%nat) by (rewrite skipn_length; lia).
      destruct (D (skipn d m) Bs Ls) as (q1 & _ & E1 & _ & _).
      destruct (D (skipn d g) Bt Lt) as (_ & q2 & _ & E2 & _).
      assert (X : exists q2', hk_derive cx M m o2 (skipn d m) n = Some (q2', r ++ skipn n (skipn d m), n) /\ hkeq (eqv := eqv) m q1 q2').
      { destruct (D (skipn d m) Bs Ls) as (z1 & z2 & Z1 & Z2 & Zq). exists z2. split; [exact Z2|]. assert (z1 = q1) by congruence. subst z1. exact Zq. }
      destruct (hderive_spec OK Hes TB m info o1 (skipn d m) n W1 Bs Ls) as (u1 & U1 & _ & _ & I1 & _). assert (u1 = q1) by congruence. subst u1.
      destruct (hderive_spec OK Hes TB m info o2 (skipn d g) n W2 Bt Lt) as (u2 & U2 & Wu & Pu & I2 & Cu & Bu & Su). assert (u2 = q2) by congruence. subst u2.
      destruct X as (q3 & E3 & Q3).
      destruct (hderive_spec OK Hes TB m info o2 (skipn d m) n W2 Bs Ls) as (u3 & U3 & W3 & P3 & I3 & C3 & B3 & S3). assert (u3 = q3) by congruence. subst u3.
      assert (Q' : hkeq (eqv := eqv) m q1 q2).
      { destruct Q3 as [(i3 & V1 & V3) Xp Xc Xs Xb]. constructor.
        - exists info. split; [|exact Wu]. assert (i3 = info); [|subst i3; exact V1].
          pose proof (hw_v _ _ _ V3) as R3. pose proof (hw_v _ _ _ W3) as R4. congruence.
        - congruence.
        - congruence.
        - congruence.
        - intros H. rewrite (Xb H). congruence. }
      assert (F1 : hk_derive_at cx M o1 m d n = Some (q1, put m d r, n)).
      { pose proof (hk_derive_app OK Hes TB m info o1 (firstn d m) (skipn d m) n W1 (view_steady V len _ m d n Hv Lm Lc Av) Bs Ls) as A.
        rewrite firstn_skipn, firstn_length, Nat.min_l in A by lia. rewrite A, E1. cbn [bind].
        rewrite (put_in m d r _ n); [reflexivity|lia|reflexivity|congruence]. }
      assert (F2 : hk_derive_at cx M o2 g d n = Some (q2, put g d r, n)).
      { assert (Hv2 : view_in V len (hk_info o2)) by (rewrite He; exact Hv).
        pose proof (hk_derive_app OK Hes TB m info o2 (firstn d g) (skipn d g) n W2 (steady2 _ m g d n Hv2 Lm Lg Ev Lc Av) Bt Lt) as A.
        rewrite firstn_skipn, firstn_length, Nat.min_l in A by lia. rewrite A, E2. cbn [bind].
        rewrite (put_in g d r _ n); [reflexivity|lia|reflexivity|congruence]. }
      assert (I12 : hk_info q2 = hk_info q1) by congruence. assert (Hv' : view_in V len (hk_info q1)) by (rewrite I1; exact Hv).
      exists (THkdf M q1), (THkdf M q2), d, r, (SSize n). cbn [step]. rewrite F1, F2. cbn [bind].
      split; [reflexivity|]. split; [reflexivity|]. split.
      { apply (same_hkdf V M T eqv hold out q1 q2 OK Hes TB). split; [exact Hv'|]. split; [exact I12|].
        intros env' L' B'. exact (hkeq_any m env' q1 q2 Q' Hv' I12 L' B'). }
      split; [exact Br|]. rewrite Lr. split; [lia|]. split; [|auto]. intros b Hb. exact Hb.
  Qed.

  Lemma alike_pbkdf2 M T eqv hold out o1 o2 m g c (OK : mac_ok M cx chunk T eqv hold out) (Hes : (0 < ma_digest_size M <= 64)%nat)
    (TB : forall k m, bytes k -> bytes m -> bytes (T k m) /\ length (T k m) = ma_digest_size M) : psame eqv V o1 o2 ->
    legal (TPbkdf2 M o1) len c -> bytes m -> bytes g -> length m = len -> length g = len ->
    (forall b, reads c b \/ der c /\ V b -> nth b m 0 = nth b g 0) -> (forall b, keeps c b -> V b) ->
    (forall d n, c = SDerive d n -> forall b, within (d, n) b -> ~ V b) -> steps_alike (TPbkdf2 M o1) (TPbkdf2 M o2) m g c.
  Proof.
    intros ((Hv & Hw) & (He & Hf) & Hq) Lc Hm Hg Lm Lg E Hk Hd. destruct c as [k v|r|dir s n d|d n|junk r|ki ks kf|pi ps it|d n]; cbn [legal] in Lc; try contradiction.
    - destruct Lc as (L1 & L2). cbn [reads keeps] in E, Hk.
      assert (H1 := L1). assert (H2 := L2). rewrite <- Lm in H1, H2.
      assert (C1 : chunk (slice m (fst pi) (snd pi))) by (apply chunk_slice; [exact Hm|destruct pi; exact H1]).
      assert (C2 : chunk (slice m (fst ps) (snd ps))) by (apply chunk_slice; [exact Hm|destruct ps; exact H2]).
      pose proof (Hq m Lm Hm) as Q. destruct (pbeq_lr m o1 o2 Q) as [Q1 Q2].
      destruct (pb_init_spec (cx := cx) (T := T) Hes TB m o1 o2 _ _ it (pi, ps, it) Q1 Q2 (has_slice m pi H1) (has_slice m ps H2) eq_refl C1 C2)
        as (q1 & q2 & E1 & E2 & Q' & _ & VO & VS & _). cbn [fst snd] in E1, E2, VO, VS.
      assert (G2 : pb_initialize cx M g o2 pi ps it = Some q2).
      { rewrite <- E2. unfold pb_initialize.
        destruct (range_same m g pi L1 Lm Lg) as [_ R1]; [intros b Hb; apply E; left; left; exact Hb|].
        destruct (range_same m g ps L2 Lm Lg) as [_ R2]; [intros b Hb; apply E; left; right; exact Hb|].
        rewrite R1, R2. reflexivity. }
      assert (I2 : pb_ikm q2 = pb_ikm q1 /\ pb_salt q2 = pb_salt q1).
      { clear - E1 E2. unfold pb_initialize in E1, E2. destruct (view_of cx m pi) as [v|]; [|discriminate E1]. cbn [bind] in E1, E2.
        destruct (view_of cx m ps) as [w|]; [|discriminate E1]. cbn [bind] in E1, E2.
        injection E1 as <-. injection E2 as <-. split; reflexivity. }
      destruct I2 as [I2 J2].
      destruct (view_of_in cx V len m pi Lm Hm L1) as (v & VO' & VI & _); [intros a Ha; apply Hk; left; exact Ha|].
      destruct (view_of_in cx V len m ps Lm Hm L2) as (w & VS' & WI & _); [intros a Ha; apply Hk; right; exact Ha|].
      assert (v = pb_ikm q1) by congruence. assert (w = pb_salt q1) by congruence. subst v w.
      apply (alike_quiet _ _ _ _ _ (TPbkdf2 M q1) (TPbkdf2 M q2) SNone); [| | |auto|reflexivity]; cbn [step].
      + rewrite E1. reflexivity.
      + rewrite G2. reflexivity.
      + apply (same_pbkdf2 V M T eqv hold out q1 q2 OK Hes TB). split; [split; assumption|]. split; [split; assumption|].
        intros env' L' B'. exact (pbeq_any m env' q1 q2 Q' VI WI I2 J2 L' B').
    - pose proof (Hd d n eq_refl) as Av. pose proof (Hq m Lm Hm) as Q. pose proof Q as [(P & S0 & W1 & W2) _ _ _ _].
      assert (Ev : forall a, V a -> nth a m 0 = nth a g 0) by (intros a Va; apply E; right; split; [exact I|exact Va]).
      destruct (pbeq_derive OK Hes TB m o1 o2 n Q) as (r & Br & Lr & D).
      assert (Bs : bytes (skipn d m)) by apply bytes_skipn, Hm. assert (Bt : bytes (skipn d g)) by apply bytes_skipn, Hg.
      assert (Ls : (n <= length (skipn d m))%nat) by (rewrite skipn_length; lia). assert (Lt : (n <= length (skipn d g))%nat) by (rewrite skipn_length; lia).
      destruct (D (skipn d m) Bs Ls) as (q1 & q3 & E1 & E3 & Q3).
      destruct (D (skipn d g) Bt Lt) as (_ & q2 & _ & E2 & _).
      destruct (pderive_spec OK Hes TB m P S0 o1 (skipn d m) n W1 Bs Ls) as (u1 & U1 & _ & I1 & J1 & _). assert (u1 = q1) by congruence. subst u1.
      destruct (pderive_spec OK Hes TB m P S0 o2 (skipn d g) n W2 Bt Lt) as (u2 & U2 & Wu & I2 & J2 & Tu & Cu & Bu & Su). assert (u2 = q2) by congruence. subst u2.
      destruct (pderive_spec OK Hes TB m P S0 o2 (skipn d m) n W2 Bs Ls) as (u3 & U3 & W3 & I3 & J3 & T3 & C3 & B3 & S3). assert (u3 = q3) by congruence. subst u3.
      assert (Q' : pbeq (eqv := eqv) m q1 q2).
      { destruct Q3 as [(i3 & s3 & V1 & V3) Xp Xc Xs Xb]. constructor.
        - exists P, S0. split; [|exact Wu].
          pose proof (pw_i _ _ _ _ V3) as R3. pose proof (pw_i _ _ _ _ W3) as R4. pose proof (pw_s _ _ _ _ V3) as R5. pose proof (pw_s _ _ _ _ W3) as R6.
          assert (i3 = P) by congruence. assert (s3 = S0) by congruence. subst i3 s3. exact V1.
        - congruence.
        - congruence.
        - congruence.
        - intros H. rewrite (Xb H). assert (Z2 : (0 < pb_size q2)%nat) by (rewrite Su, <- S3, <- Xs; exact H).
          assert (Z3 : (0 < pb_size q3)%nat) by (rewrite <- Xs; exact H). rewrite (Bu Z2), (B3 Z3). reflexivity. }
      assert (F1 : pb_derive_at cx M o1 m d n = Some (q1, put m d r, n)).
      { pose proof (pb_derive_app OK Hes TB m P S0 o1 (firstn d m) (skipn d m) n W1 (view_steady V len _ m d n Hv Lm Lc Av) (view_steady V len _ m d n Hw Lm Lc Av) Bs Ls) as A.
        rewrite firstn_skipn, firstn_length, Nat.min_l in A by lia. rewrite A, E1. cbn [bind].
        rewrite (put_in m d r _ n); [reflexivity|lia|reflexivity|congruence]. }
      assert (F2 : pb_derive_at cx M o2 g d n = Some (q2, put g d r, n)).
      { assert (Hv2 : view_in V len (pb_ikm o2)) by (rewrite He; exact Hv). assert (Hw2 : view_in V len (pb_salt o2)) by (rewrite Hf; exact Hw).
        pose proof (pb_derive_app OK Hes TB m P S0 o2 (firstn d g) (skipn d g) n W2 (steady2 _ m g d n Hv2 Lm Lg Ev Lc Av) (steady2 _ m g d n Hw2 Lm Lg Ev Lc Av) Bt Lt) as A.
        rewrite firstn_skipn, firstn_length, Nat.min_l in A by lia. rewrite A, E2. cbn [bind].
        rewrite (put_in g d r _ n); [reflexivity|lia|reflexivity|congruence]. }
      assert (I12 : pb_ikm q2 = pb_ikm q1) by congruence. assert (J12 : pb_salt q2 = pb_salt q1) by congruence.
      assert (Hv' : view_in V len (pb_ikm q1)) by (rewrite I1; exact Hv). assert (Hw' : view_in V len (pb_salt q1)) by (rewrite J1; exact Hw).
      exists (TPbkdf2 M q1), (TPbkdf2 M q2), d, r, (SSize n). cbn [step]. rewrite F1, F2. cbn [bind].
      split; [reflexivity|]. split; [reflexivity|]. split.
      { apply (same_pbkdf2 V M T eqv hold out q1 q2 OK Hes TB). split; [split; assumption|]. split; [split; assumption|].
        intros env' L' B'. exact (pbeq_any m env' q1 q2 Q' Hv' Hw' I12 J12 L' B'). }
      split; [exact Br|]. rewrite Lr. split; [lia|]. split; [|auto]. intros b Hb. exact Hb.
  Qed.

  Lemma alike x y m g c : same V x y -> legal x len c -> bytes m -> bytes g -> length m = len -> length g = len ->
    (forall b, reads c b \/ der c /\ V b -> nth b m 0 = nth b g 0) -> (forall b, keeps c b -> V b) ->
    (forall d n, c = SDerive d n -> forall b, within (d, n) b -> ~ V b) -> steps_alike x y m g c.
  Proof.
    intros Q Lc Hm Hg Lm Lg E Hk Hd.
    destruct Q as [a al p1 p2 AO Hz Q|M keyok T eqv hold out p1 p2 OK Hko Ho Q|st pos o1 o2 Ls Ws S1 S2|z p1 p2 Hz Q|M T eqv hold out o1 o2 OK Hes TB Q|M T eqv hold out o1 o2 OK Hes TB Q].
    1-4: rewrite <- Lm in Lc; assert (L : length m = length g) by congruence; assert (E' : forall b, reads c b -> nth b m 0 = nth b g 0) by (intros b Hb; apply E; left; exact Hb).
    - exact (alike_hash a al p1 p2 m g c AO Hz Q Lc Hm Hg L E').
    - exact (alike_mac M keyok T eqv hold out OK p1 p2 m g c Hko Ho Q Lc Hm Hg L E').
    - exact (alike_cipher st pos o1 o2 m g c Ls Ws S1 S2 Lc Hm Hg L E').
    - exact (alike_aead z p1 p2 m g c Hz Q Lc Hm Hg L E').
    - exact (alike_hkdf M T eqv hold out o1 o2 m g c OK Hes TB Q Lc Hm Hg Lm Lg E Hk Hd).
    - exact (alike_pbkdf2 M T eqv hold out o1 o2 m g c OK Hes TB Q Lc Hm Hg Lm Lg E Hk Hd).
  Qed.
  Lemma same_left x y : same V x y -> same V x x.
  Proof.
    intros [a al p1 p2 AO Hz Q|M keyok T eqv hold out p1 p2 OK Hk Ho Q|st pos o1 o2 Ls Ws S1 S2|z p1 p2 Hz Q|M T eqv hold out o1 o2 OK Hes TB Q|M T eqv hold out o1 o2 OK Hes TB Q].
    - apply (same_hash V a); auto. apply Proof_ShaHist.aeq_refl. apply Q.
    - apply (same_mac V M keyok T eqv hold out p1 p1 OK Hk Ho). apply maeq_refl. apply (maeq_wf OK _ _ Q).
    - exact (same_cipher V st pos o1 o1 Ls Ws S1 S1).
    - apply same_aead; [exact Hz|]. destruct Q as [(st & pos & A & A1 & A2 & A3) Q [na [A5 A6]] [ne [A7 A8]] F].
      constructor; auto; [exists st, pos; auto| |exists na; auto|exists ne; auto]. apply peq_refl. apply Q.
    - apply (same_hkdf V M T eqv hold out o1 o1 OK Hes TB). destruct Q as (Hv & _ & Q). split; [exact Hv|]. split; [reflexivity|].
      intros env L Be. apply (hkeq_lr env o1 o2 (Q env L Be)).
    - apply (same_pbkdf2 V M T eqv hold out o1 o1 OK Hes TB). destruct Q as (Hv & _ & Q). split; [exact Hv|]. split; [split; reflexivity|].
      intros env L Be. apply (pbeq_lr env o1 o2 (Q env L Be)).
  Qed.
  Lemma constructed_same x : constructed cx B x -> same V x x.
  Proof.
    destruct x as [al p|M p|o|z p|M o|M o]; cbn [constructed].
    - intros [(a & n & -> & Hn) ->]. apply (same_hash V a); [apply milo_alg_ok| |apply Proof_ShaHist.aeq_refl, Proof_ShaHist.new_awf, milo_alg_ok].
      destruct a; cbn in *; lia.
    - intros [[(a & n & -> & Hn)|(n & -> & Hn)] (key & Hk & E)].
      + pose proof (milo_hmac_ok cx a n Hn) as OK. destruct (mnew OK key Hk) as (p' & E' & H & _).
        assert (p = p') by congruence. subst p'.
        refine (same_mac V _ _ _ _ _ _ p p OK _ _ (maeq_refl p (mholds_wf OK _ _ _ H))); [auto|].
        intros o. apply flat_bytes. intros. apply be_enc_bytes.
      + pose proof (poly_host true cx n Hn) as OK. destruct (mnew OK key (proj1 Hk)) as (p' & E' & H & _).
        assert (S0 : Some p = Some p') by exact (eq_trans (eq_sym E) E'). assert (p = p') by congruence. subst p'.
        refine (same_mac V _ _ _ _ _ _ p p OK _ _ (maeq_refl p (mholds_wf OK _ _ _ H))); [intros k Ck; apply Ck|].
        intros o. apply serialize_bytes.
    - intros (key & iv & Hk & Hv & E). destruct (initialize_spec cx B cc_new key iv cc_new_wf Hk Hv) as (o' & E' & I).
      unfold capie_new in E. assert (o = o') by congruence. subst o'. destruct (api_state_ok key iv Hk Hv) as [La Wa].
      exact (same_cipher V _ 0 o o La Wa I I).
    - intros (Hz & key & iv & Hk & Hv & E). destruct (anew cx B BO z Hz key iv Hk Hv) as (p' & E' & H & _).
      assert (p = p') by congruence. subst p'. exact (same_aead V z p p Hz (aholds_aeq cx B z _ _ _ _ p H)).
    - intros [(a & n & -> & Hn) ->]. pose proof (milo_hmac_ok cx a n (proj2 Hn)) as OK.
      pose proof (hmac_es a n Hn) as Hes. pose proof (hmac_tag_ok a n (proj2 Hn)) as TB.
      apply (same_hkdf V _ _ _ _ _ _ _ OK Hes TB). split; [split; [constructor|reflexivity]|]. split; [reflexivity|].
      intros env _ _. exact (hkeq_new OK Hes TB env).
    - intros [(a & n & -> & Hn) ->]. pose proof (milo_hmac_ok cx a n (proj2 Hn)) as OK.
      pose proof (hmac_es a n Hn) as Hes. pose proof (hmac_tag_ok a n (proj2 Hn)) as TB.
      apply (same_pbkdf2 V _ _ _ _ _ _ _ OK Hes TB). split; [split; (split; [constructor|reflexivity])|]. split; [split; reflexivity|].
      intros env _ _. exact (pbeq_new OK Hes TB env).
  Qed.
  End Alike.

  Lemma within_dec r a : {within r a} + {~ within r a}.
  Proof. unfold within. destruct (Compare_dec.le_dec (fst r) a); [|right; lia]. destruct (Compare_dec.lt_dec a (fst r + snd r)); [left|right]; lia. Qed.
  Lemma writes_dec z c a : {writes z c a} + {~ writes z c a}.
  Proof. destruct c; cbn [writes]; try (right; tauto); apply within_dec. Qed.

  Lemma nth_put_out (m w : list N) d a : (d + length w <= length m)%nat -> ~ within (d, length w) a -> nth a (put m d w) 0 = nth a m 0.
  Proof. intros H Hn. rewrite nth_put by exact H. unfold within in Hn. cbn [fst snd] in Hn.
    destruct (Nat.leb_spec d a); cbn [andb]; [|reflexivity]. destruct (Nat.ltb_spec a (d + length w)); [lia|reflexivity]. Qed.
  Lemma nth_put_same (m g w : list N) d a : length m = length g -> (d + length w <= length m)%nat -> nth a m 0 = nth a g 0 ->
    nth a (put m d w) 0 = nth a (put g d w) 0.
  Proof. intros L H E. rewrite !nth_put by lia. rewrite E. reflexivity. Qed.

  Lemma setat_same xs i x : setat xs i x i = x.
  Proof. unfold setat. rewrite Nat.eqb_refl. reflexivity. Qed.
  Lemma setat_other xs i x j : j <> i -> setat xs i x j = xs j.
  Proof. intros H. unfold setat. destruct (Nat.eqb_spec j i); [contradiction|reflexivity]. Qed.

  Lemma sim (V : nat -> nat -> Prop) i (T : nat -> Prop) : (forall a, V i a -> T a) -> forall tr xs ys m g,
    (forall j, same (V j) (xs j) (xs j)) -> same (V i) (xs i) (ys i) -> bytes m -> bytes g -> length m = len -> length g = len ->
    (forall j c, In (j, c) tr -> legal (xs j) len c) ->
    (forall j c a, In (j, c) tr -> keeps c a -> V j a) ->
    (forall j d n a, In (j, SDerive d n) tr -> within (d, n) a -> ~ V j a) ->
    (forall c a, In (i, c) tr -> touches (tag_size (xs i)) c a -> T a) ->
    (forall j c a, In (j, c) tr -> j <> i -> writes (tag_size (xs j)) c a -> ~ T a) ->
    (forall a, T a -> nth a m 0 = nth a g 0) ->
    exists xs' m' os ys' g', run B cx tr xs m = Some (xs', m', os) /\ run B cx (mine i tr) ys g = Some (ys', g', mine i os) /\
      (forall a, T a -> nth a m' 0 = nth a g' 0) /\
      (forall a, (forall j c, In (j, c) tr -> ~ writes (tag_size (xs j)) c a) -> nth a m' 0 = nth a m 0) /\
      length m' = len /\ bytes m' /\ length g' = len.
  Proof.
    intros HT. induction tr as [|[j c] tr IH]; intros xs ys m g Hs Hi Hm Hg L Lb Hl Hk Hd Ht Hw He.
    - exists xs, m, [], ys, g. repeat split; auto.
    - cbn [run]. unfold mine. cbn [filter fst]. destruct (Nat.eqb_spec j i) as [->|Ne].
      + destruct (alike (V i) (xs i) (ys i) m g c Hi (Hl i c (or_introl eq_refl)) Hm Hg L Lb) as (x' & y' & d & w & o & E1 & E2 & Q & Bw & Ld & Wd & Lg & Tz).
        { intros b [Hb|[_ Hb]]; apply He; [apply (Ht c); [left; reflexivity|left; exact Hb]|apply HT, Hb]. }
        { intros b Hb. exact (Hk i c b (or_introl eq_refl) Hb). }
        { intros d n -> b Hb. exact (Hd i d n b (or_introl eq_refl) Hb). }
        cbn [run]. rewrite E1, E2. cbn [bind].
        assert (Eq : forall k, tag_size (setat xs i x' k) = tag_size (xs k)).
        { intros k. destruct (Nat.eq_dec k i) as [->|N]; [rewrite setat_same; exact Tz|rewrite setat_other by exact N; reflexivity]. }
        destruct (IH (setat xs i x') (setat ys i y') (put m d w) (put g d w)) as (xs' & m' & os & ys' & g' & R1 & R2 & A1 & A2 & A3 & A4 & A5).
        * intros k. destruct (Nat.eq_dec k i) as [->|N]; [rewrite setat_same; exact (same_left _ _ _ Q)|rewrite setat_other by exact N; apply Hs].
        * rewrite !setat_same. exact Q.
        * apply put_bytes; assumption.
        * apply put_bytes; assumption.
        * rewrite !put_length by lia. exact L.
        * rewrite put_length by lia. exact Lb.
        * intros k e Hin. specialize (Hl k e (or_intror Hin)).
          destruct (Nat.eq_dec k i) as [->|N]; [rewrite setat_same; apply Lg, Hl|rewrite setat_other by exact N; exact Hl].
        * intros k e a Hin. apply Hk. right. exact Hin.
        * intros k d' n' a Hin. apply Hd. right. exact Hin.
        * intros e a Hin. rewrite Eq. apply Ht. right. exact Hin.
        * intros k e a Hin. rewrite Eq. apply Hw. right. exact Hin.
        * intros a Ta. apply nth_put_same; [congruence|exact Ld|exact (He a Ta)].
        * fold (mine i tr). rewrite R1, R2. cbn [bind]. exists xs', m', ((i, o) :: os), ys', g'.
          split; [reflexivity|]. split; [unfold mine; cbn [filter fst]; rewrite Nat.eqb_refl; reflexivity|].
          split; [exact A1|]. split; [|auto].
          intros a Ha. rewrite A2; [apply nth_put_out; [exact Ld|]|].
          -- intros Hin. apply (Ha i c (or_introl eq_refl)). apply Wd. exact Hin.
          -- intros k e Hin. rewrite Eq. apply Ha. right. exact Hin.
      + destruct (alike (V j) (xs j) (xs j) m m c (Hs j) (Hl j c (or_introl eq_refl)) Hm Hm L L (fun b _ => eq_refl)) as (x' & y' & d & w & o & E1 & E2 & Q & Bw & Ld & Wd & Lg & Tz).
        { intros b Hb. exact (Hk j c b (or_introl eq_refl) Hb). }
        { intros d n -> b Hb. exact (Hd j d n b (or_introl eq_refl) Hb). }
        rewrite E1. cbn [bind].
        assert (Eq : forall k, tag_size (setat xs j x' k) = tag_size (xs k)).
        { intros k. destruct (Nat.eq_dec k j) as [->|N]; [rewrite setat_same; exact Tz|rewrite setat_other by exact N; reflexivity]. }
        destruct (IH (setat xs j x') ys (put m d w) g) as (xs' & m' & os & ys' & g' & R1 & R2 & A1 & A2 & A3 & A4 & A5).
        * intros k. destruct (Nat.eq_dec k j) as [->|N]; [rewrite setat_same; exact (same_left _ _ _ Q)|rewrite setat_other by exact N; apply Hs].
        * rewrite setat_other by (intros e; apply Ne; symmetry; exact e). exact Hi.
        * apply put_bytes; assumption.
        * exact Hg.
        * rewrite put_length by lia. exact L.
        * exact Lb.
        * intros k e Hin. specialize (Hl k e (or_intror Hin)).
          destruct (Nat.eq_dec k j) as [->|N]; [rewrite setat_same; apply Lg, Hl|rewrite setat_other by exact N; exact Hl].
        * intros k e a Hin. apply Hk. right. exact Hin.
        * intros k d' n' a Hin. apply Hd. right. exact Hin.
        * intros e a Hin. rewrite Eq. apply Ht. right. exact Hin.
        * intros k e a Hin. rewrite Eq. apply Hw. right. exact Hin.
        * intros a Ta. rewrite nth_put_out; [exact (He a Ta)|exact Ld|].
          intros Hin. exact (Hw j c a (or_introl eq_refl) Ne (Wd a Hin) Ta).
        * fold (mine i tr). rewrite R1, R2. cbn [bind]. exists xs', m', ((j, o) :: os), ys', g'.
          split; [reflexivity|]. split; [unfold mine; cbn [filter fst]; destruct (Nat.eqb_spec j i); [contradiction|reflexivity]|].
          split; [exact A1|]. split; [|auto].
          intros a Ha. rewrite A2; [apply nth_put_out; [exact Ld|]|].
          -- intros Hin. apply (Ha j c (or_introl eq_refl)). apply Wd. exact Hin.
          -- intros k e Hin. rewrite Eq. apply Ha. right. exact Hin.
  Qed.

  Lemma mine_in {A} i (l : list (nat * A)) j c : In (j, c) (mine i l) <-> j = i /\ In (j, c) l.
  Proof. unfold mine. rewrite filter_In. cbn [fst]. destruct (Nat.eqb_spec j i); intuition congruence. Qed.

  Lemma isolated tr xs m : (forall i, constructed cx B (xs i)) -> bytes m -> (forall i c, In (i, c) tr -> legal (xs i) len c) ->
    race_free xs tr -> inputs_kept tr -> length m = len ->
    exists xs' m' os, run B cx tr xs m = Some (xs', m', os) /\ length m' = length m /\ bytes m' /\
      (forall i, exists ys' g', run B cx (mine i tr) xs m = Some (ys', g', mine i os) /\ length g' = length m /\
         (forall a, (exists c, In (i, c) tr /\ touches (tag_size (xs i)) c a) -> nth a m' 0 = nth a g' 0)) /\
      (forall a, (forall i c, In (i, c) tr -> ~ writes (tag_size (xs i)) c a) -> nth a m' 0 = nth a m 0).
  Proof.
    intros Hc Hm Hl Hr Hi L. rewrite L. set (V := fun j a => exists c, In (j, c) tr /\ keeps c a).
    assert (Hs : forall j, same (V j) (xs j) (xs j)) by (intros j; apply constructed_same, Hc).
    assert (G : forall i, exists xs' m' os ys' g', run B cx tr xs m = Some (xs', m', os) /\ run B cx (mine i tr) xs m = Some (ys', g', mine i os) /\
      (forall a, (exists c, In (i, c) tr /\ touches (tag_size (xs i)) c a) -> nth a m' 0 = nth a g' 0) /\
      (forall a, (forall j c, In (j, c) tr -> ~ writes (tag_size (xs j)) c a) -> nth a m' 0 = nth a m 0) /\
      length m' = len /\ bytes m' /\ length g' = len).
    { intros i. apply (sim V i (fun a => exists c, In (i, c) tr /\ touches (tag_size (xs i)) c a)); auto.
      - intros a (c & Hin & Hk). exists c. split; [exact Hin|]. left. destruct c; cbn [keeps reads] in *; tauto.
      - intros j c a Hin Hk. exists c. auto.
      - intros j d n a Hin Hw (c & Hc' & Hk). exact (Hi j d n c a Hin Hc' Hk Hw).
      - intros c a Hin Ht. exists c. auto.
      - intros j c a Hin Ne Hw (d & Hd & Td). exact (Hr j c i d a Hin Hd Ne Hw Td). }
    destruct (G 0%nat) as (xs' & m' & os & _ & _ & R & _ & _ & Nw & Ll & Bm & _). exists xs', m', os.
    split; [exact R|]. split; [exact Ll|]. split; [exact Bm|]. split; [|exact Nw].
    intros i. destruct (G i) as (xs2 & m2 & os2 & ys' & g' & R2 & Ri & Ai & _ & _ & _ & Lg).
    assert (m2 = m' /\ os2 = os) as [-> ->] by (rewrite R in R2; injection R2; auto).
    exists ys', g'. split; [exact Ri|]. split; [exact Lg|exact Ai].
  Qed.

  Lemma touched_dec (xs : nat -> thing) (tr : trace) a :
    (exists i c, In (i, c) tr /\ writes (tag_size (xs i)) c a) \/ (forall i c, In (i, c) tr -> ~ writes (tag_size (xs i)) c a).
  Proof.
    induction tr as [|[i c] tr IH]; [right; intros ? ? []|].
    destruct (writes_dec (tag_size (xs i)) c a) as [Hw|Hn]; [left; exists i, c; cbn [In]; auto|].
    destruct IH as [(j & d & Hin & Hw)|Hn2]; [left; exists j, d; cbn [In]; auto|].
    right. intros j d [E|Hin]; [injection E as <- <-; exact Hn|exact (Hn2 j d Hin)].
  Qed.

  Lemma schedules tr tr2 xs m : (forall i, constructed cx B (xs i)) -> bytes m -> (forall i c, In (i, c) tr -> legal (xs i) len c) ->
    race_free xs tr -> inputs_kept tr -> length m = len -> (forall i, mine i tr = mine i tr2) ->
    exists xs1 xs2 m' os os2, run B cx tr xs m = Some (xs1, m', os) /\ run B cx tr2 xs m = Some (xs2, m', os2) /\
      (forall i, mine i os = mine i os2).
  Proof.
    intros Hc Hm Hl Hr Hk L He.
    assert (In2 : forall i c, In (i, c) tr <-> In (i, c) tr2).
    { intros i c. split; intros Hin.
      - assert (H : In (i, c) (mine i tr)) by (apply mine_in; auto). rewrite He in H. apply mine_in in H. apply H.
      - assert (H : In (i, c) (mine i tr2)) by (apply mine_in; auto). rewrite <- He in H. apply mine_in in H. apply H. }
    destruct (isolated tr xs m Hc Hm Hl Hr Hk L) as (xs1 & m1 & os1 & R1 & L1 & _ & I1 & N1).
    destruct (isolated tr2 xs m Hc Hm) as (xs2 & m2 & os2 & R2 & L2 & _ & I2 & N2).
    { intros i c Hin. apply Hl, In2, Hin. }
    { intros i c j d a Hi Hj. apply Hr; apply In2; assumption. }
    { intros i d n c a Hi Hj. apply (Hk i d n c a); apply In2; assumption. }
    { exact L. }
    exists xs1, xs2, m1, os1, os2. split; [exact R1|]. split.
    - replace m1 with m2; [exact R2|]. apply (nth_ext _ _ 0 0); [congruence|]. intros a _.
      destruct (touched_dec xs tr a) as [(i & c & Hin & Hw)|Hn].
      + destruct (I1 i) as (y1 & g1 & Q1 & _ & A1). destruct (I2 i) as (y2 & g2 & Q2 & _ & A2).
        rewrite <- He in Q2. rewrite Q1 in Q2. assert (g1 = g2) by congruence. subst g2.
        rewrite A1, A2; [reflexivity| |]; exists c; [split; [apply In2, Hin|right; exact Hw]|split; [exact Hin|right; exact Hw]].
      + rewrite N1, N2; [reflexivity| |exact Hn]. intros i c Hin. apply Hn, In2, Hin.
    - intros i. destruct (I1 i) as (y1 & g1 & Q1 & _). destruct (I2 i) as (y2 & g2 & Q2 & _).
      rewrite <- He in Q2. rewrite Q1 in Q2. congruence.
  Qed.

  (** *** Schedules that order conflicting calls alike *)
  Section Order.
  Context (xs0 : nat -> thing) (tr0 : trace).
  Let V (j a : nat) : Prop := exists k, In (j, k) tr0 /\ keeps k a.
  Definition good (e : nat * scall) : Prop := In e tr0.
  Context (HL : forall i c, In (i, c) tr0 -> legal (xs0 i) len c) (HK : inputs_kept tr0).
  Definition inv (xs ys : nat -> thing) : Prop :=
    forall k, same (V k) (xs k) (ys k) /\ tag_size (xs k) = tag_size (xs0 k) /\ (forall c, legal (xs0 k) len c -> legal (xs k) len c).
  Lemma inv_left xs ys : inv xs ys -> inv xs xs.
  Proof. intros H k. destruct (H k) as (A & A1 & A2). split; [exact (same_left _ _ _ A)|auto]. Qed.

  (** One call, on two memories that agree on what it uses. *)
  Lemma one xs ys m g i c : inv xs ys -> In (i, c) tr0 -> bytes m -> bytes g -> length m = len -> length g = len ->
    (forall a, uses xs0 tr0 (i, c) a -> nth a m 0 = nth a g 0) ->
    exists x y d w o, step B cx (xs i) m c = Some (x, put m d w, o) /\ step B cx (ys i) g c = Some (y, put g d w, o) /\
      (same (V i) x y /\ tag_size x = tag_size (xs0 i) /\ (forall c, legal (xs0 i) len c -> legal x len c)) /\
      bytes w /\ (d + length w <= len)%nat /\ (forall a, within (d, length w) a -> writes (tag_size (xs0 i)) c a).
  Proof.
    intros Hi Hin Hm Hg Lm Lg E. destruct (Hi i) as (Q & Z & L).
    destruct (alike (V i) (xs i) (ys i) m g c Q (L c (HL i c Hin)) Hm Hg Lm Lg) as (x & y & d & w & o & E1 & E2 & Q' & Bw & Ld & Wd & Lx & Zx).
    - intros b [Hb|[Hd Hb]]; apply E.
      + left. left. exact Hb.
      + right. cbn [fst snd]. destruct c; try contradiction Hd. exact Hb.
    - intros b Hb. exists c. auto.
    - intros d n -> b Hb (k & Hk & Kb). exact (HK i d n k b Hin Hk Kb Hb).
    - exists x, y, d, w, o. split; [exact E1|]. split; [exact E2|]. split; [split; [exact Q'|]; split; [congruence|]; intros e He; apply Lx, L, He|].
      split; [exact Bw|]. split; [lia|]. rewrite <- Z. exact Wd.
  Qed.
  Lemma inv_set xs ys i x y : inv xs ys -> same (V i) x y -> tag_size x = tag_size (xs0 i) -> (forall c, legal (xs0 i) len c -> legal x len c) ->
    inv (setat xs i x) (setat ys i y).
  Proof.
    intros H A A1 A2 k. unfold setat. destruct (Nat.eqb_spec k i) as [->|N]; [auto|apply H].
  Qed.

  Lemma cong : forall tr xs ys m, inv xs ys -> (forall e, In e tr -> In e tr0) -> bytes m -> length m = len ->
    exists xs' ys' m' os, run B cx tr xs m = Some (xs', m', os) /\ run B cx tr ys m = Some (ys', m', os).
  Proof.
    induction tr as [|[i c] tr IH]; intros xs ys m H Hin Hm L; [exists xs, ys, m, []; auto|].
    destruct (one xs ys m m i c H (Hin _ (or_introl eq_refl)) Hm Hm L L (fun _ _ => eq_refl)) as (x & y & d & w & o & E1 & E2 & (Q & Z & Lx) & Bw & Ld & _).
    destruct (IH (setat xs i x) (setat ys i y) (put m d w)) as (xs' & ys' & m' & os & R1 & R2).
    - apply inv_set; assumption.
    - intros e He. apply Hin. right. exact He.
    - apply put_bytes; assumption.
    - rewrite put_length; lia.
    - exists xs', ys', m', ((i, o) :: os). cbn [run]. rewrite E1, E2. cbn [bind]. rewrite R1, R2. auto.
  Qed.

  Lemma put_swap (m w v : list N) d e : (d + length w <= length m)%nat -> (e + length v <= length m)%nat ->
    (forall a, within (d, length w) a -> ~ within (e, length v) a) -> put (put m d w) e v = put (put m e v) d w.
  Proof.
    intros H1 H2 Hd. apply (nth_ext _ _ 0 0); [rewrite !put_length by (rewrite ?put_length; lia); reflexivity|]. intros a _.
    destruct (within_dec (d, length w) a) as [W|W].
    - rewrite nth_put_out; [|rewrite put_length by lia; exact H2|exact (Hd a W)]. rewrite (nth_put m w d a) by exact H1.
      rewrite (nth_put (put m e v) w d a) by (rewrite put_length; lia). unfold within in W. cbn [fst snd] in W.
      destruct (Nat.leb_spec d a); [|lia]. destruct (Nat.ltb_spec a (d + length w)); [|lia]. reflexivity.
    - rewrite (nth_put_out (put m e v) w d a) by (rewrite ?put_length; assumption || lia).
      rewrite (nth_put (put m d w) v e a) by (rewrite put_length; lia). rewrite (nth_put m v e a) by exact H2.
      rewrite (nth_put_out m w d a) by assumption. reflexivity.
  Qed.

  Lemma swap tr xs m e f : inv xs xs -> In e tr0 -> In f tr0 -> (forall x, In x tr -> In x tr0) -> bytes m -> length m = len -> ~ conflict xs0 tr0 e f ->
    exists xs1 xs2 m' os os2, run B cx (e :: f :: tr) xs m = Some (xs1, m', os) /\ run B cx (f :: e :: tr) xs m = Some (xs2, m', os2) /\
      (forall i, mine i os = mine i os2).
  Proof.
    destruct e as [i c]. destruct f as [j c2]. intros H Ie If It Hm L NC.
    assert (Ne : i <> j) by (intros ->; apply NC; left; reflexivity).
    destruct (one xs xs m m i c H Ie Hm Hm L L (fun _ _ => eq_refl)) as (x & x2 & d & w & o & E1 & _ & (Q & Z & Lx) & Bw & Ld & Wd).
    destruct (one xs xs m m j c2 H If Hm Hm L L (fun _ _ => eq_refl)) as (y & y2 & d2 & w2 & o2 & F1 & _ & (Q2 & Z2 & Ly) & Bw2 & Ld2 & Wd2).
    assert (A1 : forall a, uses xs0 tr0 (j, c2) a -> nth a (put m d w) 0 = nth a m 0).
    { intros a Ua. apply nth_put_out; [lia|]. intros Wa. apply NC. right. exists a. left. split; [exact (Wd a Wa)|exact Ua]. }
    assert (A2 : forall a, uses xs0 tr0 (i, c) a -> nth a m 0 = nth a (put m d2 w2) 0).
    { intros a Ua. symmetry. apply nth_put_out; [lia|]. intros Wa. apply NC. right. exists a. right. split; [exact Ua|exact (Wd2 a Wa)]. }
    destruct (one xs xs m (put m d2 w2) i c H Ie Hm (put_bytes _ _ _ Hm Bw2) L ltac:(rewrite put_length; lia) A2)
      as (p & p2 & dp & wp & op & P1 & P2 & (Qp & Zp & Lp) & Bp & Ldp & Wdp).
    destruct (one xs xs (put m d w) m j c2 H If (put_bytes _ _ _ Hm Bw) Hm ltac:(rewrite put_length; lia) L A1)
      as (q2 & q & dq & wq & oq & R2 & R1 & (Qq & Zq & Lq) & Bq & Ldq & Wdq).
    assert (p = x /\ put m dp wp = put m d w /\ op = o) as (-> & Ep & ->) by (rewrite E1 in P1; injection P1; auto).
    assert (q = y /\ put m dq wq = put m d2 w2 /\ oq = o2) as (-> & Eq & ->) by (rewrite F1 in R1; injection R1; auto).
    assert (Df : forall a, within (dp, length wp) a -> ~ within (dq, length wq) a).
    { intros a Wa Wb. apply NC. right. exists a. left. split; [exact (Wdp a Wa)|]. left. right. exact (Wdq a Wb). }
    rewrite <- Ep in R2. rewrite <- Eq in P2. rewrite <- Ep in E1. rewrite <- Eq in F1.
    rewrite (put_swap m wp wq dp dq) in R2 by (try exact Df; lia).
    set (m2 := put (put m dq wq) dp wp) in *.
    destruct (cong tr (setat (setat xs i x) j q2) (setat (setat xs j y) i p2) m2) as (xs1 & xs2 & m' & os & T1 & T2).
    - intros k. unfold setat. destruct (Nat.eqb_spec k j) as [->|Nj].
      + destruct (Nat.eqb_spec j i) as [E|_]; [congruence|]. auto.
      + destruct (Nat.eqb_spec k i) as [->|Ni]; [|apply H]. auto.
    - exact It.
    - apply put_bytes; [apply put_bytes|]; assumption.
    - unfold m2. rewrite !put_length by (rewrite ?put_length; lia). exact L.
    - exists xs1, xs2, m', ((i, o) :: (j, o2) :: os), ((j, o2) :: (i, o) :: os). cbn [run].
      rewrite E1. cbn [bind]. rewrite (setat_other xs i x j) by congruence. rewrite R2. cbn [bind]. rewrite T1. cbn [bind].
      rewrite F1. cbn [bind]. rewrite (setat_other xs j y i) by congruence. rewrite P2. cbn [bind]. rewrite T2. cbn [bind].
      split; [reflexivity|]. split; [reflexivity|]. intros k. unfold mine. cbn [filter fst].
      destruct (Nat.eqb_spec i k); destruct (Nat.eqb_spec j k); try reflexivity. congruence.
  Qed.

  Lemma move_front e : forall u v xs m, inv xs xs -> In e tr0 -> (forall x, In x (u ++ v) -> In x tr0) -> bytes m -> length m = len ->
    (forall f, In f u -> ~ conflict xs0 tr0 e f) ->
    exists xs1 xs2 m' os os2, run B cx (e :: u ++ v) xs m = Some (xs1, m', os) /\ run B cx (u ++ e :: v) xs m = Some (xs2, m', os2) /\
      (forall i, mine i os = mine i os2).
  Proof.
    induction u as [|f u IH]; intros v xs m H Ie It Hm L NC.
    - cbn [app] in *. destruct (cong (e :: v) xs xs m H) as (xs' & ys' & m' & os & R1 & _); [intros x [<-|Hx]; auto|exact Hm|exact L|].
      exists xs', xs', m', os, os. auto.
    - cbn [app] in *. assert (If : In f tr0) by (apply It; left; reflexivity).
      destruct (swap (u ++ v) xs m e f H Ie If) as (x1 & x2 & m1 & o1 & o2 & R1 & R2 & O); [intros x Hx; apply It; right; exact Hx|exact Hm|exact L|apply NC; left; reflexivity|].
      destruct f as [j c].
      destruct (one xs xs m m j c H If Hm Hm L L (fun _ _ => eq_refl)) as (y & y2 & d & w & o & F1 & _ & (Q & Z & Ly) & Bw & Ld & _).
      destruct (IH v (setat xs j y) (put m d w)) as (x3 & x4 & m2 & o3 & o4 & R3 & R4 & O2).
      + apply inv_set; [exact H|exact (same_left _ _ _ Q)|exact Z|exact Ly].
      + exact Ie.
      + intros x Hx. apply It. right. exact Hx.
      + apply put_bytes; assumption.
      + rewrite put_length; lia.
      + intros f Hf. apply NC. right. exact Hf.
      + assert (R5 : run B cx ((j, c) :: e :: u ++ v) xs m = Some (x3, m2, (j, o) :: o3)).
        { remember (e :: u ++ v) as l. cbn [run]. rewrite F1. cbn [bind]. rewrite R3. reflexivity. }
        rewrite R5 in R2. assert (m1 = m2) by congruence. assert (o2 = (j, o) :: o3) by congruence. subst m1 o2.
        exists x1, x4, m2, o1, ((j, o) :: o4). split; [exact R1|]. split.
        * cbn [run]. rewrite F1. cbn [bind]. rewrite R4. reflexivity.
        * intros i. rewrite O. unfold mine. cbn [filter fst]. fold (mine i o3). fold (mine i o4). rewrite O2. reflexivity.
  Qed.

  Lemma ordered : forall tr tr2 xs m, inv xs xs -> (forall x, In x tr -> In x tr0) -> bytes m -> length m = len ->
    (forall e f, conflict xs0 tr0 e f -> only e f tr = only e f tr2) ->
    exists xs1 xs2 m' os os2, run B cx tr xs m = Some (xs1, m', os) /\ run B cx tr2 xs m = Some (xs2, m', os2) /\
      (forall i, mine i os = mine i os2).
  Proof.
    induction tr as [|e tr IH]; intros tr2 xs m H It Hm L HO.
    - assert (tr2 = []) as ->.
      { destruct tr2 as [|f tr2]; [reflexivity|]. specialize (HO f f (conflict_refl _ _ f)). unfold only in HO. cbn [filter] in HO.
        destruct (event_dec f f); [discriminate HO|contradiction]. }
      exists xs, xs, m, [], []. auto.
    - assert (Ie : In e tr0) by (apply It; left; reflexivity).
      assert (I2 : In e tr2).
      { pose proof (HO e e (conflict_refl _ _ e)) as E. assert (In e (only e e (e :: tr))) as X.
        { rewrite only_filter. apply filter_In. split; [left; reflexivity|apply pick_iff; auto]. }
        rewrite E, only_filter in X. apply filter_In in X. apply X. }
      destruct (first_occ e tr2 I2) as (u & v & -> & Hn).
      assert (NC : forall f, In f u -> ~ conflict xs0 tr0 e f).
      { intros f Hf C. pose proof (HO e f C) as E. rewrite !only_filter in E. cbn [filter] in E.
        replace (pick e f e) with true in E by (symmetry; apply pick_iff; auto). rewrite filter_app in E.
        destruct (filter (pick e f) u) as [|x l] eqn:F.
        - assert (X : In f (filter (pick e f) u)) by (apply filter_In; split; [exact Hf|apply pick_iff; auto]). rewrite F in X. destruct X.
        - cbn [app] in E. assert (e = x) by congruence. subst x. apply Hn.
          assert (X : In e (filter (pick e f) u)) by (rewrite F; left; reflexivity). apply filter_In in X. apply X. }
      assert (HO' : forall a b, conflict xs0 tr0 a b -> only a b tr = only a b (u ++ v)).
      { intros a b C. pose proof (HO a b C) as E. rewrite !only_filter in *. rewrite filter_app in *. cbn [filter] in E.
        destruct (pick a b e) eqn:P.
        - assert (U : filter (pick a b) u = []).
          { destruct (filter (pick a b) u) as [|x l] eqn:F; [reflexivity|]. exfalso.
            assert (X : In x (filter (pick a b) u)) by (rewrite F; left; reflexivity). apply filter_In in X. destruct X as [Xu Xp].
            apply pick_iff in P. apply pick_iff in Xp.
            assert (Xe : x <> e) by (intros ->; exact (Hn Xu)).
            destruct P as [->| ->]; destruct Xp as [->| ->]; try contradiction; [exact (NC _ Xu C)|exact (NC _ Xu (conflict_sym _ _ _ _ C))]. }
          rewrite U in *. cbn [app] in *. congruence.
        - exact E. }
      assert (Iuv : forall x, In x (u ++ v) -> In x tr0).
      { intros x Hx. apply It. right.
        assert (X : In x (only x x (u ++ v))) by (rewrite only_filter; apply filter_In; split; [exact Hx|apply pick_iff; auto]).
        rewrite <- (HO' x x (conflict_refl _ _ x)), only_filter in X. apply filter_In in X. apply X. }
      destruct (move_front e u v xs m H Ie Iuv Hm L NC) as (x1 & x2 & m1 & o1 & o2 & R1 & R2 & O1).
      destruct e as [i c].
      destruct (one xs xs m m i c H Ie Hm Hm L L (fun _ _ => eq_refl)) as (y & y2 & d & w & o & F1 & _ & (Q & Z & Ly) & Bw & Ld & _).
      destruct (IH (u ++ v) (setat xs i y) (put m d w)) as (x3 & x4 & m2 & o3 & o4 & R3 & R4 & O2).
      + apply inv_set; [exact H|exact (same_left _ _ _ Q)|exact Z|exact Ly].
      + intros x Hx. apply It. right. exact Hx.
      + apply put_bytes; assumption.
      + rewrite put_length; lia.
      + exact HO'.
      + cbn [run] in R1. rewrite F1 in R1. cbn [bind] in R1. rewrite R4 in R1. cbn [bind] in R1.
        assert (m2 = m1) by congruence. assert (o1 = (i, o) :: o4) by congruence. subst m2 o1.
        exists x3, x2, m1, ((i, o) :: o3), o2. split; [|split; [exact R2|]].
        * cbn [run]. rewrite F1. cbn [bind]. rewrite R3. reflexivity.
        * intros k. rewrite <- O1. unfold mine. cbn [filter fst]. fold (mine k o3). fold (mine k o4). rewrite O2. reflexivity.
  Qed.
  End Order.
  Lemma synchronised tr tr2 xs m : (forall i, constructed cx B (xs i)) -> bytes m -> (forall i c, In (i, c) tr -> legal (xs i) len c) ->
    inputs_kept tr -> length m = len -> same_order xs tr tr2 ->
    exists xs1 xs2 m' os os2, run B cx tr xs m = Some (xs1, m', os) /\ run B cx tr2 xs m = Some (xs2, m', os2) /\
      (forall i, mine i os = mine i os2).
  Proof.
    intros Hc Hm Hl Hk L Ho. apply (ordered xs tr Hl Hk tr tr2 xs m); auto.
    intros k. split; [apply constructed_same, Hc|]. split; [reflexivity|auto].
  Qed.
End Threads.

(** Calls that do not conflict and follow each other may change places. *)
Lemma order_swap xs u e f v : ~ conflict xs (u ++ e :: f :: v) e f -> same_order xs (u ++ e :: f :: v) (u ++ f :: e :: v).
Proof.
  intros NC a b C. rewrite !only_filter, !filter_app. f_equal. cbn [filter].
  destruct (pick a b e) eqn:Pe; destruct (pick a b f) eqn:Pf; try reflexivity.
  apply pick_iff in Pe. apply pick_iff in Pf. exfalso. apply NC.
  destruct Pe as [->| ->]; destruct Pf as [->| ->]; [left; reflexivity|exact C|apply conflict_sym; exact C|left; reflexivity].
Qed.
