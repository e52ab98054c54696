(** C62: key derivation with the output in the memory of the inputs. *)
From Verif Require Import Base BaseLemmas BytesLemmas Spec_Bytes Spec_Range Spec_Hash Spec_Kdf Model_Memory Model_Update Model_Container
  Model_Sha Model_Mac Model_Hmac Model_Cipher Model_Kdf Model_KdfMem Spec_ChaCha
  Proof_Memory Proof_Memory2 Proof_Memory3 Proof_CodecApi Proof_Mac Proof_ShaCore Proof_ChaChaCore Proof_ShaApi Proof_Hmac Proof_Kdf Proof_Kdf2 Proof_Kdf3 Proof_Range.
Local Open Scope N_scope.

Lemma at_off_app (a key : list N) off f : at_off (a ++ key) (length a + off) f = (x <- at_off key off f ;; Some (a ++ x)).
Proof.
  unfold at_off. rewrite app_length.
  destruct (off <=? length key)%nat eqn:Z.
  - apply Nat.leb_le in Z. rewrite (proj2 (Nat.leb_le (length a + off) (length a + length key))) by lia.
    rewrite skipn_app, skipn_all2 by lia. cbn [app]. replace (length a + off - length a)%nat with off by lia.
    destruct (f (skipn off key)) as [x|]; [|reflexivity]. cbn [bind].
    rewrite firstn_app, firstn_all2 by lia. replace (length a + off - length a)%nat with off by lia. rewrite app_assoc. reflexivity.
  - apply Nat.leb_gt in Z. rewrite (proj2 (Nat.leb_gt (length a + off) (length a + length key))) by lia. reflexivity.
Qed.
Lemma rds_app (a key : list N) off n : rds (a ++ key) (length a + off) n = rds key off n.
Proof.
  unfold rds. rewrite app_length. destruct (off + n <=? length key)%nat eqn:Z.
  - apply Nat.leb_le in Z. rewrite (proj2 (Nat.leb_le (length a + off + n) (length a + length key))) by lia.
    rewrite skipn_app, skipn_all2 by lia. cbn [app]. replace (length a + off - length a)%nat with off by lia. reflexivity.
  - apply Nat.leb_gt in Z. rewrite (proj2 (Nat.leb_gt (length a + off + n) (length a + length key))) by lia. reflexivity.
Qed.

(** A view that is read the same as in [env] whatever is written to the first [n] bytes of [key0] behind [a]. *)
Definition frame (n : nat) (key0 key : list N) : Prop := length key = length key0 /\ skipn n key = skipn n key0.
Definition steady (env a key0 : list N) (n : nat) (v : view) : Prop := forall key, frame n key0 key -> view_read (a ++ key) v = view_read env v.
Lemma frame_put n key0 key off x : frame n key0 key -> (off + length x <= n)%nat -> (n <= length key0)%nat -> frame n key0 (put key off x).
Proof.
  intros [L S] H Hn. split; [rewrite put_length; lia|]. rewrite <- S. unfold put.
  rewrite skipn_app, firstn_length_le by lia. rewrite (skipn_all2 (firstn off key)) by (rewrite firstn_length; lia). cbn [app].
  rewrite skipn_app. rewrite (skipn_all2 x) by lia. cbn [app]. rewrite skipn_skipn. f_equal. lia.
Qed.

Section P.
  Context {M : mac_alg} {cx : ctx} {T : list N -> list N -> list N}
    {eqv : ma_obj M -> ma_obj M -> Prop} {hold : list N -> list N -> ma_obj M -> Prop}
    {out : ma_obj M -> list N} (OK : mac_ok M cx chunk T eqv hold out).
  Let es := ma_digest_size M.
  Context (Hes : (0 < es <= 64)%nat) (TB : forall k m, bytes k -> bytes m -> bytes (T k m) /\ length (T k m) = es).

  (** *** PBKDF2 *)
  Lemma pb_loop_env e1 e2 vi : view_read e1 vi = view_read e2 vi -> forall n h b0 b1, pb_loop cx M e1 vi h b0 b1 n = pb_loop cx M e2 vi h b0 b1 n.
  Proof.
    intros E. induction n as [|n IH]; intros h b0 b1; [reflexivity|]. cbn [pb_loop]. rewrite E. destruct (view_read e2 vi); [|reflexivity]. cbn [bind].
    destruct (mac_once cx M h l [b0] b0 0) as [[h1 b]|]; [|reflexivity]. cbn [bind].
    destruct (mxor_loop b1 0 0 b 0 0 (ma_digest_size M)); [|reflexivity]. cbn [bind]. apply IH.
  Qed.
  Lemma pb_expand_env e1 e2 h vi vs it c dst off : view_read e1 vi = view_read e2 vi -> view_read e1 vs = view_read e2 vs ->
    pb_expand cx M e1 h vi vs it c dst off = pb_expand cx M e2 h vi vs it c dst off.
  Proof.
    intros E1 E2. pose proof (pb_loop_env e1 e2 vi E1) as LE. unfold pb_expand. rewrite E1, E2. clear E1 E2.
    destruct (mem_stor_be cx 4 1 (repeat 0 4) 0 c); [|reflexivity]. cbn [bind].
    destruct (view_read e2 vi); [|reflexivity]. cbn [bind]. destruct (view_read e2 vs); [|reflexivity]. cbn [bind].
    destruct (mac_once cx M h l0 [l1; l] (repeat 0 (ma_digest_size M)) 0) as [[h1 b]|]; [|reflexivity]. cbn [bind].
    destruct (mem_copy cx 1 1 (repeat 0 (ma_digest_size M)) b (ma_digest_size M)); [|reflexivity]. cbn [bind].
    rewrite LE. reflexivity.
  Qed.
  Lemma pb_expand_app env h vi vs it c a key off :
    pb_expand cx M env h vi vs it c (a ++ key) (length a + off) = ('(h, k) <- pb_expand cx M env h vi vs it c key off ;; Some (h, a ++ k)).
  Proof.
    unfold pb_expand.
    destruct (mem_stor_be cx 4 1 (repeat 0 4) 0 c); [|reflexivity]. cbn [bind].
    destruct (view_read env vi); [|reflexivity]. cbn [bind]. destruct (view_read env vs); [|reflexivity]. cbn [bind].
    destruct (mac_once cx M h l0 [l1; l] (repeat 0 (ma_digest_size M)) 0) as [[h1 b]|]; [|reflexivity]. cbn [bind].
    destruct (mem_copy cx 1 1 (repeat 0 (ma_digest_size M)) b (ma_digest_size M)); [|reflexivity]. cbn [bind].
    destruct (pb_loop cx M env vi h1 b l2 (N.to_nat it - 1)) as [[h2 b2]|]; [|reflexivity]. cbn [bind].
    rewrite at_off_app. destruct (at_off key off (fun p => mem_copy cx 1 1 p b2 (ma_digest_size M))); reflexivity.
  Qed.

  Lemma pb_blocks_app env vi vs P S a key0 size : view_read env vi = Some P -> view_read env vs = Some S -> chunk P -> chunk S ->
    steady env a key0 size vi -> steady env a key0 size vs -> (size <= length key0)%nat -> forall it n h c key off,
    eqv h h -> c < 2 ^ 32 -> bytes key -> frame size key0 key -> (off + n * es <= size)%nat ->
    pb_blocks_at cx M vi vs it h c (a ++ key) (length a + off) n
    = ('(h, c, k, off) <- pb_blocks cx M env vi vs it h c key off n ;; Some (h, c, a ++ k, (length a + off)%nat)) /\
    forall h' c' k off', pb_blocks cx M env vi vs it h c key off n = Some (h', c', k, off') -> frame size key0 k /\ bytes k /\ eqv h' h'.
  Proof.
    intros VP VS CP CS SI SS Hsz it. induction n as [|n IH]; intros h c key off E Hc Hk F Ho.
    - cbn [pb_blocks_at pb_blocks bind]. split; [reflexivity|]. intros h' c' k off' X. assert (h' = h) by congruence. assert (k = key) by congruence. subst. auto.
    - cbn [pb_blocks_at pb_blocks]. cbn [Nat.mul] in Ho.
      rewrite (pb_expand_env (a ++ key) env) by (apply SI || apply SS; exact F). rewrite pb_expand_app.
      destruct F as [FL FS].
      destruct (pb_expand_spec OK Hes TB env vi vs P S VP VS CP CS h it c key off E Hc Hk) as (h1 & X & E1); [fold es; lia|].
      rewrite X. cbn [bind]. destruct (pblk_ok Hes TB P S it c (proj1 CP) (proj1 CS)) as [Bb Lb]. fold es in Lb.
      rewrite <- Nat.add_assoc. apply IH.
      + exact E1.
      + apply wadd32_lt.
      + apply put_bytes; assumption.
      + apply frame_put; [split; assumption|lia|lia].
      + fold es. lia.
  Qed.

  Lemma copy_app a key off (buf : list N) n :
    at_off (a ++ key) (length a + off) (fun p => mem_copy cx 1 1 p buf n) = (x <- at_off key off (fun p => mem_copy cx 1 1 p buf n) ;; Some (a ++ x)).
  Proof. apply at_off_app. Qed.
  Lemma pb_derive_app env P S o a key n : pbwf (eqv := eqv) env P S o -> steady env a key n (pb_ikm o) -> steady env a key n (pb_salt o) ->
    bytes key -> (n <= length key)%nat ->
    pb_derive_at cx M o (a ++ key) (length a) n = ('(o', k, z) <- pb_derive cx M env o key n ;; Some (o', a ++ k, z)).
  Proof.
    intros [Wm Wi Ws Ci Cs Wc [Wb Lb] Wz] SI SS Hk Hn. unfold pb_derive_at, pb_derive. fold es.
    set (copy := if (0 <? pb_size o)%nat then Nat.min n (pb_size o) else 0%nat).
    assert (HC : (copy <= n)%nat) by (unfold copy; destruct (0 <? pb_size o)%nat; lia).
    assert (HS : (copy <= pb_size o)%nat) by (unfold copy; destruct (0 <? pb_size o)%nat; lia).
    assert (Q : exists key1, bytes key1 /\ frame n key key1 /\
      (if (0 <? pb_size o)%nat then at_off key 0 (fun p => mem_copy cx 1 1 p (skipn (es - pb_size o) (pb_buffer o)) copy) else Some key) = Some key1 /\
      (if (0 <? pb_size o)%nat then at_off (a ++ key) (length a) (fun p => mem_copy cx 1 1 p (skipn (es - pb_size o) (pb_buffer o)) copy) else Some (a ++ key)) = Some (a ++ key1)).
    { destruct (0 <? pb_size o)%nat eqn:Z.
      - exists (put key 0 (firstn copy (skipn (es - pb_size o) (pb_buffer o)))).
        assert (L : length (firstn copy (skipn (es - pb_size o) (pb_buffer o))) = copy) by (rewrite firstn_length, skipn_length; lia).
        assert (X : at_off key 0 (fun p => mem_copy cx 1 1 p (skipn (es - pb_size o) (pb_buffer o)) copy) = Some (put key 0 (firstn copy (skipn (es - pb_size o) (pb_buffer o))))).
        { apply at_off_copy; [exact Hk|apply bytes_skipn, Wb|rewrite skipn_length; lia|lia]. }
        split; [apply put_bytes; [exact Hk|apply bytes_firstn, bytes_skipn, Wb]|]. split; [apply frame_put; [split; reflexivity|lia|lia]|].
        split; [exact X|]. pose proof (at_off_app a key 0 (fun p => mem_copy cx 1 1 p (skipn (es - pb_size o) (pb_buffer o)) copy)) as Y.
        rewrite Nat.add_0_r in Y. rewrite Y, X. reflexivity.
      - exists key. split; [exact Hk|]. split; [split; reflexivity|]. split; reflexivity. }
    destruct Q as (key1 & B1 & F1 & E1 & E2). rewrite E1, E2. cbn [bind]. clear E1 E2.
    destruct (n - copy =? 0)%nat; [reflexivity|]. destruct (es =? 0)%nat eqn:Ze; [reflexivity|]. apply Nat.eqb_neq in Ze.
    set (full := ((n - copy) / es)%nat). set (lst := ((n - copy) mod es)%nat).
    pose proof (Nat.div_mod (n - copy) es Ze) as DM. fold full in DM. fold lst in DM.
    assert (FB : (copy + full * es <= n)%nat) by (clearbody full lst copy; nia).
    destruct (pb_blocks_app env _ _ P S a key n Wi Ws Ci Cs SI SS Hn (pb_iterations o) full (pb_mac o) (pb_counter o) key1 copy Wm Wc B1 F1 FB) as [X Y].
    rewrite X. clear X. destruct (pb_blocks cx M env (pb_ikm o) (pb_salt o) (pb_iterations o) (pb_mac o) (pb_counter o) key1 copy full) as [[[[h c] k] off]|]; [|reflexivity].
    cbn [bind]. destruct (Y _ _ _ _ eq_refl) as (F2 & B2 & _). destruct (0 <? lst)%nat; [|reflexivity].
    rewrite (pb_expand_env (a ++ k) env) by (apply SI || apply SS; exact F2).
    destruct (pb_expand cx M env h (pb_ikm o) (pb_salt o) (pb_iterations o) c (pb_buffer o) 0) as [[h' buf]|]; [|reflexivity]. cbn [bind].
    rewrite copy_app. destruct (at_off k off (fun p => mem_copy cx 1 1 p buf lst)); reflexivity.
  Qed.

  (** *** HKDF *)
  Lemma hk_expand_env e1 e2 h prk v c prev dst off : view_read e1 v = view_read e2 v -> hk_expand cx M e1 h prk v c prev dst off = hk_expand cx M e2 h prk v c prev dst off.
  Proof. intros E. unfold hk_expand. rewrite E. reflexivity. Qed.
  Lemma mac_once_app h k msgs a key off :
    mac_once cx M h k msgs (a ++ key) (length a + off) = ('(h, x) <- mac_once cx M h k msgs key off ;; Some (h, a ++ x)).
  Proof.
    unfold mac_once. destruct (ma_initialize M cx h k) as [h1|]; [|reflexivity]. cbn [bind].
    destruct (foldM (ma_update M cx) msgs h1) as [h2|]; [|reflexivity]. cbn [bind].
    destruct (ma_finalize M cx h2) as [h3|]; [|reflexivity]. cbn [bind].
    rewrite at_off_app. destruct (at_off key off (fun p => '(p, _) <- ma_digest M cx h3 p (ma_digest_size M) ;; Some p)); reflexivity.
  Qed.
  Lemma hk_expand_app env h prk v c prev a key off :
    hk_expand cx M env h prk v c prev (a ++ key) (length a + off) = ('(h, x) <- hk_expand cx M env h prk v c prev key off ;; Some (h, a ++ x)).
  Proof. unfold hk_expand. destruct (view_read env v); [|reflexivity]. cbn [bind]. apply mac_once_app. Qed.

  Lemma hk_loop_app env prk v info a key0 size : bytes prk -> length prk = es -> view_read env v = Some info -> chunk info ->
    steady env a key0 size v -> (size <= length key0)%nat -> forall n h c key tmp,
    eqv h h -> c < 256 -> bytes key -> frame size key0 key -> (tmp + es + n * es <= size)%nat ->
    hk_loop_at cx M prk v h c (a ++ key) (length a + tmp) n
    = ('(h, c, k, tmp) <- hk_loop cx M env prk v h c key tmp n ;; Some (h, c, a ++ k, (length a + tmp)%nat)) /\
    forall h' c' k tmp', hk_loop cx M env prk v h c key tmp n = Some (h', c', k, tmp') -> frame size key0 k.
  Proof.
    intros Bp Lp VI CI SV Hsz. induction n as [|n IH]; intros h c key tmp E Hc Hk F Ho.
    - cbn [hk_loop_at hk_loop bind]. split; [reflexivity|]. intros h' c' k tmp' X. assert (k = key) by congruence. subst. exact F.
    - cbn [hk_loop_at hk_loop]. cbn [Nat.mul] in Ho. destruct F as [FL FS]. rewrite rds_app. fold es. rewrite (rds_slice key tmp es) by lia. cbn [bind].
      rewrite (hk_expand_env (a ++ key) env) by (apply SV; split; assumption). rewrite <- Nat.add_assoc. rewrite hk_expand_app.
      assert (Bs : bytes (slice key tmp es)) by apply slice_bytes, Hk. assert (Ls : length (slice key tmp es) = es) by (apply slice_length; lia).
      destruct (hexpand_spec OK Hes TB env h prk v info c (slice key tmp es) key (tmp + es) E Bp Lp VI CI Hc Bs ltac:(lia) Hk) as (h1 & X & E1); [fold es; lia|].
      rewrite X. cbn [bind]. destruct (hblk_ok TB prk info (slice key tmp es) c Bp (proj1 CI) Bs Hc) as [Bb Lb]. fold es in Lb.
      apply IH.
      + exact E1.
      + apply wadd8_lt.
      + apply put_bytes; assumption.
      + apply frame_put; [split; assumption|lia|lia].
      + lia.
  Qed.
  Lemma hk_derive_app env info o a key n : hkwf (eqv := eqv) env info o -> steady env a key n (hk_info o) ->
    bytes key -> (n <= length key)%nat ->
    hk_derive_at cx M o (a ++ key) (length a) n = ('(o', k, z) <- hk_derive cx M env o key n ;; Some (o', a ++ k, z)).
  Proof.
    intros [Wm Wv Wi Wc [Wp Lp] [Wb Lb] Wz] SV Hk Hn. unfold hk_derive_at, hk_derive. fold es.
    set (copy := if (0 <? hk_size o)%nat then Nat.min n (hk_size o) else 0%nat).
    assert (HC : (copy <= n)%nat) by (unfold copy; destruct (0 <? hk_size o)%nat; lia).
    assert (HS : (copy <= hk_size o)%nat) by (unfold copy; destruct (0 <? hk_size o)%nat; lia).
    assert (Q : exists key1, bytes key1 /\ frame n key key1 /\
      (if (0 <? hk_size o)%nat then at_off key 0 (fun p => mem_copy cx 1 1 p (skipn (es - hk_size o) (hk_buffer o)) copy) else Some key) = Some key1 /\
      (if (0 <? hk_size o)%nat then at_off (a ++ key) (length a) (fun p => mem_copy cx 1 1 p (skipn (es - hk_size o) (hk_buffer o)) copy) else Some (a ++ key)) = Some (a ++ key1)).
    { destruct (0 <? hk_size o)%nat eqn:Z.
      - exists (put key 0 (firstn copy (skipn (es - hk_size o) (hk_buffer o)))).
        assert (L : length (firstn copy (skipn (es - hk_size o) (hk_buffer o))) = copy) by (rewrite firstn_length, skipn_length; lia).
        assert (X : at_off key 0 (fun p => mem_copy cx 1 1 p (skipn (es - hk_size o) (hk_buffer o)) copy) = Some (put key 0 (firstn copy (skipn (es - hk_size o) (hk_buffer o))))).
        { apply at_off_copy; [exact Hk|apply bytes_skipn, Wb|rewrite skipn_length; lia|lia]. }
        split; [apply put_bytes; [exact Hk|apply bytes_firstn, bytes_skipn, Wb]|]. split; [apply frame_put; [split; reflexivity|lia|lia]|].
        split; [exact X|]. pose proof (at_off_app a key 0 (fun p => mem_copy cx 1 1 p (skipn (es - hk_size o) (hk_buffer o)) copy)) as Y.
        rewrite Nat.add_0_r in Y. rewrite Y, X. reflexivity.
      - exists key. split; [exact Hk|]. split; [split; reflexivity|]. split; reflexivity. }
    destruct Q as (key1 & B1 & F1 & E1 & E2). rewrite E1, E2. cbn [bind]. clear E1 E2.
    destruct (n - copy =? 0)%nat; [reflexivity|]. destruct (es =? 0)%nat eqn:Ze; [reflexivity|]. apply Nat.eqb_neq in Ze.
    set (full := ((n - copy) / es)%nat). set (lst := ((n - copy) mod es)%nat).
    pose proof (Nat.div_mod (n - copy) es Ze) as DM. fold full in DM. fold lst in DM.
    assert (FB : (copy + full * es <= n)%nat) by (clearbody full lst copy; nia).
    assert (SV1 : view_read (a ++ key1) (hk_info o) = view_read env (hk_info o)) by (apply SV; exact F1).
    destruct (full =? 0)%nat eqn:Zf.
    - rewrite (hk_expand_env (a ++ key1) env) by exact SV1.
      destruct (hk_expand cx M env (hk_mac o) (hk_prk o) (hk_info o) (hk_counter o) (if hk_counter o =? 1 then [] else hk_buffer o) (hk_buffer o) 0) as [[h buf]|]; [|reflexivity].
      cbn [bind]. rewrite copy_app. destruct (at_off key1 copy (fun p => mem_copy cx 1 1 p buf lst)); reflexivity.
    - apply Nat.eqb_neq in Zf. destruct full as [|f]; [lia|]. cbn [Nat.mul] in FB. replace (S f - 1)%nat with f by lia. destruct F1 as [FL FS].
      rewrite (hk_expand_env (a ++ key1) env) by exact SV1. rewrite hk_expand_app.
      set (beg := if hk_counter o =? 1 then [] else hk_buffer o).
      assert (PB : bytes beg) by (unfold beg; destruct (hk_counter o =? 1); [constructor|exact Wb]).
      assert (PL : (length beg <= es)%nat) by (unfold beg; destruct (hk_counter o =? 1); cbn [length]; lia).
      destruct (hexpand_spec OK Hes TB env (hk_mac o) (hk_prk o) (hk_info o) info (hk_counter o) beg key1 copy Wm Wp Lp Wv Wi Wc PB PL B1) as (h1 & X & E1); [fold es; lia|].
      rewrite X. cbn [bind]. destruct (hblk_ok TB (hk_prk o) info beg (hk_counter o) Wp (proj1 Wi) PB Wc) as [Bb Lbb]. fold es in Lbb.
      set (key2 := put key1 copy (hblk (T := T) (hk_prk o) info beg (hk_counter o))).
      assert (F2 : frame n key key2) by (apply frame_put; [split; assumption|lia|lia]).
      assert (B2 : bytes key2) by (apply put_bytes; assumption).
      destruct (hk_loop_app env (hk_prk o) (hk_info o) info a key n Wp Lp Wv Wi SV Hn f h1 (wadd 8 (hk_counter o) 1) key2 copy E1 (wadd8_lt _) B2 F2) as [Y Z]; [lia|].
      rewrite Y. clear Y. destruct (hk_loop cx M env (hk_prk o) (hk_info o) h1 (wadd 8 (hk_counter o) 1) key2 copy f) as [[[[h c] k] tmp]|]; [|reflexivity].
      cbn [bind]. pose proof (Z _ _ _ _ eq_refl) as F3. rewrite rds_app. destruct (rds k tmp es) as [prev|]; [|reflexivity]. cbn [bind].
      rewrite (hk_expand_env (a ++ k) env) by (apply SV; exact F3).
      destruct (hk_expand cx M env h (hk_prk o) (hk_info o) c prev (hk_buffer o) 0) as [[h' buf]|]; [|reflexivity]. cbn [bind].
      rewrite <- Nat.add_assoc. rewrite copy_app. destruct (at_off k (tmp + es) (fun p => mem_copy cx 1 1 p buf lst)); reflexivity.
  Qed.
End P.

(** *** Memories *)
From Verif Require Import Spec_KdfMem.
Lemma has_frame a key0 key n r l : has (a ++ key0) r l -> frame n key0 key -> (n <= length key0)%nat -> avoids (length a, n) r -> has (a ++ key) r l.
Proof.
  intros (H1 & H2 & H3) [FL FS] Hn AV. unfold has. rewrite app_length in *. split; [lia|]. split; [exact H2|]. rewrite <- H3 at 2.
  destruct AV as [AV|[AV|[AV|AV]]]; cbn [fst snd] in AV.
  - assert (length l = 0%nat) by lia. rewrite H. rewrite !firstn_O. reflexivity.
  - assert (key = key0) by (rewrite AV in FS; exact FS). subst. reflexivity.
  - rewrite !skipn_app. rewrite !(skipn_all2 a) by lia. cbn [app].
    replace (fst r - length a)%nat with ((fst r - length a - n) + n)%nat by lia.
    rewrite <- !skipn_skipn. rewrite FS. reflexivity.
  - rewrite !skipn_app, !firstn_app. rewrite skipn_length.
    replace (length l - (length a - fst r))%nat with 0%nat by lia. rewrite !firstn_O. reflexivity.
Qed.

Lemma put_split (m x : list N) d n : length x = n -> put m d x = firstn d m ++ (x ++ skipn n (skipn d m)).
Proof. intros L. unfold put. rewrite skipn_skipn, L. rewrite (Nat.add_comm n d). reflexivity. Qed.

Section R.
  Context {M : mac_alg} {cx : ctx} {T : list N -> list N -> list N}
    {eqv : ma_obj M -> ma_obj M -> Prop} {hold : list N -> list N -> ma_obj M -> Prop}
    {out : ma_obj M -> list N} (OK : mac_ok M cx chunk T eqv hold out).
  Let es := ma_digest_size M.
  Context (Hes : (0 < es <= 64)%nat) (TB : forall k m, bytes k -> bytes m -> bytes (T k m) /\ length (T k m) = es).

  Lemma sseg_bytes blk pos n : (forall i, bytes (blk (S i)) /\ length (blk (S i)) = es) -> bytes (sseg blk es pos n).
  Proof.
    intros B. apply Forall_forall. intros x Hx. unfold sseg in Hx. apply in_map_iff in Hx. destruct Hx as (j & <- & _). unfold sbyte.
    destruct (B (j / es)%nat) as [Bb Lb]. apply (proj1 (Forall_forall _ _) Bb). apply nth_In. rewrite Lb. apply Nat.mod_upper_bound. lia.
  Qed.

  Lemma hkdf_reads rinfo v : forall reads pos o m, hhold (T := T) (eqv := eqv) v pos o ->
    (forall m', cx_ce cx = true \/ has m' rinfo (snd v) -> view_read m' (hk_info o) = Some (snd v)) ->
    cx_ce cx = true \/ has m rinfo (snd v) -> bytes m -> Forall (inside m) reads -> Forall (fun r => cx_ce cx = true \/ avoids r rinfo) reads ->
    (pos + total (map snd reads) <= 255 * es)%nat ->
    exists o', derive_run_at (hk_derive_at cx M) o m reads = Some (o', laid (hD (M := M) (T := T) v) pos reads m).
  Proof.
    induction reads as [|[d n] reads IH]; intros pos o m HH HV HM Bm HI HA HL.
    - exists o. reflexivity.
    - cbn [derive_run_at laid]. inversion HI as [|? ? I1 I2]; subst. inversion HA as [|? ? A1 A2]; subst. unfold inside in I1. cbn [fst snd] in I1.
      change (total (map snd ((d, n) :: reads))) with (n + total (map snd reads))%nat in HL.
      assert (Sp : m = firstn d m ++ skipn d m) by (symmetry; apply firstn_skipn).
      assert (La : length (firstn d m) = d) by (rewrite firstn_length; lia). assert (Lk : length (skipn d m) = (length m - d)%nat) by apply skipn_length.
      set (a := firstn d m) in *. set (key := skipn d m) in *.
      assert (Bk : bytes key) by apply bytes_skipn, Bm.
      assert (HF : forall k, frame n key k -> cx_ce cx = true \/ has (a ++ k) rinfo (snd v)).
      { intros k F. destruct A1 as [A1|A1]; [left; exact A1|]. destruct HM as [HM|HM]; [left; exact HM|]. right.
        apply (has_frame a key k n); [rewrite <- Sp; exact HM|exact F|lia|rewrite La; exact A1]. }
      assert (ST : steady m a key n (hk_info o)).
      { intros k F. rewrite (HV _ HM). apply HV. apply HF, F. }
      pose proof HH as [Hm Hi Hp Hb Hs (g & Hc & Hpos & Hg)].
      destruct (TB (snd (fst v)) (fst (fst v))) as [Bp Lp]; [apply Hi|apply Hi|].
      assert (W : hkwf (eqv := eqv) m (snd v) o).
      { constructor; try assumption; [apply HV, HM|apply Hi|rewrite Hc; apply N.mod_lt; discriminate|rewrite Hp; auto]. }
      pose proof (hk_derive_app OK Hes TB m (snd v) o a key n W ST Bk ltac:(lia)) as X.
      rewrite <- Sp, La in X. rewrite X. clear X.
      assert (HL1 : (pos + n <= 255 * es)%nat) by lia.
      destruct (hhold_derive OK Hes TB m v pos o key n HH (HV _ HM) (or_introl HL1) Bk ltac:(lia)) as (o1 & Y & H1 & V1).
      rewrite Y. cbn [bind].
      assert (PE : piece (hD (M := M) (T := T) v) pos n = sseg (hstream (T := T) v) es pos n) by (apply (hD_piece Hes TB); apply Hi).
      assert (PP : a ++ sseg (hstream (T := T) v) es pos n ++ skipn n key = put m d (piece (hD (M := M) (T := T) v) pos n)).
      { rewrite PE. symmetry. apply put_split, sseg_length. }
      fold es. rewrite PP. apply IH.
      + exact H1.
      + rewrite V1. exact HV.
      + rewrite <- PP. apply HF. split.
        * rewrite app_length, sseg_length, skipn_length. lia.
        * rewrite skipn_app, sseg_length, Nat.sub_diag, skipn_all2 by (rewrite sseg_length; lia). reflexivity.
      + apply put_bytes; [exact Bm|]. rewrite PE. apply sseg_bytes. destruct v as [[ikm salt] info]. cbn [fst snd hstream] in *. intros i. destruct Hi as (C1 & C2 & C3).
        destruct (hkdf_T_ok TB (T salt ikm) info Bp (proj1 C3) (S i)) as [B1 _]. destruct (hkdf_T_ok TB (T salt ikm) info Bp (proj1 C3) i) as [_ L1]. auto.
      + eapply Forall_impl; [|exact I2]. intros r Hr. unfold inside in *. rewrite put_length; [exact Hr|]. rewrite PE, sseg_length. lia.
      + exact A2.
      + lia.
  Qed.
  Lemma hkdf_into env a v reads : hargv env a v -> bytes env -> Forall (inside env) reads ->
    Forall (fun r => cx_ce cx = true \/ avoids r (snd a)) reads -> (total (map snd reads) <= 255 * es)%nat ->
    exists o o', kapie_new cx (kdf_hkdf M) env a = Some o /\ derive_run_at (hk_derive_at cx M) o env reads = Some (o', laid (hD (M := M) (T := T) v) 0 reads env).
  Proof.
    intros A Be HI HA HL. pose proof (hkdf_ok OK Hes TB) as K. pose proof (ko_new _ _ _ _ _ _ _ _ _ K env) as E0.
    destruct (ko_init _ _ _ _ _ _ _ _ _ K env _ _ a v E0 E0 A) as (o & oz & I & _ & _ & H & S1 & S2).
    destruct (hkdf_reads (snd a) v reads 0 o env H S2 (or_intror (ko_later _ _ _ _ _ _ _ _ _ K env a v A)) Be HI HA HL) as (o' & X).
    exists o, o'. split; [exact I|exact X].
  Qed.
  Lemma hkdf_first_block env a v d n : hargv env a v -> bytes env -> (d + n <= length env)%nat -> (n <= es)%nat ->
    hkdf_free_at cx M env (fst (fst a)) (snd (fst a)) (snd a) d n = Some (put env d (hD (M := M) (T := T) v n), n).
  Proof.
    intros A Be Hd Hn. pose proof A as (A1 & A2 & A3 & C1 & C2 & C3). pose proof (hkeq_new OK Hes TB env) as E0.
    destruct (hk_init_spec OK Hes TB env _ _ _ _ _ a E0 E0 A1 A2 A3 C1 C2 C3) as (o & oz & I & _ & _ & H & VO & VR & CT).
    destruct v as [[ikm salt] info]. destruct a as [[ri rs] rf]. cbn [fst snd] in *.
    unfold hkdf_free_at, kapie_new. cbn [kdf_hkdf ka_obj ka_arg ka_new ka_initialize ka_derive fst snd]. rewrite I. cbn [bind]. clear I.
    assert (Sp : env = firstn d env ++ skipn d env) by (symmetry; apply firstn_skipn).
    assert (La : length (firstn d env) = d) by (rewrite firstn_length; lia). assert (Lk : length (skipn d env) = (length env - d)%nat) by apply skipn_length.
    set (a := firstn d env) in *. set (key := skipn d env) in *. assert (Bk : bytes key) by apply bytes_skipn, Be.
    destruct (hhold_derive OK Hes TB env (ikm, salt, info) 0 o key n H VR (or_intror (conj eq_refl CT)) Bk ltac:(lia)) as (o' & X & _). fold es in X.
    assert (PE : put env d (hD (M := M) (T := T) (ikm, salt, info) n) = a ++ sseg (hstream (T := T) (ikm, salt, info)) es 0 n ++ skipn n key).
    { rewrite (hD_sseg Hes TB) by assumption. apply put_split, sseg_length. }
    rewrite PE. set (res := sseg (hstream (T := T) (ikm, salt, info)) es 0 n ++ skipn n key) in *. clearbody res. clear PE.
    enough (G : exists o1, hk_derive_at cx M o env d n = Some (o1, a ++ res, n)) by (destruct G as (o1 & G); rewrite G; reflexivity).
    destruct H as [Hm Hi Hp [Hb HbL] Hs (g & Hc & Hpos & Hg)]. cbn [fst snd] in *.
    destruct (TB salt ikm (proj1 C2) (proj1 C1)) as [Bp Lp].
    unfold hk_derive_at. unfold hk_derive in X. fold es in X |- *.
    assert (Z : hk_size o = 0%nat).
    { destruct g as [|g]; [nia|]. exfalso. assert (hk_size o = es) by nia. assert (g = 0)%nat by nia. subst g. rewrite CT in Hc. cbn in Hc. discriminate. }
    rewrite Z in X |- *. change (0 <? 0)%nat with false in *. cbn [bind] in *. rewrite Nat.sub_0_r in *. rewrite CT in *. change (1 =? 1) with true in *. cbv iota in *.
    destruct (n =? 0)%nat eqn:Zn.
    - assert (E : key = res) by congruence. rewrite <- E. eexists. rewrite <- Sp. reflexivity.
    - rewrite (proj2 (Nat.eqb_neq es 0)) in * by lia. apply Nat.eqb_neq in Zn. rewrite Nat.add_0_r.
      destruct (Nat.eq_dec n es) as [En|En].
      + assert (F1 : (n / es = 1)%nat) by (rewrite En; apply Nat.div_same; lia). assert (F2 : (n mod es = 0)%nat) by (rewrite En; apply Nat.mod_same; lia).
        rewrite F1, F2 in *. cbn [Nat.eqb Nat.sub hk_loop hk_loop_at] in *.
        destruct (hexpand_spec OK Hes TB env (hk_mac o) (hk_prk o) (hk_info o) info 1 [] key 0 Hm ltac:(rewrite Hp; exact Bp) ltac:(rewrite Hp; exact Lp) VR C3 ltac:(lia) ltac:(constructor) ltac:(cbn; lia) Bk) as (h1 & Y & E1); [fold es; lia|].
        rewrite Y in X. cbn [bind] in X.
        assert (YA : hk_expand cx M env (hk_mac o) (hk_prk o) (hk_info o) 1 [] env d = Some (h1, a ++ put key 0 (hblk (T := T) (hk_prk o) info [] 1))).
        { pose proof (hk_expand_app (M := M) (cx := cx) env (hk_mac o) (hk_prk o) (hk_info o) 1 [] a key 0) as Q. rewrite Nat.add_0_r, La, <- Sp, Y in Q. exact Q. }
        rewrite YA. cbn [bind]. destruct (hblk_ok TB (hk_prk o) info [] 1 ltac:(rewrite Hp; exact Bp) (proj1 C3) ltac:(constructor) ltac:(lia)) as [Bb Lb]. fold es in Lb.
        set (blk := hblk (T := T) (hk_prk o) info [] 1) in *. set (key1 := put key 0 blk) in *.
        assert (Lk1 : length key1 = length key) by (unfold key1; rewrite put_length; lia). assert (Bk1 : bytes key1) by (apply put_bytes; assumption).
        pose proof (rds_app a key1 0 es) as RA. rewrite Nat.add_0_r, La in RA. rewrite RA.
        rewrite (rds_slice key1 0 es) in * by lia. cbn [bind] in *.
        assert (Bs : bytes (slice key1 0 es)) by apply slice_bytes, Bk1. assert (Ls : length (slice key1 0 es) = es) by (apply slice_length; lia).
        destruct (hexpand_spec OK Hes TB env h1 (hk_prk o) (hk_info o) info (wadd 8 1 1) (slice key1 0 es) (hk_buffer o) 0 E1 ltac:(rewrite Hp; exact Bp) ltac:(rewrite Hp; exact Lp) VR C3 (wadd8_lt _) Bs ltac:(lia) Hb) as (h2 & Y2 & _); [fold es; lia|].
        rewrite Y2 in X. cbn [bind] in X.
        assert (VR' : exists info', view_read (a ++ key1) (hk_info o) = Some info' /\ chunk info').
        { unfold view_of in VO. destruct (cx_ce cx).
          - destruct (rds env (fst rf) (snd rf)); [|discriminate]. cbn [bind] in VO. injection VO as VO. rewrite <- VO in VR |- *. cbn [view_read] in *. exists info. auto.
          - injection VO as VO. rewrite <- VO. cbn [view_read]. destruct A3 as (A31 & A32 & _). rewrite A32.
            destruct (length info) as [|li] eqn:Li; [exists []; split; [reflexivity|split; [constructor|cbn; lia]]|].
            rewrite rds_slice by (rewrite app_length; lia). exists (slice (a ++ key1) (fst rf) (S li)). split; [reflexivity|]. split.
            + apply slice_bytes, bytes_app. split; [apply bytes_firstn, Be|exact Bk1].
            + rewrite slice_length by (rewrite app_length; lia). destruct C3 as [_ C3]. rewrite Li in C3. exact C3. }
        destruct VR' as (info' & VR' & C3').
        destruct (hexpand_spec OK Hes TB (a ++ key1) h1 (hk_prk o) (hk_info o) info' (wadd 8 1 1) (slice key1 0 es) (hk_buffer o) 0 E1 ltac:(rewrite Hp; exact Bp) ltac:(rewrite Hp; exact Lp) VR' C3' (wadd8_lt _) Bs ltac:(lia) Hb) as (h3 & Y3 & _); [fold es; lia|].
        rewrite Y3. cbn [bind].
        assert (C0 : forall (k b : list N) off, bytes k -> bytes b -> (off <= length k)%nat -> at_off k off (fun p => mem_copy cx 1 1 p b 0) = Some k).
        { intros k b off Q1 Q2 Q3. rewrite at_off_copy by (assumption || lia). rewrite firstn_O, put_nil. reflexivity. }
        destruct (hblk_ok TB (hk_prk o) info (slice key1 0 es) (wadd 8 1 1) ltac:(rewrite Hp; exact Bp) (proj1 C3) Bs (wadd8_lt _)) as [B2 L2].
        destruct (hblk_ok TB (hk_prk o) info' (slice key1 0 es) (wadd 8 1 1) ltac:(rewrite Hp; exact Bp) (proj1 C3') Bs (wadd8_lt _)) as [B3 L3].
        rewrite C0 in X; [|exact Bk1|apply put_bytes; assumption|lia]. cbn [bind] in X. assert (E : key1 = res) by congruence. rewrite <- E.
        rewrite C0; [|apply bytes_app; split; [apply bytes_firstn, Be|exact Bk1]|apply put_bytes; assumption|rewrite app_length; lia]. eexists. reflexivity.
      + assert (F1 : (n / es = 0)%nat) by (apply Nat.div_small; lia). assert (F2 : (n mod es = n)%nat) by (apply Nat.mod_small; lia).
        rewrite F1, F2 in *. cbn [Nat.eqb] in *.
        destruct (hk_expand cx M env (hk_mac o) (hk_prk o) (hk_info o) 1 [] (hk_buffer o) 0) as [[h buf]|]; [|discriminate]. cbn [bind] in *.
        pose proof (copy_app (cx := cx) a key 0 buf n) as Q. rewrite Nat.add_0_r, La, <- Sp in Q. rewrite Q.
        destruct (at_off key 0 (fun p => mem_copy cx 1 1 p buf n)) as [k|]; [|discriminate]. cbn [bind] in *.
        assert (E : k = res) by congruence. rewrite <- E. eexists. reflexivity.
  Qed.

  Lemma pbkdf2_reads ri rs v : forall reads pos o m, phold (T := T) (eqv := eqv) v pos o ->
    (forall m', cx_ce cx = true \/ has m' ri (fst (fst v)) /\ has m' rs (snd (fst v)) ->
       view_read m' (pb_ikm o) = Some (fst (fst v)) /\ view_read m' (pb_salt o) = Some (snd (fst v))) ->
    cx_ce cx = true \/ has m ri (fst (fst v)) /\ has m rs (snd (fst v)) -> bytes m -> Forall (inside m) reads ->
    Forall (fun r => cx_ce cx = true \/ avoids r ri /\ avoids r rs) reads ->
    exists o', derive_run_at (pb_derive_at cx M) o m reads = Some (o', laid (pD (M := M) (T := T) v) pos reads m).
  Proof.
    induction reads as [|[d n] reads IH]; intros pos o m HH HV HM Bm HI HA.
    - exists o. reflexivity.
    - cbn [derive_run_at laid]. inversion HI as [|? ? I1 I2]; subst. inversion HA as [|? ? A1 A2]; subst. unfold inside in I1. cbn [fst snd] in I1.
      assert (Sp : m = firstn d m ++ skipn d m) by (symmetry; apply firstn_skipn).
      assert (La : length (firstn d m) = d) by (rewrite firstn_length; lia). assert (Lk : length (skipn d m) = (length m - d)%nat) by apply skipn_length.
      set (a := firstn d m) in *. set (key := skipn d m) in *.
      assert (Bk : bytes key) by apply bytes_skipn, Bm.
      assert (HF : forall k, frame n key k -> cx_ce cx = true \/ has (a ++ k) ri (fst (fst v)) /\ has (a ++ k) rs (snd (fst v))).
      { intros k F. destruct A1 as [A1|[A1 A1']]; [left; exact A1|]. destruct HM as [HM|[HM HM']]; [left; exact HM|]. right. split.
        - apply (has_frame a key k n); [rewrite <- Sp; exact HM|exact F|lia|rewrite La; exact A1].
        - apply (has_frame a key k n); [rewrite <- Sp; exact HM'|exact F|lia|rewrite La; exact A1']. }
      assert (ST1 : steady m a key n (pb_ikm o)).
      { intros k F. rewrite (proj1 (HV _ HM)). apply HV. apply HF, F. }
      assert (ST2 : steady m a key n (pb_salt o)).
      { intros k F. rewrite (proj2 (HV _ HM)). apply HV. apply HF, F. }
      pose proof HH as [Hm Hi Ht Hb Hs (g & Hc & Hpos & Hg)].
      assert (W : pbwf (eqv := eqv) m (fst (fst v)) (snd (fst v)) o).
      { constructor; try assumption; [apply HV, HM|apply HV, HM|apply Hi|apply Hi|rewrite Hc; apply N.mod_lt; discriminate]. }
      pose proof (pb_derive_app OK Hes TB m _ _ o a key n W ST1 ST2 Bk ltac:(lia)) as X.
      rewrite <- Sp, La in X. rewrite X. clear X.
      destruct (phold_derive OK Hes TB m v pos o key n HH (proj1 (HV _ HM)) (proj2 (HV _ HM)) Bk ltac:(lia)) as (o1 & Y & H1 & V1 & V2).
      rewrite Y. cbn [bind].
      assert (PE : piece (pD (M := M) (T := T) v) pos n = sseg (pstream (T := T) v) es pos n) by (apply (pD_piece Hes TB); apply Hi).
      assert (PP : a ++ sseg (pstream (T := T) v) es pos n ++ skipn n key = put m d (piece (pD (M := M) (T := T) v) pos n)).
      { rewrite PE. symmetry. apply put_split, sseg_length. }
      fold es. rewrite PP. apply IH.
      + exact H1.
      + rewrite V1, V2. exact HV.
      + rewrite <- PP. apply HF. split.
        * rewrite app_length, sseg_length, skipn_length. lia.
        * rewrite skipn_app, sseg_length, Nat.sub_diag, skipn_all2 by (rewrite sseg_length; lia). reflexivity.
      + apply put_bytes; [exact Bm|]. rewrite PE. apply sseg_bytes. intros i. destruct Hi as (C1 & C2).
        unfold pstream. rewrite <- (pblk_T (M := M) Hes TB). apply (pblk_ok Hes TB); [apply C1|apply C2].
      + eapply Forall_impl; [|exact I2]. intros r Hr. unfold inside in *. rewrite put_length; [exact Hr|]. rewrite PE, sseg_length. lia.
      + exact A2.
  Qed.
  Lemma pbkdf2_into env a v reads : pargv env a v -> bytes env -> Forall (inside env) reads ->
    Forall (fun r => cx_ce cx = true \/ avoids r (fst (fst a)) /\ avoids r (snd (fst a))) reads ->
    exists o o', kapie_new cx (kdf_pbkdf_2 M) env a = Some o /\ derive_run_at (pb_derive_at cx M) o env reads = Some (o', laid (pD (M := M) (T := T) v) 0 reads env).
  Proof.
    intros A Be HI HA. pose proof (pbkdf2_ok OK Hes TB) as K. pose proof (ko_new _ _ _ _ _ _ _ _ _ K env) as E0.
    destruct (ko_init _ _ _ _ _ _ _ _ _ K env _ _ a v E0 E0 A) as (o & oz & I & _ & _ & H & S1 & S2).
    destruct (pbkdf2_reads (fst (fst a)) (snd (fst a)) v reads 0 o env H S2 (or_intror (ko_later _ _ _ _ _ _ _ _ _ K env a v A)) Be HI HA) as (o' & X).
    exists o, o'. split; [exact I|exact X].
  Qed.
  Lemma pbkdf2_first_block env a v d n : pargv env a v -> bytes env -> (d + n <= length env)%nat -> (n <= es)%nat ->
    pbkdf_2_free_at cx M env (fst (fst a)) (snd (fst a)) (snd a) d n = Some (put env d (pD (M := M) (T := T) v n), n).
  Proof.
    intros A Be Hd Hn. pose proof A as (A1 & A2 & A3 & C1 & C2). pose proof (pbeq_new OK Hes TB env) as E0.
    destruct v as [[P Q] it]. destruct a as [[ri rs] c]. cbn [fst snd] in *.
    destruct (pb_init_spec (cx := cx) Hes TB env _ _ P Q it (ri, rs, c) E0 E0 A1 A2 A3 C1 C2) as (o & oz & I & _ & _ & H & VI & VS & RI & RS). cbn [fst snd] in *.
    unfold pbkdf_2_free_at, kapie_new. cbn [kdf_pbkdf_2 ka_obj ka_arg ka_new ka_initialize ka_derive fst snd]. rewrite I. cbn [bind].
    assert (Z : pb_size o = 0%nat).
    { unfold pb_initialize in I. destruct (view_of cx env ri); [|discriminate]. cbn [bind] in I.
      destruct (view_of cx env rs); [|discriminate]. cbn [bind] in I. injection I as <-. reflexivity. }
    clear I.
    assert (Sp : env = firstn d env ++ skipn d env) by (symmetry; apply firstn_skipn).
    assert (La : length (firstn d env) = d) by (rewrite firstn_length; lia). assert (Lk : length (skipn d env) = (length env - d)%nat) by apply skipn_length.
    set (a := firstn d env) in *. set (key := skipn d env) in *. assert (Bk : bytes key) by apply bytes_skipn, Be.
    destruct (phold_derive OK Hes TB env (P, Q, it) 0 o key n H RI RS Bk ltac:(lia)) as (o' & X & _). fold es in X.
    assert (PE : put env d (pD (M := M) (T := T) (P, Q, it) n) = a ++ sseg (pstream (T := T) (P, Q, it)) es 0 n ++ skipn n key).
    { rewrite (pD_sseg Hes TB) by assumption. apply put_split, sseg_length. }
    rewrite PE. set (res := sseg (pstream (T := T) (P, Q, it)) es 0 n ++ skipn n key) in *. clearbody res. clear PE.
    enough (G : exists o1, pb_derive_at cx M o env d n = Some (o1, a ++ res, n)) by (destruct G as (o1 & G); rewrite G; reflexivity).
    unfold pb_derive_at. unfold pb_derive in X. fold es in X |- *.
    rewrite Z in X |- *. change (0 <? 0)%nat with false in *. cbn [bind] in *. rewrite Nat.sub_0_r in *. rewrite Nat.add_0_r.
    destruct (n =? 0)%nat eqn:Zn.
    - assert (E : key = res) by congruence. rewrite <- E. eexists. rewrite <- Sp. reflexivity.
    - rewrite (proj2 (Nat.eqb_neq es 0)) in * by lia. apply Nat.eqb_neq in Zn.
      destruct (Nat.eq_dec n es) as [En|En].
      + assert (F1 : (n / es = 1)%nat) by (rewrite En; apply Nat.div_same; lia). assert (F2 : (n mod es = 0)%nat) by (rewrite En; apply Nat.mod_same; lia).
        rewrite F1, F2 in *. cbn [pb_blocks pb_blocks_at] in *. change (0 <? 0)%nat with false in *. cbv iota in *.
        pose proof (pb_expand_app (M := M) (cx := cx) env (pb_mac o) (pb_ikm o) (pb_salt o) (pb_iterations o) (pb_counter o) a key 0) as R. rewrite Nat.add_0_r, La, <- Sp in R. rewrite R.
        destruct (pb_expand cx M env (pb_mac o) (pb_ikm o) (pb_salt o) (pb_iterations o) (pb_counter o) key 0) as [[h k]|]; [|discriminate]. cbn [bind] in *.
        assert (E : k = res) by congruence. rewrite <- E. eexists. reflexivity.
      + assert (F1 : (n / es = 0)%nat) by (apply Nat.div_small; lia). assert (F2 : (n mod es = n)%nat) by (apply Nat.mod_small; lia).
        rewrite F1, F2 in *. cbn [pb_blocks pb_blocks_at bind] in *. rewrite (proj2 (Nat.ltb_lt 0 n)) in * by lia.
        destruct (pb_expand cx M env (pb_mac o) (pb_ikm o) (pb_salt o) (pb_iterations o) (pb_counter o) (pb_buffer o) 0) as [[h buf]|]; [|discriminate]. cbn [bind] in *.
        pose proof (copy_app (cx := cx) a key 0 buf n) as R. rewrite Nat.add_0_r, La, <- Sp in R. rewrite R.
        destruct (at_off key 0 (fun p => mem_copy cx 1 1 p buf n)) as [k|]; [|discriminate]. cbn [bind] in *.
        assert (E : k = res) by congruence. rewrite <- E. eexists. reflexivity.
  Qed.

  (** Two blocks at run time, whatever is overwritten: the second one is computed from what the first one left. *)
  Lemma view_late env r l vw m' l' : cx_ce cx = false -> has env r l -> view_of cx env r = Some vw -> has m' r l' -> view_read m' vw = Some l'.
  Proof.
    intros CE A VO B. unfold view_of in VO. rewrite CE in VO. injection VO as VO. rewrite <- VO.
    pose proof (has_read _ _ _ B) as R. unfold range_read in R. cbn [view_read]. destruct (snd r); exact R.
  Qed.
  Lemma pbkdf2_two env a v d P' Q' : cx_ce cx = false -> pargv env a v -> bytes env -> (d + 2 * es <= length env)%nat ->
    let m1 := put env d (pD (M := M) (T := T) v es) in has m1 (fst (fst a)) P' -> has m1 (snd (fst a)) Q' -> chunk P' -> chunk Q' ->
    pbkdf_2_free_at cx M env (fst (fst a)) (snd (fst a)) (snd a) d (2 * es)
    = Some (put m1 (d + es) (pb_T T P' Q' 2 (Nat.max 1 (N.to_nat (snd a)))), (2 * es)%nat).
  Proof.
    intros CE A Be Hd m1 B1 B2 D1 D2. pose proof A as (A1 & A2 & A3 & C1 & C2). pose proof (pbeq_new OK Hes TB env) as E0.
    destruct v as [[P Q] it]. destruct a as [[ri rs] c]. cbn [fst snd] in *. subst c.
    destruct (pb_init_spec (cx := cx) Hes TB env _ _ P Q it (ri, rs, it) E0 E0 A1 A2 eq_refl C1 C2) as (o & oz & I & _ & _ & H & VI & VS & RI & RS). cbn [fst snd] in *.
    unfold pbkdf_2_free_at, kapie_new. cbn [kdf_pbkdf_2 ka_obj ka_arg ka_new ka_initialize ka_derive fst snd]. rewrite I. cbn [bind].
    assert (Z : pb_size o = 0%nat /\ pb_counter o = 1).
    { unfold pb_initialize in I. destruct (view_of cx env ri); [|discriminate]. cbn [bind] in I.
      destruct (view_of cx env rs); [|discriminate]. cbn [bind] in I. injection I as <-. split; reflexivity. }
    destruct Z as [Z Zc]. clear I. unfold pb_derive_at. fold es. rewrite Z. change (0 <? 0)%nat with false. cbn [bind]. rewrite Nat.sub_0_r, Nat.add_0_r.
    rewrite (proj2 (Nat.eqb_neq (2 * es) 0)), (proj2 (Nat.eqb_neq es 0)) by lia.
    rewrite Nat.div_mul, Nat.mod_mul by lia. change (0 <? 0)%nat with false. cbv iota. cbn [pb_blocks_at]. fold es. rewrite Zc.
    destruct H as [Hm Hi Ht Hb Hs Hg]. cbn [fst snd] in *. rewrite Ht.
    destruct (pb_expand_spec OK Hes TB env _ _ P Q RI RS C1 C2 (pb_mac o) it 1 env d Hm ltac:(lia) Be) as (h1 & X & E1); [fold es; lia|].
    rewrite X. cbn [bind]. clear X.
    pose proof (pblk_T (M := M) Hes TB P Q it 1) as T1. change (N.of_nat 1 mod 2 ^ 32) with 1 in T1. rewrite T1.
    destruct (pblk_ok Hes TB P Q it 1 (proj1 C1) (proj1 C2)) as [Bb Lb]. fold es in Lb. rewrite T1 in Bb, Lb.
    assert (M1 : put env d (pb_T T P Q 1 (Nat.max 1 (N.to_nat it))) = m1).
    { unfold m1. rewrite (pD_sseg Hes TB) by assumption. f_equal. symmetry.
      pose proof (sseg_in (pstream (T := T) (P, Q, it)) es 0 0 es) as SI. change (0 * es + 0)%nat with 0%nat in SI. fold es. rewrite SI; [|lia|lia|unfold pstream; cbn [fst snd]; exact Lb].
      rewrite skipn_O, firstn_all2; [reflexivity|]. unfold pstream. cbn [fst snd]. rewrite Lb. lia. }
    rewrite M1. assert (Bm1 : bytes m1) by (rewrite <- M1; apply put_bytes; assumption).
    assert (Lm1 : length m1 = length env) by (rewrite <- M1, put_length; lia).
    change (wadd 32 1 1) with 2.
    destruct (pb_expand_spec OK Hes TB m1 (pb_ikm o) (pb_salt o) P' Q' (view_late _ _ _ _ _ _ CE A1 VI B1) (view_late _ _ _ _ _ _ CE A2 VS B2) D1 D2 h1 it 2 m1 (d + es) E1 ltac:(lia) Bm1) as (h2 & X & E2); [fold es; lia|].
    rewrite X. cbn [bind]. pose proof (pblk_T (M := M) Hes TB P' Q' it 2) as T2. change (N.of_nat 2 mod 2 ^ 32) with 2 in T2. rewrite T2. reflexivity.
  Qed.
  Lemma hkdf_two env a v d info' : cx_ce cx = false -> hargv env a v -> bytes env -> (d + 2 * es <= length env)%nat ->
    let f1 := hD (M := M) (T := T) v es in let m1 := put env d f1 in has m1 (snd a) info' -> chunk info' ->
    hkdf_free_at cx M env (fst (fst a)) (snd (fst a)) (snd a) d (2 * es)
    = Some (put m1 (d + es) (T (T (snd (fst v)) (fst (fst v))) (f1 ++ info' ++ [2])), (2 * es)%nat).
  Proof.
    intros CE A Be Hd f1 m1 B1 D1. pose proof A as (A1 & A2 & A3 & C1 & C2 & C3). pose proof (hkeq_new OK Hes TB env) as E0.
    destruct (hk_init_spec OK Hes TB env _ _ _ _ _ a E0 E0 A1 A2 A3 C1 C2 C3) as (o & oz & I & _ & _ & H & VO & VR & CT).
    destruct v as [[ikm salt] info]. destruct a as [[ri rs] rf]. cbn [fst snd] in *.
    unfold hkdf_free_at, kapie_new. cbn [kdf_hkdf ka_obj ka_arg ka_new ka_initialize ka_derive fst snd]. rewrite I. cbn [bind]. clear I.
    destruct H as [Hm Hi Hp [Hb HbL] Hs (g & Hc & Hpos & Hg)]. cbn [fst snd] in *.
    destruct (TB salt ikm (proj1 C2) (proj1 C1)) as [Bp Lp].
    unfold hk_derive_at. fold es.
    assert (Z : hk_size o = 0%nat).
    { destruct g as [|g]; [nia|]. exfalso. assert (hk_size o = es) by nia. assert (g = 0)%nat by nia. subst g. rewrite CT in Hc. cbn in Hc. discriminate. }
    rewrite Z. change (0 <? 0)%nat with false. cbn [bind]. rewrite Nat.sub_0_r, CT, Nat.add_0_r. change (1 =? 1) with true. cbv iota.
    rewrite (proj2 (Nat.eqb_neq (2 * es) 0)), (proj2 (Nat.eqb_neq es 0)) by lia.
    rewrite Nat.div_mul, Nat.mod_mul by lia. cbn [Nat.eqb Nat.sub hk_loop_at]. rewrite Hp.
    destruct (hexpand_spec OK Hes TB env (hk_mac o) (T salt ikm) (hk_info o) info 1 [] env d Hm Bp Lp VR C3 ltac:(lia) ltac:(constructor) ltac:(cbn; lia) Be) as (h1 & X & E1); [fold es; lia|].
    rewrite X. cbn [bind]. clear X.
    assert (F1 : hblk (T := T) (T salt ikm) info [] 1 = f1).
    { unfold f1. rewrite (hD_sseg Hes TB) by assumption. 
      destruct (hkdf_T_ok TB (T salt ikm) info Bp (proj1 C3) 0) as [_ L1]. fold es in L1.
      pose proof (sseg_in (hstream (T := T) (ikm, salt, info)) es 0 0 es) as SI. change (0 * es + 0)%nat with 0%nat in SI. fold es. rewrite SI; [|lia|lia|exact L1].
      rewrite skipn_O, firstn_all2; [reflexivity|]. cbn [hstream]. rewrite L1. lia. }
    destruct (hblk_ok TB (T salt ikm) info [] 1 Bp (proj1 C3) ltac:(constructor) ltac:(lia)) as [Bb Lb]. fold es in Lb. rewrite F1 in *. fold m1.
    assert (Bm1 : bytes m1) by (apply put_bytes; assumption). assert (Lm1 : length m1 = length env) by (unfold m1; rewrite put_length; lia).
    fold es. rewrite (rds_slice m1 d es) by lia. cbn [bind]. assert (SL : slice m1 d es = f1) by (apply slice_put_at; [exact Lb|lia]). rewrite SL.
    pose proof (view_late _ _ _ _ _ _ CE A3 VO B1) as VR'. change (wadd 8 1 1) with 2.
    destruct (hexpand_spec OK Hes TB m1 h1 (T salt ikm) (hk_info o) info' 2 f1 m1 (d + es) E1 Bp Lp VR' D1 ltac:(lia) Bb ltac:(lia) Bm1) as (h2 & X & E2); [fold es; lia|].
    rewrite X. cbn [bind]. clear X. destruct (hblk_ok TB (T salt ikm) info' f1 2 Bp (proj1 D1) Bb ltac:(lia)) as [Bb2 Lb2]. fold es in Lb2.
    change (T (T salt ikm) (f1 ++ info' ++ [2])) with (hblk (T := T) (T salt ikm) info' f1 2).
    set (m2 := put m1 (d + es) (hblk (T := T) (T salt ikm) info' f1 2)).
    assert (Bm2 : bytes m2) by (apply put_bytes; assumption). assert (Lm2 : length m2 = length env) by (unfold m2; rewrite put_length; lia).
    rewrite (rds_slice m2 (d + es) es) by lia. cbn [bind].
    assert (SL2 : slice m2 (d + es) es = hblk (T := T) (T salt ikm) info' f1 2) by (apply slice_put_at; [exact Lb2|lia]). rewrite SL2.
    assert (VR2 : exists i2, view_read m2 (hk_info o) = Some i2 /\ chunk i2).
    { unfold view_of in VO. rewrite CE in VO. injection VO as VO. rewrite <- VO. cbn [view_read]. destruct A3 as (A31 & A32 & _). rewrite A32.
      destruct (length info) as [|li] eqn:Li; [exists []; split; [reflexivity|split; [constructor|cbn; lia]]|].
      rewrite rds_slice by lia. exists (slice m2 (fst rf) (S li)). split; [reflexivity|]. split.
      - apply slice_bytes, Bm2.
      - rewrite slice_length by lia. destruct C3 as [_ C3]. rewrite Li in C3. exact C3. }
    destruct VR2 as (i2 & VR2 & D2).
    destruct (hexpand_spec OK Hes TB m2 h2 (T salt ikm) (hk_info o) i2 (wadd 8 2 1) (hblk (T := T) (T salt ikm) info' f1 2) (hk_buffer o) 0 E2 Bp Lp VR2 D2 (wadd8_lt _) Bb2 ltac:(lia) Hb) as (h3 & X & _); [fold es; lia|].
    rewrite X. cbn [bind]. destruct (hblk_ok TB (T salt ikm) i2 (hblk (T := T) (T salt ikm) info' f1 2) (wadd 8 2 1) Bp (proj1 D2) Bb2 (wadd8_lt _)) as [Bb3 Lb3].
    rewrite at_off_copy; [|exact Bm2|apply put_bytes; assumption|lia|lia]. rewrite firstn_O, put_nil. reflexivity.
  Qed.
End R.
