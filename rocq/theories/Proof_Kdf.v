(** HKDF and PBKDF2: every overload and history. *)
From Verif Require Import Base BaseLemmas BytesLemmas Spec_Bytes Spec_Range Spec_Hash Spec_Kdf Model_Memory Model_Update Model_Container
  Model_Sha Model_Mac Model_Hmac Model_Cipher Model_Kdf Spec_ChaCha
  Proof_Memory Proof_Memory2 Proof_Memory3 Proof_CodecApi Proof_Mac Proof_ShaCore Proof_ChaChaCore Proof_Range.
Local Open Scope N_scope.

Lemma at_off_put f (dst l : list N) off : (off + length l <= length dst)%nat ->
  f (skipn off dst) = Some (l ++ skipn (length l) (skipn off dst)) -> at_off dst off f = Some (put dst off l).
Proof.
  intros H E. unfold at_off. rewrite (proj2 (Nat.leb_le _ _)) by lia. rewrite E. cbn [bind]. unfold put. rewrite skipn_skipn. do 4 f_equal. lia.
Qed.
Lemma at_off_copy cx (dst src : list N) off n : bytes dst -> bytes src -> (n <= length src)%nat -> (off + n <= length dst)%nat ->
  at_off dst off (fun p => mem_copy cx 1 1 p src n) = Some (put dst off (firstn n src)).
Proof.
  intros Hd Hs Hn Ho. assert (L : length (firstn n src) = n) by (rewrite firstn_length; lia).
  apply at_off_put; [rewrite L; exact Ho|]. rewrite copy_bytes; [rewrite L; reflexivity|apply bytes_skipn, Hd|exact Hs|exact Hn|rewrite skipn_length; lia].
Qed.

Lemma has_read env r l : has env r l -> range_read env r = Some l.
Proof.
  intros (L & S & E). unfold range_read. rewrite S. destruct (length l) as [|n] eqn:Ll.
  - destruct l; [reflexivity|discriminate].
  - unfold rds. rewrite (proj2 (Nat.leb_le _ _)) by lia. rewrite E. reflexivity.
Qed.
Lemma has_view cx env r l : has env r l -> exists v, view_of cx env r = Some v /\ view_read env v = Some l /\
  (cx_ce cx = true -> v = VCopy l).
Proof.
  intros H. unfold view_of. destruct (cx_ce cx).
  - destruct H as (L & S & E). unfold rds. rewrite S, (proj2 (Nat.leb_le _ _)) by lia. rewrite E. cbn [bind]. eexists. split; [reflexivity|]. split; reflexivity.
  - eexists. split; [reflexivity|]. split; [|discriminate]. pose proof (has_read env r l H) as R. destruct r as [o n]. cbn in R |- *. destruct n; exact R.
Qed.

Lemma iter_comm {A} (f : A -> A) n x : Nat.iter n f (f x) = Nat.iter (S n) f x.
Proof. induction n as [|n IH]; [reflexivity|]. exact (f_equal f IH). Qed.

Lemma slice_put_at (m l : list N) d n : length l = n -> (d + n <= length m)%nat -> slice (put m d l) d n = l.
Proof. intros <- H. apply slice_put_same, H. Qed.

(** *** Streams of blocks *)
Definition sbyte (blk : nat -> list N) (es : nat) (j : nat) : N := nth (j mod es) (blk (S (j / es))) 0.
Definition sseg (blk : nat -> list N) (es pos n : nat) : list N := map (sbyte blk es) (seq pos n).
Lemma sseg_length blk es pos n : length (sseg blk es pos n) = n.
Proof. unfold sseg. rewrite map_length, seq_length. reflexivity. Qed.
Lemma sseg_app blk es pos a b : sseg blk es pos (a + b) = sseg blk es pos a ++ sseg blk es (pos + a) b.
Proof. unfold sseg. rewrite seq_app, map_app. reflexivity. Qed.
Lemma sseg_nth blk es pos n i : (i < n)%nat -> nth i (sseg blk es pos n) 0 = sbyte blk es (pos + i).
Proof.
  intros H. unfold sseg. rewrite (nth_indep _ 0 (sbyte blk es 0)) by (rewrite map_length, seq_length; exact H).
  rewrite map_nth. rewrite seq_nth by exact H. reflexivity.
Qed.
Lemma sseg_in blk es i a n : (0 < es)%nat -> (a + n <= es)%nat -> length (blk (S i)) = es ->
  sseg blk es (i * es + a) n = firstn n (skipn a (blk (S i))).
Proof.
  intros He H L. apply (list_ext _ _).
  - rewrite sseg_length, firstn_length, skipn_length. lia.
  - intros j x Hj. rewrite sseg_length in Hj. rewrite (nth_indep _ x 0) by (rewrite sseg_length; exact Hj). rewrite sseg_nth by exact Hj.
    unfold sbyte. replace (i * es + a + j)%nat with ((a + j) + i * es)%nat by lia.
    rewrite Nat.mod_add, Nat.div_add by lia. rewrite Nat.mod_small, Nat.div_small by lia. cbn [Nat.add].
    rewrite <- (nth_indep (firstn n (skipn a (blk (S i)))) 0 x) by (rewrite firstn_length, skipn_length; lia).
    rewrite nth_firstn_lt by exact Hj. rewrite nth_skipn. reflexivity.
Qed.
Lemma sseg_blocks blk es : (0 < es)%nat -> (forall i, length (blk (S i)) = es) ->
  forall k i, flat_map blk (seq (S i) k) = sseg blk es (i * es) (k * es).
Proof.
  intros He HL. induction k as [|k IH]; intros i; [reflexivity|].
  cbn [seq flat_map]. rewrite IH. cbn [Nat.mul]. rewrite sseg_app. f_equal.
  - pose proof (sseg_in blk es i 0 es He ltac:(lia) (HL i)) as E. rewrite Nat.add_0_r in E. rewrite E.
    rewrite skipn_O, firstn_all2 by (rewrite HL; lia). reflexivity.
  - f_equal. lia.
Qed.
Lemma sseg_firstn blk es pos n m : (m <= n)%nat -> firstn m (sseg blk es pos n) = sseg blk es pos m.
Proof.
  intros H. replace n with (m + (n - m))%nat by lia. rewrite sseg_app, firstn_app, sseg_length, Nat.sub_diag, firstn_O, app_nil_r.
  apply firstn_all2. rewrite sseg_length. lia.
Qed.
Lemma blocks_for_enough hl L : (0 < hl)%nat -> (L <= blocks_for hl L * hl)%nat.
Proof.
  intros H. unfold blocks_for. pose proof (Nat.div_mod (L + hl - 1) hl ltac:(lia)). pose proof (Nat.mod_upper_bound (L + hl - 1) hl ltac:(lia)). nia.
Qed.
Lemma stream_blocks_for blk es L : (0 < es)%nat -> (forall i, length (blk (S i)) = es) ->
  firstn L (flat_map blk (seq 1 (blocks_for es L))) = sseg blk es 0 L.
Proof.
  intros He HL. rewrite (sseg_blocks blk es He HL _ 0). cbn [Nat.mul]. apply sseg_firstn. apply blocks_for_enough, He.
Qed.
Lemma sseg_ext blk blk' es pos n : (forall i, (pos <= i < pos + n)%nat -> blk (S (i / es)) = blk' (S (i / es))) ->
  sseg blk es pos n = sseg blk' es pos n.
Proof. intros H. unfold sseg. apply map_ext_in. intros i Hi. apply in_seq in Hi. unfold sbyte. rewrite H by exact Hi. reflexivity. Qed.

Section Kdf.
  Context {M : mac_alg} {cx : ctx} {T : list N -> list N -> list N}
    {eqv : ma_obj M -> ma_obj M -> Prop} {hold : list N -> list N -> ma_obj M -> Prop}
    {out : ma_obj M -> list N} (OK : mac_ok M cx chunk T eqv hold out).
  Let es := ma_digest_size M.
  Context (Hes : (0 < es <= 64)%nat) (TB : forall k m, bytes k -> bytes m -> bytes (T k m) /\ length (T k m) = es).

  Lemma small_chunk l : bytes l -> (length l <= 64)%nat -> chunk l.
  Proof. intros H L. split; [exact H|]. apply (N.le_lt_trans _ 64); [lia|reflexivity]. Qed.

  Lemma upds_hold k : forall ms m h, hold k m h -> Forall chunk ms ->
    exists h', foldM (ma_update M cx) ms h = Some h' /\ hold k (m ++ concat ms) h'.
  Proof.
    induction ms as [|x ms IH]; intros m h H Hm.
    - exists h. cbn [foldM concat]. rewrite app_nil_r. auto.
    - inversion Hm as [|? ? Hx Hms]; subst. pose proof (mo_hold _ _ _ _ _ _ _ OK k m h H) as E.
      destruct (mo_upd _ _ _ _ _ _ _ OK h h x E Hx) as (h1 & _ & U & _ & _).
      pose proof (mo_updh _ _ _ _ _ _ _ OK k m h x h1 H Hx U) as H1.
      destruct (IH _ h1 H1 Hms) as (h' & F & H'). exists h'. cbn [foldM concat]. rewrite U. cbn [bind].
      rewrite <- app_assoc in H'. auto.
  Qed.

  Lemma once_spec h key msgs dst off : eqv h h -> chunk key -> Forall chunk msgs -> bytes dst -> (off + es <= length dst)%nat ->
    exists h', mac_once cx M h key msgs dst off = Some (h', put dst off (T key (concat msgs))) /\ eqv h' h'.
  Proof.
    intros E Hk Hm Hd Ho. destruct (mo_init _ _ _ _ _ _ _ OK h h key E E Hk) as (h1 & _ & I1 & _ & _ & H1).
    destruct (upds_hold key msgs [] h1 H1 Hm) as (h2 & U & H2). cbn [app] in H2.
    destruct (mo_fin _ _ _ _ _ _ _ OK h2 h2 (mo_hold _ _ _ _ _ _ _ OK _ _ _ H2)) as (h3 & h3' & F & _ & Q).
    pose proof (proj1 (mo_l _ _ _ _ _ _ _ OK _ _ Q)) as E3.
    pose proof (mo_finh _ _ _ _ _ _ _ OK key (concat msgs) h2 h3 H2 F) as O.
    pose proof (mo_len _ _ _ _ _ _ _ OK h3 E3) as L. fold es in L, O.
    exists h3. split; [|exact E3]. unfold mac_once. rewrite I1. cbn [bind]. rewrite U. cbn [bind]. rewrite F. cbn [bind].
    assert (LT : length (T key (concat msgs)) = es) by (rewrite <- O, firstn_length; lia).
    rewrite (at_off_put _ dst (T key (concat msgs))).
    - reflexivity.
    - rewrite LT. exact Ho.
    - fold es. rewrite (mo_dig _ _ _ _ _ _ _ OK h3); [|exact E3|apply bytes_skipn, Hd|fold es; rewrite skipn_length; lia].
      cbn [bind]. fold es. rewrite Nat.min_id. rewrite O, LT. reflexivity.
  Qed.

  (** *** HKDF *)
  Section Hkdf.
    Context (env : list N).

    Record hkwf (info : list N) (o : hk_obj M) : Prop := {
      hw_m : eqv (hk_mac o) (hk_mac o);
      hw_v : view_read env (hk_info o) = Some info; hw_i : chunk info;
      hw_c : hk_counter o < 256;
      hw_p : bytes (hk_prk o) /\ length (hk_prk o) = es;
      hw_b : bytes (hk_buffer o) /\ length (hk_buffer o) = es;
      hw_s : (hk_size o <= es)%nat }.

    Definition hblk (prk info prev : list N) (c : N) : list N := T prk (prev ++ info ++ [c]).
    (** [n] blocks, the first one from [prev] and with octet [c]. *)
    Fixpoint hchain (prk info prev : list N) (c : N) (n : nat) : list (list N) :=
      match n with O => [] | S n => let b := hblk prk info prev c in b :: hchain prk info b (wadd 8 c 1) n end.
    Definition hlast (prk info prev : list N) (c : N) (n : nat) : list N := last (hchain prk info prev c n) [].

    Lemma hblk_ok prk info prev c : bytes prk -> bytes info -> bytes prev -> c < 256 ->
      bytes (hblk prk info prev c) /\ length (hblk prk info prev c) = es.
    Proof.
      intros Hp Hi Hv Hc. apply TB; [exact Hp|]. apply bytes_app. split; [exact Hv|]. apply bytes_app. split; [exact Hi|].
      constructor; [exact Hc|constructor].
    Qed.
    Lemma wadd8_lt c : wadd 8 c 1 < 256.
    Proof. apply N.mod_lt. discriminate. Qed.
    Lemma hchain_ok prk info : bytes prk -> bytes info -> forall n prev c, bytes prev -> c < 256 ->
      Forall (fun b => bytes b /\ length b = es) (hchain prk info prev c n).
    Proof.
      intros Hp Hi. induction n as [|n IH]; intros prev c Hv Hc; [constructor|]. cbn [hchain].
      destruct (hblk_ok prk info prev c Hp Hi Hv Hc) as [Hb Lb]. constructor; [auto|]. apply IH; [exact Hb|apply wadd8_lt].
    Qed.
    Lemma hchain_length prk info : forall n prev c, length (hchain prk info prev c n) = n.
    Proof. induction n as [|n IH]; intros prev c; [reflexivity|]. cbn [hchain length]. f_equal. apply IH. Qed.
    Lemma blocks_concat : forall bs, Forall (fun b => bytes b /\ length b = es) bs ->
      bytes (concat bs) /\ length (concat bs) = (length bs * es)%nat.
    Proof.
      induction bs as [|b bs IH]; intros H; [split; [constructor|reflexivity]|].
      inversion H as [|? ? [Hb Lb] Hbs]; subst. destruct (IH Hbs) as [I1 I2]. cbn [concat length Nat.mul]. split.
      - apply bytes_app. auto.
      - rewrite app_length. lia.
    Qed.
    Lemma hchain_snoc prk info : forall n prev c,
      hchain prk info prev c (S n)
      = hchain prk info prev c n ++ [hblk prk info (match n with O => prev | _ => hlast prk info prev c n end) (Nat.iter n (fun c => wadd 8 c 1) c)].
    Proof.
      induction n as [|n IH]; intros prev c; [reflexivity|].
      change (hchain prk info prev c (S (S n))) with (hblk prk info prev c :: hchain prk info (hblk prk info prev c) (wadd 8 c 1) (S n)).
      rewrite IH. cbn [hchain app]. apply (f_equal (cons _)). apply (f_equal (app _)). apply (f_equal (fun x => [x])).
      apply (f_equal2 (hblk prk info)).
      - destruct n; [reflexivity|]. unfold hlast. cbn [hchain]. reflexivity.
      - exact (iter_comm (fun c => wadd 8 c 1) n c).
    Qed.

    Lemma hexpand_spec h prk v info c prev dst off : eqv h h -> bytes prk -> length prk = es -> view_read env v = Some info -> chunk info ->
      c < 256 -> bytes prev -> (length prev <= es)%nat -> bytes dst -> (off + es <= length dst)%nat ->
      exists h', hk_expand cx M env h prk v c prev dst off = Some (h', put dst off (hblk prk info prev c)) /\ eqv h' h'.
    Proof.
      intros E Hp Lp Hv Hi Hc Hpr Lpr Hd Ho. unfold hk_expand. rewrite Hv. cbn [bind].
      destruct (once_spec h prk [prev; info; [c]] dst off E) as (h' & X & E'); try assumption.
      - apply small_chunk; [exact Hp|lia].
      - constructor; [apply small_chunk; [exact Hpr|lia]|]. constructor; [exact Hi|]. constructor; [|constructor].
        apply small_chunk; [constructor; [exact Hc|constructor]|cbn; lia].
      - exists h'. split; [|exact E']. rewrite X. cbn [concat]. rewrite app_nil_r. reflexivity.
    Qed.

    Lemma hloop_spec prk v info : bytes prk -> length prk = es -> view_read env v = Some info -> chunk info ->
      forall n h c key tmp b, eqv h h -> c < 256 -> bytes key -> (tmp + es + n * es <= length key)%nat -> slice key tmp es = b ->
      exists h', hk_loop cx M env prk v h c key tmp n
        = Some (h', Nat.iter n (fun c => wadd 8 c 1) c, put key (tmp + es) (concat (hchain prk info b c n)), (tmp + n * es)%nat) /\ eqv h' h'.
    Proof.
      intros Hp Lp Hv Hi. induction n as [|n IH]; intros h c key tmp b E Hc Hk Hl Hb.
      - exists h. cbn [hk_loop Nat.iter nat_rect hchain concat Nat.mul]. rewrite put_nil, Nat.add_0_r. auto.
      - cbn [hk_loop]. fold es. rewrite rds_slice by lia. cbn [bind]. rewrite Hb.
        assert (Bb : bytes b) by (rewrite <- Hb; apply slice_bytes, Hk).
        assert (Lb : length b = es) by (rewrite <- Hb; apply slice_length; lia).
        destruct (hexpand_spec h prk v info c b key (tmp + es) E Hp Lp Hv Hi Hc Bb ltac:(lia) Hk ltac:(lia)) as (h1 & X & E1).
        rewrite X. cbn [bind]. destruct (hblk_ok prk info b c Hp (proj1 Hi) Bb Hc) as [Hn Ln]. set (nb := hblk prk info b c) in *.
        destruct (IH h1 (wadd 8 c 1) (put key (tmp + es) nb) (tmp + es)%nat nb E1 (wadd8_lt c)) as (h' & Y & E').
        + apply put_bytes; assumption.
        + rewrite put_length by lia. lia.
        + apply slice_put_at; [exact Ln|lia].
        + exists h'. split; [|exact E']. rewrite Y. cbn [hchain concat]. fold nb.
          assert (Lc : length (concat (hchain prk info nb (wadd 8 c 1) n)) = (n * es)%nat).
          { destruct (blocks_concat _ (hchain_ok prk info Hp (proj1 Hi) n nb (wadd 8 c 1) Hn (wadd8_lt c))) as [_ L].
            rewrite L, hchain_length. reflexivity. }
          rewrite (put_put key (tmp + es) nb) by lia.
          replace (Nat.iter n (fun c0 : N => wadd 8 c0 1) (wadd 8 c 1)) with (Nat.iter (S n) (fun c0 : N => wadd 8 c0 1) c).
          2:{ symmetry. exact (iter_comm (fun c => wadd 8 c 1) n c). }
          replace (tmp + S n * es)%nat with (tmp + es + n * es)%nat by (cbn [Nat.mul]; lia). reflexivity.
    Qed.

    (** What [derive] does, whatever the history. *)
    Definition hbeg (o : hk_obj M) : list N := if hk_counter o =? 1 then [] else hk_buffer o.
    Lemma hderive_spec info o key n : hkwf info o -> bytes key -> (n <= length key)%nat ->
      let s := hk_size o in
      let copy := Nat.min n s in
      let left := (n - copy)%nat in
      let k := if (left =? 0)%nat then 0%nat else S (left / es) in
      let ch := hchain (hk_prk o) info (hbeg o) (hk_counter o) k in
      exists o', hk_derive cx M env o key n
        = Some (o', firstn copy (skipn (es - s) (hk_buffer o)) ++ firstn left (concat ch) ++ skipn n key, n) /\
        hkwf info o' /\ hk_prk o' = hk_prk o /\ hk_info o' = hk_info o /\ hk_counter o' = Nat.iter k (fun c => wadd 8 c 1) (hk_counter o) /\
        hk_buffer o' = match k with O => hk_buffer o | _ => last ch [] end /\ hk_size o' = (s - copy + k * es - left)%nat.
    Proof.
      intros [Wm Wv Wi Wc [Wp Lp] [Wb Lb] Ws] Hk Hn s copy left k ch. unfold hk_derive. fold es. fold s.
      set (bufpart := firstn copy (skipn (es - s) (hk_buffer o))).
      assert (LBP : length bufpart = copy) by (unfold bufpart; rewrite firstn_length, skipn_length; unfold copy; lia).
      assert (BBP : bytes bufpart) by apply bytes_firstn, bytes_skipn, Wb.
      assert (C1 : (if (0 <? s)%nat then Nat.min n s else 0%nat) = copy).
      { unfold copy. destruct (0 <? s)%nat eqn:Z; [reflexivity|]. apply Nat.ltb_ge in Z. lia. }
      rewrite C1.
      assert (C2 : (if (0 <? s)%nat then at_off key 0 (fun p => mem_copy cx 1 1 p (skipn (es - s) (hk_buffer o)) copy) else Some key)
                   = Some (put key 0 bufpart)).
      { destruct (0 <? s)%nat eqn:Z.
        - apply at_off_copy; [exact Hk|apply bytes_skipn, Wb|rewrite skipn_length; unfold copy; lia|unfold copy; lia].
        - apply Nat.ltb_ge in Z. assert (copy = 0%nat) by (unfold copy; lia).
          destruct bufpart; [rewrite put_nil; reflexivity|cbn in LBP; lia]. }
      rewrite C2. cbn [bind]. clear C1 C2. set (key1 := put key 0 bufpart).
      assert (K1 : key1 = bufpart ++ skipn copy key) by (unfold key1, put; rewrite firstn_O, LBP; reflexivity).
      assert (LK1 : length key1 = length key) by (unfold key1; rewrite put_length; lia).
      assert (BK1 : bytes key1) by (apply put_bytes; assumption).
      fold left. unfold k in *. clear k. destruct (left =? 0)%nat eqn:Z.
      - apply Nat.eqb_eq in Z. exists {| hk_mac := hk_mac o; hk_info := hk_info o; hk_counter := hk_counter o; hk_prk := hk_prk o;
                hk_buffer := hk_buffer o; hk_size := (s - copy)%nat |}.
        split; [|split; [constructor; cbn; auto; lia|]].
        + rewrite K1, Z. rewrite firstn_O. cbn [app]. assert (CN : copy = n) by (unfold left in Z; unfold copy in *; lia).
          replace (skipn copy key) with (skipn n key) by (rewrite CN; reflexivity). reflexivity.
        + cbn [hk_prk hk_info hk_counter hk_buffer hk_size Nat.iter nat_rect Nat.mul]. repeat split; try reflexivity. lia.
      - apply Nat.eqb_neq in Z. rewrite (proj2 (Nat.eqb_neq es 0)) by lia.
        set (full := (left / es)%nat) in *. set (lst := (left mod es)%nat).
        assert (DM : left = (es * full + lst)%nat) by (apply Nat.div_mod; lia).
        assert (ML : (lst < es)%nat) by (apply Nat.mod_upper_bound; lia).
        assert (CL : (copy + left = n)%nat) by (unfold left; unfold copy; lia).
        fold (hbeg o). set (beg := hbeg o) in *.
        assert (Bbeg : bytes beg) by (unfold beg, hbeg; destruct (hk_counter o =? 1); [constructor|exact Wb]).
        assert (Lbeg : (length beg <= es)%nat) by (unfold beg, hbeg; destruct (hk_counter o =? 1); [cbn; lia|lia]).
        set (prk := hk_prk o) in *. set (c := hk_counter o) in *.
        assert (Fin : forall h c' buf, eqv h h -> c' = Nat.iter (S full) (fun c => wadd 8 c 1) c -> bytes buf -> length buf = es ->
          buf = last ch [] -> forall key2 off, key2 = put key1 copy (concat (hchain prk info beg c full)) -> off = (copy + full * es)%nat ->
          exists o', (key <- at_off key2 off (fun p => mem_copy cx 1 1 p buf lst) ;;
             Some ({| hk_mac := h; hk_info := hk_info o; hk_counter := c'; hk_prk := prk; hk_buffer := buf; hk_size := (es - lst)%nat |}, key, n))
           = Some (o', bufpart ++ firstn left (concat ch) ++ skipn n key, n) /\
             hkwf info o' /\ hk_prk o' = prk /\ hk_info o' = hk_info o /\ hk_counter o' = Nat.iter (S full) (fun c => wadd 8 c 1) c /\
             hk_buffer o' = last ch [] /\ hk_size o' = (s - copy + S full * es - left)%nat).
        { intros h c' buf Eh Ec Bb Lb' El key2 off Ek ->.
          destruct (blocks_concat _ (hchain_ok prk info Wp (proj1 Wi) full beg c Bbeg Wc)) as [Bf Lf]. rewrite hchain_length in Lf.
          assert (BK2 : bytes key2) by (rewrite Ek; apply put_bytes; assumption).
          assert (LK2 : length key2 = length key) by (rewrite Ek, put_length; lia).
          rewrite at_off_copy by (try assumption; lia). cbn [bind].
          exists {| hk_mac := h; hk_info := hk_info o; hk_counter := c'; hk_prk := prk; hk_buffer := buf; hk_size := (es - lst)%nat |}.
          split; [|split; [constructor; cbn [hk_mac hk_info hk_counter hk_prk hk_buffer hk_size]; auto; try lia|]].
          - do 3 f_equal. rewrite Ek. rewrite put_put; [|lia|rewrite Lf, firstn_length, LK1; lia].
            assert (Q : concat (hchain prk info beg c full) ++ firstn lst buf = firstn left (concat ch)).
            { unfold ch. rewrite hchain_snoc, concat_app. rewrite firstn_app, Lf. rewrite (firstn_all2 (concat (hchain prk info beg c full))) by lia. apply (f_equal (app _)).
              replace (left - full * es)%nat with lst by lia. cbn [concat]. rewrite app_nil_r. rewrite El. unfold ch.
              rewrite hchain_snoc, last_last. reflexivity. }
            rewrite Q. rewrite K1. unfold put. rewrite firstn_app, LBP, Nat.sub_diag, firstn_O, app_nil_r.
            rewrite firstn_all2 by lia. f_equal. f_equal.
            assert (LQ : length (firstn left (concat ch)) = left).
            { rewrite <- Q, app_length, Lf, firstn_length. lia. }
            rewrite LQ, skipn_app, skipn_all2 by lia. cbn [app]. rewrite skipn_skipn. f_equal. lia.
          - rewrite Ec. apply wadd8_lt.
          - cbn [hk_prk hk_info hk_counter hk_buffer hk_size]. repeat split; try assumption; try reflexivity.
            assert (s <= copy \/ s = copy)%nat by (unfold left in Z; unfold copy in *; lia). cbn [Nat.mul]. lia. }
        destruct (full =? 0)%nat eqn:ZF.
        + apply Nat.eqb_eq in ZF.
          destruct (hexpand_spec (hk_mac o) prk (hk_info o) info c beg (hk_buffer o) 0 Wm Wp Lp Wv Wi Wc Bbeg Lbeg Wb ltac:(lia)) as (h & X & Eh).
          rewrite X. cbn [bind]. destruct (hblk_ok prk info beg c Wp (proj1 Wi) Bbeg Wc) as [Hb Hl].
          assert (PA : put (hk_buffer o) 0 (hblk prk info beg c) = hblk prk info beg c).
          { unfold put. rewrite firstn_O, skipn_all2 by lia. apply app_nil_r. }
          rewrite PA.
          apply Fin; [exact Eh|rewrite ZF; reflexivity|exact Hb|exact Hl|unfold ch; rewrite ZF; reflexivity| |rewrite ZF; cbn [Nat.mul]; lia].
          rewrite ZF; cbn [hchain concat]; rewrite put_nil; reflexivity.
        + apply Nat.eqb_neq in ZF.
          destruct (hexpand_spec (hk_mac o) prk (hk_info o) info c beg key1 copy Wm Wp Lp Wv Wi Wc Bbeg Lbeg BK1 ltac:(nia)) as (h & X & Eh).
          rewrite X. cbn [bind]. destruct (hblk_ok prk info beg c Wp (proj1 Wi) Bbeg Wc) as [Hb Hl]. set (b1 := hblk prk info beg c) in *.
          assert (PL : length (put key1 copy b1) = length key) by (rewrite put_length; nia).
          destruct (hloop_spec prk (hk_info o) info Wp Lp Wv Wi (full - 1) h (wadd 8 c 1) (put key1 copy b1) copy b1 Eh (wadd8_lt c)) as (h2 & Y & Eh2).
          { apply put_bytes; assumption. } { rewrite PL. nia. } { apply slice_put_at; [exact Hl|nia]. }
          rewrite Y. cbn [bind].
          set (rest := concat (hchain prk info b1 (wadd 8 c 1) (full - 1))).
          destruct (blocks_concat _ (hchain_ok prk info Wp (proj1 Wi) (full - 1) b1 (wadd 8 c 1) Hb (wadd8_lt c))) as [Br Lr].
          rewrite hchain_length in Lr. fold rest in Br, Lr.
          assert (PP : put (put key1 copy b1) (copy + es) rest = put key1 copy (concat (hchain prk info beg c full))).
          { rewrite put_put by nia. f_equal. replace full with (S (full - 1)) by lia. reflexivity. }
          rewrite PP.
          destruct (blocks_concat _ (hchain_ok prk info Wp (proj1 Wi) full beg c Bbeg Wc)) as [Bf Lf]. rewrite hchain_length in Lf.
          set (key2 := put key1 copy (concat (hchain prk info beg c full))) in *.
          assert (LK2 : length key2 = length key) by (unfold key2; rewrite put_length; nia).
          rewrite rds_slice by nia. cbn [bind].
          (* the last full block *)
          assert (LL : slice key2 (copy + (full - 1) * es) es = hlast prk info beg c full).
          { unfold key2.
            assert (LS : hlast prk info beg c full = hblk prk info (match (full - 1)%nat with O => beg | _ => hlast prk info beg c (full - 1) end)
                           (Nat.iter (full - 1) (fun c => wadd 8 c 1) c)).
            { unfold hlast at 1. replace full with (S (full - 1)) at 1 by lia. rewrite hchain_snoc, last_last. reflexivity. }
            rewrite LS.
            assert (SN : concat (hchain prk info beg c full) = concat (hchain prk info beg c (full - 1)) ++
              hblk prk info (match (full - 1)%nat with O => beg | _ => hlast prk info beg c (full - 1) end) (Nat.iter (full - 1) (fun c => wadd 8 c 1) c)).
            { replace full with (S (full - 1)) at 1 by lia. rewrite hchain_snoc, concat_app. cbn [concat]. rewrite app_nil_r. reflexivity. }
            rewrite SN.
            destruct (blocks_concat _ (hchain_ok prk info Wp (proj1 Wi) (full - 1) beg c Bbeg Wc)) as [Bg Lg]. rewrite hchain_length in Lg.
            set (lb := hblk _ _ _ (Nat.iter _ _ _)) in *.
            assert (Llb : length lb = es).
            { assert (Q := f_equal (@length N) SN). rewrite Lf, app_length, Lg in Q. nia. }
            rewrite <- (put_put key1 copy (concat (hchain prk info beg c (full - 1))) lb (copy + (full - 1) * es)) by nia.
            apply slice_put_at; [exact Llb|]. rewrite put_length by nia. nia. }
          rewrite LL.
          assert (Bl : bytes (hlast prk info beg c full) /\ length (hlast prk info beg c full) = es).
          { split; [rewrite <- LL; apply slice_bytes, put_bytes; assumption|rewrite <- LL; apply slice_length; nia]. }
          set (c2 := Nat.iter (full - 1) (fun c0 : N => wadd 8 c0 1) (wadd 8 c 1)).
          assert (Ec2 : c2 = Nat.iter full (fun c0 : N => wadd 8 c0 1) c).
          { unfold c2. rewrite (iter_comm (fun c => wadd 8 c 1) (full - 1) c). f_equal. lia. }
          assert (Lc2 : c2 < 256).
          { unfold c2. rewrite (iter_comm (fun c => wadd 8 c 1) (full - 1) c). apply wadd8_lt. }
          destruct (hexpand_spec h2 prk (hk_info o) info c2 (hlast prk info beg c full) (hk_buffer o) 0 Eh2 Wp Lp Wv Wi Lc2
                     (proj1 Bl) ltac:(lia) Wb ltac:(lia)) as (h3 & X3 & Eh3).
          rewrite X3. cbn [bind].
          destruct (hblk_ok prk info (hlast prk info beg c full) c2 Wp (proj1 Wi) (proj1 Bl) Lc2) as [Hb3 Hl3].
          assert (PA : put (hk_buffer o) 0 (hblk prk info (hlast prk info beg c full) c2) = hblk prk info (hlast prk info beg c full) c2).
          { unfold put. rewrite firstn_O, skipn_all2 by lia. apply app_nil_r. }
          rewrite PA. replace (copy + (full - 1) * es + es)%nat with (copy + full * es)%nat by nia.
          apply Fin; [exact Eh3|rewrite Ec2; reflexivity|exact Hb3|exact Hl3| |reflexivity|reflexivity].
          unfold ch. rewrite hchain_snoc, last_last. rewrite <- Ec2. destruct full; [lia|reflexivity].
    Qed.
  End Hkdf.

  (** The state after [pos] bytes of the key for [ikm], [salt] and [info]. *)
  Definition hstream (v : list N * list N * list N) : nat -> list N :=
    let '(ikm, salt, info) := v in hkdf_T T (T salt ikm) info.
  Record hhold (v : list N * list N * list N) (pos : nat) (o : hk_obj M) : Prop := {
    hh_m : eqv (hk_mac o) (hk_mac o);
    hh_i : chunk (fst (fst v)) /\ chunk (snd (fst v)) /\ chunk (snd v);
    hh_p : hk_prk o = T (snd (fst v)) (fst (fst v));
    hh_b : bytes (hk_buffer o) /\ length (hk_buffer o) = es;
    hh_s : (hk_size o <= es)%nat;
    hh_g : exists g, hk_counter o = N.of_nat (S g) mod 256 /\ (hk_size o + pos = es * g)%nat /\
             ((0 < g)%nat -> hk_buffer o = hstream v g) }.

  Lemma hkdf_T_ok prk info : bytes prk -> bytes info -> forall i, bytes (hkdf_T T prk info i) /\ length (hkdf_T T prk info (S i)) = es.
  Proof.
    intros Hp Hi. assert (B : forall i, bytes (hkdf_T T prk info i)).
    { induction i as [|i IH]; [constructor|]. cbn [hkdf_T]. apply TB; [exact Hp|]. apply bytes_app. split; [exact IH|].
      apply bytes_app. split; [exact Hi|]. constructor; [apply N.mod_lt; discriminate|constructor]. }
    intros i. split; [apply B|]. cbn [hkdf_T]. apply TB; [exact Hp|]. apply bytes_app. split; [apply B|].
    apply bytes_app. split; [exact Hi|]. constructor; [apply N.mod_lt; discriminate|constructor].
  Qed.
  Lemma wadd8_mod g : wadd 8 (N.of_nat (S g) mod 256) 1 = N.of_nat (S (S g)) mod 256.
  Proof. unfold wadd. change (2 ^ 8) with 256. rewrite N.add_mod_idemp_l by discriminate. f_equal. lia. Qed.
  Lemma hchain_T prk info : forall k g,
    hchain prk info (hkdf_T T prk info g) (N.of_nat (S g) mod 256) k = map (hkdf_T T prk info) (seq (S g) k).
  Proof.
    induction k as [|k IH]; intros g; [reflexivity|]. cbn [hchain seq map]. rewrite wadd8_mod.
    change (hblk prk info (hkdf_T T prk info g) (N.of_nat (S g) mod 256)) with (hkdf_T T prk info (S g)). rewrite IH. reflexivity.
  Qed.
  Lemma iter_wadd8 : forall k g, Nat.iter k (fun c => wadd 8 c 1) (N.of_nat (S g) mod 256) = N.of_nat (S (g + k)) mod 256.
  Proof.
    induction k as [|k IH]; intros g; [rewrite Nat.add_0_r; reflexivity|].
    change (Nat.iter (S k) (fun c => wadd 8 c 1) (N.of_nat (S g) mod 256))
      with (wadd 8 (Nat.iter k (fun c => wadd 8 c 1) (N.of_nat (S g) mod 256)) 1).
    rewrite IH, wadd8_mod. do 3 f_equal. lia.
  Qed.
  Lemma last_map_seq (f : nat -> list N) k g : last (map f (seq (S g) (S k))) [] = f (S g + k)%nat.
  Proof. rewrite seq_S, map_app. cbn [map]. apply last_last. Qed.

  Lemma hhold_derive env v pos o key n :
    hhold v pos o -> view_read env (hk_info o) = Some (snd v) -> (pos + n <= 255 * es)%nat \/ pos = 0%nat /\ hk_counter o = 1 ->
    bytes key -> (n <= length key)%nat ->
    exists o', hk_derive cx M env o key n = Some (o', sseg (hstream v) es pos n ++ skipn n key, n) /\ hhold v (pos + n) o' /\
      hk_info o' = hk_info o.
  Proof.
    intros [Hm Hi Hp Hb Hs (g & Hc & Hpos & Hg)] Hv HL Hk Hn. destruct v as [[ikm salt] info]. cbn [fst snd] in *.
    destruct Hi as (Ci & Cs & Cf).
    pose proof (TB salt ikm (proj1 Cs) (proj1 Ci)) as [Bp Lp].
    assert (W : hkwf env info o).
    { constructor; try assumption; [rewrite Hc; apply N.mod_lt; discriminate|rewrite Hp; auto]. }
    set (Tb := hkdf_T T (T salt ikm) info) in *. change (hstream (ikm, salt, info)) with Tb in *.
    pose proof (hderive_spec env info o key n W Hk Hn) as D.
    cbn zeta in D. destruct D as (o' & E & W' & P' & I' & C' & B' & S').
    set (s := hk_size o) in *. set (copy := Nat.min n s) in *. set (left := (n - copy)%nat) in *.
    assert (TL : forall i, length (Tb (S i)) = es) by (intros i; apply hkdf_T_ok; [exact Bp|exact (proj1 Cf)]).
    assert (P1 : firstn copy (skipn (es - s) (hk_buffer o)) = sseg Tb es pos copy).
    { destruct (Nat.eq_dec s 0) as [Z|Z].
      - unfold copy. rewrite Z, Nat.min_0_r. rewrite firstn_O. reflexivity.
      - assert (Q : (0 < g)%nat) by (destruct g; [lia|lia]). rewrite (Hg Q).
        replace pos with ((g - 1) * es + (es - s))%nat by nia.
        replace (Tb g) with (Tb (S (g - 1))) by (f_equal; lia).
        symmetry. apply sseg_in; [lia|unfold copy; lia|apply TL]. }
    rewrite P1 in E. destruct (left =? 0)%nat eqn:Z.
    - apply Nat.eqb_eq in Z. assert (CN : copy = n) by (unfold left in Z; unfold copy in *; lia).
      rewrite CN in E. rewrite Z, firstn_O in E. cbn [app] in E. exists o'. split; [exact E|]. split; [|exact I'].
      cbn [Nat.iter nat_rect hchain] in C', B'. destruct W'. rewrite P' in *.
      constructor; cbn [fst snd]; try assumption; try (split; [|split]; assumption).
      + rewrite P'. exact Hp.
      + exists g. rewrite C', B'. split; [exact Hc|]. split; [lia|exact Hg].
    - apply Nat.eqb_neq in Z. assert (CS : copy = s) by (unfold left in Z; unfold copy in *; lia).
      assert (PG : (pos + copy = es * g)%nat) by lia.
      set (k := S (left / es)) in *.
      assert (NL : (n = copy + left)%nat) by (unfold left; unfold copy; lia).
      assert (HB : hbeg o = Tb g).
      { unfold hbeg. destruct g as [|g].
        - rewrite Hc. reflexivity.
        - assert (g < 254)%nat.
          { destruct HL as [HL|[HL HC]]; [clearbody left copy s; rewrite NL in HL; nia|].
            assert (g = 0)%nat by (clearbody left copy s; nia). lia. }
          rewrite Hc. rewrite N.mod_small by lia.
          rewrite (proj2 (N.eqb_neq _ _)) by lia. apply Hg. lia. }
      rewrite HB, Hc, Hp in E. rewrite Hc in C'. rewrite HB, Hc, Hp in B'.
      unfold Tb in E, B'. rewrite hchain_T in E, B'. fold Tb in E, B'.
      assert (CC : concat (map Tb (seq (S g) k)) = sseg Tb es (g * es) (k * es)).
      { rewrite <- flat_map_concat_map. apply sseg_blocks; [lia|exact TL]. }
      rewrite CC in E. pose proof (Nat.div_mod left es ltac:(lia)) as DM. pose proof (Nat.mod_upper_bound left es ltac:(lia)) as MU.
      rewrite sseg_firstn in E by (unfold k; nia).
      exists o'. split; [|split; [|exact I']].
      + rewrite E. rewrite app_assoc. replace (g * es)%nat with (pos + copy)%nat by lia. rewrite <- sseg_app.
        replace (copy + left)%nat with n by (unfold left; unfold copy; lia). reflexivity.
      + destruct W'. constructor; cbn [fst snd]; try assumption; try (split; [|split]; assumption).
        * rewrite P'. exact Hp.
        * exists (g + k)%nat. split; [rewrite C'; apply iter_wadd8|]. split.
          -- rewrite S'. unfold k. unfold left in *. unfold copy in *. nia.
          -- intros _. rewrite B'. unfold k. rewrite last_map_seq. change (hstream (ikm, salt, info)) with Tb. f_equal. lia.
  Qed.

  (** The states that answer alike. *)
  Record hkeq (env : list N) (o1 o2 : hk_obj M) : Prop := {
    hq_1 : exists info, hkwf env info o1 /\ hkwf env info o2;
    hq_p : hk_prk o1 = hk_prk o2; hq_c : hk_counter o1 = hk_counter o2; hq_s : hk_size o1 = hk_size o2;
    hq_b : hk_counter o1 <> 1 \/ (0 < hk_size o1)%nat -> hk_buffer o1 = hk_buffer o2 }.
  Lemma hkeq_refl env info o : hkwf env info o -> hkeq env o o.
  Proof. intros W. constructor; try reflexivity. exists info. auto. Qed.
  Lemma hkeq_lr env o1 o2 : hkeq env o1 o2 -> hkeq env o1 o1 /\ hkeq env o2 o2.
  Proof. intros [(i & W1 & W2) _ _ _ _]. split; apply (hkeq_refl env i); assumption. Qed.
  Lemma hkeq_new env : hkeq env (hk_new M) (hk_new M).
  Proof.
    apply (hkeq_refl env []). constructor; cbn; try reflexivity; try lia.
    - apply (mo_new _ _ _ _ _ _ _ OK).
    - apply small_chunk; [constructor|cbn; lia].
    - split; [apply Forall_forall; intros x Hx; apply repeat_spec in Hx; subst; reflexivity|apply repeat_length].
    - split; [apply Forall_forall; intros x Hx; apply repeat_spec in Hx; subst; reflexivity|apply repeat_length].
  Qed.
  Lemma hkeq_derive env o1 o2 n : hkeq env o1 o2 -> exists r, bytes r /\ length r = n /\ forall key, bytes key -> (n <= length key)%nat ->
    exists o1' o2', hk_derive cx M env o1 key n = Some (o1', r ++ skipn n key, n) /\
      hk_derive cx M env o2 key n = Some (o2', r ++ skipn n key, n) /\ hkeq env o1' o2'.
  Proof.
    intros [(info & W1 & W2) Qp Qc Qs Qb]. 
    set (s := hk_size o1). set (copy := Nat.min n s). set (left := (n - copy)%nat). set (k := if (left =? 0)%nat then 0%nat else S (left / es)).
    set (ch := hchain (hk_prk o1) info (hbeg o1) (hk_counter o1) k).
    assert (HB : hbeg o1 = hbeg o2).
    { unfold hbeg. rewrite <- Qc. destruct (hk_counter o1 =? 1) eqn:Z; [reflexivity|]. apply Qb. left. apply N.eqb_neq, Z. }
    assert (FB : firstn copy (skipn (es - s) (hk_buffer o1)) = firstn copy (skipn (es - s) (hk_buffer o2))).
    { destruct (Nat.eq_dec s 0) as [Z|Z]; [unfold copy; rewrite Z, Nat.min_0_r, !firstn_O; reflexivity|].
      rewrite Qb; [reflexivity|]. right. fold s. lia. }
    exists (firstn copy (skipn (es - s) (hk_buffer o1)) ++ firstn left (concat ch)).
    assert (BG : bytes (hbeg o1)).
    { unfold hbeg. destruct (hk_counter o1 =? 1); [constructor|]. apply (hw_b _ _ _ W1). }
    destruct (blocks_concat env _ (hchain_ok (hk_prk o1) info (proj1 (hw_p _ _ _ W1)) (proj1 (hw_i _ _ _ W1)) k (hbeg o1) (hk_counter o1) BG (hw_c _ _ _ W1))) as [Bc Lc].
    fold ch in Bc, Lc. unfold ch in Lc at 2. rewrite hchain_length in Lc.
    split; [|split].
    - apply bytes_app. split; [apply bytes_firstn, bytes_skipn, (hw_b _ _ _ W1)|apply bytes_firstn, Bc].
    - rewrite app_length, !firstn_length, skipn_length, Lc. rewrite (proj2 (hw_b _ _ _ W1)). pose proof (hw_s _ _ _ W1). fold s in H.
      assert (left <= k * es)%nat.
      { unfold k. destruct (left =? 0)%nat eqn:Z; [apply Nat.eqb_eq in Z; lia|].
        pose proof (Nat.div_mod left es ltac:(lia)). pose proof (Nat.mod_upper_bound left es ltac:(lia)). nia. }
      unfold left in *. unfold copy in *. lia.
    - intros key Hk Hn.
      destruct (hderive_spec env info o1 key n W1 Hk Hn) as (o1' & E1 & V1 & P1 & I1 & C1 & B1 & S1).
      destruct (hderive_spec env info o2 key n W2 Hk Hn) as (o2' & E2 & V2 & P2 & I2 & C2 & B2 & S2).
      cbn zeta in E1, E2, C1, C2, B1, B2, S1, S2.
      rewrite <- Qs, <- HB, <- Qp, <- Qc in E2. rewrite <- Qp in P2. rewrite <- Qs, <- Qc in C2. rewrite <- Qs, <- HB, <- Qp, <- Qc in B2. rewrite <- Qs in S2. fold s in E1, E2, C1, C2, B1, B2, S1, S2.
      fold copy in E1, E2, C1, C2, B1, B2, S1, S2. fold left in E1, E2, C1, C2, B1, B2, S1, S2. fold k in E1, E2, C1, C2, B1, B2, S1, S2.
      fold ch in E1, E2, C1, C2, B1, B2. rewrite <- FB in E2.
      exists o1', o2'. split; [rewrite E1, app_assoc; reflexivity|]. split; [rewrite E2, app_assoc; reflexivity|].
      constructor.
      + exists info. auto.
      + congruence.
      + congruence.
      + congruence.
      + rewrite B1, B2, C1, S1. destruct k; [|reflexivity]. cbn [Nat.iter nat_rect]. intros [H|H]; apply Qb; [left; exact H|right; fold s; lia].
  Qed.
  Lemma hk_init_spec env o1 o2 ikm salt info a : hkeq env o1 o1 -> hkeq env o2 o2 ->
    has env (fst (fst a)) ikm -> has env (snd (fst a)) salt -> has env (snd a) info -> chunk ikm -> chunk salt -> chunk info ->
    exists o1' o2', hk_initialize cx M env o1 (fst (fst a)) (snd (fst a)) (snd a) = Some o1' /\
      hk_initialize cx M env o2 (fst (fst a)) (snd (fst a)) (snd a) = Some o2' /\ hkeq env o1' o2' /\
      hhold (ikm, salt, info) 0 o1' /\ view_of cx env (snd a) = Some (hk_info o1') /\ view_read env (hk_info o1') = Some info /\
      hk_counter o1' = 1.
  Proof.
    intros [(i1 & W1 & _) _ _ _ _] [(i2 & W2 & _) _ _ _ _] A1 A2 A3 Ci Cs Cf.
    destruct (has_view cx env (snd a) info A3) as (v & V & VR & _).
    pose proof (has_read _ _ _ A1) as R1. pose proof (has_read _ _ _ A2) as R2.
    assert (One : forall o i, hkwf env i o -> exists h, hk_initialize cx M env o (fst (fst a)) (snd (fst a)) (snd a)
       = Some {| hk_mac := h; hk_info := v; hk_counter := 1; hk_prk := T salt ikm; hk_buffer := hk_buffer o; hk_size := 0 |} /\ eqv h h).
    { intros o i W. unfold hk_initialize. rewrite V. cbn [bind]. rewrite R1. cbn [bind]. rewrite R2. cbn [bind].
      destruct (once_spec (hk_mac o) salt [ikm] (hk_prk o) 0 (hw_m _ _ _ W) Cs) as (h & X & E).
      - constructor; [exact Ci|constructor].
      - apply (hw_p _ _ _ W).
      - rewrite (proj2 (hw_p _ _ _ W)). lia.
      - rewrite X. cbn [bind concat]. rewrite app_nil_r. exists h. split; [|exact E].
        pose proof (proj2 (TB salt ikm (proj1 Cs) (proj1 Ci))) as LT. pose proof (proj2 (hw_p _ _ _ W)) as LP.
        unfold put. rewrite firstn_O, skipn_all2 by lia. cbn [app]. rewrite app_nil_r. reflexivity. }
    destruct (One o1 i1 W1) as (h1 & E1 & Q1). destruct (One o2 i2 W2) as (h2 & E2 & Q2).
    pose proof (TB salt ikm (proj1 Cs) (proj1 Ci)) as TBB.
    eexists. eexists. split; [exact E1|]. split; [exact E2|].
    assert (WF : forall h o i, eqv h h -> hkwf env i o ->
       hkwf env info {| hk_mac := h; hk_info := v; hk_counter := 1; hk_prk := T salt ikm; hk_buffer := hk_buffer o; hk_size := 0 |}).
    { intros h o i Q W. constructor; cbn [hk_mac hk_info hk_counter hk_prk hk_buffer hk_size]; try assumption; try reflexivity; try lia. apply (hw_b _ _ _ W). }
    split; [constructor; cbn [hk_mac hk_info hk_counter hk_prk hk_buffer hk_size]; try reflexivity|].
    - exists info. split; [apply (WF h1 o1 i1)|apply (WF h2 o2 i2)]; assumption.
    - intros [H|H]; [congruence|lia].
    - split; [|split; [exact V|split; [exact VR|reflexivity]]].
      constructor; cbn [hk_mac hk_info hk_counter hk_prk hk_buffer hk_size fst snd]; try assumption; try reflexivity; try lia; auto.
      + apply (hw_b _ _ _ W1).
      + exists 0%nat. split; [reflexivity|]. split; lia.
  Qed.
End Kdf.
