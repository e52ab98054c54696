(** PBKDF2: what [derive] returns in every state. *)
From Verif Require Import Base BaseLemmas BytesLemmas Spec_Bytes Spec_Range Spec_Hash Spec_Kdf Model_Memory Model_Update Model_Container
  Model_Sha Model_Mac Model_Hmac Model_Cipher Model_Kdf Spec_ChaCha
  Proof_Memory Proof_Memory2 Proof_Memory3 Proof_CodecApi Proof_Mac Proof_ShaCore Proof_ChaChaCore Proof_Hmac Proof_Range Proof_Kdf.
Local Open Scope N_scope.

Lemma xor_with_lists key : forall a k, (k + length a <= length key)%nat ->
  xor_with (fun j => nth j key 0) k a = xor_lists a (skipn k key).
Proof.
  induction a as [|x a IH]; intros k H; [reflexivity|]. cbn [length] in H. cbn [xor_with]. rewrite IH by lia.
  rewrite (skipn_nth 0 key k) by lia. reflexivity.
Qed.
Lemma xor_lists_length : forall a b, length (xor_lists a b) = Nat.min (length a) (length b).
Proof. induction a as [|x a IH]; intros [|y b]; cbn; [reflexivity..|]. rewrite IH. reflexivity. Qed.
Lemma xor_lists_bytes : forall a b, bytes a -> bytes b -> bytes (xor_lists a b).
Proof.
  induction a as [|x a IH]; intros [|y b] Ha Hb; cbn [xor_lists]; try constructor.
  - inversion Ha; inversion Hb; subst. unfold is_byte in *. apply (lxor_lt 8); assumption.
  - inversion Ha; inversion Hb; subst. apply IH; assumption.
Qed.
Lemma be_enc_mod32 i : be_enc 4 (N.of_nat i mod 2 ^ 32) = be_enc 4 (N.of_nat i).
Proof. unfold be_enc. f_equal. change (2 ^ 32) with (256 ^ N.of_nat 4). apply le_enc_mod. Qed.

Section Pbkdf.
  Context {M : mac_alg} {cx : ctx} {T : list N -> list N -> list N}
    {eqv : ma_obj M -> ma_obj M -> Prop} {hold : list N -> list N -> ma_obj M -> Prop}
    {out : ma_obj M -> list N} (OK : mac_ok M cx chunk T eqv hold out).
  Let es := ma_digest_size M.
  Context (Hes : (0 < es <= 64)%nat) (TB : forall k m, bytes k -> bytes m -> bytes (T k m) /\ length (T k m) = es).

  Lemma bytes_zeros n : bytes (repeat 0 n).
  Proof. apply Forall_forall. intros x Hx. apply repeat_spec in Hx. subst. reflexivity. Qed.

  (** The block for counter [c]. *)
  Fixpoint ploop (P b0 b1 : list N) (n : nat) : list N :=
    match n with O => b1 | S n => let b := T P b0 in ploop P b (xor_lists b1 b) n end.
  Definition pblk (P S : list N) (it c : N) : list N :=
    let u := T P (S ++ be_enc 4 c) in ploop P u u (N.to_nat it - 1).

  Lemma pblk_T P S it i : pblk P S it (N.of_nat i mod 2 ^ 32) = pb_T T P S i (Nat.max 1 (N.to_nat it)).
  Proof.
    unfold pblk. rewrite be_enc_mod32.
    assert (G : forall n j, ploop P (pb_U T P S i (Datatypes.S j)) (pb_T T P S i (Datatypes.S j)) n = pb_T T P S i (Datatypes.S j + n)).
    { induction n as [|n IH]; intros j; [rewrite Nat.add_0_r; reflexivity|]. cbn [ploop].
      replace (Datatypes.S j + Datatypes.S n)%nat with (Datatypes.S (Datatypes.S j) + n)%nat by lia. rewrite <- IH. reflexivity. }
    change (T P (S ++ be_enc 4 (N.of_nat i))) with (pb_U T P S i 1) at 1.
    change (T P (S ++ be_enc 4 (N.of_nat i))) with (pb_T T P S i 1). rewrite G. f_equal. lia.
  Qed.
  Lemma ploop_ok P : bytes P -> forall n b0 b1, bytes b0 -> bytes b1 -> length b1 = es -> bytes (ploop P b0 b1 n) /\ length (ploop P b0 b1 n) = es.
  Proof.
    intros HP. induction n as [|n IH]; intros b0 b1 H0 H1 L1; [auto|]. cbn [ploop]. destruct (TB P b0 HP H0) as [Hb Lb].
    apply IH; [exact Hb|apply xor_lists_bytes; assumption|rewrite xor_lists_length; lia].
  Qed.
  Lemma pblk_ok P S it c : bytes P -> bytes S -> bytes (pblk P S it c) /\ length (pblk P S it c) = es.
  Proof.
    intros HP HS. unfold pblk. destruct (TB P (S ++ be_enc 4 c) HP) as [Hb Lb]; [apply bytes_app; split; [exact HS|apply be_enc_bytes]|].
    apply ploop_ok; assumption.
  Qed.

  Section Env.
    Context (env : list N) (vi vs : view) (P S : list N)
      (HP : view_read env vi = Some P) (HS : view_read env vs = Some S) (CP : chunk P) (CS : chunk S).

    Lemma pb_loop_spec : forall n h b0 b1, eqv h h -> bytes b0 -> length b0 = es -> bytes b1 -> length b1 = es ->
      exists h', pb_loop cx M env vi h b0 b1 n = Some (h', ploop P b0 b1 n) /\ eqv h' h'.
    Proof.
      induction n as [|n IH]; intros h b0 b1 E B0 L0 B1 L1; [exists h; auto|]. cbn [pb_loop ploop]. rewrite HP. cbn [bind].
      destruct (once_spec OK Hes TB h P [b0] b0 0 E CP) as (h1 & X & E1); [constructor; [apply (small_chunk Hes TB); [exact B0|lia]|constructor]|exact B0|lia|].
      rewrite X. cbn [bind concat]. rewrite app_nil_r. destruct (TB P b0 (proj1 CP) B0) as [Bb Lb].
      assert (PA : put b0 0 (T P b0) = T P b0) by (unfold put; rewrite firstn_O, skipn_all2 by lia; apply app_nil_r).
      rewrite PA. fold es. rewrite mxor_loop_spec by (try lia; left; reflexivity). cbn [bind].
      rewrite slice_0, firstn_all2 by lia. rewrite xor_with_lists by lia. rewrite skipn_O.
      assert (PB : put b1 0 (xor_lists b1 (T P b0)) = xor_lists b1 (T P b0)).
      { unfold put. rewrite firstn_O, skipn_all2 by (rewrite xor_lists_length; lia). apply app_nil_r. }
      rewrite PB. apply IH; try assumption; [apply xor_lists_bytes; assumption|rewrite xor_lists_length; lia].
    Qed.

    Lemma pb_expand_spec h it c dst off : eqv h h -> c < 2 ^ 32 -> bytes dst -> (off + es <= length dst)%nat ->
      exists h', pb_expand cx M env h vi vs it c dst off = Some (h', put dst off (pblk P S it c)) /\ eqv h' h'.
    Proof.
      intros E Hc Hd Ho. unfold pb_expand. fold es.
      rewrite mem_stor_be_bytes; [|right; right; left; reflexivity|apply bytes_zeros|exact Hc|cbn; lia].
      change (0 * 4)%nat with 0%nat.
      assert (WR : wrs (repeat 0 4) 0 (be_enc 4 c) = Some (be_enc 4 c)).
      { unfold wrs. rewrite be_enc_length. cbn [repeat length Nat.add Nat.leb firstn skipn app]. rewrite app_nil_r. reflexivity. }
      rewrite WR. cbn [bind]. rewrite HP. cbn [bind]. rewrite HS. cbn [bind].
      destruct (once_spec OK Hes TB h P [S; be_enc 4 c] (repeat 0 es) 0 E CP) as (h1 & X & E1).
      - constructor; [exact CS|]. constructor; [|constructor]. apply (small_chunk Hes TB); [apply be_enc_bytes|rewrite be_enc_length; lia].
      - apply bytes_zeros.
      - rewrite repeat_length. fold es. lia.
      - rewrite X. cbn [bind concat]. rewrite app_nil_r. destruct (TB P (S ++ be_enc 4 c) (proj1 CP)) as [Bb Lb].
        { apply bytes_app. split; [apply CS|apply be_enc_bytes]. }
        set (u := T P (S ++ be_enc 4 c)) in *.
        assert (PA : put (repeat 0 es) 0 u = u) by (unfold put; rewrite firstn_O, skipn_all2 by (rewrite repeat_length; lia); apply app_nil_r).
        rewrite PA. rewrite copy_bytes; [|apply bytes_zeros|exact Bb|lia|rewrite repeat_length; lia]. cbn [bind].
        rewrite firstn_all2 by lia. rewrite (skipn_all2 (repeat 0 es)) by (rewrite repeat_length; lia). rewrite app_nil_r.
        destruct (pb_loop_spec (N.to_nat it - 1) h1 u u E1 Bb Lb Bb Lb) as (h2 & Y & E2). rewrite Y. cbn [bind].
        destruct (ploop_ok P (proj1 CP) (N.to_nat it - 1) u u Bb Bb Lb) as [Bl Ll].
        rewrite at_off_copy by (try assumption; lia). cbn [bind]. rewrite firstn_all2 by lia. exists h2. split; [reflexivity|exact E2].
    Qed.

    Fixpoint pchain (it c : N) (n : nat) : list (list N) :=
      match n with O => [] | Datatypes.S n => pblk P S it c :: pchain it (wadd 32 c 1) n end.
    Lemma pchain_length it : forall n c, length (pchain it c n) = n.
    Proof. induction n as [|n IH]; intros c; [reflexivity|]. cbn [pchain length]. rewrite IH. reflexivity. Qed.
    Lemma pchain_concat it : forall n c, bytes (concat (pchain it c n)) /\ length (concat (pchain it c n)) = (n * es)%nat.
    Proof.
      induction n as [|n IH]; intros c; [split; [constructor|reflexivity]|]. cbn [pchain concat Nat.mul].
      destruct (pblk_ok P S it c (proj1 CP) (proj1 CS)) as [Hb Lb]. destruct (IH (wadd 32 c 1)) as [H1 H2]. split.
      - apply bytes_app. auto.
      - rewrite app_length. lia.
    Qed.
    Lemma pchain_snoc it : forall n c, pchain it c (Datatypes.S n) = pchain it c n ++ [pblk P S it (Nat.iter n (fun c => wadd 32 c 1) c)].
    Proof.
      induction n as [|n IH]; intros c; [reflexivity|].
      change (pchain it c (Datatypes.S (Datatypes.S n))) with (pblk P S it c :: pchain it (wadd 32 c 1) (Datatypes.S n)).
      rewrite IH. cbn [pchain app]. apply (f_equal (cons _)). apply (f_equal (app _)). apply (f_equal (fun x => [x])).
      apply (f_equal (pblk P S it)). exact (iter_comm (fun c => wadd 32 c 1) n c).
    Qed.
    Lemma wadd32_lt c : wadd 32 c 1 < 2 ^ 32.
    Proof. apply N.mod_lt. discriminate. Qed.
    Lemma iter32_lt : forall n c, c < 2 ^ 32 -> Nat.iter n (fun c => wadd 32 c 1) c < 2 ^ 32.
    Proof. intros [|n] c H; [exact H|apply wadd32_lt]. Qed.

    Lemma pb_blocks_spec it : forall n h c key off, eqv h h -> c < 2 ^ 32 -> bytes key -> (off + n * es <= length key)%nat ->
      exists h', pb_blocks cx M env vi vs it h c key off n
        = Some (h', Nat.iter n (fun c => wadd 32 c 1) c, put key off (concat (pchain it c n)), (off + n * es)%nat) /\ eqv h' h'.
    Proof.
      induction n as [|n IH]; intros h c key off E Hc Hk Hl.
      - exists h. cbn [pb_blocks pchain concat Nat.iter nat_rect Nat.mul]. rewrite put_nil, Nat.add_0_r. auto.
      - cbn [pb_blocks]. fold es. cbn [Nat.mul] in Hl. destruct (pb_expand_spec h it c key off E Hc Hk ltac:(lia)) as (h1 & X & E1).
        rewrite X. cbn [bind]. destruct (pblk_ok P S it c (proj1 CP) (proj1 CS)) as [Hb Lb].
        destruct (IH h1 (wadd 32 c 1) (put key off (pblk P S it c)) (off + es)%nat E1 (wadd32_lt c)) as (h2 & Y & E2).
        + apply put_bytes; assumption.
        + rewrite put_length by lia. lia.
        + exists h2. split; [|exact E2]. rewrite Y. rewrite (iter_comm (fun c => wadd 32 c 1) n c). cbn [pchain concat].
          destruct (pchain_concat it n (wadd 32 c 1)) as [_ Lc]. rewrite put_put by lia.
          replace (off + Datatypes.S n * es)%nat with (off + es + n * es)%nat by (cbn [Nat.mul]; lia). reflexivity.
    Qed.
  End Env.

  Record pbwf (env P S : list N) (o : pb_obj M) : Prop := {
    pw_m : eqv (pb_mac o) (pb_mac o);
    pw_i : view_read env (pb_ikm o) = Some P; pw_s : view_read env (pb_salt o) = Some S;
    pw_ci : chunk P; pw_cs : chunk S;
    pw_c : pb_counter o < 2 ^ 32;
    pw_b : bytes (pb_buffer o) /\ length (pb_buffer o) = es;
    pw_z : (pb_size o <= es)%nat }.

  Definition pnum (left : nat) : nat := ((left + es - 1) / es)%nat.
  Lemma pderive_spec env P S o key n : pbwf env P S o -> bytes key -> (n <= length key)%nat ->
    let s := pb_size o in
    let copy := Nat.min n s in
    let left := (n - copy)%nat in
    let k := pnum left in
    let ch := pchain P S (pb_iterations o) (pb_counter o) k in
    exists o', pb_derive cx M env o key n
      = Some (o', firstn copy (skipn (es - s) (pb_buffer o)) ++ firstn left (concat ch) ++ skipn n key, n) /\
      pbwf env P S o' /\ pb_ikm o' = pb_ikm o /\ pb_salt o' = pb_salt o /\ pb_iterations o' = pb_iterations o /\
      pb_counter o' = Nat.iter k (fun c => wadd 32 c 1) (pb_counter o) /\
      ((0 < pb_size o')%nat -> pb_buffer o' = match k with O => pb_buffer o | _ => last ch [] end) /\
      pb_size o' = (s - copy + k * es - left)%nat.
  Proof.
    intros [Wm Wi Ws Ci Cs Wc [Wb Lb] Wz] Hk Hn s copy left k ch. unfold pb_derive. fold es. fold s.
    set (bufpart := firstn copy (skipn (es - s) (pb_buffer o))).
    assert (LBP : length bufpart = copy) by (unfold bufpart; rewrite firstn_length, skipn_length; unfold copy; lia).
    assert (BBP : bytes bufpart) by apply bytes_firstn, bytes_skipn, Wb.
    assert (C1 : (if (0 <? s)%nat then Nat.min n s else 0%nat) = copy).
    { unfold copy. destruct (0 <? s)%nat eqn:Z; [reflexivity|]. apply Nat.ltb_ge in Z. lia. }
    rewrite C1.
    assert (C2 : (if (0 <? s)%nat then at_off key 0 (fun p => mem_copy cx 1 1 p (skipn (es - s) (pb_buffer o)) copy) else Some key)
                 = Some (put key 0 bufpart)).
    { destruct (0 <? s)%nat eqn:Z.
      - apply at_off_copy; [exact Hk|apply bytes_skipn, Wb|rewrite skipn_length; unfold copy; lia|unfold copy; lia].
      - apply Nat.ltb_ge in Z. assert (copy = 0%nat) by (unfold copy; lia).
        destruct bufpart; [rewrite put_nil; reflexivity|cbn in LBP; lia]. }
    rewrite C2. cbn [bind]. clear C1 C2. set (key1 := put key 0 bufpart).
    assert (K1 : key1 = bufpart ++ skipn copy key) by (unfold key1, put; rewrite firstn_O, LBP; reflexivity).
    assert (LK1 : length key1 = length key) by (unfold key1; rewrite put_length; lia).
    assert (BK1 : bytes key1) by (apply put_bytes; assumption).
    fold left. assert (CL : (copy + left = n)%nat) by (unfold left; unfold copy; lia).
    destruct (left =? 0)%nat eqn:Z.
    - apply Nat.eqb_eq in Z. assert (CN : copy = n) by lia.
      assert (K0 : k = 0%nat) by (unfold k, pnum; rewrite Z; apply Nat.div_small; lia).
      exists {| pb_mac := pb_mac o; pb_ikm := pb_ikm o; pb_salt := pb_salt o; pb_iterations := pb_iterations o; pb_counter := pb_counter o;
                pb_buffer := pb_buffer o; pb_size := (s - copy)%nat |}.
      split; [|split; [constructor; cbn [pb_mac pb_ikm pb_salt pb_iterations pb_counter pb_buffer pb_size]; auto; lia|]].
      + rewrite K1, Z. rewrite firstn_O. cbn [app]. rewrite CN. reflexivity.
      + cbn [pb_mac pb_ikm pb_salt pb_iterations pb_counter pb_buffer pb_size]. unfold ch. rewrite K0. repeat split; try reflexivity. lia.
    - apply Nat.eqb_neq in Z. rewrite (proj2 (Nat.eqb_neq es 0)) by lia.
      set (full := (left / es)%nat) in *. set (lst := (left mod es)%nat).
      assert (DM : left = (es * full + lst)%nat) by (apply Nat.div_mod; lia).
      assert (ML : (lst < es)%nat) by (apply Nat.mod_upper_bound; lia).
      destruct (pb_blocks_spec env (pb_ikm o) (pb_salt o) P S Wi Ws Ci Cs (pb_iterations o) full (pb_mac o) (pb_counter o) key1 copy Wm Wc BK1
                  ltac:(nia)) as (h & X & E). rewrite X. cbn [bind].
      destruct (pchain_concat P S Ci Cs (pb_iterations o) full (pb_counter o)) as [Bf Lf].
      set (c := pb_counter o) in *. set (it := pb_iterations o) in *.
      set (key2 := put key1 copy (concat (pchain P S it c full))).
      assert (LK2 : length key2 = length key) by (unfold key2; rewrite put_length; nia).
      assert (BK2 : bytes key2) by (apply put_bytes; assumption).
      set (c2 := Nat.iter full (fun c => wadd 32 c 1) c) in *.
      assert (Hc2 : c2 < 2 ^ 32) by (apply iter32_lt; exact Wc).
      assert (PutApp : forall x, length x = left -> put key1 copy x = bufpart ++ x ++ skipn n key).
      { intros x Lx. rewrite K1. unfold put. rewrite firstn_app, LBP, Nat.sub_diag, firstn_O, app_nil_r. rewrite firstn_all2 by lia.
        do 2 f_equal. rewrite Lx, skipn_app, skipn_all2 by lia. cbn [app]. rewrite skipn_skipn. f_equal. lia. }
      destruct (0 <? lst)%nat eqn:ZL.
      + apply Nat.ltb_lt in ZL.
        assert (K : k = Datatypes.S full).
        { unfold k, pnum. symmetry. apply (Nat.div_unique _ _ _ (lst - 1)); [lia|]. rewrite DM. nia. }
        destruct (pb_expand_spec env (pb_ikm o) (pb_salt o) P S Wi Ws Ci Cs h it c2 (pb_buffer o) 0 E Hc2 Wb ltac:(lia)) as (h2 & Y & E2).
        rewrite Y. cbn [bind]. destruct (pblk_ok P S it c2 (proj1 Ci) (proj1 Cs)) as [Hb Hl].
        assert (PA : put (pb_buffer o) 0 (pblk P S it c2) = pblk P S it c2).
        { unfold put. rewrite firstn_O, skipn_all2 by lia. apply app_nil_r. }
        rewrite PA. rewrite at_off_copy by (try assumption; nia). cbn [bind].
        exists {| pb_mac := h2; pb_ikm := pb_ikm o; pb_salt := pb_salt o; pb_iterations := it; pb_counter := wadd 32 c2 1;
                  pb_buffer := pblk P S it c2; pb_size := (es - lst)%nat |}.
        split; [|split].
        * do 3 f_equal. unfold key2. rewrite put_put; [|nia|rewrite Lf, firstn_length, LK1; nia].
          assert (Q : concat (pchain P S it c full) ++ firstn lst (pblk P S it c2) = firstn left (concat ch)).
          { unfold ch. rewrite K, pchain_snoc, concat_app. rewrite firstn_app, Lf.
            rewrite (firstn_all2 (concat (pchain P S it c full))) by nia. apply (f_equal (app _)).
            replace (left - full * es)%nat with lst by nia. cbn [concat]. rewrite app_nil_r. reflexivity. }
          rewrite Q. apply PutApp. rewrite <- Q, app_length, Lf, firstn_length. nia.
        * constructor; cbn [pb_mac pb_ikm pb_salt pb_iterations pb_counter pb_buffer pb_size]; auto; try lia. apply wadd32_lt.
        * cbn [pb_mac pb_ikm pb_salt pb_iterations pb_counter pb_buffer pb_size]. unfold ch. rewrite K.
          repeat split; try reflexivity.
          -- intros _. rewrite pchain_snoc, last_last. reflexivity.
          -- cbn [Nat.mul]. assert (s <= copy)%nat by (unfold left in Z; unfold copy in *; lia). nia.
      + apply Nat.ltb_ge in ZL. assert (L0 : lst = 0%nat) by lia.
        assert (K : k = full).
        { unfold k, pnum. symmetry. apply (Nat.div_unique _ _ _ (es - 1)); [lia|]. rewrite DM. nia. }
        exists {| pb_mac := h; pb_ikm := pb_ikm o; pb_salt := pb_salt o; pb_iterations := it; pb_counter := c2;
                  pb_buffer := pb_buffer o; pb_size := 0%nat |}.
        split; [|split].
        * do 3 f_equal. unfold key2, ch. rewrite K.
          rewrite (firstn_all2 (concat (pchain P S it c full))) by nia. apply PutApp. nia.
        * constructor; cbn [pb_mac pb_ikm pb_salt pb_iterations pb_counter pb_buffer pb_size]; auto; lia.
        * cbn [pb_mac pb_ikm pb_salt pb_iterations pb_counter pb_buffer pb_size]. unfold ch. rewrite K.
          repeat split; try reflexivity; [lia|].
          assert (s <= copy)%nat by (unfold left in Z; unfold copy in *; lia). nia.
  Qed.

  Definition pval : Type := list N * list N * N.
  Definition pstream (v : pval) (i : nat) : list N := pb_T T (fst (fst v)) (snd (fst v)) i (Nat.max 1 (N.to_nat (snd v))).
  Record phold (v : pval) (pos : nat) (o : pb_obj M) : Prop := {
    ph_m : eqv (pb_mac o) (pb_mac o);
    ph_i : chunk (fst (fst v)) /\ chunk (snd (fst v));
    ph_t : pb_iterations o = snd v;
    ph_b : bytes (pb_buffer o) /\ length (pb_buffer o) = es;
    ph_s : (pb_size o <= es)%nat;
    ph_g : exists g, pb_counter o = N.of_nat (S g) mod 2 ^ 32 /\ (pb_size o + pos = es * g)%nat /\
             ((0 < pb_size o)%nat -> pb_buffer o = pstream v g) }.

  Lemma wadd32_mod g : wadd 32 (N.of_nat (S g) mod 2 ^ 32) 1 = N.of_nat (S (S g)) mod 2 ^ 32.
  Proof. unfold wadd. rewrite N.add_mod_idemp_l by discriminate. f_equal. lia. Qed.
  Lemma iter_wadd32 : forall k g, Nat.iter k (fun c => wadd 32 c 1) (N.of_nat (S g) mod 2 ^ 32) = N.of_nat (S (g + k)) mod 2 ^ 32.
  Proof.
    induction k as [|k IH]; intros g; [rewrite Nat.add_0_r; reflexivity|].
    change (Nat.iter (S k) (fun c => wadd 32 c 1) (N.of_nat (S g) mod 2 ^ 32))
      with (wadd 32 (Nat.iter k (fun c => wadd 32 c 1) (N.of_nat (S g) mod 2 ^ 32)) 1).
    rewrite IH, wadd32_mod. do 3 f_equal. lia.
  Qed.
  Lemma pchain_T v : forall k g,
    pchain (fst (fst v)) (snd (fst v)) (snd v) (N.of_nat (S g) mod 2 ^ 32) k = map (pstream v) (seq (S g) k).
  Proof.
    induction k as [|k IH]; intros g; [reflexivity|]. cbn [pchain seq map]. rewrite wadd32_mod, IH, pblk_T. reflexivity.
  Qed.
  Lemma pstream_ok v i : chunk (fst (fst v)) -> chunk (snd (fst v)) -> length (pstream v (S i)) = es.
  Proof. intros C1 C2. unfold pstream. rewrite <- pblk_T. apply pblk_ok; [apply C1|apply C2]. Qed.

  Lemma phold_derive env v pos o key n :
    phold v pos o -> view_read env (pb_ikm o) = Some (fst (fst v)) -> view_read env (pb_salt o) = Some (snd (fst v)) ->
    bytes key -> (n <= length key)%nat ->
    exists o', pb_derive cx M env o key n = Some (o', sseg (pstream v) es pos n ++ skipn n key, n) /\ phold v (pos + n) o' /\
      pb_ikm o' = pb_ikm o /\ pb_salt o' = pb_salt o.
  Proof.
    intros [Hm [C1 C2] Ht Hb Hs (g & Hc & Hpos & Hg)] V1 V2 Hk Hn.
    assert (W : pbwf env (fst (fst v)) (snd (fst v)) o).
    { constructor; try assumption. rewrite Hc. apply N.mod_lt. discriminate. }
    pose proof (pderive_spec env _ _ o key n W Hk Hn) as D. cbn zeta in D. destruct D as (o' & E & W' & I' & S1' & T' & C' & B' & S').
    set (s := pb_size o) in *. set (copy := Nat.min n s) in *. set (left := (n - copy)%nat) in *. set (k := pnum left) in *.
    assert (TL : forall i, length (pstream v (S i)) = es) by (intros i; apply pstream_ok; assumption).
    assert (P1 : firstn copy (skipn (es - s) (pb_buffer o)) = sseg (pstream v) es pos copy).
    { destruct (Nat.eq_dec s 0) as [Z|Z].
      - unfold copy. rewrite Z, Nat.min_0_r. rewrite firstn_O. reflexivity.
      - assert (Q : (0 < g)%nat) by (destruct g; [lia|lia]). rewrite Hg by lia.
        replace pos with ((g - 1) * es + (es - s))%nat by nia.
        replace (pstream v g) with (pstream v (S (g - 1))) by (f_equal; lia).
        symmetry. apply sseg_in; [lia|unfold copy; lia|apply TL]. }
    rewrite P1, Ht, Hc in E. rewrite Hc in C'. rewrite Ht, Hc in B'. rewrite pchain_T in E, B'.
    assert (CC : concat (map (pstream v) (seq (S g) k)) = sseg (pstream v) es (g * es) (k * es)).
    { rewrite <- flat_map_concat_map. apply sseg_blocks; [lia|exact TL]. }
    assert (KL : (left <= k * es)%nat).
    { unfold k, pnum. pose proof (Nat.div_mod (left + es - 1) es ltac:(lia)). pose proof (Nat.mod_upper_bound (left + es - 1) es ltac:(lia)). nia. }
    rewrite CC in E. rewrite sseg_firstn in E by exact KL.
    exists o'. split; [|split; [|split; assumption]].
    - rewrite E. rewrite app_assoc. destruct (Nat.eq_dec left 0) as [Z|Z].
      + rewrite Z. change (sseg (pstream v) es (g * es) 0) with (@nil N). rewrite app_nil_r.
        replace copy with n by (unfold left in Z; unfold copy in *; lia). reflexivity.
      + replace (g * es)%nat with (pos + copy)%nat.
        2:{ assert (copy = s) by (unfold left in Z; unfold copy in *; lia). nia. }
        rewrite <- sseg_app. replace (copy + left)%nat with n by (unfold left; unfold copy; lia). reflexivity.
    - destruct W'. constructor; try assumption; [split; assumption|congruence|].
      exists (g + k)%nat. split; [rewrite C'; apply iter_wadd32|]. split.
      + rewrite S'. assert ((left = 0 /\ k = 0) \/ copy = s)%nat.
        { destruct (Nat.eq_dec left 0) as [Z|Z]; [left|right; unfold left in Z; unfold copy in *; lia].
          split; [exact Z|]. unfold k, pnum. rewrite Z. apply Nat.div_small. lia. }
        unfold left in *. unfold copy in *. nia.
      + intros Z. rewrite (B' Z). destruct k as [|k'] eqn:K; [|rewrite last_map_seq; f_equal; lia].
        rewrite Nat.add_0_r. apply Hg. rewrite S' in Z. lia.
  Qed.

  Record pbeq (env : list N) (o1 o2 : pb_obj M) : Prop := {
    pq_1 : exists P S, pbwf env P S o1 /\ pbwf env P S o2;
    pq_t : pb_iterations o1 = pb_iterations o2; pq_c : pb_counter o1 = pb_counter o2; pq_s : pb_size o1 = pb_size o2;
    pq_b : (0 < pb_size o1)%nat -> pb_buffer o1 = pb_buffer o2 }.
  Lemma pbeq_refl env P S o : pbwf env P S o -> pbeq env o o.
  Proof. intros W. constructor; try reflexivity. exists P, S. auto. Qed.
  Lemma pbeq_lr env o1 o2 : pbeq env o1 o2 -> pbeq env o1 o1 /\ pbeq env o2 o2.
  Proof. intros [(p & s & W1 & W2) _ _ _ _]. split; apply (pbeq_refl env p s); assumption. Qed.
  Lemma pbeq_new env : pbeq env (pb_new M) (pb_new M).
  Proof.
    apply (pbeq_refl env [] []). constructor; cbn [pb_new pb_mac pb_ikm pb_salt pb_iterations pb_counter pb_buffer pb_size]; try reflexivity; try lia.
    - apply (mo_new _ _ _ _ _ _ _ OK).
    - apply (small_chunk Hes TB); [constructor|cbn; lia].
    - apply (small_chunk Hes TB); [constructor|cbn; lia].
    - split; [apply bytes_zeros|apply repeat_length].
  Qed.
  Lemma pbeq_derive env o1 o2 n : pbeq env o1 o2 -> exists r, bytes r /\ length r = n /\ forall key, bytes key -> (n <= length key)%nat ->
    exists o1' o2', pb_derive cx M env o1 key n = Some (o1', r ++ skipn n key, n) /\
      pb_derive cx M env o2 key n = Some (o2', r ++ skipn n key, n) /\ pbeq env o1' o2'.
  Proof.
    intros [(P & S & W1 & W2) Qt Qc Qs Qb].
    set (s := pb_size o1). set (copy := Nat.min n s). set (left := (n - copy)%nat). set (k := pnum left).
    set (ch := pchain P S (pb_iterations o1) (pb_counter o1) k).
    assert (FB : firstn copy (skipn (es - s) (pb_buffer o1)) = firstn copy (skipn (es - s) (pb_buffer o2))).
    { destruct (Nat.eq_dec s 0) as [Z|Z]; [unfold copy; rewrite Z, Nat.min_0_r, !firstn_O; reflexivity|].
      rewrite Qb; [reflexivity|]. fold s. lia. }
    exists (firstn copy (skipn (es - s) (pb_buffer o1)) ++ firstn left (concat ch)).
    destruct (pchain_concat P S (pw_ci _ _ _ _ W1) (pw_cs _ _ _ _ W1) (pb_iterations o1) k (pb_counter o1)) as [Bc Lc]. fold ch in Bc, Lc.
    split; [|split].
    - apply bytes_app. split; [apply bytes_firstn, bytes_skipn, (pw_b _ _ _ _ W1)|apply bytes_firstn, Bc].
    - rewrite app_length, !firstn_length, skipn_length, Lc. rewrite (proj2 (pw_b _ _ _ _ W1)). pose proof (pw_z _ _ _ _ W1). fold s in H.
      assert (left <= k * es)%nat.
      { unfold k, pnum. pose proof (Nat.div_mod (left + es - 1) es ltac:(lia)). pose proof (Nat.mod_upper_bound (left + es - 1) es ltac:(lia)). nia. }
      unfold left in *. unfold copy in *. lia.
    - intros key Hk Hn.
      destruct (pderive_spec env P S o1 key n W1 Hk Hn) as (o1' & E1 & V1 & _ & _ & T1 & C1 & B1 & S1).
      destruct (pderive_spec env P S o2 key n W2 Hk Hn) as (o2' & E2 & V2 & _ & _ & T2 & C2 & B2 & S2).
      cbn zeta in E1, E2, C1, C2, B1, B2, S1, S2.
      rewrite <- Qs, <- Qt, <- Qc in E2. rewrite <- Qt in T2. rewrite <- Qs, <- Qc in C2. rewrite <- Qs, <- Qt, <- Qc in B2. rewrite <- Qs in S2.
      fold s in E1, E2, C1, C2, B1, B2, S1, S2.
      fold copy in E1, E2, C1, C2, B1, B2, S1, S2. fold left in E1, E2, C1, C2, B1, B2, S1, S2. fold k in E1, E2, C1, C2, B1, B2, S1, S2.
      fold ch in E1, E2, B1, B2. rewrite <- FB in E2.
      exists o1', o2'. split; [rewrite E1, app_assoc; reflexivity|]. split; [rewrite E2, app_assoc; reflexivity|].
      constructor.
      + exists P, S. auto.
      + congruence.
      + congruence.
      + congruence.
      + intros Z. rewrite (B1 Z), B2 by (rewrite S2, <- S1; exact Z). destruct k eqn:K; [|reflexivity]. apply Qb. rewrite S1 in Z. fold s. lia.
  Qed.
  Lemma pb_init_spec env o1 o2 P S it a : pbeq env o1 o1 -> pbeq env o2 o2 ->
    has env (fst (fst a)) P -> has env (snd (fst a)) S -> snd a = it -> chunk P -> chunk S ->
    exists o1' o2', pb_initialize cx M env o1 (fst (fst a)) (snd (fst a)) (snd a) = Some o1' /\
      pb_initialize cx M env o2 (fst (fst a)) (snd (fst a)) (snd a) = Some o2' /\ pbeq env o1' o2' /\
      phold (P, S, it) 0 o1' /\ view_of cx env (fst (fst a)) = Some (pb_ikm o1') /\ view_of cx env (snd (fst a)) = Some (pb_salt o1') /\
      view_read env (pb_ikm o1') = Some P /\ view_read env (pb_salt o1') = Some S.
  Proof.
    intros [(p1 & s1 & W1 & _) _ _ _ _] [(p2 & s2 & W2 & _) _ _ _ _] A1 A2 <- Ci Cs.
    destruct (has_view cx env _ P A1) as (vi & VI & RI & _). destruct (has_view cx env _ S A2) as (vs & VS & RS & _).
    unfold pb_initialize. rewrite VI, VS. cbn [bind]. eexists. eexists. split; [reflexivity|]. split; [reflexivity|].
    destruct W1, W2. split; [|split; [|cbn [pb_ikm pb_salt]; auto]].
    - constructor; cbn [pb_mac pb_ikm pb_salt pb_iterations pb_counter pb_buffer pb_size]; try reflexivity; [|lia].
      exists P, S. split; constructor; cbn [pb_mac pb_ikm pb_salt pb_iterations pb_counter pb_buffer pb_size]; try assumption; try reflexivity; lia.
    - constructor; cbn [pb_mac pb_ikm pb_salt pb_iterations pb_counter pb_buffer pb_size fst snd]; try assumption; try reflexivity; [auto|lia|].
      exists 0%nat. split; [reflexivity|]. split; lia.
  Qed.
End Pbkdf.
