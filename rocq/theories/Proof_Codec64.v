(** Proofs about the base 64 codec. *)
From Verif Require Import Base BaseLemmas Model_Codec Spec_Codec Proof_Codec16.
Local Open Scope N_scope.
Local Ltac Zify.zify_post_hook ::= Z.div_mod_to_equations.

Lemma b64_enc_digit d : d < 64 -> b64_enc d = digit b64_alphabet d.
Proof.
  intros H. apply N.eqb_eq. revert d H.
  apply (below_sweep 64 (fun d => b64_enc d =? digit b64_alphabet d)). vm_compute. reflexivity.
Qed.

Lemma triple_ind {A} (P : list A -> Prop) :
  P [] -> (forall a, P [a]) -> (forall a b, P [a; b]) ->
  (forall a b c l, P l -> P (a :: b :: c :: l)) -> forall l, P l.
Proof.
  intros H0 H1 H2 H3. fix IH 1.
  intros [|a [|b [|c l]]]; [exact H0 | exact (H1 a) | exact (H2 a b) | exact (H3 a b c l (IH l))].
Qed.

Lemma quad_ind {A} (P : list A -> Prop) :
  P [] -> (forall a, P [a]) -> (forall a b, P [a; b]) -> (forall a b c, P [a; b; c]) ->
  (forall a b c d l, P l -> P (a :: b :: c :: d :: l)) -> forall l, P l.
Proof.
  intros H0 H1 H2 H3 H4. fix IH 1.
  intros [|a [|b [|c [|d l]]]];
    [exact H0 | exact (H1 a) | exact (H2 a b) | exact (H3 a b c) | exact (H4 a b c d l (IH l))].
Qed.

(** Shift/mask expressions of the encoder as arithmetic. *)
Lemma enc_c0 a : N.shiftr a 2 = a / 4.
Proof. rewrite N.shiftr_div_pow2. reflexivity. Qed.
Lemma enc_c1 a b : b < 256 -> N.lor (N.shiftl (N.land a 3) 4) (N.shiftr b 4) = (a mod 4) * 16 + b / 16.
Proof.
  intros Hb. rewrite lor_shiftl_add.
  - change 3 with (2 ^ 2 - 1). rewrite land_ones_mod, N.shiftr_div_pow2. reflexivity.
  - rewrite N.shiftr_div_pow2. change (2 ^ 4) with 16. lia.
Qed.
Lemma enc_c2 a b : b < 256 -> N.lor (N.shiftl (N.land a 15) 2) (N.shiftr b 6) = (a mod 16) * 4 + b / 64.
Proof.
  intros Hb. rewrite lor_shiftl_add.
  - change 15 with (2 ^ 4 - 1). rewrite land_ones_mod, N.shiftr_div_pow2. reflexivity.
  - rewrite N.shiftr_div_pow2. change (2 ^ 6) with 64. change (2 ^ 2) with 4. lia.
Qed.
Lemma enc_c3 a : N.land a 63 = a mod 64.
Proof. change 63 with (2 ^ 6 - 1). apply land_ones_mod. Qed.

(** Spec of the full groups only. *)
Fixpoint b64_groups (l : list N) : list N :=
  match l with
  | a :: b :: c :: r =>
      [digit b64_alphabet (a / 4); digit b64_alphabet ((a mod 4) * 16 + b / 16);
       digit b64_alphabet ((b mod 16) * 4 + c / 64); digit b64_alphabet (c mod 64)] ++ b64_groups r
  | _ => []
  end.

Lemma wr4_app {A} (pre rest : list A) (c0 c1 c2 c3 : A) (n : nat) (K : list A -> option (list A * nat * nat)) :
  n = length pre -> (4 <= length rest)%nat ->
  (to <- wr (pre ++ rest) n c0 ;; to <- wr to (n + 1) c1 ;; to <- wr to (n + 2) c2 ;;
   to <- wr to (n + 3) c3 ;; K to)
  = K ((pre ++ [c0; c1; c2; c3]) ++ skipn 4 rest).
Proof.
  intros Hn Hr. destruct rest as [|r0 [|r1 [|r2 [|r3 rest]]]]; cbn [length] in Hr; try lia.
  rewrite wr_app by assumption. cbn [bind].
  rewrite (wr_app (pre ++ [c0]) (r2 :: r3 :: rest) r1) with (v := c1) at 1 || idtac.
  replace (pre ++ c0 :: r1 :: r2 :: r3 :: rest) with ((pre ++ [c0]) ++ r1 :: r2 :: r3 :: rest)
    by (rewrite <- app_assoc; reflexivity).
  rewrite wr_app by (rewrite app_length; cbn; lia). cbn [bind].
  replace ((pre ++ [c0]) ++ c1 :: r2 :: r3 :: rest) with ((pre ++ [c0; c1]) ++ r2 :: r3 :: rest)
    by (rewrite <- !app_assoc; reflexivity).
  rewrite wr_app by (rewrite app_length; cbn; lia). cbn [bind].
  replace ((pre ++ [c0; c1]) ++ c2 :: r3 :: rest) with ((pre ++ [c0; c1; c2]) ++ r3 :: rest)
    by (rewrite <- !app_assoc; reflexivity).
  rewrite wr_app by (rewrite app_length; cbn; lia). cbn [bind skipn].
  rewrite <- !app_assoc. reflexivity.
Qed.

Lemma b64_encode_loop_spec : forall t n pre post dpre drest fp tp,
  bytes t -> length t = (3 * n)%nat -> fp = length pre -> tp = length dpre ->
  (4 * n <= length drest)%nat ->
  b64_encode_loop (pre ++ t ++ post) (dpre ++ drest) n fp tp
  = Some (dpre ++ b64_groups t ++ skipn (4 * n) drest, (fp + 3 * n)%nat, (tp + 4 * n)%nat).
Proof.
  induction t as [|a|a b|a b c t IH] using triple_ind;
    intros n pre post dpre drest fp tp Hb Hl Hfp Htp Hd; cbn [length] in Hl; try lia.
  - destruct n; [|lia]. rewrite !Nat.mul_0_r, !Nat.add_0_r. reflexivity.
  - destruct n as [|n]; [lia|].
    inversion Hb as [|? ? Ha Hb1]; subst. inversion Hb1 as [|? ? Hbb Hb2]; subst.
    inversion Hb2 as [|? ? Hc Hb3]; subst. unfold is_byte in Ha, Hbb, Hc.
    cbn [b64_encode_loop].
    change (pre ++ (a :: b :: c :: t) ++ post) with (pre ++ a :: b :: c :: t ++ post).
    rewrite rd_app by reflexivity. cbn [bind].
    change (pre ++ a :: b :: c :: t ++ post) with (pre ++ [a] ++ b :: c :: t ++ post).
    rewrite app_assoc, rd_app by (rewrite app_length; cbn; lia). cbn [bind].
    replace ((pre ++ [a]) ++ b :: c :: t ++ post) with ((pre ++ [a; b]) ++ c :: t ++ post)
      by (rewrite <- !app_assoc; reflexivity).
    rewrite rd_app by (rewrite app_length; cbn; lia). cbn [bind].
    rewrite wr4_app by (reflexivity || lia).
    replace ((pre ++ [a; b]) ++ c :: t ++ post) with ((pre ++ [a; b; c]) ++ t ++ post)
      by (rewrite <- !app_assoc; reflexivity).
    rewrite IH; [|assumption|lia|rewrite app_length; cbn; lia|rewrite app_length; cbn; lia
                 |rewrite skipn_length; lia].
    rewrite enc_c0, enc_c1, enc_c2, enc_c3 by assumption.
    rewrite !b64_enc_digit by lia.
    cbn [b64_groups]. rewrite skipn_skipn.
    replace (4 * n + 4)%nat with (4 * S n)%nat by lia.
    rewrite <- !app_assoc. cbn [app].
    do 2 f_equal; [f_equal|]; lia.
Qed.

(** Splitting the specification after the full groups. *)
Lemma spec_b64_split t : forall last,
  (length t mod 3 = 0)%nat -> bytes t -> spec_b64 (t ++ last) = b64_groups t ++ spec_b64 last.
Proof.
  induction t as [|a|a b|a b c t IH] using triple_ind; intros last Hl Hb; try discriminate.
  - reflexivity.
  - inversion Hb as [|? ? Ha Hb1]; subst. inversion Hb1 as [|? ? Hbb Hb2]; subst.
    inversion Hb2 as [|? ? Hc Hb3]; subst. unfold is_byte in *.
    cbn [app spec_b64 b64_groups]. rewrite IH.
    + change (2 ^ 16) with 65536. change (2 ^ 8) with 256. change (2 ^ 18) with 262144.
      change (2 ^ 12) with 4096.
      repeat (f_equal; try lia).
    + cbn [length] in Hl. change (S (S (S (length t)))) with (3 + length t)%nat in Hl. lia.
    + assumption.
Qed.

Lemma b64_groups_length t : (length t mod 3 = 0)%nat -> length (b64_groups t) = (4 * (length t / 3))%nat.
Proof.
  induction t as [|a|a b|a b c t IH] using triple_ind; intros Hl; try discriminate.
  - reflexivity.
  - cbn [length] in Hl. change (S (S (S (length t)))) with (3 + length t)%nat in Hl.
    cbn [b64_groups app length]. rewrite IH by lia. lia.
Qed.

Lemma spec_b64_length l : length (spec_b64 l) = (4 * ((length l + 2) / 3))%nat.
Proof.
  induction l as [|a|a b|a b c t IH] using triple_ind; try reflexivity.
  cbn [spec_b64 app length]. rewrite IH. lia.
Qed.

Lemma split_at {A} n (l : list A) : l = firstn n l ++ skipn n l.
Proof. symmetry. apply firstn_skipn. Qed.

Lemma b64_encode_correct from to :
  bytes from -> (length (spec_b64 from) <= length to)%nat ->
  b64_encode from to
  = Some (spec_b64 from ++ skipn (length (spec_b64 from)) to, length (spec_b64 from)).
Proof.
  intros Hb Hl. unfold b64_encode.
  set (full := (length from / 3)%nat). set (r := (length from mod 3)%nat).
  assert (Hfr : length from = (3 * full + r)%nat) by (subst full r; lia).
  assert (Hr : (r < 3)%nat) by (subst r; lia).
  clearbody full r.
  pose proof (firstn_skipn (3 * full) from) as Hsplit.
  assert (Hlb : length (firstn (3 * full) from) = (3 * full)%nat) by (rewrite firstn_length; lia).
  assert (Hll : length (skipn (3 * full) from) = r) by (rewrite skipn_length; lia).
  assert (Hbb : bytes (firstn (3 * full) from)) by (apply bytes_firstn; assumption).
  assert (Hbl : bytes (skipn (3 * full) from)) by (apply bytes_skipn; assumption).
  revert Hsplit Hlb Hll Hbb Hbl.
  generalize (firstn (3 * full) from) as body. generalize (skipn (3 * full) from) as last.
  intros last body Hsplit Hlb Hll Hbb Hbl.
  rewrite spec_b64_length in Hl.
  assert (HL : ((length from + 2) / 3 = full + (if (r =? 0)%nat then 0 else 1))%nat).
  { rewrite Hfr. destruct (Nat.eqb_spec r 0); lia. }
  rewrite HL in Hl.
  assert (Hm0 : (length body mod 3 = 0)%nat) by lia.
  assert (Hg : length (b64_groups body) = (4 * full)%nat) by (rewrite b64_groups_length by assumption; rewrite Hlb; clear; lia).
  assert (Hspec : spec_b64 from = b64_groups body ++ spec_b64 last)
    by (rewrite <- Hsplit; apply spec_b64_split; assumption).
  rewrite <- Hsplit at 1.
  pose proof (b64_encode_loop_spec body full [] last [] to 0 0 Hbb Hlb eq_refl eq_refl
                ltac:(lia)) as H0. cbn [app] in H0. rewrite H0. clear H0. cbn [bind].
  rewrite !Nat.add_0_l. rewrite Hspec, app_length, Hg.
  destruct (Nat.eqb_spec r 0) as [Hr0|Hr0].
  - destruct last; [|cbn [length] in Hll; lia].
    cbn [spec_b64 app length]. rewrite !app_nil_r, Nat.add_0_r, (Nat.mul_comm full 4). reflexivity.
  - assert (Hrest : (4 <= length (skipn (4 * full) to))%nat) by (rewrite skipn_length; lia).
    rewrite <- Hsplit.
    destruct last as [|a [|b [|? ?]]]; cbn [length] in Hll; try lia.
    + rewrite <- Hll. cbn [Nat.eqb negb mask64].
      rewrite rd_app by (rewrite Hlb; reflexivity). cbn [bind].
      rewrite !Nat.add_0_r, rd_app by (rewrite Hlb; reflexivity). cbn [bind].
      inversion Hbl as [|? ? Ha ?]; subst. unfold is_byte in Ha.
      rewrite N.land_0_r. change (0 mod 256) with 0.
      rewrite N.land_0_r. change (N.lor 0 (N.land 0x3d (2 ^ 64 - 1)) mod 256) with pad_char.
      replace (b64_groups body ++ skipn (4 * full) to)
         with (b64_groups body ++ skipn (4 * full) to) by reflexivity.
      destruct (skipn (4 * full) to) as [|r0 [|r1 [|r2 [|r3 rest]]]] eqn:Er;
        cbn [length] in Hrest; try lia.
      rewrite wr_app by lia. cbn [bind].
      match goal with |- context [wr (?p ++ ?x :: ?y :: ?q) _ _] =>
        replace (p ++ x :: y :: q) with ((p ++ [x]) ++ y :: q) by (rewrite <- app_assoc; reflexivity) end.
      rewrite wr_app by (rewrite app_length; cbn; lia). cbn [bind].
      match goal with |- context [wr ((?p ++ [?x]) ++ ?y :: ?z :: ?q) _ _] =>
        replace ((p ++ [x]) ++ y :: z :: q) with ((p ++ [x; y]) ++ z :: q)
          by (rewrite <- !app_assoc; reflexivity) end.
      rewrite wr_app by (rewrite app_length; cbn; lia). cbn [bind].
      match goal with |- context [wr ((?p ++ [?x; ?w]) ++ ?y :: ?z :: ?q) _ _] =>
        replace ((p ++ [x; w]) ++ y :: z :: q) with ((p ++ [x; w; y]) ++ z :: q)
          by (rewrite <- !app_assoc; reflexivity) end.
      rewrite wr_app by (rewrite app_length; cbn; lia). cbn [bind].
      assert (Hsk : skipn (4 * full + length (spec_b64 [a])) to = rest).
      { replace (4 * full + length (spec_b64 [a]))%nat with (4 + 4 * full)%nat
          by (rewrite spec_b64_length; cbn [length]; lia).
        rewrite <- skipn_skipn, Er. reflexivity. }
      rewrite Hsk.
      rewrite enc_c0, enc_c1 by lia. rewrite !b64_enc_digit by lia.
      cbn [spec_b64]. change (2 ^ 4) with 16. change (0 / 16) with 0.
      replace (a * 16 / 64) with (a / 4) by lia.
      replace (a * 16 mod 64) with (a mod 4 * 16 + 0) by lia.
      rewrite <- !app_assoc. cbn [app length]. do 2 f_equal. lia.
    + rewrite <- Hll. cbn [Nat.eqb negb mask64].
      rewrite rd_app by (rewrite Hlb; reflexivity). cbn [bind].
      replace (body ++ [a; b]) with ((body ++ [a]) ++ [b]) by (rewrite <- app_assoc; reflexivity).
      rewrite rd_app by (rewrite app_length, Hlb; cbn; lia). cbn [bind].
      inversion Hbl as [|? ? Ha Hbl1]; subst. inversion Hbl1 as [|? ? Hb0 ?]; subst.
      unfold is_byte in Ha, Hb0.
      rewrite N.land_0_r, N.lor_0_r, !land_ones_mod.
      rewrite (N.mod_small b (2 ^ 64)) by lia. rewrite (N.mod_small b 256) by lia.
      destruct (skipn (4 * full) to) as [|r0 [|r1 [|r2 [|r3 rest]]]] eqn:Er;
        cbn [length] in Hrest; try lia.
      rewrite wr_app by lia. cbn [bind].
      match goal with |- context [wr (?p ++ ?x :: ?y :: ?q) _ _] =>
        replace (p ++ x :: y :: q) with ((p ++ [x]) ++ y :: q) by (rewrite <- app_assoc; reflexivity) end.
      rewrite wr_app by (rewrite app_length; cbn; lia). cbn [bind].
      match goal with |- context [wr ((?p ++ [?x]) ++ ?y :: ?z :: ?q) _ _] =>
        replace ((p ++ [x]) ++ y :: z :: q) with ((p ++ [x; y]) ++ z :: q)
          by (rewrite <- !app_assoc; reflexivity) end.
      rewrite wr_app by (rewrite app_length; cbn; lia). cbn [bind].
      match goal with |- context [wr ((?p ++ [?x; ?w]) ++ ?y :: ?z :: ?q) _ _] =>
        replace ((p ++ [x; w]) ++ y :: z :: q) with ((p ++ [x; w; y]) ++ z :: q)
          by (rewrite <- !app_assoc; reflexivity) end.
      rewrite wr_app by (rewrite app_length; cbn; lia). cbn [bind].
      assert (Hsk : skipn (4 * full + length (spec_b64 [a; b])) to = rest).
      { replace (4 * full + length (spec_b64 [a; b]))%nat with (4 + 4 * full)%nat
          by (rewrite spec_b64_length; cbn [length]; lia).
        rewrite <- skipn_skipn, Er. reflexivity. }
      rewrite Hsk.
      rewrite enc_c0, enc_c1 by lia.
      assert (E2 : N.shiftl (N.land b 15) 2 = b mod 16 * 4).
      { rewrite N.shiftl_mul_pow2. change 15 with (2 ^ 4 - 1). rewrite land_ones_mod. reflexivity. }
      rewrite E2.
      rewrite !b64_enc_digit by lia.
      assert (Hdig : digit b64_alphabet (b mod 16 * 4) < 256).
      { apply N.ltb_lt. assert (Hd : b mod 16 * 4 < 64) by lia. revert Hd.
        generalize (b mod 16 * 4).
        apply (below_sweep 64 (fun d => digit b64_alphabet d <? 256)). vm_compute. reflexivity. }
      rewrite (N.mod_small _ (2 ^ 64)) by lia. rewrite (N.mod_small _ 256) by lia.
      cbn [spec_b64]. change (2 ^ 8) with 256. change (2 ^ 2) with 4. change (2 ^ 12) with 4096.
      replace ((a * 256 + b) * 4 / 4096) with (a / 4) by lia.
      replace ((a * 256 + b) * 4 / 64 mod 64) with (a mod 4 * 16 + b / 16) by lia.
      replace ((a * 256 + b) * 4 mod 64) with (b mod 16 * 4) by lia.
      rewrite <- !app_assoc. cbn [app length]. do 2 f_equal. lia.
Qed.

(** encode_size *)
Lemma land_clear2 x : x < 2 ^ 64 -> N.land x (2 ^ 64 - 4) = x / 4 * 4.
Proof.
  intros Hx.
  change (2 ^ 64 - 4) with (N.shiftl (2 ^ 62 - 1) 2).
  assert (H : N.land x (N.shiftl (2 ^ 62 - 1) 2) = N.shiftl (N.land (N.shiftr x 2) (2 ^ 62 - 1)) 2).
  { apply N.bits_inj. intros i. rewrite N.land_spec.
    destruct (N.lt_ge_cases i 2) as [Hi|Hi].
    - rewrite !N.shiftl_spec_low by assumption. apply andb_false_r.
    - rewrite !N.shiftl_spec_high' by assumption. rewrite N.land_spec, N.shiftr_spec'.
      f_equal. f_equal. lia. }
  rewrite H, land_ones_mod, N.shiftr_div_pow2, N.shiftl_mul_pow2.
  change (2 ^ 2) with 4. f_equal. apply N.mod_small. lia.
Qed.

Lemma b64_encode_size_correct n : n < 2 ^ 62 -> b64_encode_size n = 4 * ((n + 2) / 3).
Proof.
  intros Hn. unfold b64_encode_size.
  change (2 ^ 64) with 18446744073709551616. change (2 ^ 62) with 4611686018427387904 in Hn.
  rewrite (N.mod_small (n * 4)) by lia.
  rewrite (N.mod_small (n * 4 / 3 + 3)) by lia.
  change 18446744073709551616 with (2 ^ 64).
  rewrite land_clear2 by (change (2 ^ 64) with 18446744073709551616; lia). lia.
Qed.

(** *** Decoding *)

Definition b64_accepts (sg : bool) (c : N) : bool :=
  match b64_value c with Some _ => true | None => sg && (128 <=? c) end.

Definition b64_cval (c : N) : N := match b64_value c with Some v => v | None => c end.

Lemma b64_char sg c : c < 256 -> b64_accepts sg c = true ->
  char_eq_u8 sg c (b64_dec sg c) = false /\ b64_dec sg c = b64_cval c.
Proof.
  intros H Ha.
  assert (Hs : implb (b64_accepts sg c) (negb (char_eq_u8 sg c (b64_dec sg c))
               && (b64_dec sg c =? b64_cval c)) = true).
  { clear Ha. revert c H.
    apply (byte_sweep (fun c => implb (b64_accepts sg c) (negb (char_eq_u8 sg c (b64_dec sg c))
               && (b64_dec sg c =? b64_cval c)))).
    destruct sg; vm_compute; reflexivity. }
  rewrite Ha in Hs. cbn [implb] in Hs.
  apply andb_prop in Hs. destruct Hs as [H1 H2].
  apply negb_true_iff in H1. apply N.eqb_eq in H2. tauto.
Qed.

Lemma b64_char_eq sg c : c < 256 ->
  char_eq_u8 sg c (b64_dec sg c) = negb (b64_accepts sg c).
Proof.
  intros H. apply eqb_prop. revert c H.
  apply (byte_sweep (fun c => Bool.eqb (char_eq_u8 sg c (b64_dec sg c)) (negb (b64_accepts sg c)))).
  destruct sg; vm_compute; reflexivity.
Qed.

(** The bytes written for a full group. *)
Definition b64_g0 (w x : N) : N := N.lor (N.shiftl w 2) (N.shiftr x 4) mod 256.
Definition b64_g1 (x y : N) : N := N.lor (N.shiftl x 4) (N.shiftr y 2) mod 256.
Definition b64_g2 (y z : N) : N := N.lor (N.shiftl y 6) z mod 256.

Definition b64_all4 sg (w x y z : N) : bool :=
  b64_accepts sg w && b64_accepts sg x && b64_accepts sg y && b64_accepts sg z.

(** Non-final groups: bytes of the accepted prefix of groups, and whether all were accepted. *)
Fixpoint b64_body (sg : bool) (t : list N) : list N * bool :=
  match t with
  | w :: x :: y :: z :: r =>
      if b64_all4 sg w x y z then
        let '(l, ok) := b64_body sg r in
        (b64_g0 (b64_cval w) (b64_cval x) :: b64_g1 (b64_cval x) (b64_cval y)
           :: b64_g2 (b64_cval y) (b64_cval z) :: l, ok)
      else ([], false)
  | _ => ([], true)
  end.

Lemma b64_body_length sg t : (length t mod 4 = 0)%nat ->
  (snd (b64_body sg t) = true -> length (fst (b64_body sg t)) = (3 * (length t / 4))%nat) /\
  (length (fst (b64_body sg t)) <= 3 * (length t / 4))%nat.
Proof.
  induction t as [|a|a b|a b c|a b c d t IH] using quad_ind; intros Hl; try discriminate.
  - cbn. split; intros; lia.
  - cbn [length] in Hl. change (S (S (S (S (length t))))) with (4 + length t)%nat in Hl.
    destruct IH as [IH1 IH2]; [lia|].
    cbn [b64_body]. destruct (b64_all4 sg a b c d).
    + destruct (b64_body sg t) as [l ok]. cbn [fst snd length] in *. split.
      * intros H. rewrite (IH1 H). lia.
      * lia.
    + cbn [fst snd length]. split; [discriminate|lia].
Qed.

Lemma or4_negb a b c d : (negb a || negb b || negb c || negb d) = negb (a && b && c && d).
Proof. destruct a, b, c, d; reflexivity. Qed.

Lemma b64_decode_loop_spec sg : forall t n pre post dpre drest fp tp,
  bytes t -> length t = (4 * n)%nat -> fp = length pre -> tp = length dpre ->
  (3 * n <= length drest)%nat ->
  b64_decode_loop sg (pre ++ t ++ post) (dpre ++ drest) n fp tp =
  let '(l, ok) := b64_body sg t in
  Some (if ok
        then inl (dpre ++ l ++ skipn (length l) drest, (fp + 4 * n)%nat, (tp + 3 * n)%nat)
        else inr (dpre ++ l ++ skipn (length l) drest, (tp + length l)%nat)).
Proof.
  induction t as [|a|a b|a b c|a b c d t IH] using quad_ind;
    intros n pre post dpre drest fp tp Hb Hl Hfp Htp Hd; cbn [length] in Hl; try lia.
  - destruct n; [|lia]. rewrite !Nat.mul_0_r, !Nat.add_0_r. reflexivity.
  - destruct n as [|n]; [lia|].
    inversion Hb as [|? ? Ha Hb1]; subst. inversion Hb1 as [|? ? Hbb Hb2]; subst.
    inversion Hb2 as [|? ? Hc Hb3]; subst. inversion Hb3 as [|? ? Hdd Hb4]; subst.
    unfold is_byte in Ha, Hbb, Hc, Hdd.
    cbn [b64_decode_loop].
    change (pre ++ (a :: b :: c :: d :: t) ++ post) with (pre ++ a :: b :: c :: d :: t ++ post).
    rewrite rd_app by reflexivity. cbn [bind].
    replace (pre ++ a :: b :: c :: d :: t ++ post) with ((pre ++ [a]) ++ b :: c :: d :: t ++ post)
      by (rewrite <- !app_assoc; reflexivity).
    rewrite rd_app by (rewrite app_length; cbn; lia). cbn [bind].
    replace ((pre ++ [a]) ++ b :: c :: d :: t ++ post) with ((pre ++ [a; b]) ++ c :: d :: t ++ post)
      by (rewrite <- !app_assoc; reflexivity).
    rewrite rd_app by (rewrite app_length; cbn; lia). cbn [bind].
    replace ((pre ++ [a; b]) ++ c :: d :: t ++ post) with ((pre ++ [a; b; c]) ++ d :: t ++ post)
      by (rewrite <- !app_assoc; reflexivity).
    rewrite rd_app by (rewrite app_length; cbn; lia). cbn [bind].
    rewrite !b64_char_eq by assumption. rewrite or4_negb.
    cbn [b64_body]. fold (b64_all4 sg a b c d).
    destruct (b64_all4 sg a b c d) eqn:E4; cbn [negb].
    + unfold b64_all4 in E4. apply andb_prop in E4. destruct E4 as [E3 Ed].
      apply andb_prop in E3. destruct E3 as [E2 Ec]. apply andb_prop in E2. destruct E2 as [Ea Eb].
      destruct (b64_char sg a Ha Ea) as [_ ->]. destruct (b64_char sg b Hbb Eb) as [_ ->].
      destruct (b64_char sg c Hc Ec) as [_ ->]. destruct (b64_char sg d Hdd Ed) as [_ ->].
      destruct drest as [|r0 [|r1 [|r2 drest]]]; cbn [length] in Hd; try lia.
      rewrite wr_app by reflexivity. cbn [bind].
      match goal with |- context [wr (?p ++ ?x :: ?y :: ?q) _ _] =>
        replace (p ++ x :: y :: q) with ((p ++ [x]) ++ y :: q) by (rewrite <- app_assoc; reflexivity) end.
      rewrite wr_app by (rewrite app_length; cbn; lia). cbn [bind].
      match goal with |- context [wr ((?p ++ [?x]) ++ ?y :: ?z :: ?q) _ _] =>
        replace ((p ++ [x]) ++ y :: z :: q) with ((p ++ [x; y]) ++ z :: q)
          by (rewrite <- !app_assoc; reflexivity) end.
      rewrite wr_app by (rewrite app_length; cbn; lia). cbn [bind].
      fold (b64_g0 (b64_cval a) (b64_cval b)). fold (b64_g1 (b64_cval b) (b64_cval c)).
      fold (b64_g2 (b64_cval c) (b64_cval d)).
      match goal with |- context [b64_decode_loop _ _ ((?p ++ [?x; ?y]) ++ ?z :: ?q) _ _ _] =>
        replace ((p ++ [x; y]) ++ z :: q) with ((p ++ [x; y; z]) ++ q)
          by (rewrite <- !app_assoc; reflexivity) end.
      replace ((pre ++ [a; b; c]) ++ d :: t ++ post) with ((pre ++ [a; b; c; d]) ++ t ++ post)
        by (rewrite <- !app_assoc; reflexivity).
      rewrite IH; [|assumption|lia|rewrite app_length; cbn; lia|rewrite app_length; cbn; lia|lia].
      destruct (b64_body sg t) as [l ok]. cbn [length skipn].
      rewrite <- !app_assoc. cbn [app].
      f_equal. destruct ok; f_equal; [f_equal; [f_equal|]|f_equal]; lia.
    + cbn [length app skipn]. rewrite Nat.add_0_r. reflexivity.
Qed.

(** The last group. *)
Definition b64_tail (sg : bool) (w x y z : N) : option (list N) :=
  let p0 := y =? 61 in
  let p1 := z =? 61 in
  if negb (b64_accepts sg w) || negb (b64_accepts sg x) || (p0 && negb p1)
     || (negb (b64_accepts sg y) && negb p0) || (negb (b64_accepts sg z) && negb p1)
  then None
  else Some (b64_g0 (b64_cval w) (b64_cval x) ::
             (if p0 then [] else [b64_g1 (b64_cval x) (b64_cval y)]) ++
             (if p1 then [] else [b64_g2 (b64_cval y) (b64_cval z)])).

Definition b64_result (sg : bool) (t : list N) : list N * bool :=
  let n := (length t - 4)%nat in
  let '(l, ok) := b64_body sg (firstn n t) in
  if ok then
    match skipn n t with
    | [w; x; y; z] =>
        match b64_tail sg w x y z with Some g => (l ++ g, true) | None => (l, false) end
    | _ => (l, true)
    end
  else (l, false).

Lemma b64_decode_exact sg t to e :
  bytes t -> (length t mod 4 = 0)%nat -> (3 * (length t / 4) <= length to)%nat ->
  b64_decode sg t to e =
  let '(l, ok) := b64_result sg t in
  Some (l ++ skipn (length l) to, length l, if ok then err_none else err_codec_base_64_decode).
Proof.
  intros Hb Hm Hl. unfold b64_decode, b64_result.
  rewrite Hm. cbn [Nat.eqb negb].
  destruct (Nat.eq_dec (length t) 0) as [H0|H0].
  - destruct t; [|discriminate]. reflexivity.
  - set (n := (length t - 4)%nat).
    assert (Hn : (length t = n + 4)%nat) by (subst n; lia).
    assert (Hq : (length t / 4 - 1 = n / 4)%nat) by lia.
    pose proof (firstn_skipn n t) as Hs.
    assert (Hlf : length (firstn n t) = n) by (rewrite firstn_length; lia).
    assert (Hls : length (skipn n t) = 4%nat) by (rewrite skipn_length; lia).
    assert (Hbf : bytes (firstn n t)) by (apply bytes_firstn; assumption).
    assert (Hbs : bytes (skipn n t)) by (apply bytes_skipn; assumption).
    assert (Hn4 : (n mod 4 = 0)%nat) by lia.
    pose proof (b64_body_length sg (firstn n t) ltac:(rewrite Hlf; exact Hn4)) as [Hok Hle].
    rewrite Hlf in Hok, Hle.
    revert Hs Hlf Hls Hbf Hbs Hok Hle.
    generalize (firstn n t) as body. generalize (skipn n t) as last.
    intros last body Hs Hlf Hls Hbf Hbs Hok Hle.
    rewrite Hq. rewrite <- Hs.
    pose proof (b64_decode_loop_spec sg body (n / 4) [] last [] to 0 0 Hbf ltac:(lia) eq_refl eq_refl
                  ltac:(lia)) as HL.
    cbn [app] in HL. rewrite HL. clear HL.
    destruct (b64_body sg body) as [l ok]. cbn [fst snd] in *. cbn [bind].
    destruct ok; cbn [bind].
    2:{ cbn [Nat.add]. reflexivity. }
    specialize (Hok eq_refl).
    rewrite Hs.
    destruct (Nat.ltb_spec 0 (length t / 4)) as [_|Hbad]; [|lia].
    rewrite <- Hs. rewrite !Nat.add_0_l.
    replace (4 * (n / 4))%nat with (length body) by lia.
    replace (3 * (n / 4))%nat with (length l) by lia.
    destruct last as [|w [|x [|y [|z [|? ?]]]]]; cbn [length] in Hls; try lia.
    rewrite rd_app by reflexivity. cbn [bind].
    replace (body ++ [w; x; y; z]) with ((body ++ [w]) ++ [x; y; z]) by (rewrite <- app_assoc; reflexivity).
    rewrite rd_app by (rewrite app_length; cbn; lia). cbn [bind].
    replace ((body ++ [w]) ++ [x; y; z]) with ((body ++ [w; x]) ++ [y; z])
      by (rewrite <- !app_assoc; reflexivity).
    rewrite rd_app by (rewrite app_length; cbn; lia). cbn [bind].
    replace ((body ++ [w; x]) ++ [y; z]) with ((body ++ [w; x; y]) ++ [z])
      by (rewrite <- !app_assoc; reflexivity).
    rewrite rd_app by (rewrite app_length; cbn; lia). cbn [bind].
    inversion Hbs as [|? ? Hw Hb1]; subst. inversion Hb1 as [|? ? Hx Hb2]; subst.
    inversion Hb2 as [|? ? Hy Hb3]; subst. inversion Hb3 as [|? ? Hz Hb4]; subst.
    unfold is_byte in Hw, Hx, Hy, Hz.
    unfold b64_tail. rewrite !b64_char_eq by assumption.
    destruct (b64_accepts sg w) eqn:Aw; cbn [negb orb];
      [|reflexivity].
    destruct (b64_accepts sg x) eqn:Ax; cbn [negb orb];
      [|reflexivity].
    destruct (b64_char sg w Hw Aw) as [_ ->]. destruct (b64_char sg x Hx Ax) as [_ ->].
    assert (Hrest : (3 <= length (skipn (length l) to))%nat) by (rewrite skipn_length; lia).
    assert (Hsk : forall m g, length g = m ->
       skipn (length (l ++ g)) to = skipn m (skipn (length l) to)).
    { intros m g Hg. rewrite skipn_skipn, app_length, Hg. f_equal. lia. }
    destruct (skipn (length l) to) as [|r0 [|r1 [|r2 drest]]] eqn:Er; cbn [length] in Hrest; try lia.
    destruct (N.eqb_spec y 61) as [Ey|Ey]; destruct (N.eqb_spec z 61) as [Ez|Ez];
      cbn [negb andb orb].
    + rewrite !andb_false_r. cbn [orb].
      rewrite wr_app by reflexivity. cbn [bind].
      rewrite (Hsk 1%nat) by reflexivity. cbn [skipn].
      rewrite <- app_assoc, app_length. cbn [app length].
      do 3 f_equal. lia.
    + rewrite Er. reflexivity.
    + rewrite andb_true_r, andb_false_r, orb_false_r.
      destruct (b64_accepts sg y) eqn:Ay; cbn [negb]; [|rewrite Er; reflexivity].
      destruct (b64_char sg y Hy Ay) as [_ ->].
      rewrite wr_app by reflexivity. cbn [bind].
      match goal with |- context [wr (?p ++ ?x :: ?y :: ?q) _ _] =>
        replace (p ++ x :: y :: q) with ((p ++ [x]) ++ y :: q) by (rewrite <- app_assoc; reflexivity) end.
      rewrite wr_app by (rewrite app_length; cbn; lia). cbn [bind].
      rewrite (Hsk 2%nat) by reflexivity. cbn [skipn].
      rewrite <- !app_assoc, app_length. cbn [app length].
      do 3 f_equal. lia.
    + rewrite !andb_true_r.
      destruct (b64_accepts sg y) eqn:Ay; cbn [negb orb]; [|rewrite Er; reflexivity].
      destruct (b64_accepts sg z) eqn:Az; cbn [negb orb]; [|rewrite Er; reflexivity].
      destruct (b64_char sg y Hy Ay) as [_ ->]. destruct (b64_char sg z Hz Az) as [_ ->].
      rewrite wr_app by reflexivity. cbn [bind].
      match goal with |- context [wr (?p ++ ?x :: ?y :: ?q) _ _] =>
        replace (p ++ x :: y :: q) with ((p ++ [x]) ++ y :: q) by (rewrite <- app_assoc; reflexivity) end.
      rewrite wr_app by (rewrite app_length; cbn; lia). cbn [bind].
      match goal with |- context [wr ((?p ++ [?x]) ++ ?y :: ?z :: ?q) _ _] =>
        replace ((p ++ [x]) ++ y :: z :: q) with ((p ++ [x; y]) ++ z :: q)
          by (rewrite <- !app_assoc; reflexivity) end.
      rewrite wr_app by (rewrite app_length; cbn; lia). cbn [bind].
      rewrite (Hsk 3%nat) by reflexivity. cbn [skipn].
      rewrite <- !app_assoc, app_length. cbn [app length].
      do 3 f_equal. lia.
Qed.

(** *** Agreement with the RFC on safe characters *)

Lemma b64_value_lt c v : b64_value c = Some v -> v < 64.
Proof.
  unfold b64_value.
  assert (Hi : forall al c v, index_of al c = Some v -> v < N.of_nat (length al)).
  { induction al as [|x al IH]; intros c' v' H; [discriminate|].
    cbn [index_of] in H. destruct (x =? c').
    - injection H as <-. cbn [length]. lia.
    - destruct (index_of al c') as [w|] eqn:E; [|discriminate].
      cbn in H. injection H as <-. specialize (IH _ _ E). cbn [length]. lia. }
  intros H. apply Hi in H. exact H.
Qed.

Lemma b64_value_ascii c v : b64_value c = Some v -> c < 128.
Proof.
  intros H. unfold b64_value in H.
  assert (Hi : forall al c v, index_of al c = Some v -> In c al).
  { induction al as [|x al IH]; intros c' v' H'; [discriminate|].
    cbn [index_of] in H'. destruct (N.eqb_spec x c') as [->|].
    - left; reflexivity.
    - destruct (index_of al c') as [w|] eqn:E; [|discriminate]. right. eapply IH. exact E. }
  assert (Ha : forallb (fun c => c <? 128) b64_alphabet = true) by (vm_compute; reflexivity).
  rewrite forallb_forall in Ha. apply Hi in H. apply N.ltb_lt. apply Ha. assumption.
Qed.

Lemma g0_arith w x : w < 64 -> x < 64 -> b64_g0 w x = w * 4 + x / 16.
Proof.
  intros Hw Hx. unfold b64_g0. rewrite N.shiftr_div_pow2, lor_shiftl_add.
  - change (2 ^ 2) with 4. change (2 ^ 4) with 16. apply N.mod_small. lia.
  - change (2 ^ 2) with 4. change (2 ^ 4) with 16. lia.
Qed.
Lemma g1_arith x y : x < 64 -> y < 64 -> b64_g1 x y = (x * 16 + y / 4) mod 256.
Proof.
  intros Hw Hx. unfold b64_g1. rewrite N.shiftr_div_pow2, lor_shiftl_add.
  - reflexivity.
  - change (2 ^ 2) with 4. change (2 ^ 4) with 16. lia.
Qed.
Lemma g2_arith y z : y < 64 -> z < 64 -> b64_g2 y z = (y * 64 + z) mod 256.
Proof.
  intros Hw Hx. unfold b64_g2. rewrite lor_shiftl_add; [reflexivity|exact Hx].
Qed.

Lemma group_arith w x y z : w < 64 -> x < 64 -> y < 64 -> z < 64 ->
  let n := w * 2 ^ 18 + x * 2 ^ 12 + y * 2 ^ 6 + z in
  n / 2 ^ 16 = b64_g0 w x /\ n / 2 ^ 8 mod 256 = b64_g1 x y /\ n mod 256 = b64_g2 y z.
Proof.
  intros Hw Hx Hy Hz n. subst n. rewrite g0_arith, g1_arith, g2_arith by assumption.
  change (2 ^ 18) with 262144. change (2 ^ 12) with 4096. change (2 ^ 6) with 64.
  change (2 ^ 16) with 65536. change (2 ^ 8) with 256. repeat split; lia.
Qed.

Definition csafe (sg : bool) (c : N) : Prop := sg = false \/ c < 128.

Lemma accepts_safe sg c : csafe sg c ->
  b64_accepts sg c = match b64_value c with Some _ => true | None => false end.
Proof.
  intros H. unfold b64_accepts. destruct (b64_value c); [reflexivity|].
  destruct H as [-> | H]; [reflexivity|].
  destruct (N.leb_spec 128 c); [lia|]. apply andb_false_r.
Qed.

Lemma b64_tail_spec sg w x y z :
  csafe sg w -> csafe sg x -> csafe sg y -> csafe sg z ->
  spec_unb64 [w; x; y; z] = b64_tail sg w x y z.
Proof.
  intros Hw Hx Hy Hz. unfold b64_tail. rewrite !accepts_safe by assumption.
  assert (Hp : b64_value 61 = None) by (vm_compute; reflexivity).
  cbn [spec_unb64]. change pad_char with 61.
  destruct (b64_value w) as [vw|] eqn:Ew; cbn [negb orb]; [|reflexivity].
  destruct (b64_value x) as [vx|] eqn:Ex; cbn [negb orb]; [|reflexivity].
  pose proof (b64_value_lt _ _ Ew). pose proof (b64_value_lt _ _ Ex).
  assert (Hcw : b64_cval w = vw) by (unfold b64_cval; rewrite Ew; reflexivity).
  assert (Hcx : b64_cval x = vx) by (unfold b64_cval; rewrite Ex; reflexivity).
  rewrite Hcw, Hcx.
  destruct (N.eqb_spec y 61) as [Ey|Ey]; destruct (N.eqb_spec z 61) as [Ez|Ez].
  - subst. rewrite Hp. cbn [negb orb andb app].
    rewrite g0_arith by assumption. change (2 ^ 6) with 64. change (2 ^ 4) with 16.
    do 2 f_equal. lia.
  - subst. rewrite Hp. cbn [negb orb andb].
    destruct (b64_value z); reflexivity.
  - subst z. rewrite Hp. destruct (b64_value y) as [vy|] eqn:Ev; cbn [negb orb andb app].
    + pose proof (b64_value_lt _ _ Ev).
      assert (Hcy : b64_cval y = vy) by (unfold b64_cval; rewrite Ev; reflexivity). rewrite Hcy.
      rewrite g0_arith, g1_arith by assumption.
      change (2 ^ 12) with 4096. change (2 ^ 6) with 64. change (2 ^ 10) with 1024.
      change (2 ^ 2) with 4.
      f_equal. f_equal; [|f_equal]; lia.
    + reflexivity.
  - destruct (b64_value y) as [vy|] eqn:Ev; destruct (b64_value z) as [vz|] eqn:Ez';
      cbn [negb orb andb app]; try reflexivity.
    pose proof (b64_value_lt _ _ Ev). pose proof (b64_value_lt _ _ Ez').
    assert (Hcy : b64_cval y = vy) by (unfold b64_cval; rewrite Ev; reflexivity).
    assert (Hcz : b64_cval z = vz) by (unfold b64_cval; rewrite Ez'; reflexivity).
    rewrite Hcy, Hcz.
    destruct (group_arith vw vx vy vz) as (-> & -> & ->); try assumption. reflexivity.
Qed.

Lemma spec_unb64_step w x y z r : r <> [] ->
  spec_unb64 (w :: x :: y :: z :: r) =
  match b64_value w, b64_value x, b64_value y, b64_value z, spec_unb64 r with
  | Some w, Some x, Some y, Some z, Some l =>
      let n := w * 2 ^ 18 + x * 2 ^ 12 + y * 2 ^ 6 + z in
      Some (n / 2 ^ 16 :: n / 2 ^ 8 mod 256 :: n mod 256 :: l)
  | _, _, _, _, _ => None
  end.
Proof. intros H. destruct r; [contradiction|]. reflexivity. Qed.

Lemma spec_unb64_split sg w x y z : forall body,
  Forall (csafe sg) (body ++ [w; x; y; z]) -> (length body mod 4 = 0)%nat ->
  spec_unb64 (body ++ [w; x; y; z]) =
  let '(l, ok) := b64_body sg body in
  if ok then option_map (app l) (b64_tail sg w x y z) else None.
Proof.
  induction body as [|a|a b|a b c|a b c d t IH] using quad_ind; intros Hs Hl; try discriminate.
  - cbn [app]. cbn [b64_body].
    inversion Hs as [|? ? H1 Hs1]; subst. inversion Hs1 as [|? ? H2 Hs2]; subst.
    inversion Hs2 as [|? ? H3 Hs3]; subst. inversion Hs3 as [|? ? H4 Hs4]; subst.
    rewrite (b64_tail_spec sg) by assumption.
    destruct (b64_tail sg w x y z); reflexivity.
  - cbn [length] in Hl. change (S (S (S (S (length t))))) with (4 + length t)%nat in Hl.
    cbn [app] in *.
    inversion Hs as [|? ? H1 Hs1]; subst. inversion Hs1 as [|? ? H2 Hs2]; subst.
    inversion Hs2 as [|? ? H3 Hs3]; subst. inversion Hs3 as [|? ? H4 Hs4]; subst.
    rewrite spec_unb64_step by (destruct t; discriminate).
    rewrite IH by (assumption || lia).
    cbn [b64_body]. unfold b64_all4. rewrite !accepts_safe by assumption.
    unfold b64_cval.
    destruct (b64_value a) as [va|] eqn:Ea; cbn [andb]; [|reflexivity].
    destruct (b64_value b) as [vb|] eqn:Eb; cbn [andb]; [|reflexivity].
    destruct (b64_value c) as [vc|] eqn:Ec; cbn [andb]; [|reflexivity].
    destruct (b64_value d) as [vd|] eqn:Ed; cbn [andb]; [|reflexivity].
    destruct (b64_body sg t) as [l ok]. destruct ok; [|reflexivity].
    destruct (b64_tail sg w x y z) as [g|]; cbn [option_map]; [|reflexivity].
    destruct (group_arith va vb vc vd) as (-> & -> & ->); try (eapply b64_value_lt; eassumption).
    reflexivity.
Qed.

Lemma char_safe_forall sg t : char_safe sg t <-> Forall (csafe sg) t.
Proof.
  unfold char_safe, csafe. split.
  - intros [->|H].
    + apply Forall_forall. auto.
    + eapply Forall_impl; [|exact H]. auto.
  - intros H. destruct sg; [right|left; reflexivity].
    eapply Forall_impl; [|exact H]. intros a [E|E]; [discriminate|exact E].
Qed.

Lemma b64_result_spec sg t : char_safe sg t -> (length t mod 4 = 0)%nat ->
  spec_unb64 t = (let '(l, ok) := b64_result sg t in if ok then Some l else None).
Proof.
  intros Hs Hm. apply char_safe_forall in Hs. unfold b64_result.
  destruct (Nat.eq_dec (length t) 0) as [H0|H0].
  - destruct t; [|discriminate]. reflexivity.
  - set (n := (length t - 4)%nat).
    assert (Hn : (length t = n + 4)%nat) by (subst n; lia).
    pose proof (firstn_skipn n t) as Hsp.
    assert (Hlf : length (firstn n t) = n) by (rewrite firstn_length; lia).
    assert (Hls : length (skipn n t) = 4%nat) by (rewrite skipn_length; lia).
    revert Hsp Hlf Hls. generalize (firstn n t) as body. generalize (skipn n t) as last.
    intros last body Hsp Hlf Hls.
    destruct last as [|w [|x [|y [|z [|? ?]]]]]; cbn [length] in Hls; try lia.
    rewrite <- Hsp in *. rewrite (spec_unb64_split sg) by (assumption || lia).
    destruct (b64_body sg body) as [l ok]. destruct ok; [|reflexivity].
    destruct (b64_tail sg w x y z); reflexivity.
Qed.

Lemma spec_unb64_mod4 t : forall l, spec_unb64 t = Some l -> (length t mod 4 = 0)%nat.
Proof.
  induction t as [|a|a b|a b c|a b c d t IH] using quad_ind; intros l H; try discriminate.
  - reflexivity.
  - destruct t as [|e t]; [reflexivity|].
    rewrite spec_unb64_step in H by discriminate.
    destruct (b64_value a); [|discriminate]. destruct (b64_value b); [|discriminate].
    destruct (b64_value c); [|discriminate]. destruct (b64_value d); [|discriminate].
    destruct (spec_unb64 (e :: t)) as [l'|] eqn:E; [|discriminate].
    specialize (IH _ eq_refl). change (length (a :: b :: c :: d :: e :: t)) with (4 + length (e :: t))%nat.
    lia.
Qed.

(** Round trip at the level of the specification. *)
Lemma b64_value_digit d : d < 64 -> b64_value (digit b64_alphabet d) = Some d.
Proof.
  intros Hd.
  assert (H := below_sweep 64 (fun d =>
     match b64_value (digit b64_alphabet d) with Some x => x =? d | _ => false end)
     ltac:(vm_compute; reflexivity) d Hd).
  cbv beta in H. destruct (b64_value (digit b64_alphabet d)) as [x|]; [|discriminate].
  apply N.eqb_eq in H. subst. reflexivity.
Qed.

Lemma spec_unb64_b64 l : bytes l -> spec_unb64 (spec_b64 l) = Some l.
Proof.
  assert (Hp : b64_value pad_char = None) by (vm_compute; reflexivity).
  induction l as [|a|a b|a b c t IH] using triple_ind; intros Hb.
  - reflexivity.
  - inversion Hb as [|? ? Ha ?]; subst. unfold is_byte in Ha.
    cbn [spec_b64 spec_unb64]. change (2 ^ 4) with 16. change (2 ^ 6) with 64.
    rewrite !b64_value_digit by lia. rewrite Hp, N.eqb_refl. cbn [andb]. do 2 f_equal. lia.
  - inversion Hb as [|? ? Ha Hb1]; subst. inversion Hb1 as [|? ? Hbb ?]; subst.
    unfold is_byte in *.
    cbn [spec_b64 spec_unb64]. change (2 ^ 8) with 256. change (2 ^ 2) with 4.
    change (2 ^ 12) with 4096. change (2 ^ 6) with 64. change (2 ^ 10) with 1024.
    rewrite !b64_value_digit by lia. rewrite Hp, N.eqb_refl.
    f_equal. f_equal; [|f_equal]; lia.
  - inversion Hb as [|? ? Ha Hb1]; subst. inversion Hb1 as [|? ? Hbb Hb2]; subst.
    inversion Hb2 as [|? ? Hc Hb3]; subst. unfold is_byte in *.
    specialize (IH Hb3).
    cbn [spec_b64 app].
    assert (E : spec_b64 t = [] -> t = []).
    { intros E. pose proof (spec_b64_length t) as HL. rewrite E in HL. cbn [length] in HL.
      destruct t; [reflexivity|]. cbn [length] in HL. lia. }
    assert (Hn : forall n, n = a * 2 ^ 16 + b * 2 ^ 8 + c ->
      n / 2 ^ 18 < 64 /\
      (let m := n / 2 ^ 18 * 2 ^ 18 + n / 2 ^ 12 mod 64 * 2 ^ 12 + n / 64 mod 64 * 2 ^ 6 + n mod 64 in
       m / 2 ^ 16 = a /\ m / 2 ^ 8 mod 256 = b /\ m mod 256 = c)).
    { intros n ->. change (2 ^ 18) with 262144. change (2 ^ 12) with 4096. change (2 ^ 6) with 64.
      change (2 ^ 16) with 65536. change (2 ^ 8) with 256.
      split; [lia|].
      assert (Hm : (a * 65536 + b * 256 + c) / 262144 * 262144 +
        (a * 65536 + b * 256 + c) / 4096 mod 64 * 4096 +
        (a * 65536 + b * 256 + c) / 64 mod 64 * 64 + (a * 65536 + b * 256 + c) mod 64
        = a * 65536 + b * 256 + c) by lia.
      cbv zeta. rewrite Hm. repeat split; lia. }
    set (n := a * 2 ^ 16 + b * 2 ^ 8 + c) in *.
    destruct (Hn n eq_refl) as [Hlt (H1 & H2 & H3)].
    destruct (spec_b64 t) as [|e r] eqn:Er.
    + rewrite (E eq_refl). cbn [spec_unb64].
      rewrite !b64_value_digit by (assumption || (apply N.mod_lt; lia)).
      rewrite H1, H2, H3. reflexivity.
    + rewrite spec_unb64_step by discriminate.
      rewrite !b64_value_digit by (assumption || (apply N.mod_lt; lia)).
      rewrite IH. cbv zeta in *. rewrite H1, H2, H3. reflexivity.
Qed.

Lemma digit_ascii al d : forallb (fun c => c <? 128) al = true -> digit al d < 128.
Proof.
  intros H. rewrite forallb_forall in H. unfold digit.
  destruct (nth_in_or_default (N.to_nat d) al 0) as [Hi|Hi].
  - apply N.ltb_lt. apply H. exact Hi.
  - rewrite Hi. lia.
Qed.

Lemma spec_b64_ascii l : Forall (fun c => c < 128) (spec_b64 l).
Proof.
  assert (Ha : forallb (fun c => c <? 128) b64_alphabet = true) by (vm_compute; reflexivity).
  assert (Hp : pad_char < 128) by (vm_compute; reflexivity).
  induction l as [|a|a b|a b c t IH] using triple_ind; cbn [spec_b64 app];
    repeat (constructor; try (apply digit_ascii; exact Ha); try exact Hp); assumption.
Qed.

(** *** decode_size and memory safety *)

Definition padding (t : list N) : nat :=
  match rev t with
  | a :: b :: c :: _ => if a =? 61 then if b =? 61 then 2 else 1 else 0
  | [a; b] => if a =? 61 then 1 else 0
  | _ => 0
  end.

Lemma b64_decode_size_rev r : (Z.of_nat (length r) * 3 < 2 ^ 64)%Z ->
  b64_decode_size (rev r) = Some (length r * 3 / 4 - padding (rev r))%nat
  /\ (padding (rev r) <= length r * 3 / 4)%nat.
Proof.
  intros Hsz. change (2 ^ 64)%Z with 18446744073709551616%Z in Hsz.
  unfold b64_decode_size, b64_decode_size_z, padding.
  rewrite rev_involutive, rev_length.
  change (2 ^ 64)%Z with 18446744073709551616%Z.
  destruct r as [|a [|b r]].
  - split; [reflexivity|cbn; lia].
  - split; [reflexivity|cbn; lia].
  - cbn [length] in *.
    destruct (Nat.ltb_spec 1 (S (S (length r)))); [|lia].
    cbn [rev].
    rewrite rd_app by (rewrite app_length, rev_length; cbn; lia). cbn [bind].
    destruct (N.eqb_spec a 61) as [Ea|Ea].
    + destruct r as [|c r].
      * cbn [length]. split; [reflexivity|cbn; lia].
      * cbn [length] in *. destruct (Nat.ltb_spec 2 (S (S (S (length r))))); [|lia].
        rewrite <- app_assoc. cbn [app].
        rewrite rd_app by (rewrite rev_length; cbn [length]; lia). cbn [bind].
        destruct (N.eqb_spec b 61) as [Eb|Eb]; split; try (f_equal; rewrite Z.mod_small); lia.
    + cbn [bind]. destruct r as [|c r]; cbn [length] in *;
       (split; [f_equal; rewrite Z.mod_small; lia|lia]).
Qed.

Lemma b64_decode_size_eq t : (Z.of_nat (length t) * 3 < 2 ^ 64)%Z ->
  b64_decode_size t = Some (length t * 3 / 4 - padding t)%nat
  /\ (padding t <= length t * 3 / 4)%nat.
Proof.
  intros H. pose proof (b64_decode_size_rev (rev t)) as HR.
  rewrite rev_involutive, rev_length in HR. apply HR. exact H.
Qed.

Lemma b64_decode_loop_safe sg from : forall n fp tp d tl,
  (fp + 4 * n <= length from)%nat -> (tp + 3 * n <= length d)%nat ->
  exists d', length d' = length d /\
    (b64_decode_loop sg from (d ++ tl) n fp tp
       = Some (inl (d' ++ tl, (fp + 4 * n)%nat, (tp + 3 * n)%nat)) \/
     exists r, b64_decode_loop sg from (d ++ tl) n fp tp = Some (inr (d' ++ tl, r))).
Proof.
  induction n as [|n IH]; intros fp tp d tl Hf Hd.
  - exists d. split; [reflexivity|left]. rewrite !Nat.mul_0_r, !Nat.add_0_r. reflexivity.
  - cbn [b64_decode_loop].
    destruct (rd_some from fp ltac:(lia)) as [c0 ->]. cbn [bind].
    destruct (rd_some from (fp + 1) ltac:(lia)) as [c1 ->]. cbn [bind].
    destruct (rd_some from (fp + 2) ltac:(lia)) as [c2 ->]. cbn [bind].
    destruct (rd_some from (fp + 3) ltac:(lia)) as [c3 ->]. cbn [bind].
    match goal with |- context [if ?b then _ else _] => destruct b end.
    + exists d. split; [reflexivity|right]. eexists. reflexivity.
    + match goal with |- context [wr (d ++ tl) tp ?v] =>
        destruct (wr_prefix d tl tp v ltac:(lia)) as (d1 & -> & H1) end. cbn [bind].
      match goal with |- context [wr (d1 ++ tl) (tp + 1) ?v] =>
        destruct (wr_prefix d1 tl (tp + 1) v ltac:(lia)) as (d2 & -> & H2) end. cbn [bind].
      match goal with |- context [wr (d2 ++ tl) (tp + 2) ?v] =>
        destruct (wr_prefix d2 tl (tp + 2) v ltac:(lia)) as (d3 & -> & H3) end. cbn [bind].
      destruct (IH (fp + 4)%nat (tp + 3)%nat d3 tl ltac:(lia) ltac:(lia)) as (d4 & H4 & H5).
      exists d4. split; [lia|].
      replace (fp + 4 * S n)%nat with (fp + 4 + 4 * n)%nat by lia.
      replace (tp + 3 * S n)%nat with (tp + 3 + 3 * n)%nat by lia.
      exact H5.
Qed.

Lemma padding_app t w x y z :
  padding (t ++ [w; x; y; z]) = (if z =? 61 then if y =? 61 then 2%nat else 1%nat else 0%nat).
Proof. unfold padding. rewrite rev_app_distr. reflexivity. Qed.

Lemma b64_decode_safe sg t d tl e n :
  (Z.of_nat (length t) * 3 < 2 ^ 64)%Z ->
  b64_decode_size t = Some n -> length d = n ->
  exists d' size e', b64_decode sg t (d ++ tl) e = Some (d' ++ tl, size, e') /\ length d' = length d.
Proof.
  intros Hz Hn Hd. destruct (b64_decode_size_eq t Hz) as [Hs _]. rewrite Hs in Hn.
  assert (Hn' : n = (length t * 3 / 4 - padding t)%nat) by congruence.
  rewrite Hn' in Hd. clear Hs Hz Hn Hn'.
  unfold b64_decode.
  destruct (Nat.eqb_spec (length t mod 4) 0) as [Hm|Hm]; cbn [negb].
  2:{ exists d. eexists _, _. split; [reflexivity|reflexivity]. }
  destruct (Nat.eq_dec (length t) 0) as [H0|H0].
  { destruct t; [|discriminate]. exists d. eexists _, _. split; reflexivity. }
  set (k := (length t - 4)%nat).
  assert (Hk : (length t = k + 4)%nat) by (subst k; lia).
  assert (Hkm : (k mod 4 = 0)%nat) by lia.
  pose proof (firstn_skipn k t) as Hsp.
  assert (Hlf : length (firstn k t) = k) by (rewrite firstn_length; lia).
  assert (Hls : length (skipn k t) = 4%nat) by (rewrite skipn_length; lia).
  revert Hsp Hlf Hls. generalize (firstn k t) as body. generalize (skipn k t) as last.
  intros last body Hsp Hlf Hls.
  destruct last as [|w [|x [|y [|z [|? ?]]]]]; cbn [length] in Hls; try lia.
  rewrite <- Hsp in Hd. rewrite padding_app, Hsp in Hd.
  assert (Hdk : (3 * (k / 4) + 3 = length t * 3 / 4)%nat) by lia.
  replace (length t / 4 - 1)%nat with (k / 4)%nat by lia.
  assert (Hpad : (3 * (k / 4) + 1 <= length d)%nat)
    by (rewrite Hd, <- Hdk; clear; destruct (z =? 61); [destruct (y =? 61)|]; lia).
  destruct (b64_decode_loop_safe sg t (k / 4) 0 0 d tl ltac:(lia) ltac:(lia))
    as (d1 & H1 & [-> | [r ->]]); cbn [bind].
  2:{ exists d1. eexists _, _. split; [reflexivity|assumption]. }
  destruct (Nat.ltb_spec 0 (length t / 4)); [|lia].
  rewrite !Nat.add_0_l.
  replace (4 * (k / 4))%nat with (length body) by lia.
  set (tp := (3 * (k / 4))%nat) in *.
  rewrite <- Hsp.
  rewrite rd_app by reflexivity. cbn [bind].
  replace (body ++ [w; x; y; z]) with ((body ++ [w]) ++ [x; y; z]) by (rewrite <- app_assoc; reflexivity).
  rewrite rd_app by (rewrite app_length; cbn; lia). cbn [bind].
  replace ((body ++ [w]) ++ [x; y; z]) with ((body ++ [w; x]) ++ [y; z])
    by (rewrite <- !app_assoc; reflexivity).
  rewrite rd_app by (rewrite app_length; cbn; lia). cbn [bind].
  replace ((body ++ [w; x]) ++ [y; z]) with ((body ++ [w; x; y]) ++ [z])
    by (rewrite <- !app_assoc; reflexivity).
  rewrite rd_app by (rewrite app_length; cbn; lia). cbn [bind].
  destruct (y =? 61) eqn:Ey; destruct (z =? 61) eqn:Ez; cbn [negb andb].
  all: match goal with |- context [if ?b then _ else _] =>
         match b with context [char_eq_u8] => destruct b end end;
       [exists d1; eexists _, _; split; [reflexivity|assumption]|].
  all: match goal with |- context [wr (?q ++ ?u) ?i ?v] =>
        destruct (wr_prefix q u i v ltac:(lia)) as (d2 & -> & H2) end; cbn [bind].
  1: exists d2; eexists _, _; split; [reflexivity|lia].
  1:{ match goal with |- context [wr (d2 ++ tl) (tp + 2) ?v] =>
        destruct (wr_prefix d2 tl (tp + 2) v ltac:(lia)) as (d3 & -> & H3) end; cbn [bind].
      exists d3; eexists _, _; split; [reflexivity|lia]. }
  all: match goal with |- context [wr (?q ++ ?u) ?i ?v] =>
        destruct (wr_prefix q u i v ltac:(lia)) as (d3 & -> & H3) end; cbn [bind].
  1: exists d3; eexists _, _; split; [reflexivity|lia].
  match goal with |- context [wr (d3 ++ tl) (tp + 2) ?v] =>
    destruct (wr_prefix d3 tl (tp + 2) v ltac:(lia)) as (d4 & -> & H4) end; cbn [bind].
  exists d4; eexists _, _; split; [reflexivity|lia].
Qed.

(** On valid text decode_size is exactly the decoded length. *)
Lemma spec_unb64_size sg t l : spec_unb64 t = Some l -> char_safe sg t ->
  length l = (length t * 3 / 4 - padding t)%nat.
Proof.
  intros H Hs. pose proof (spec_unb64_mod4 _ _ H) as Hm.
  destruct (Nat.eq_dec (length t) 0) as [H0|H0].
  { destruct t; [|discriminate]. cbn in H. injection H as <-. reflexivity. }
  set (k := (length t - 4)%nat).
  assert (Hk : (length t = k + 4)%nat) by (subst k; lia).
  pose proof (firstn_skipn k t) as Hsp.
  assert (Hlf : length (firstn k t) = k) by (rewrite firstn_length; lia).
  assert (Hls : length (skipn k t) = 4%nat) by (rewrite skipn_length; lia).
  revert Hsp Hlf Hls. generalize (firstn k t) as body. generalize (skipn k t) as last.
  intros last body Hsp Hlf Hls.
  destruct last as [|w [|x [|y [|z [|? ?]]]]]; cbn [length] in Hls; try lia.
  apply char_safe_forall in Hs.
  pose proof (b64_body_length sg body ltac:(lia)) as [Hok _].
  rewrite <- Hsp in *. rewrite padding_app.
  rewrite (spec_unb64_split sg) in H by (assumption || lia).
  destruct (b64_body sg body) as [lb ok]. cbn [fst snd] in Hok. destruct ok; [|discriminate].
  specialize (Hok eq_refl).
  destruct (b64_tail sg w x y z) as [g|] eqn:Eg; [|discriminate].
  cbn [option_map] in H. injection H as <-. rewrite app_length, Hok.
  rewrite app_length. cbn [length].
  unfold b64_tail in Eg.
  destruct (y =? 61); destruct (z =? 61); cbn [negb andb orb] in Eg.
  all: match type of Eg with (if ?b then _ else _) = _ => destruct b eqn:Eb; [discriminate|] end.
  all: injection Eg as <-; cbn [app length]; try lia.
Qed.
