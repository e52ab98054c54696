(** Property C49: the answers do not depend on where and how the calls are evaluated: at compile time or at run time, on a
    little-endian or a big-endian host, with the portable or an assembly backend; an object may even go from one
    circumstance to the other between two calls (a constexpr object goes on living at run time).
    [run_in] ([Spec_Portable]) runs a history in which every call has its own circumstances.  C49_*_refuted: where the
    code depends on them. *)
From Verif Require Import Base BaseLemmas BytesLemmas Spec_Bytes Spec_Sha Spec_Hmac Spec_Poly Spec_ChaCha Spec_Range Model_Memory Model_Container Model_Sha
  Model_Mac Model_Hmac Model_Poly Spec_Hash Spec_Mac Spec_Cipher Model_Cipher Model_Aead Spec_Aead Model_Kdf Spec_Kdf Model_X86 Model_ShaAsm Model_ChaChaAsm
  Spec_ChaChaAsm Proof_ShaCore Proof_Sha Proof_ShaHist Proof_ShaApi Proof_Mac Proof_Hmac Proof_Poly Proof_ChaCha Proof_ChaChaAsm4 Proof_ShaAsm3 Spec_Portable Proof_Portable Proof_Portable2
  Prop_Sha Prop_Poly Prop_Cipher Prop_Aead Prop_Kdf Prop_ChaChaAsm Prop_ShaAsm.
Local Open Scope N_scope.

(** *** Hashes: every history, all circumstances. *)
Theorem C49_hash : forall cx a j calls, any_regs j -> Forall (hcall_ok (milo_hash a)) (map snd calls) ->
  exists p p' outs,
    hash_run cx (milo_hash a) (hapie_new (milo_hash a)) (map snd calls) = Some (p, outs) /\
    run_in (fun cx => hash_step cx (ni_hash a j)) (hapie_new (ni_hash a j)) calls = Some (p', outs).
Proof.
  intros cx a j calls J Hc.
  assert (Ed : ha_digest_size (milo_hash a) = ha_digest_size (ni_hash a j)) by (destruct a; reflexivity).
  destruct (hash_mixed a (milo_hash a) (ni_hash a j) (default_ok a) (ni_alg_ok a j _ J) (dsz_default a) Ed cx calls _ _
    (aeq2_new a _ _ (default_ok a) (ni_alg_ok a j _ J) (dsz_default a) Ed) Hc) as (p & p' & outs & E1 & E2 & _).
  exists p, p', outs. auto.
Qed.
Print Assumptions C49_hash.
(** The same for the portable backend alone (no assembly), so that every combination of both is covered. *)
Theorem C49_hash_portable : forall cx a calls, Forall (hcall_ok (milo_hash a)) (map snd calls) ->
  exists p p' outs,
    hash_run cx (milo_hash a) (hapie_new (milo_hash a)) (map snd calls) = Some (p, outs) /\
    run_in (fun cx => hash_step cx (milo_hash a)) (hapie_new (milo_hash a)) calls = Some (p', outs).
Proof.
  intros cx a calls Hc.
  destruct (hash_mixed a (milo_hash a) (milo_hash a) (default_ok a) (default_ok a) (dsz_default a) eq_refl cx calls _ _
    (aeq2_new a _ _ (default_ok a) (default_ok a) (dsz_default a) eq_refl) Hc) as (p & p' & outs & E1 & E2 & _).
  exists p, p', outs. auto.
Qed.
Print Assumptions C49_hash_portable.

(** *** HMAC: every key and history, all circumstances (also those of the construction). *)
Theorem C49_hmac : forall cx cx' a dsz key calls, (dsz <= sha_digest_size a)%nat -> chunk key ->
  Forall (mcall_ok chunk dsz) (map snd calls) ->
  let M := mac_hmac (milo_hash a) dsz in
  exists p q p' q' outs,
    mapie_new cx M key = Some p /\ mac_run cx M p (map snd calls) = Some (p', outs) /\
    mapie_new cx' M key = Some q /\ run_in (fun cx => mac_step cx M) q calls = Some (q', outs).
Proof.
  intros cx cx' a dsz key calls Hd Hk Hc M.
  exact (mac_mixed (good := fun _ => True) (fun cx _ => milo_hmac_ok cx a dsz Hd)
    (fun cx1 cx2 _ _ => hmac_two a (milo_hash a) cx1 cx2 dsz (default_ok a) (dsz_default a))
    cx cx' key calls I I Hk (proj2 (Forall_forall _ _) (fun _ _ => I)) Hc).
Qed.
Print Assumptions C49_hmac.

(** *** Poly1305: all circumstances on hosts of one byte order; not between a little-endian and a big-endian one. *)
Theorem C49_poly1305_partial : forall cx cx' dsz key calls, (dsz <= 16)%nat -> bytes key ->
  cx_big cx' = cx_big cx -> Forall (fun x => cx_big (fst x) = cx_big cx) calls ->
  Forall (mcall_ok bytes dsz) (map snd calls) ->
  let M := mac_poly dsz in
  exists p q p' q' outs,
    mapie_new cx M key = Some p /\ mac_run cx M p (map snd calls) = Some (p', outs) /\
    mapie_new cx' M key = Some q /\ run_in (fun cx => mac_step cx M) q calls = Some (q', outs).
Proof.
  intros cx cx' dsz key calls Hd Hk B2 Hb Hc M. set (b := cx_big cx) in B2, Hb.
  assert (K : forall c, cx_big c = b -> mac_ok M c bytes (fun k m => firstn dsz (poly1305_on b (pad_to 32 k) m)) peq
    (fun k m o => phold (host_key b k) m o) (fun o => flat_map (le_enc 4) (po_acc o))) by (intros c <-; exact (poly_on true c dsz Hd)).
  exact (mac_mixed (good := fun c => cx_big c = b) K
    (fun cx1 cx2 H1 H2 => poly_two true cx1 cx2 dsz (eq_trans H1 (eq_sym H2))) cx cx' key calls eq_refl B2 Hk Hb Hc).
Qed.
Print Assumptions C49_poly1305_partial.
Theorem C49_poly1305_refuted : exists key msg t t', bytes key /\ length key = 32%nat /\ chunk msg /\
  mac_free_digest_new {| cx_big := false; cx_ce := false |} (mac_poly 16) key msg 16 = Some t /\
  mac_free_digest_new {| cx_big := true; cx_ce := false |} (mac_poly 16) key msg 16 = Some t' /\ t <> t'.
Proof.
  exists poly_key_example, [1]. do 2 eexists. split; [apply BytesLemmas.be_enc_bytes|]. split; [reflexivity|]. split.
  - unfold chunk, bytes, is_byte. repeat constructor; cbn; lia.
  - split; [vm_compute; reflexivity|]. split; [vm_compute; reflexivity|]. vm_compute. discriminate.
Qed.
Print Assumptions C49_poly1305_refuted.

(** *** ChaCha20: every history, all circumstances, if the number of blocks that the backend makes at a time changes only
    where no key stream byte is left over ([smooth]); otherwise text is left unencrypted ([C27_compile_time_then_run_time_refuted]). *)
Theorem C49_chacha20_partial : forall cx B key iv calls, backend_ok cx B -> bytes key -> bytes iv ->
  Forall (fun x => backend_ok (snd (fst x)) (fst (fst x))) calls -> Forall ccall_ok (map snd calls) ->
  smooth (bk_ratio B) 0 calls ->
  exists o o', capie_new cx key iv = Some o /\ run_in cipher_in o calls = Some (o', cexpected key iv 0 (map snd calls)).
Proof.
  intros cx B key iv calls BO Hk Hv Hb Hc Hs.
  destruct (initialize_spec cx B cc_new key iv cc_new_wf Hk Hv) as (o & E & I).
  destruct (cipher_mixed calls (bk_ratio B) 0 key iv 0 o Hb Hc Hs Hk Hv) as (o' & R).
  - pose proof (bo_ratio _ _ BO) as Hr. split; [exact Hr|]. split.
    + rewrite Nat.mod_0_l by lia. unfold capie_new, capie_initialize, cc_initialize in E. revert E. clear.
      repeat match goal with |- context [bind ?x _] => destruct x; cbn [bind]; [|discriminate] end.
      intros E. injection E as <-. reflexivity.
    + intros B' HB. destruct I as (gen & Es & I). exists gen. split; [exact Es|]. unfold bk_block in *. rewrite HB. exact I.
  - exists o, o'. auto.
Qed.
Print Assumptions C49_chacha20_partial.
(** For instance, a constexpr object that has encrypted whole blocks goes on at run time with any backend. *)
Theorem C49_chacha20_whole_blocks : forall cx B key iv before later, backend_ok cx B -> bytes key -> bytes iv ->
  Forall ccall_ok before -> Forall ccall_ok later -> (forall c, In c before -> forall k v, c <> CInit k v) ->
  (fold_right (fun c n => ctext c + n) 0 before mod 64 = 0)%nat ->
  exists o o1 o2, capie_new ct key iv = Some o /\ cipher_run bk_sw ct o before = Some (o1, cexpected key iv 0 before) /\
    cipher_run B cx o1 later = Some (o2, skipn (length before) (cexpected key iv 0 (before ++ later))).
Proof.
  intros cx B key iv before later BO Hk Hv Hb Hl Hn Hm.
  assert (S1 : forall l r q, r = bk_ratio B -> smooth r q (map (fun c => ((B, cx), c)) l)).
  { induction l as [|c l IH]; intros r q Er; [exact I|]. destruct c; cbn [map smooth]; try (left; split; [congruence|]); apply IH; congruence. }
  assert (S2 : forall l q, (forall c, In c l -> forall k v, c <> CInit k v) ->
    ((q + fold_right (fun c n => ctext c + n) 0 l) mod 64 = 0)%nat ->
    smooth 1 q (map (fun c => ((bk_sw, ct), c)) l ++ map (fun c => ((B, cx), c)) later)).
  { induction l as [|c l IH]; intros q Hi Hq; cbn [map app fold_right] in *.
    - rewrite Nat.add_0_r in Hq. destruct later as [|c later]; [exact I|].
      destruct c; cbn [map smooth]; try (right; split; [rewrite Nat.mul_1_r; exact Hq|]); apply S1; reflexivity.
    - assert (Hc : smooth 1 (q + ctext c) (map (fun c => ((bk_sw, ct), c)) l ++ map (fun c => ((B, cx), c)) later)).
      { apply IH; [intros c' H; apply Hi; right; exact H|]. rewrite <- Nat.add_assoc. exact Hq. }
      destruct c; [destruct (Hi _ (or_introl eq_refl) _ _ eq_refl)|cbn [map smooth]; left; split; [reflexivity|exact Hc]..]. }
  destruct (C49_chacha20_partial ct bk_sw key iv (map (fun c => ((bk_sw, ct), c)) before ++ map (fun c => ((B, cx), c)) later)
    (bk_sw_ok ct) Hk Hv) as (o & o' & E & R).
  - apply Forall_app. split; apply Forall_forall; intros x Hx; apply in_map_iff in Hx; destruct Hx as (c & <- & _); [apply bk_sw_ok|exact BO].
  - rewrite map_app, !map_map. cbn [snd]. rewrite !map_id. apply Forall_app. split; assumption.
  - apply S2; [exact Hn|exact Hm].
  - rewrite map_app, !map_map in R. cbn [snd] in R. rewrite !map_id in R.
    assert (RA : forall (B : backend) cx l o rest, run_in cipher_in o (map (fun c => ((B, cx), c)) l ++ rest) =
      ('(o, r) <- cipher_run B cx o l ;; '(o, rs) <- run_in cipher_in o rest ;; Some (o, r ++ rs))).
    { clear. intros B cx. induction l as [|c l IH]; intros o rest; cbn [map app run_in cipher_run].
      - cbn [bind]. destruct (run_in cipher_in o rest) as [[? ?]|]; reflexivity.
      - unfold cipher_in at 1. cbn [fst snd]. destruct (cipher_step B cx o c) as [[o1 r1]|]; [|reflexivity]. cbn [bind].
        rewrite IH. destruct (cipher_run B cx o1 l) as [[o2 r2]|]; [|reflexivity]. cbn [bind].
        destruct (run_in cipher_in o2 rest) as [[? ?]|]; reflexivity. }
    rewrite RA in R. destruct (cipher_history ct bk_sw key iv before (bk_sw_ok ct) Hk Hv Hb) as (oo & o1 & E1 & R1).
    assert (oo = o) by congruence. subst oo. rewrite R1 in R. cbn [bind] in R.
    replace (map (fun c => ((B, cx), c)) later) with (map (fun c => ((B, cx), c)) later ++ []) in R by apply app_nil_r.
    rewrite RA in R. destruct (cipher_run B cx o1 later) as [[o2 r2]|] eqn:E2; [|discriminate]. cbn [bind run_in] in R.
    exists o, o1, o2. split; [exact E|]. split; [exact R1|]. rewrite app_nil_r in R.
    assert (R' : cexpected key iv 0 (before ++ later) = cexpected key iv 0 before ++ r2).
    { set (w := cexpected key iv 0 (before ++ later)) in *. set (w1 := cexpected key iv 0 before) in *. clearbody w w1. congruence. }
    assert (LE : forall l k v pos, length (cexpected k v pos l) = length l).
    { clear. induction l as [|c l IH]; intros k v pos; [reflexivity|]. destruct c; cbn [cexpected length]; rewrite IH; reflexivity. }
    rewrite R', skipn_app, LE, Nat.sub_diag, skipn_all2 by (rewrite LE; lia). exact E2.
Qed.
Print Assumptions C49_chacha20_whole_blocks.
(** Not every change: the object that crosses in the middle of a block (any backend of 4 or 8 blocks) gives another
    answer than the one that stays. *)
Theorem C49_chacha20_refuted : forall B, bk_ratio B = 4%nat \/ bk_ratio B = 8%nat ->
  exists key iv o o' outs, bytes key /\ bytes iv /\ capie_new ct key iv = Some o /\
    let calls := [CCryptC Encrypt [7] (Dynamic []); CCryptC Encrypt (repeat 7 100) (Dynamic [])] in
    Forall ccall_ok calls /\
    run_in cipher_in o (combine [(bk_sw, ct); (B, rt)] calls) = Some (o', outs) /\ outs <> cexpected key iv 0 calls.
Proof.
  intros [r t g] H. exists zeros32, ones16. cbn [bk_ratio] in H.
  assert (F : Forall ccall_ok [CCryptC Encrypt [7] (Dynamic []); CCryptC Encrypt (repeat 7 100) (Dynamic [])]).
  { repeat apply Forall_cons; [| |apply Forall_nil].
    - split; [repeat constructor; unfold is_byte; lia|]. split; [constructor|exact I].
    - split; [apply Forall_forall; intros x Hx; apply repeat_spec in Hx; subst x; unfold is_byte; lia|]. split; [constructor|exact I]. }
  destruct H; subst r; do 3 eexists; (split; [repeat constructor; unfold is_byte; lia|]; split; [repeat constructor; unfold is_byte; lia|];
    split; [vm_compute; reflexivity|]; cbv zeta; split; [exact F|]; split; [vm_compute; reflexivity|]; vm_compute; discriminate).
Qed.
Print Assumptions C49_chacha20_refuted.

(** *** ChaCha20-Poly1305: two objects that live each in its own circumstances, both on hosts of one byte order. *)
Theorem C49_aead_partial : forall cx1 cx2 B1 B2 dsz key iv calls, backend_ok cx1 B1 -> backend_ok cx2 B2 ->
  cx_big cx1 = cx_big cx2 -> (dsz <= 16)%nat -> bytes key -> bytes iv ->
  Forall (acall_ok dsz) calls -> aorderly false false 0 calls = true ->
  exists p p' q q' outs,
    aapie_new B1 cx1 key iv = Some p /\ aead_run B1 cx1 dsz p calls = Some (p', outs) /\
    aapie_new B2 cx2 key iv = Some q /\ aead_run B2 cx2 dsz q calls = Some (q', outs).
Proof.
  intros cx1 cx2 B1 B2 dsz key iv calls O1 O2 E1 Hd Hk Hv Hc Ho.
  destruct (C29_history_any_host cx1 B1 dsz key iv calls O1 Hd Hk Hv Hc Ho) as (p & p' & N1 & R1). rewrite E1 in R1.
  destruct (C29_history_any_host cx2 B2 dsz key iv calls O2 Hd Hk Hv Hc Ho) as (q & q' & N2 & R2).
  exists p, p', q, q', (aexpected_on (cx_big cx2) dsz key iv [] [] calls). auto.
Qed.
Print Assumptions C49_aead_partial.

(** One object that goes from one circumstance to another, under the condition of [C49_chacha20_partial]. *)
Theorem C49_aead_crossing_partial : forall cx B dsz key iv calls, backend_ok cx B -> (dsz <= 16)%nat -> bytes key -> bytes iv ->
  Forall (fun x => backend_ok (snd (fst x)) (fst (fst x)) /\ cx_big (snd (fst x)) = cx_big cx) calls ->
  Forall (acall_ok dsz) (map snd calls) -> aorderly false false 0 (map snd calls) = true ->
  asmooth (bk_ratio B) 64 calls ->
  exists p p', aapie_new B cx key iv = Some p /\ run_in (aead_in dsz) p calls = Some (p', aexpected_on (cx_big cx) dsz key iv [] [] (map snd calls)).
Proof. intros cx B dsz key iv calls BO Hd Hk Hv Hbs Hc Ho Hs. exact (aead_mixed_new dsz cx B key iv calls Hd BO Hk Hv Hbs Hc Hs Ho). Qed.
Print Assumptions C49_aead_crossing_partial.
(** For instance, an object that was made, and given additional data, at compile time encrypts at run time with any backend. *)
Theorem C49_aead_constexpr : forall cx B dsz key iv aads later, backend_ok cx B -> (dsz <= 16)%nat -> bytes key -> bytes iv ->
  Forall chunk aads -> Forall (acall_ok dsz) later -> aorderly false false (length (concat aads)) later = true ->
  let ct := {| cx_big := cx_big cx; cx_ce := true |} in
  exists p p1 outs p2, aapie_new bk_sw ct key iv = Some p /\ aead_run bk_sw ct dsz p (map AAad aads) = Some (p1, outs) /\
    aead_run B cx dsz p1 later = Some (p2, aexpected_on (cx_big cx) dsz key iv (concat aads) [] later).
Proof.
  intros cx B dsz key iv aads later BO Hd Hk Hv Ha Hl Ho ct.
  set (calls := map (fun c => ((bk_sw, ct), c)) (map AAad aads) ++ map (fun c => ((B, cx), c)) later).
  assert (Em : map snd calls = map AAad aads ++ later) by (unfold calls; rewrite map_app, !map_map; cbn [snd]; rewrite map_id; reflexivity).
  assert (OA : forall l n, aorderly false false n (map AAad l ++ later) = aorderly false false (n + length (concat l)) later).
  { induction l as [|d l IH]; intros n; cbn [map app concat length aorderly negb andb]; [rewrite Nat.add_0_r; reflexivity|].
    rewrite IH, app_length, Nat.add_assoc. reflexivity. }
  assert (S1 : forall l q, asmooth (bk_ratio B) q (map (fun c => ((B, cx), c)) l)).
  { induction l as [|c l IH]; intros q; [exact I|]. destruct c; cbn [map asmooth]; try (left; split; [reflexivity|]); apply IH. }
  assert (S2 : asmooth 1 64 calls).
  { unfold calls. clear. induction aads as [|d l IH]; cbn [map app asmooth]; [|exact IH].
    assert (S1 : forall l q, asmooth (bk_ratio B) q (map (fun c => ((B, cx), c)) l)).
    { induction l as [|c l IH]; intros q; [exact I|]. destruct c; cbn [map asmooth]; try (left; split; [reflexivity|]); apply IH. }
    induction later as [|c l IH]; [exact I|]. destruct c; cbn [map asmooth]; try exact IH; try apply S1; right; (split; [reflexivity|apply S1]). }
  destruct (C49_aead_crossing_partial ct bk_sw dsz key iv calls (bk_sw_ok ct) Hd Hk Hv) as (p & p' & E & R).
  - unfold calls. apply Forall_app. split; apply Forall_forall; intros x Hx; apply in_map_iff in Hx; destruct Hx as (c & <- & _); cbn [fst snd]; auto using bk_sw_ok.
  - rewrite Em. apply Forall_app. split; [|exact Hl]. apply Forall_forall. intros x Hx. apply in_map_iff in Hx. destruct Hx as (d & <- & Hx).
    exact (proj1 (Forall_forall _ _) Ha d Hx).
  - rewrite Em, OA. exact Ho.
  - exact S2.
  - rewrite Em in R.
    assert (RA : forall (B : backend) cx l o rest, run_in (aead_in dsz) o (map (fun c => ((B, cx), c)) l ++ rest) =
      ('(o, r) <- aead_run B cx dsz o l ;; '(o, rs) <- run_in (aead_in dsz) o rest ;; Some (o, r ++ rs))).
    { clear. intros B cx. induction l as [|c l IH]; intros o rest; cbn [map app run_in aead_run].
      - cbn [bind]. destruct (run_in (aead_in dsz) o rest) as [[? ?]|]; reflexivity.
      - unfold aead_in at 1. cbn [fst snd]. destruct (aead_step B cx dsz o c) as [[o1 r1]|]; [|reflexivity]. cbn [bind].
        rewrite IH. destruct (aead_run B cx dsz o1 l) as [[o2 r2]|]; [|reflexivity]. cbn [bind].
        destruct (run_in (aead_in dsz) o2 rest) as [[? ?]|]; reflexivity. }
    unfold calls in R. rewrite RA in R. destruct (aead_run bk_sw ct dsz p (map AAad aads)) as [[p1 outs]|] eqn:E1; [|discriminate]. cbn [bind] in R.
    replace (map (fun c => ((B, cx), c)) later) with (map (fun c => ((B, cx), c)) later ++ []) in R by apply app_nil_r.
    rewrite RA in R. destruct (aead_run B cx dsz p1 later) as [[p2 outs2]|] eqn:E2; [|discriminate]. cbn [bind run_in] in R. rewrite app_nil_r in R.
    exists p, p1, outs, p2. split; [exact E|]. split; [exact E1|].
    assert (XA : forall l a, aexpected_on (cx_big cx) dsz key iv a [] (map AAad l ++ later) = map (fun _ => ANone) l ++ aexpected_on (cx_big cx) dsz key iv (a ++ concat l) [] later).
    { clear. induction l as [|d l IH]; intros a; cbn [map app concat aexpected_on]; [rewrite app_nil_r; reflexivity|]. rewrite IH, <- app_assoc. reflexivity. }
    rewrite XA in R. cbn [app] in R.
    assert (Lo : length outs = length aads).
    { clear -E1. revert p outs p1 E1. induction aads as [|d l IH]; intros p outs p1 E1; cbn [map aead_run] in E1.
      - assert (X : outs = []) by congruence. rewrite X. reflexivity.
      - destruct (aead_step bk_sw ct dsz p (AAad d)) as [[q r]|]; [|discriminate]. cbn [bind] in E1.
        destruct (aead_run bk_sw ct dsz q (map AAad l)) as [[q' rs]|] eqn:E; [|discriminate]. cbn [bind] in E1.
        assert (X : outs = r :: rs) by congruence. rewrite X. cbn [length]. f_equal. exact (IH _ _ _ E). }
    assert (R' : outs ++ outs2 = map (fun _ => ANone) aads ++ aexpected_on (cx_big cx) dsz key iv (concat aads) [] later) by congruence.
    apply (f_equal (skipn (length aads))) in R'. rewrite !skipn_app in R'. rewrite Lo, map_length, Nat.sub_diag, !skipn_O in R'.
    rewrite (skipn_all2 outs), (skipn_all2 (map _ aads)) in R' by (rewrite ?map_length; lia). cbn [app] in R'. rewrite <- R'. exact E2.
Qed.
Print Assumptions C49_aead_constexpr.
(** Not every change: text that begins at compile time in the middle of a block and goes on with an assembly backend. *)
Theorem C49_aead_refuted : forall B, bk_ratio B = 4%nat \/ bk_ratio B = 8%nat ->
  exists key iv p p' outs, bytes key /\ bytes iv /\ aapie_new bk_sw ct key iv = Some p /\
    let calls := [ACryptC Encrypt [7] (Dynamic []); ACryptC Encrypt (repeat 7 100) (Dynamic [])] in
    Forall (acall_ok 16) calls /\ aorderly false false 0 calls = true /\
    run_in (aead_in 16) p (combine [(bk_sw, ct); (B, rt)] calls) = Some (p', outs) /\ outs <> aexpected 16 key iv [] [] calls.
Proof.
  intros [r t g] H. exists zeros32, ones16. cbn [bk_ratio] in H.
  assert (F : Forall (acall_ok 16) [ACryptC Encrypt [7] (Dynamic []); ACryptC Encrypt (repeat 7 100) (Dynamic [])]).
  { repeat apply Forall_cons; [| |apply Forall_nil]; cbn [acall_ok cdata].
    - split; [|split; [constructor|exact I]]. split; [repeat constructor; unfold is_byte; lia|cbn; lia].
    - split; [|split; [constructor|exact I]]. split; [apply Forall_forall; intros x Hx; apply repeat_spec in Hx; subst x; unfold is_byte; lia|rewrite repeat_length; cbn; lia]. }
  destruct H; subst r; do 3 eexists; (split; [repeat constructor; unfold is_byte; lia|]; split; [repeat constructor; unfold is_byte; lia|];
    split; [vm_compute; reflexivity|]; cbv zeta; split; [exact F|]; split; [reflexivity|]; split; [vm_compute; reflexivity|]; vm_compute; discriminate).
Qed.
Print Assumptions C49_aead_refuted.
(** Nor between hosts of different byte order: what one encrypts, the other rejects. *)
Theorem C49_aead_interop_refuted : exists key iv aad text c tag e,
  bytes key /\ length key = 32%nat /\ bytes iv /\ length iv = 12%nat /\ chunk aad /\ chunk text /\
  aead_free_encrypt_new bk_sw {| cx_big := false; cx_ce := false |} 16 key iv aad text (repeat 0 16) = Some (c, tag) /\
  aead_free_decrypt_new bk_sw {| cx_big := true; cx_ce := false |} 16 key iv aad c (repeat 0 16) tag = Some (Throws e).
Proof.
  assert (R : forall b n, b < 256 -> bytes (repeat b n)).
  { intros b n Hb. apply Forall_forall. intros x Hx. apply repeat_spec in Hx. subst. exact Hb. }
  let r := eval vm_compute in (aead_free_encrypt_new bk_sw {| cx_big := false; cx_ce := false |} 16 (repeat 1 32) (repeat 2 12) [3] [4] (repeat 0 16)) in
  lazymatch r with Some (?c, ?t) => exists (repeat 1 32), (repeat 2 12), [3], [4], c, t, err_aead_verify end.
  split; [apply R; lia|]. split; [reflexivity|]. split; [apply R; lia|]. split; [reflexivity|].
  split; [split; [exact (R 3 1%nat eq_refl)|reflexivity]|]. split; [split; [exact (R 4 1%nat eq_refl)|reflexivity]|].
  split; vm_compute; reflexivity.
Qed.
Print Assumptions C49_aead_interop_refuted.


(** *** Key derivation: two objects that live each in its own circumstances. *)
Theorem C49_hkdf : forall cx1 cx2 a dsz env r calls, (1 <= dsz <= sha_digest_size a)%nat -> arg3 env r ->
  Forall is_derive calls -> Forall (kcall_ok (arg3 env)) calls -> (requested calls <= 255 * dsz)%nat ->
  exists o1 o1' o2 o2' outs,
    kapie_new cx1 (HKDF a dsz) env r = Some o1 /\ kdf_run cx1 (HKDF a dsz) env o1 calls = Some (o1', outs) /\
    kapie_new cx2 (HKDF a dsz) env r = Some o2 /\ kdf_run cx2 (HKDF a dsz) env o2 calls = Some (o2', outs).
Proof.
  intros cx1 cx2 a dsz env r calls Hd (ikm & salt & info & H) Hc Hk HL.
  destruct (C36_hkdf cx1 a dsz env r ikm salt info calls Hd H Hc Hk HL) as (o1 & o1' & E1 & R1).
  destruct (C36_hkdf cx2 a dsz env r ikm salt info calls Hd H Hc Hk HL) as (o2 & o2' & E2 & R2).
  exists o1, o1', o2, o2', (kanswers (hkdf (prf a dsz) dsz ikm salt info) 0 calls). auto.
Qed.
Print Assumptions C49_hkdf.
Theorem C49_pbkdf2 : forall cx1 cx2 a dsz env r calls, (1 <= dsz <= sha_digest_size a)%nat -> arg2 env r -> (1 <= snd r < 2 ^ 32) ->
  Forall is_derive calls -> Forall (kcall_ok (arg2 env)) calls ->
  exists o1 o1' o2 o2' outs,
    kapie_new cx1 (PBKDF2 a dsz) env r = Some o1 /\ kdf_run cx1 (PBKDF2 a dsz) env o1 calls = Some (o1', outs) /\
    kapie_new cx2 (PBKDF2 a dsz) env r = Some o2 /\ kdf_run cx2 (PBKDF2 a dsz) env o2 calls = Some (o2', outs).
Proof.
  intros cx1 cx2 a dsz env r calls Hd (password & salt & H) Hr Hc Hk.
  destruct (C36_pbkdf2 cx1 a dsz env r password salt calls Hd H Hr Hc Hk) as (o1 & o1' & E1 & R1).
  destruct (C36_pbkdf2 cx2 a dsz env r password salt calls Hd H Hr Hc Hk) as (o2 & o2' & E2 & R2).
  exists o1, o1', o2, o2', (kanswers (pbkdf2 (prf a dsz) dsz password salt (N.to_nat (snd r))) 0 calls). auto.
Qed.
Print Assumptions C49_pbkdf2.

(** *** The hypotheses can be met: a hash object that is fed at compile time and digested on hosts of both byte orders; a
    cipher that goes from the portable backend (64 bytes) to the 8-block assembly backend and, after a new
    initialisation, back. *)
Example C49_case_hash : Forall (hcall_ok (milo_hash SHA256)) (map snd [(ct, HUpdate [1; 2]); (rt, HUpdate (repeat 3 70)); (be, HDigest (repeat 0 32) 32);
  (rt, HInit); (ct, HDigestC (Dynamic []) 10)]).
Proof. unfold hcall_ok, chunk, bytes, is_byte. repeat constructor; cbn; lia. Qed.
Example C49_case_mac : Forall (mcall_ok bytes 16) (map snd [(ct, MUpdate [1; 2]); (rt, MDigest (repeat 0 16) 16); (rt, MInit [7]); (ct, MDigestC (Dynamic []) 10)]).
Proof. unfold mcall_ok, chunk, bytes, is_byte. repeat constructor; cbn; lia. Qed.
Example C49_case_cipher : let B := bk_avx_2 (junk 8) (firstn 6 (junk 8)) (junk 8) in
  let calls := [((bk_sw, ct), CCryptC Encrypt (repeat 1 10) (Dynamic [])); ((bk_sw, ct), CCryptC Encrypt (repeat 1 54) (Dynamic []));
    ((B, rt), CCryptC Encrypt [2] (Dynamic [])); ((B, rt), CInit [1] [2]); ((bk_sw, ct), CCryptC Encrypt [2] (Dynamic []))] in
  Forall (fun x => backend_ok (snd (fst x)) (fst (fst x))) calls /\ Forall ccall_ok (map snd calls) /\ smooth 1 0 calls.
Proof.
  cbv zeta. assert (R : forall n, bytes (repeat 1 n)).
  { intros n. apply Forall_forall. intros x Hx. apply repeat_spec in Hx. subst. unfold is_byte. lia. }
  assert (R1 : forall b, b < 256 -> bytes [b]) by (intros b Hb; repeat constructor; exact Hb).
  split; [|split].
  - assert (A : backend_ok rt (bk_avx_2 (junk 8) (firstn 6 (junk 8)) (junk 8))) by (apply (C43_backends rt); repeat split).
    repeat apply Forall_cons; cbn [fst snd]; try apply bk_sw_ok; try exact A. apply Forall_nil.
  - repeat apply Forall_cons; cbn [snd ccall_ok cdata]; try (apply Forall_nil); repeat split; try apply R; try (apply R1; lia); constructor.
  - cbn [smooth ctext]. rewrite !repeat_length. cbn [length bk_ratio bk_sw bk_avx_2].
    left. split; [reflexivity|]. left. split; [reflexivity|]. right. split; [reflexivity|]. right. split; [reflexivity|exact I].
Qed.

Example C49_case_aead : let B := bk_avx_2 (junk 8) (firstn 6 (junk 8)) (junk 8) in
  let calls := [((bk_sw, ct), AAad [1]); ((B, rt), ACryptC Encrypt [2] (Dynamic [])); ((bk_sw, ct), ADigestC (Dynamic []) 16); ((bk_sw, ct), AInit [1] [2]);
    ((bk_sw, ct), ACryptC Decrypt (repeat 1 64) (Dynamic [])); ((B, rt), ACryptC Decrypt [3; 4] (Dynamic [])); ((B, rt), AVerify (repeat 0 16) [5])] in
  Forall (fun x => backend_ok (snd (fst x)) (fst (fst x)) /\ cx_big (snd (fst x)) = cx_big ct) calls /\ Forall (acall_ok 16) (map snd calls) /\
  aorderly false false 0 (map snd calls) = true /\ asmooth 1 64 calls.
Proof.
  cbv zeta. assert (R : forall b n, b < 256 -> bytes (repeat b n)).
  { intros b n Hb. apply Forall_forall. intros x Hx. apply repeat_spec in Hx. subst. exact Hb. }
  split; [|split; [|split; [reflexivity|]]].
  - assert (A : backend_ok rt (bk_avx_2 (junk 8) (firstn 6 (junk 8)) (junk 8))) by (apply (C43_backends rt); repeat split).
    repeat apply Forall_cons; cbn [fst snd]; try (split; [|reflexivity]); try apply bk_sw_ok; try exact A. apply Forall_nil.
  - repeat apply Forall_cons; cbn [map snd acall_ok cdata]; try (apply Forall_nil); unfold chunk; repeat split; try (apply R; lia); try (cbn; lia); repeat constructor; unfold is_byte; lia.
  - cbn [asmooth atext_in]. rewrite !repeat_length. cbn [length bk_ratio bk_sw bk_avx_2].
    right. split; [reflexivity|]. left. split; [reflexivity|]. right. split; [reflexivity|exact I].
Qed.
