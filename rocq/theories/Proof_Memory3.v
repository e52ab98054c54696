(** Summary lemmas for the memory properties. *)
From Verif Require Import Base BaseLemmas Spec_Bytes Model_Memory BytesLemmas Proof_Memory Proof_Memory2.
Local Open Scope N_scope.

Lemma store_then_load (enc : nat -> N -> list N) (dec : list N -> N) cx vs ps arr off val
  (stor : list N -> option (list N)) (load : list N -> option N) :
  (forall x, x < 2 ^ bits vs -> dec (enc vs x) = x) -> (length (enc vs val) = vs) -> bytes (enc vs val) ->
  stor arr = stor_bytes cx ps arr (off * vs) (enc vs val) ->
  (forall a, words (bits ps) a -> length a = length arr ->
     load a = Some (dec (firstn vs (skipn (off * vs) (arr_bytes (cx_big cx) ps a))))) ->
  words (bits ps) arr -> val < 2 ^ bits vs -> (off * vs + vs <= length arr * ps)%nat ->
  exists arr', stor arr = Some arr' /\ words (bits ps) arr' /\ length arr' = length arr /\
    load arr' = Some val /\
    arr_bytes (cx_big cx) ps arr'
    = firstn (off * vs) (arr_bytes (cx_big cx) ps arr) ++ enc vs val
      ++ skipn (off * vs + vs) (arr_bytes (cx_big cx) ps arr).
Proof.
  intros Hd Hl Hb Hs Hld Hw Hv Hr.
  destruct (stor_bytes_result cx ps arr (off * vs) (enc vs val) Hb Hw ltac:(lia)) as (a & E & La & Wa & A).
  exists a. rewrite Hs. rewrite Hl in A. repeat split; try assumption.
  rewrite Hld by assumption. rewrite A.
  rewrite slice_mid; [f_equal; apply Hd; assumption| |symmetry; assumption].
  rewrite firstn_length, arr_bytes_length. lia.
Qed.

Lemma be_store_load cx vs ps arr off val :
  int_size vs -> int_size ps -> words (bits ps) arr -> val < 2 ^ bits vs ->
  (off * vs + vs <= length arr * ps)%nat ->
  exists arr', mem_stor_be cx vs ps arr off val = Some arr' /\ words (bits ps) arr' /\ length arr' = length arr /\
    mem_load_be cx vs ps arr' off = Some val /\
    arr_bytes (cx_big cx) ps arr'
    = firstn (off * vs) (arr_bytes (cx_big cx) ps arr) ++ be_enc vs val
      ++ skipn (off * vs + vs) (arr_bytes (cx_big cx) ps arr).
Proof.
  intros Hv Hp Hw Hval Hr.
  apply (store_then_load be_enc be_dec cx vs ps arr off val (fun a => mem_stor_be cx vs ps a off val)
           (fun a => mem_load_be cx vs ps a off)); try assumption.
  - intros x Hx. rewrite be_dec_enc, <- pow256. apply N.mod_small. assumption.
  - apply be_enc_length.
  - apply be_enc_bytes.
  - apply mem_stor_be_spec; assumption.
  - intros a Ha Hla. apply mem_load_be_spec; try assumption. rewrite Hla. assumption.
Qed.

Lemma le_store_load cx vs ps arr off val :
  int_size vs -> int_size ps -> words (bits ps) arr -> val < 2 ^ bits vs ->
  (off * vs + vs <= length arr * ps)%nat ->
  exists arr', mem_stor_le cx vs ps arr off val = Some arr' /\ words (bits ps) arr' /\ length arr' = length arr /\
    mem_load_le cx vs ps arr' off = Some val /\
    arr_bytes (cx_big cx) ps arr'
    = firstn (off * vs) (arr_bytes (cx_big cx) ps arr) ++ le_enc vs val
      ++ skipn (off * vs + vs) (arr_bytes (cx_big cx) ps arr).
Proof.
  intros Hv Hp Hw Hval Hr.
  apply (store_then_load le_enc le_dec cx vs ps arr off val (fun a => mem_stor_le cx vs ps a off val)
           (fun a => mem_load_le cx vs ps a off)); try assumption.
  - intros x Hx. rewrite le_dec_enc, <- pow256. apply N.mod_small. assumption.
  - apply le_enc_length.
  - apply le_enc_bytes.
  - apply mem_stor_le_spec; assumption.
  - intros a Ha Hla. apply mem_load_le_spec; try assumption. rewrite Hla. assumption.
Qed.

(** Same host, either evaluation path: same result. *)
Lemma load_paths b vs ps arr off :
  int_size vs -> int_size ps -> words (bits ps) arr -> (off * vs + vs <= length arr * ps)%nat ->
  mem_load_be {| cx_big := b; cx_ce := true |} vs ps arr off
    = mem_load_be {| cx_big := b; cx_ce := false |} vs ps arr off /\
  mem_load_le {| cx_big := b; cx_ce := true |} vs ps arr off
    = mem_load_le {| cx_big := b; cx_ce := false |} vs ps arr off.
Proof. intros. rewrite !mem_load_be_spec, !mem_load_le_spec by assumption. split; reflexivity. Qed.

Lemma stor_paths b vs ps arr off val :
  int_size vs -> int_size ps -> words (bits ps) arr -> val < 2 ^ bits vs ->
  (off * vs + vs <= length arr * ps)%nat ->
  mem_stor_be {| cx_big := b; cx_ce := true |} vs ps arr off val
    = mem_stor_be {| cx_big := b; cx_ce := false |} vs ps arr off val /\
  mem_stor_le {| cx_big := b; cx_ce := true |} vs ps arr off val
    = mem_stor_le {| cx_big := b; cx_ce := false |} vs ps arr off val.
Proof. intros. rewrite !mem_stor_be_spec, !mem_stor_le_spec by assumption. split; reflexivity. Qed.

(** Byte arrays: host and path independent. *)
Lemma bytes_host_independent cx cx' vs arr off val : int_size vs -> bytes arr -> val < 2 ^ bits vs ->
  (off * vs + vs <= length arr)%nat ->
  mem_stor_be cx vs 1 arr off val = mem_stor_be cx' vs 1 arr off val /\
  mem_stor_le cx vs 1 arr off val = mem_stor_le cx' vs 1 arr off val /\
  mem_load_be cx vs 1 arr off = mem_load_be cx' vs 1 arr off /\
  mem_load_le cx vs 1 arr off = mem_load_le cx' vs 1 arr off.
Proof.
  intros. rewrite !mem_stor_be_bytes, !mem_stor_le_bytes, !mem_load_be_bytes, !mem_load_le_bytes by assumption.
  repeat split.
Qed.

Lemma match_prefix_bytes cx a b n : bytes a -> bytes b -> (n <= length a)%nat -> (n <= length b)%nat ->
  exists r, mem_match cx 1 1 a b n = Some r /\ (r = true <-> firstn n a = firstn n b).
Proof.
  intros Ha Hb H1 H2.
  destruct (mem_match_spec cx 1 1 a b n) as (r & E & H); try assumption; try (left; reflexivity); try lia.
  rewrite !arr_bytes_1 in H by assumption. eauto.
Qed.

Lemma init_bytes_le cx pd dst src : int_size pd -> bytes src ->
  mem_init_le cx pd 1 dst src = Some (le_words pd (length dst) (pad_to (length dst * pd) src)).
Proof.
  intros Hp Hs. rewrite mem_init_le_spec by (assumption || (left; reflexivity)).
  rewrite arr_bytes_1 by assumption. reflexivity.
Qed.
Lemma init_bytes_be cx pd dst src : int_size pd -> bytes src ->
  mem_init_be cx pd 1 dst src = Some (be_words pd (length dst) (pad_to (length dst * pd) src)).
Proof.
  intros Hp Hs. rewrite mem_init_be_spec by (assumption || (left; reflexivity)).
  rewrite arr_bytes_1 by assumption. reflexivity.
Qed.

Lemma copy_bytes cx dst src n : bytes dst -> bytes src -> (n <= length src)%nat -> (n <= length dst)%nat ->
  mem_copy cx 1 1 dst src n = Some (firstn n src ++ skipn n dst).
Proof.
  intros Hd Hs H1 H2.
  destruct (mem_copy_spec cx 1 1 dst src n) as (d & E & L & W & A); try assumption; try (left; reflexivity); try lia.
  rewrite E. f_equal. rewrite !arr_bytes_1 in A by assumption. exact A.
Qed.
