(** C71: objects used from several threads do not interfere. *)
From Verif Require Import Base BaseLemmas BytesLemmas Spec_Bytes Spec_Sha Spec_Hash Spec_Cipher Model_Memory Model_Sha Model_Mac Model_Hmac Model_Poly
  Model_Cipher Model_Aead Model_Kdf Model_Threads Proof_ChaCha Proof_Threads Prop_Cipher Spec_Threads Spec_Range.
Local Open Scope N_scope.

(** In every program whose calls are race free, in whatever order [tr] they take place, every call returns, every object gives the
    outcomes it gives when its calls are the only ones, the bytes it reads or writes are in the end what they are then, and bytes that no
    call writes keep their value. *)
Theorem C71_isolation : forall cx B tr xs m, backend_ok cx B -> (forall i, constructed cx B (xs i)) -> bytes m ->
  (forall i c, In (i, c) tr -> legal (xs i) (length m) c) -> race_free xs tr -> inputs_kept tr ->
  exists xs' m' os, run B cx tr xs m = Some (xs', m', os) /\ length m' = length m /\ bytes m' /\
    (forall i, exists ys' g', run B cx (mine i tr) xs m = Some (ys', g', mine i os) /\ length g' = length m /\
       (forall a, (exists c, In (i, c) tr /\ touches (tag_size (xs i)) c a) -> nth a m' 0 = nth a g' 0)) /\
    (forall a, (forall i c, In (i, c) tr -> ~ writes (tag_size (xs i)) c a) -> nth a m' 0 = nth a m 0).
Proof. intros cx B tr xs m BO Hc Hm Hl Hr Hk. exact (isolated cx B BO (length m) tr xs m Hc Hm Hl Hr Hk eq_refl). Qed.
Print Assumptions C71_isolation.
(** Two schedules of the same program, that is two orders with the same calls on each object in the same order: the same memory in the end,
    and the same outcomes of the calls on each object. *)
Theorem C71_schedule : forall cx B tr tr2 xs m, backend_ok cx B -> (forall i, constructed cx B (xs i)) -> bytes m ->
  (forall i c, In (i, c) tr -> legal (xs i) (length m) c) -> race_free xs tr -> inputs_kept tr -> (forall i, mine i tr = mine i tr2) ->
  exists xs1 xs2 m' os os2, run B cx tr xs m = Some (xs1, m', os) /\ run B cx tr2 xs m = Some (xs2, m', os2) /\
    (forall i, mine i os = mine i os2).
Proof. intros cx B tr tr2 xs m BO Hc Hm Hl Hr Hk. exact (schedules cx B BO (length m) tr tr2 xs m Hc Hm Hl Hr Hk eq_refl). Qed.
Print Assumptions C71_schedule.

(** The same for programs whose threads wait for each other: calls that conflict (one writes what the other one uses) need only be made in
    the same order in both schedules. *)
Theorem C71_synchronised : forall cx B tr tr2 xs m, backend_ok cx B -> (forall i, constructed cx B (xs i)) -> bytes m ->
  (forall i c, In (i, c) tr -> legal (xs i) (length m) c) -> inputs_kept tr -> same_order xs tr tr2 ->
  exists xs1 xs2 m' os os2, run B cx tr xs m = Some (xs1, m', os) /\ run B cx tr2 xs m = Some (xs2, m', os2) /\
    (forall i, mine i os = mine i os2).
Proof. intros cx B tr tr2 xs m BO Hc Hm Hl Hk Ho. exact (synchronised cx B BO (length m) tr tr2 xs m Hc Hm Hl Hk eq_refl Ho). Qed.
Print Assumptions C71_synchronised.

(** Six objects: a hash, an HMAC, a cipher, an AEAD, an HKDF and a PBKDF2 object. *)
Definition six (cx : ctx) (i : nat) : thing :=
  match i with
  | 0%nat => THash (milo_hash_opt SHA256 32) (hapie_new (milo_hash_opt SHA256 32))
  | 1%nat => TMac (mac_hmac (milo_hash SHA1) 20) (match mapie_new cx (mac_hmac (milo_hash SHA1) 20) [7; 7] with Some p => p
                  | None => {| mp_impl := ma_new _; mp_finalized := false |} end)
  | 2%nat => TCipher (match capie_new cx [1] [2] with Some o => o | None => cc_new end)
  | 4%nat => THkdf (mac_hmac (milo_hash SHA1) 20) (hk_new _)
  | 5%nat => TPbkdf2 (mac_hmac (milo_hash SHA256) 16) (pb_new _)
  | _ => TAead 16 (match aapie_new bk_sw cx [3] [4] with Some p => p | None => {| ap_impl := aead_new 0 0; ap_aad_done := false; ap_done := false |} end)
  end.
Lemma six_constructed i : constructed rt bk_sw (six rt i).
Proof.
  destruct i as [|[|[|[|[|[|i]]]]]]; cbn [six constructed].
  4,7: split; [lia|]; exists [3], [4]; (split; [repeat constructor|]); (split; [repeat constructor|]);
    destruct (Proof_Aead.anew rt bk_sw (bk_sw_ok rt) 16 ltac:(lia) [3] [4]) as (p & E & _); [repeat constructor|repeat constructor|];
    rewrite E; reflexivity.
  - split; [exists SHA256, 32%nat; split; [reflexivity|cbn; lia]|reflexivity].
  - split; [left; exists SHA1, 20%nat; split; [reflexivity|cbn; lia]|]. exists [7; 7]. split; [split; [repeat constructor|reflexivity]|].
    destruct (Proof_Mac.mnew (Proof_Hmac.milo_hmac_ok rt SHA1 20 ltac:(cbn; lia)) [7; 7]) as (p & E & _); [split; [repeat constructor|reflexivity]|].
    rewrite E. reflexivity.
  - exists [1], [2]. split; [repeat constructor|]. split; [repeat constructor|].
    destruct (initialize_spec rt bk_sw cc_new [1] [2] cc_new_wf) as (o & E & _); [repeat constructor|repeat constructor|].
    unfold capie_new. rewrite E. reflexivity.
  - split; [exists SHA1, 20%nat; split; [reflexivity|cbn; lia]|reflexivity].
  - split; [exists SHA256, 16%nat; split; [reflexivity|cbn; lia]|reflexivity].
Qed.

(** The conditions can be met by a program in which all six objects read the same bytes and the calls are mixed, two schedules of it, and the
    outcomes of both. *)
Definition shared_reads : trace :=
  [(0%nat, SFeed (0, 4)%nat); (4%nat, SKey (0, 4) (1, 3) (0, 4))%nat; (5%nat, SPass (0, 4)%nat (2, 2)%nat 2); (3%nat, SFeed (0, 4)%nat); (2%nat, SCrypt Encrypt 0 4 4); (3%nat, SCrypt Encrypt 0 4 8); (1%nat, SFeed (0, 4)%nat);
   (0%nat, STag 12 3); (5%nat, SDerive 40 5); (4%nat, SDerive 45 7); (1%nat, STag 16 100); (4%nat, SDerive 52 8); (3%nat, STag 36 2)].
Definition shared_reads_2 : trace :=
  [(1%nat, SFeed (0, 4)%nat); (1%nat, STag 16 100); (3%nat, SFeed (0, 4)%nat); (3%nat, SCrypt Encrypt 0 4 8); (3%nat, STag 36 2);
   (2%nat, SCrypt Encrypt 0 4 4); (0%nat, SFeed (0, 4)%nat); (4%nat, SKey (0, 4) (1, 3) (0, 4))%nat; (0%nat, STag 12 3); (4%nat, SDerive 45 7); (4%nat, SDerive 52 8);
   (5%nat, SPass (0, 4)%nat (2, 2)%nat 2); (5%nat, SDerive 40 5)].
Ltac each H := repeat (destruct H as [H|H]; [injection H as <- <-|]); [..|destruct H].
Lemma six_size i : tag_size (six rt i) = match i with 0 => 32 | 1 => 20 | 2 | 4 | 5 => 0 | _ => 16 end%nat.
Proof. destruct i as [|[|[|[|[|[|i]]]]]]; reflexivity. Qed.
Lemma shared_ok : (forall i c, In (i, c) shared_reads -> legal (six rt i) 60 c) /\ race_free (six rt) shared_reads /\ inputs_kept shared_reads /\
  (forall i, mine i shared_reads = mine i shared_reads_2).
Proof.
  split; [|split; [|split]].
  - intros i c H. unfold shared_reads in H. cbn [In] in H. each H; cbn [six legal tag_size]; unfold inside, apart; cbn [fst snd]; repeat split; vm_compute; (reflexivity || lia || tauto).
  - intros i c j d a H K. rewrite !six_size. unfold shared_reads in H, K. cbn [In] in H, K.
    each H; each K; unfold touches; cbn [reads writes]; unfold within; cbn [fst snd]; intros; lia.
  - intros i d n c a H K. unfold shared_reads in H, K. cbn [In] in H, K.
    repeat (destruct H as [H|H]; [try discriminate H; injection H as <- <- <-|]); [..|destruct H];
      repeat (destruct K as [K|K]; [try discriminate K; injection K as <-|]); try (destruct K; fail); cbn [keeps]; unfold within; cbn [fst snd]; lia.
  - intros i. destruct i as [|[|[|[|[|[|i]]]]]]; reflexivity.
Qed.
Example C71_case : (forall i, constructed rt bk_sw (six rt i)) /\ bytes (repeat 65 60) /\
  (forall i c, In (i, c) shared_reads -> legal (six rt i) (length (repeat 65 60)) c) /\ race_free (six rt) shared_reads /\ inputs_kept shared_reads /\
  (forall i, mine i shared_reads = mine i shared_reads_2) /\ shared_reads <> shared_reads_2 /\
  match run bk_sw rt shared_reads (six rt) (repeat 65 60), run bk_sw rt shared_reads_2 (six rt) (repeat 65 60) with
  | Some (_, m, os), Some (_, m2, os2) => m = m2 /\ mine 1 os = mine 1 os2 /\ mine 1 os = [(1%nat, SNone); (1%nat, SSize 20)] /\ mine 4 os2 = [(4%nat, SNone); (4%nat, SSize 7); (4%nat, SSize 8)] /\ os <> os2
  | _, _ => False
  end.
Proof.
  destruct shared_ok as (A & Bb & Kk & C). rewrite repeat_length.
  split; [exact six_constructed|]. split; [repeat constructor|]. split; [exact A|]. split; [exact Bb|]. split; [exact Kk|]. split; [exact C|]. split; [discriminate|].
  vm_compute. repeat split; try reflexivity; discriminate.
Qed.

(** Without race freedom the order matters: a hash object that reads the six bytes another thread encrypts in place. *)
Theorem C71_race_needed : exists tr tr2 m, (forall i, constructed rt bk_sw (six rt i)) /\ bytes m /\
  (forall i c, In (i, c) tr -> legal (six rt i) (length m) c) /\ (forall i, mine i tr = mine i tr2) /\
  match run bk_sw rt tr (six rt) m, run bk_sw rt tr2 (six rt) m with Some (_, m1, _), Some (_, m2, _) => m1 <> m2 | _, _ => False end.
Proof.
  exists [(0%nat, SFeed (0, 4)%nat); (2%nat, SCrypt Encrypt 0 4 0); (0%nat, STag 4 32)],
         [(2%nat, SCrypt Encrypt 0 4 0); (0%nat, SFeed (0, 4)%nat); (0%nat, STag 4 32)], (repeat 65 60).
  split; [exact six_constructed|]. split; [repeat constructor|]. split; [|split].
  - intros i c H. cbn [In] in H. rewrite repeat_length. each H; cbn [six legal tag_size]; unfold inside, apart; cbn [fst snd]; repeat split; vm_compute; (reflexivity || lia || tauto).
  - intros i. destruct i as [|[|[|i]]]; reflexivity.
  - vm_compute. discriminate.
Qed.
Print Assumptions C71_race_needed.

(** An object of HKDF goes on reading info: no other thread may write it, though the call that was given it has returned. *)
Theorem C71_kept_race_needed : exists tr tr2 m, (forall i, constructed rt bk_sw (six rt i)) /\ bytes m /\
  (forall i c, In (i, c) tr -> legal (six rt i) (length m) c) /\ inputs_kept tr /\ (forall i, mine i tr = mine i tr2) /\
  (exists k, hd_error tr = Some (4%nat, k) /\ hd_error tr2 = Some (4%nat, k) /\ forall c, In c (tl tr) -> snd c <> k) /\
  match run bk_sw rt tr (six rt) m, run bk_sw rt tr2 (six rt) m with Some (_, m1, _), Some (_, m2, _) => m1 <> m2 | _, _ => False end.
Proof.
  exists [(4%nat, SKey (8, 4) (8, 4) (0, 4))%nat; (2%nat, SCrypt Encrypt 0 4 0); (4%nat, SDerive 20 5)],
         [(4%nat, SKey (8, 4) (8, 4) (0, 4))%nat; (4%nat, SDerive 20 5); (2%nat, SCrypt Encrypt 0 4 0)], (repeat 65 60).
  split; [exact six_constructed|]. split; [repeat constructor|]. split; [|split; [|split; [|split]]].
  - intros i c H. cbn [In] in H. rewrite repeat_length. each H; cbn [six legal tag_size]; unfold inside, apart; cbn [fst snd]; repeat split; vm_compute; (reflexivity || lia || tauto).
  - intros i d n c a H K. cbn [In] in H, K.
    repeat (destruct H as [H|H]; [try discriminate H; injection H as <- <- <-|]); [..|destruct H];
      repeat (destruct K as [K|K]; [try discriminate K; injection K as <-|]); try (destruct K; fail); cbn [keeps]; unfold within; cbn [fst snd]; lia.
  - intros i. destruct i as [|[|[|[|[|[|i]]]]]]; reflexivity.
  - eexists. split; [reflexivity|]. split; [reflexivity|]. cbn [tl In]. intros c [<-|[<-|[]]]; discriminate.
  - vm_compute. discriminate.
Qed.
Print Assumptions C71_kept_race_needed.

(** A text is encrypted, and then its ciphertext is hashed; the MAC of the text is computed by another thread meanwhile. *)
Definition pipeline : trace :=
  [(1%nat, SFeed (0, 4)%nat); (2%nat, SCrypt Encrypt 0 4 4); (0%nat, SFeed (4, 4)%nat); (0%nat, STag 12 32); (1%nat, STag 8 4)].
Definition pipeline_2 : trace :=
  [(2%nat, SCrypt Encrypt 0 4 4); (1%nat, SFeed (0, 4)%nat); (0%nat, SFeed (4, 4)%nat); (0%nat, STag 12 32); (1%nat, STag 8 4)].
Example C71_pipeline_case : (forall i c, In (i, c) pipeline -> legal (six rt i) (length (repeat 65 60)) c) /\ inputs_kept pipeline /\
  ~ race_free (six rt) pipeline /\ same_order (six rt) pipeline pipeline_2 /\
  match run bk_sw rt pipeline (six rt) (repeat 65 60), run bk_sw rt pipeline_2 (six rt) (repeat 65 60) with
  | Some (_, m, os), Some (_, m2, os2) => m = m2 /\ mine 0 os = mine 0 os2 /\ mine 0 os = [(0%nat, SNone); (0%nat, SSize 32)] /\ os <> os2
  | _, _ => False
  end.
Proof.
  split; [|split; [|split; [|split]]].
  - intros i c H. unfold pipeline in H. cbn [In] in H. rewrite repeat_length. each H; cbn [six legal tag_size]; unfold inside, apart; cbn [fst snd]; repeat split; vm_compute; (reflexivity || lia || tauto).
  - intros i d n c a H. unfold pipeline in H. cbn [In] in H. repeat (destruct H as [H|H]; [discriminate H|]). destruct H.
  - intros H. apply (H 2%nat (SCrypt Encrypt 0 4 4) 0%nat (SFeed (4, 4)%nat) 4%nat); [unfold pipeline; cbn [In]; auto 10|unfold pipeline; cbn [In]; auto 10|discriminate| |].
    + cbn [writes]. unfold within. cbn [fst snd]. lia.
    + left. cbn [reads]. unfold within. cbn [fst snd]. lia.
  - apply (order_swap (six rt) [] (1%nat, SFeed (0, 4)%nat) (2%nat, SCrypt Encrypt 0 4 4)).
    intros [E|(a & [[W _]|[U W]])]; [discriminate E|exact W|]. unfold uses, touches in U. cbn [fst snd reads writes] in *. unfold within in *. cbn [fst snd] in *. lia.
  - vm_compute. repeat split; try reflexivity; discriminate.
Qed.
