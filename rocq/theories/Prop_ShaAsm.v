(** Property C44: the SHA-NI assembly routines. *)
From Verif Require Import Base Spec_Bytes Spec_Sha Model_Memory Model_Container Model_Sha Spec_Hash Proof_ShaCore Proof_Sha2Core Proof_Sha Proof_ShaHist Proof_ShaApi Model_Dispatch Spec_Dispatch Proof_Dispatch Prop_Dispatch
  Model_Mac Spec_Mac Proof_Mac Spec_Hmac Model_Hmac Proof_Hmac Model_X86 Model_ShaAsm Proof_ShaAsm Proof_ShaAsm2 Proof_ShaAsm3.
Local Open Scope N_scope.

(** *** For every state, number of blocks and source, and whatever the 16 registers hold on entry: the routine applies
    the compression function of FIPS 180-4 to the blocks in order, reads nothing beyond them and ends with the state. *)
Theorem C44_sha_1 : forall regs n st src,
  length regs = 16%nat -> length st = 5%nat -> words 32 st -> bytes src -> (n * 64 <= length src)%nat ->
  sha1_ni_blocks regs n st src = Some (iter_blocks 64 n sha1_compress st src).
Proof. intros regs n st src J L W B H. exact (sha1_ni_blocks_spec regs n st src J B H L W). Qed.
Print Assumptions C44_sha_1.
Theorem C44_sha_2_256 : forall regs n st src,
  length regs = 16%nat -> length st = 8%nat -> words 32 st -> bytes src -> (n * 64 <= length src)%nat ->
  sha2_ni_blocks regs n st src = Some (iter_blocks 64 n (sha2_compress sha2_32) st src).
Proof. intros regs n st src J L W B H. exact (sha2_ni_blocks_spec regs n st src J B H L W). Qed.
Print Assumptions C44_sha_2_256.

(** *** Which is what the portable code does. *)
Theorem C44_same_as_portable : forall cx regs n st src,
  length regs = 16%nat -> words 32 st -> bytes src -> (n * 64 <= length src)%nat ->
  (length st = 5%nat -> sha1_ni_blocks regs n st src = sha1_sw_blocks cx n st src) /\
  (length st = 8%nat -> sha2_ni_blocks regs n st src = sha2_sw_blocks cx sha_2_256_sw n st src).
Proof.
  intros cx regs n st src J W B H. split; intros L.
  - rewrite C44_sha_1 by assumption. symmetry. exact (sha1_blocks_spec cx n st src B H L W).
  - rewrite C44_sha_2_256 by assumption. symmetry. exact (sha2_blocks_spec cx sha2_32 sha_2_256_sw n st src match_256 B H L W).
Qed.
Print Assumptions C44_same_as_portable.

(** *** With these routines (at run time; the portable code at compile time) the hash classes and HMAC compute the same
    as without them.  [j]: what the registers hold at each call, any function. *)
Definition any_regs (j : nat -> list N -> list N -> list vec) : Prop := forall n st src, length (j n st src) = 16%nat.
Lemma ni_D a j x : D_of a (ni_hash a j) x = fips a x.
Proof. rewrite <- D_fips. destruct a; reflexivity. Qed.
Lemma ni_dsz a j : (ha_digest_size (ni_hash a j) <= sha_nst a * sha_word_size a)%nat.
Proof. destruct a; vm_compute; lia. Qed.
Theorem C44_hash : forall cx a j ms, any_regs j -> Forall chunk ms -> returns cx (ni_hash a j) ms (fips a (concat ms)).
Proof.
  intros cx a j ms J Hc. rewrite <- (ni_D a j).
  exact (stream_returns cx a (ni_hash a j) ms (ni_alg_ok a j _ J) (ni_dsz a j) Hc).
Qed.
Print Assumptions C44_hash.
Theorem C44_hash_free : forall cx a j m, any_regs j -> chunk m -> free_returns cx (ni_hash a j) m (fips a m).
Proof.
  intros cx a j m J Hc. rewrite <- (ni_D a j).
  exact (free_all cx a (ni_hash a j) m (ni_alg_ok a j _ J) (ni_dsz a j) Hc).
Qed.
Print Assumptions C44_hash_free.
Theorem C44_histories : forall cx cx' a j calls, any_regs j -> Forall (hcall_ok (milo_hash a)) calls ->
  exists p p' outs, hash_run cx (milo_hash a) (hapie_new (milo_hash a)) calls = Some (p, outs) /\
    hash_run cx' (ni_hash a j) (hapie_new (ni_hash a j)) calls = Some (p', outs).
Proof.
  intros cx cx' a j calls J Hc.
  exact (same_outs a (milo_hash a) (ni_hash a j) (default_ok a) (ni_alg_ok a j _ J) (dsz_default a) ltac:(destruct a; reflexivity) cx cx' calls Hc).
Qed.
Print Assumptions C44_histories.
Theorem C44_hmac : forall cx a j dsz k ms, any_regs j -> (dsz <= sha_digest_size a)%nat -> chunk k -> Forall chunk ms ->
  mreturns cx (mac_hmac (ni_hash a j) dsz) k ms (firstn dsz (hmac (fips a) (sha_block_size a) k (concat ms))).
Proof.
  intros cx a j dsz k ms J Hd Hk Hm.
  rewrite <- (hmac_ext _ (fips a) _ _ _ (ni_D a j)).
  exact (mstream_returns (hmac_ok a (ni_hash a j) (ni_alg_ok a j _ J) (ni_dsz a j) dsz ltac:(destruct a; exact Hd) cx) k ms Hk Hm).
Qed.
Print Assumptions C44_hmac.

(** *** Every instruction needs only the extensions that the class declares. *)
Definition sha1_code : list sinstr := sha1_load ++ sha1_body ++ sha1_store.
Definition sha2_code : list sinstr := sha2_load ++ sha2_body ++ sha2_store.
Definition needs_only (req : list feature) (p : list sinstr) : Prop := forall i f, In i p -> In f (s_needs i) -> In f req.
Lemma needs_dec req p : forallb (fun i => forallb (has_feature req) (s_needs i)) p = true -> needs_only req p.
Proof.
  intros H i f Hi Hf. pose proof (proj1 (forallb_forall _ _) H i Hi) as Q. pose proof (proj1 (forallb_forall _ _) Q f Hf) as Q3.
  unfold has_feature in Q3. destruct (in_dec feature_eq_dec f req); [assumption|discriminate].
Qed.
Theorem C44_extensions : forall req,
  (im_arch (sha_1_160_ni true true) = Some (Some req) -> needs_only req sha1_code) /\
  (im_arch (sha_2_256_ni true true) = Some (Some req) -> needs_only req sha2_code).
Proof. intros req. split; intros E; injection E as <-; apply needs_dec; vm_compute; reflexivity. Qed.
Print Assumptions C44_extensions.

(** *** Whatever implementation the dispatch of C39 picks, on every machine and in every start-up order, is correct,
    and (as far as CPUID tells, see C40) all its instructions are supported. *)
Definition runtime_of (a : sha) (use_asm x86_64 : bool) : list impl :=
  match a with SHA1 => sha_1_160_runtime use_asm x86_64 | SHA224 | SHA256 => sha_2_256_runtime use_asm x86_64 | _ => sha_2_512_runtime end.
Definition picked (a : sha) (j : nat -> list N -> list N -> list vec) (i : impl) : hash_alg :=
  match im_id i with 1%nat => ni_hash a j | _ => milo_hash a end.
Definition code_of (a : sha) : list sinstr := match a with SHA1 => sha1_code | SHA224 | SHA256 => sha2_code | _ => [] end.
Theorem C44_dispatched : forall use_asm x86_64 mc es n a j cx ms,
  startup es -> any_regs j -> Forall chunk ms ->
  exists i, init_run x86_64 use_asm mc (runtime_list None (runtime_of a use_asm x86_64)) (es ++ repeat EUse n) statics0 = Some (repeat i n) /\
    returns cx (picked a j i) ms (fips a (concat ms)) /\
    (im_id i = 1%nat -> forall ins f, In ins (code_of a) -> In f (s_needs ins) -> reported mc f).
Proof.
  intros use_asm x86 mc es n a j cx ms Hs J Hc.
  destruct (C39_any_order x86 use_asm mc None (runtime_of a use_asm x86) es n) as (i & Hi & Hu & E); [|exact Hs|].
  { apply (C39_algorithms use_asm x86). unfold algorithm_lists. destruct a; cbn [runtime_of In]; auto. }
  exists i. split; [exact E|].
  split.
  - unfold picked. destruct (im_id i) as [|[|]]; [apply sha_correct; exact Hc|apply C44_hash; assumption|apply sha_correct; exact Hc].
  - intros Hid ins f Hins Hf.
    assert (R : forall f, In f match im_arch i with Some (Some req) => req | _ => [] end -> reported mc f).
    { destruct Hu as [_ Hu]. destruct (im_arch i) as [[req|]|]; [exact (proj2 (proj2 Hu))|contradiction|intros ? []]. }
    destruct a; cbn [code_of] in Hins; try contradiction.
    + assert (A : im_arch i = im_arch (sha_1_160_ni true true)).
      { destruct Hu as [Hc' _]. cbn [In runtime_list runtime_of sha_1_160_runtime] in Hi.
        destruct Hi as [<-|[<-|[<-|[]]]]; try discriminate; destruct use_asm, x86; try discriminate; reflexivity. }
      rewrite A in R. apply R. exact (proj1 (C44_extensions _) eq_refl ins f Hins Hf).
    + assert (A : im_arch i = im_arch (sha_2_256_ni true true)).
      { destruct Hu as [Hc' _]. cbn [In runtime_list runtime_of sha_2_256_runtime] in Hi.
        destruct Hi as [<-|[<-|[<-|[]]]]; try discriminate; destruct use_asm, x86; try discriminate; reflexivity. }
      rewrite A in R. apply R. exact (proj2 (C44_extensions _) eq_refl ins f Hins Hf).
    + assert (A : im_arch i = im_arch (sha_2_256_ni true true)).
      { destruct Hu as [Hc' _]. cbn [In runtime_list runtime_of sha_2_256_runtime] in Hi.
        destruct Hi as [<-|[<-|[<-|[]]]]; try discriminate; destruct use_asm, x86; try discriminate; reflexivity. }
      rewrite A in R. apply R. exact (proj2 (C44_extensions _) eq_refl ins f Hins Hf).
Qed.
Print Assumptions C44_dispatched.

(** *** The hypotheses can be met, and the model runs: "abc" with both routines; 3 blocks; no block. *)
Definition some_regs : list vec := repeat (repeat 0xdeadbeef 4) 16.
Definition host : ctx := {| cx_big := false; cx_ce := false |}.
Example C44_case : any_regs (fun _ _ _ => some_regs) /\ length sha1_iv = 5%nat /\ words 32 sha1_iv /\ bytes (repeat 7 200) /\ (3 * 64 <= length (repeat 7%N 200))%nat /\
  (exists st, sha1_ni_blocks some_regs 3 sha1_iv (repeat 7 200) = Some st /\ st <> sha1_iv) /\
  sha2_ni_blocks some_regs 0 iv256 [] = Some iv256 /\
  (p <- hash_stream host (ni_hash SHA1 (fun _ _ _ => some_regs)) [[97]; [98; 99]] ;;
   '(_, d) <- hapie_digest_new host (ni_hash SHA1 (fun _ _ _ => some_regs)) p 20 ;; Some (be_dec d)) = Some 0xa9993e364706816aba3e25717850c26c9cd0d89d /\
  (p <- hash_stream host (ni_hash SHA256 (fun _ _ _ => some_regs)) [[97]; [98; 99]] ;;
   '(_, d) <- hapie_digest_new host (ni_hash SHA256 (fun _ _ _ => some_regs)) p 32 ;; Some (be_dec d))
  = Some 0xba7816bf8f01cfea414140de5dae2223b00361a396177a9cb410ff61f20015ad.
Proof.
  split; [intros ? ? ?; reflexivity|]. split; [reflexivity|]. split; [repeat constructor; unfold is_word; lia|].
  split; [apply Forall_forall; intros x Hx; apply repeat_spec in Hx; subst x; reflexivity|].
  split; [rewrite repeat_length; lia|]. split; [eexists; split; [vm_compute; reflexivity|discriminate]|].
  split; [vm_compute; reflexivity|]. split; vm_compute; reflexivity.
Qed.
