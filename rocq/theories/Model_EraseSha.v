(** What the portable SHA code leaves behind: the local array [schedule] of [blocks] as it is when the function returns.
    Nothing writes to it after its last use, so it stays in the dead stack memory.  The frame versions [..._f] are the
    functions of Model_Sha and Model_Hmac with that array added to the result; Proof_EraseSha shows that they are
    otherwise the same functions. *)
From Verif Require Import Base Model_Memory Model_Update Model_Container Spec_Sha Model_Sha Model_Mac Model_Hmac.
Local Open Scope N_scope.

(** sha_1_160_impl_sw.h:97-147: one iteration of the block loop, with [schedule] (line 38). *)
Definition sha1_sw_block_f (cx : ctx) (v0 : vars5) (src : list N) : option (vars5 * list N) :=
  let '(ap, bp, cp, dp, ep) := v0 in
  p <- foldM (sha1_step_load cx src) (seq 0 16) ([], v0) ;;
  p <- foldM (sha1_step_mix 0 sw_ch) (seq 16 4) p ;;
  p <- foldM (sha1_step_mix 1 sw_parity) (seq 20 20) p ;;
  p <- foldM (sha1_step_mix 2 sw_maj) (seq 40 20) p ;;
  p <- foldM (sha1_step_mix 3 sw_parity) (seq 60 20) p ;;
  let '(sch, (a, b, c, d, e)) := p in
  Some ((wadd 32 a ap, wadd 32 b bp, wadd 32 c cp, wadd 32 d dp, wadd 32 e ep), sch).
(** [fr]: what the array holds before the loop (indeterminate). *)
Fixpoint sha1_sw_loop_f (cx : ctx) (n : nat) (v : vars5) (fr src : list N) : option (vars5 * list N) :=
  match n with
  | O => Some (v, fr)
  | S n => '(v, fr) <- sha1_sw_block_f cx v src ;; sha1_sw_loop_f cx n v fr (skipn 64 src)
  end.
(** sha_1_160_impl_sw.h:28-156 [blocks]. *)
Definition sha1_sw_blocks_f (cx : ctx) (n : nat) (st fr src : list N) : option (list N * list N) :=
  a <- rd st 0 ;; b <- rd st 1 ;; c <- rd st 2 ;; d <- rd st 3 ;; e <- rd st 4 ;;
  '((a, b, c, d, e), fr) <- sha1_sw_loop_f cx n (a, b, c, d, e) fr src ;;
  st <- (st <- wr st 0 a ;; st <- wr st 1 b ;; st <- wr st 2 c ;; st <- wr st 3 d ;; wr st 4 e) ;;
  Some (st, fr).

(** sha_2_256_impl_sw.h:135-172, sha_2_512_impl_sw.h:139-176: one iteration, with [schedule] (lines 53 and 57). *)
Definition sha2_sw_block_f (cx : ctx) (p : sha2_sw) (v0 : vars8) (src : list N) : option (vars8 * list N) :=
  let w := sw_w p in
  let '(ap, bp, cp, dp, ep, fp, gp, hp) := v0 in
  q <- foldM (sha2_step_load cx p src) (seq 0 16) ([], v0) ;;
  q <- foldM (sha2_step_mix p) (seq 16 (sw_n p - 16)) q ;;
  let '(sch, (a, b, c, d, e, f, g, h)) := q in
  Some ((wadd w a ap, wadd w b bp, wadd w c cp, wadd w d dp,
         wadd w e ep, wadd w f fp, wadd w g gp, wadd w h hp), sch).
Fixpoint sha2_sw_loop_f (cx : ctx) (p : sha2_sw) (n : nat) (v : vars8) (fr src : list N) : option (vars8 * list N) :=
  match n with
  | O => Some (v, fr)
  | S n => '(v, fr) <- sha2_sw_block_f cx p v src ;; sha2_sw_loop_f cx p n v fr (skipn (16 * sw_b p) src)
  end.
(** sha_2_256_impl_sw.h:42-183, sha_2_512_impl_sw.h:46-187 [blocks]. *)
Definition sha2_sw_blocks_f (cx : ctx) (p : sha2_sw) (n : nat) (st fr src : list N) : option (list N * list N) :=
  a <- rd st 0 ;; b <- rd st 1 ;; c <- rd st 2 ;; d <- rd st 3 ;;
  e <- rd st 4 ;; f <- rd st 5 ;; g <- rd st 6 ;; h <- rd st 7 ;;
  '((a, b, c, d, e, f, g, h), fr) <- sha2_sw_loop_f cx p n (a, b, c, d, e, f, g, h) fr src ;;
  st <- (st <- wr st 0 a ;; st <- wr st 1 b ;; st <- wr st 2 c ;; st <- wr st 3 d ;;
         st <- wr st 4 e ;; st <- wr st 5 f ;; st <- wr st 6 g ;; wr st 7 h) ;;
  Some (st, fr).

Definition sha_blocks_f (a : sha) : ctx -> nat -> list N -> list N -> list N -> option (list N * list N) :=
  match a with
  | SHA1 => sha1_sw_blocks_f
  | SHA224 | SHA256 => fun cx => sha2_sw_blocks_f cx sha_2_256_sw
  | _ => fun cx => sha2_sw_blocks_f cx sha_2_512_sw
  end.

(** sha_1_160.h:125-141, sha_2_256.h:141-157, sha_2_512.h:166-183 [update]: [fr] is the array as the last call of
    [blocks] left it.  (The array lies in the frame of a function called from [update]; that [update] itself has no
    array there, and that the calls reuse the place, is a matter of the compiler: the theorems are about the last call.) *)
Definition hash_update_f (cx : ctx) (a : sha) (o : hash_obj) (fr msg : list N) : option (hash_obj * list N) :=
  let al := milo_hash a in
  c <- count_add (ha_wide al) (ho_count o) (N.of_nat (length msg)) ;;
  '(b, n, (st, fr)) <- update_block_soak (ha_block_size al) (fun n s src => sha_blocks_f a cx n (fst s) (snd s) src)
                         (ho_buffer o) (ho_size o) msg (ho_state o, fr) ;;
  Some ({| ho_state := st; ho_count := c; ho_buffer := b; ho_size := n |}, fr).

(** hmac.h:80-144 [initialize], with the array after the last [update] (line 139-143). *)
Definition hmac_initialize_f (cx : ctx) (a : sha) (o : hmac_obj) (fr key : list N) : option (hmac_obj * list N) :=
  let al := milo_hash a in
  let bs := ha_block_size al in
  '(h, b, ksz) <-
    (if (bs <? length key)%nat then
       h <- hash_update cx al (hash_initialize al (hm_hash o)) key ;;
       h <- hash_finalize cx al h ;;
       '(b, _) <- hash_digest cx al h (hm_buffer o) (ha_digest_size al) ;;
       l <- rds b 0 (ha_digest_size al) ;;
       b <- wrs b bs l ;;
       Some (h, b, ha_digest_size al)
     else
       b <- wrs (hm_buffer o) 0 key ;;
       b <- wrs b bs key ;;
       Some (hm_hash o, b, length key)) ;;
  if (bs <? ksz)%nat then None else
  b <- at_off b ksz (fun p => mem_set cx 1 p 0 (bs - ksz)) ;;
  b <- at_off b (bs + ksz) (fun p => mem_set cx 1 p 0 (bs - ksz)) ;;
  b <- foldM (hmac_pad_step bs) (seq 0 bs) b ;;
  l <- rds b bs bs ;;
  '(h, fr) <- hash_update_f cx a (hash_initialize al h) fr l ;;
  Some ({| hm_hash := h; hm_buffer := b |}, fr).
