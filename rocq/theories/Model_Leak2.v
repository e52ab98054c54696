(** What an observer of timing sees of the hashes, the MACs, the cipher and the key derivation functions: the code of
    Model_Sha, Model_ShaAsm, Model_Hmac, Model_Mac, Model_Cipher and Model_Kdf with its branches and accesses recorded, as
    explained in Model_Leak.  Each definition has the lines of the definition it instruments. *)
From Verif Require Import Base Spec_Sha (* names of the seven algorithms only *)
  Model_Memory Model_Update Model_Container Model_X86 Model_Sha Model_ShaAsm Model_Mac Model_Hmac Model_Poly Model_Cipher Model_Kdf Model_Leak.
Local Open Scope N_scope.

(** A for loop over public indices: each test of the condition is a branch. *)
Fixpoint l_for {A B : Type} (f : A -> B -> L A) (l : list B) (a : A) : L A :=
  match l with
  | [] => _ <~ emit [Br false] ;; ret a
  | x :: l => _ <~ emit [Br true] ;; a <~ f a x ;; l_for f l a
  end.
(** Statements one after the other. *)
Fixpoint l_seq {A B : Type} (f : A -> B -> L A) (l : list B) (a : A) : L A :=
  match l with [] => ret a | x :: l => a <~ f a x ;; l_seq f l a end.

(** *** sha_1_160_impl_sw.h; arrays: m_state of the hash object, the local schedule, the constants k *)
Definition p_hstate : ptr := (Member 10, 0%nat).
Definition p_sched : ptr := (Local 10, 0%nat).
Definition p_k : ptr := (Local 11, 0%nat).
Definition l_put (cap : nat) (sch : list N) (i : nat) (v : N) : L (list N) := _ <~ emit [Wr (fst p_sched) i] ;; lift (put cap sch i v).
(** Lines 73-82 *)
Definition l_sha1_00_15 (cx : ctx) (q : ptr) (src sch : list N) (j : nat) : L (list N) :=
  v <~ l_load_be cx 4 1 q src j ;; l_put 80 sch j v.
Definition l_sha1_16_79 (sch : list N) (j : nat) : L (list N) :=
  x3 <~ lrd p_sched sch (j - 3) ;; x8 <~ lrd p_sched sch (j - 8) ;; x14 <~ lrd p_sched sch (j - 14) ;; x16 <~ lrd p_sched sch (j - 16) ;;
  l_put 80 sch j (rotl 32 (N.lxor (N.lxor (N.lxor x3 x8) x14) x16) 1).
(** Lines 64-71 and 84-91; scalars are not recorded. *)
Definition sha1_scalars (fn : N -> N -> N -> N) (v : vars5) (k s : N) : vars5 :=
  let '(a, b, c, d, e) := v in
  let t1 := wadd 32 (wadd 32 (wadd 32 (wadd 32 (rotl 32 a 5) (fn b c d)) e) k) s in
  (t1, a, rotr 32 b 2, c, d).
Definition l_sha1_round (kidx : nat) (fn : N -> N -> N -> N) (sch : list N) (v : vars5) (j : nat) : L vars5 :=
  k <~ lrd p_k sha1_k kidx ;; s <~ lrd p_sched sch j ;; ret (sha1_scalars fn v k s).
Definition l_sha1_load (cx : ctx) (q : ptr) (src : list N) (p : list N * vars5) (j : nat) : L (list N * vars5) :=
  sch <~ l_sha1_00_15 cx q src (fst p) j ;; v <~ l_sha1_round 0 sw_ch sch (snd p) j ;; ret (sch, v).
Definition l_sha1_mix (kidx : nat) (fn : N -> N -> N -> N) (p : list N * vars5) (j : nat) : L (list N * vars5) :=
  sch <~ l_sha1_16_79 (fst p) j ;; v <~ l_sha1_round kidx fn sch (snd p) j ;; ret (sch, v).
(** Lines 97-147 *)
Definition sha1_sum (v0 v : vars5) : vars5 :=
  let '(ap, bp, cp, dp, ep) := v0 in let '(a, b, c, d, e) := v in
  (wadd 32 a ap, wadd 32 b bp, wadd 32 c cp, wadd 32 d dp, wadd 32 e ep).
Definition l_sha1_block (cx : ctx) (v0 : vars5) (q : ptr) (src : list N) : L vars5 :=
  p <~ l_for (l_sha1_load cx q src) (seq 0 16) ([], v0) ;;
  p <~ l_for (l_sha1_mix 0 sw_ch) (seq 16 4) p ;;
  p <~ l_for (l_sha1_mix 1 sw_parity) (seq 20 20) p ;;
  p <~ l_for (l_sha1_mix 2 sw_maj) (seq 40 20) p ;;
  p <~ l_for (l_sha1_mix 3 sw_parity) (seq 60 20) p ;;
  ret (sha1_sum v0 (snd p)).
Fixpoint l_sha1_loop (cx : ctx) (n : nat) (v : vars5) (q : ptr) (src : list N) : L vars5 :=
  match n with
  | O => _ <~ emit [Br false] ;; ret v
  | S n => _ <~ emit [Br true] ;; v <~ l_sha1_block cx v q src ;; l_sha1_loop cx n v (padd q 64) (skipn 64 src)
  end.
(** Lines 28-156 *)
Definition l_sha1_blocks (cx : ctx) (n : nat) (st : list N) (q : ptr) (src : list N) : L (list N) :=
  a <~ lrd p_hstate st 0 ;; b <~ lrd p_hstate st 1 ;; c <~ lrd p_hstate st 2 ;; d <~ lrd p_hstate st 3 ;; e <~ lrd p_hstate st 4 ;;
  '(a, b, c, d, e) <~ l_sha1_loop cx n (a, b, c, d, e) q src ;;
  st <~ lwr p_hstate st 0 a ;; st <~ lwr p_hstate st 1 b ;; st <~ lwr p_hstate st 2 c ;; st <~ lwr p_hstate st 3 d ;; lwr p_hstate st 4 e.

(** *** sha_2_256_impl_sw.h and sha_2_512_impl_sw.h *)
(** sha_2_256_impl_sw.h:107-116, sha_2_512_impl_sw.h:111-120 *)
Definition l_sha2_00_15 (cx : ctx) (p : sha2_sw) (q : ptr) (src sch : list N) (j : nat) : L (list N) :=
  v <~ l_load_be cx (sw_b p) 1 q src j ;; l_put (sw_n p) sch j v.
Definition l_sha2_16 (p : sha2_sw) (sch : list N) (j : nat) : L (list N) :=
  x7 <~ lrd p_sched sch (j - 7) ;; x16 <~ lrd p_sched sch (j - 16) ;; x2 <~ lrd p_sched sch (j - 2) ;; x15 <~ lrd p_sched sch (j - 15) ;;
  l_put (sw_n p) sch j
    (wadd (sw_w p) (wadd (sw_w p) (wadd (sw_w p) x7 x16) (sw_sigma_lower (sw_w p) (sw_lower1 p) x2))
       (sw_sigma_lower (sw_w p) (sw_lower0 p) x15)).
(** sha_2_256_impl_sw.h:92-105 and 118-129, sha_2_512_impl_sw.h:96-109 and 122-133 *)
Definition sha2_scalars (p : sha2_sw) (v : vars8) (k s : N) : vars8 :=
  let w := sw_w p in
  let '(a, b, c, d, e, f, g, h) := v in
  let t1 := wadd w (wadd w (wadd w (wadd w (sw_sigma_upper w (sw_upper1 p) e) (sw_ch e f g)) h) k) s in
  let t2 := wadd w (sw_sigma_upper w (sw_upper0 p) a) (sw_maj a b c) in
  (wadd w t1 t2, a, b, c, wadd w d t1, e, f, g).
Definition l_sha2_round (p : sha2_sw) (sch : list N) (v : vars8) (j : nat) : L vars8 :=
  k <~ lrd p_k (sw_k p) j ;; s <~ lrd p_sched sch j ;; ret (sha2_scalars p v k s).
Definition l_sha2_load (cx : ctx) (p : sha2_sw) (q : ptr) (src : list N) (x : list N * vars8) (j : nat) : L (list N * vars8) :=
  sch <~ l_sha2_00_15 cx p q src (fst x) j ;; v <~ l_sha2_round p sch (snd x) j ;; ret (sch, v).
Definition l_sha2_mix (p : sha2_sw) (x : list N * vars8) (j : nat) : L (list N * vars8) :=
  sch <~ l_sha2_16 p (fst x) j ;; v <~ l_sha2_round p sch (snd x) j ;; ret (sch, v).
(** sha_2_256_impl_sw.h:135-172, sha_2_512_impl_sw.h:139-176 *)
Definition sha2_sum (w : N) (v0 v : vars8) : vars8 :=
  let '(ap, bp, cp, dp, ep, fp, gp, hp) := v0 in let '(a, b, c, d, e, f, g, h) := v in
  (wadd w a ap, wadd w b bp, wadd w c cp, wadd w d dp, wadd w e ep, wadd w f fp, wadd w g gp, wadd w h hp).
Definition l_sha2_block (cx : ctx) (p : sha2_sw) (v0 : vars8) (q : ptr) (src : list N) : L vars8 :=
  x <~ l_for (l_sha2_load cx p q src) (seq 0 16) ([], v0) ;;
  x <~ l_for (l_sha2_mix p) (seq 16 (sw_n p - 16)) x ;;
  ret (sha2_sum (sw_w p) v0 (snd x)).
Fixpoint l_sha2_loop (cx : ctx) (p : sha2_sw) (n : nat) (v : vars8) (q : ptr) (src : list N) : L vars8 :=
  match n with
  | O => _ <~ emit [Br false] ;; ret v
  | S n => _ <~ emit [Br true] ;; v <~ l_sha2_block cx p v q src ;; l_sha2_loop cx p n v (padd q (16 * sw_b p)) (skipn (16 * sw_b p) src)
  end.
(** sha_2_256_impl_sw.h:42-183, sha_2_512_impl_sw.h:46-187 *)
Definition l_sha2_blocks (cx : ctx) (p : sha2_sw) (n : nat) (st : list N) (q : ptr) (src : list N) : L (list N) :=
  let r := lrd p_hstate in
  let w := lwr p_hstate in
  a <~ r st 0%nat ;; b <~ r st 1%nat ;; c <~ r st 2%nat ;; d <~ r st 3%nat ;;
  e <~ r st 4%nat ;; f <~ r st 5%nat ;; g <~ r st 6%nat ;; h <~ r st 7%nat ;;
  '(a, b, c, d, e, f, g, h) <~ l_sha2_loop cx p n (a, b, c, d, e, f, g, h) q src ;;
  st <~ w st 0%nat a ;; st <~ w st 1%nat b ;; st <~ w st 2%nat c ;; st <~ w st 3%nat d ;;
  st <~ w st 4%nat e ;; st <~ w st 5%nat f ;; st <~ w st 6%nat g ;; w st 7%nat h.

(** *** The hash classes; arrays: m_state, m_processed_bytes, m_buffer *)
Record lhash := {
  lh_al : hash_alg;   (* the class it instruments *)
  lh_blocks : ctx -> nat -> list N -> ptr -> list N -> L (list N)
}.
Definition p_hbuf : ptr := (Member 12, 0%nat).
(** sha_1_160.h:101-119, sha_2_256.h:101-135, sha_2_512.h:99-160 *)
Definition l_hash_initialize (H : lhash) (o : hash_obj) : L hash_obj :=
  _ <~ emit (map (Wr (Member 10)) (seq 0 (length (ha_iv (lh_al H)))) ++ [Wr (Member 11) 0; Wr (Member 11) 1]) ;;
  ret (hash_initialize (lh_al H) o).
(** sha_1_160.h:125-141, sha_2_256.h:141-157, sha_2_512.h:166-183: line 171 adds the comparison, it does not branch. *)
Definition l_hash_update (cx : ctx) (H : lhash) (o : hash_obj) (q : ptr) (msg : list N) : L hash_obj :=
  _ <~ emit [Rd (Member 11) 0; Rd (Member 11) 1; Wr (Member 11) 1; Wr (Member 11) 0] ;;
  c <~ lift (count_add (ha_wide (lh_al H)) (ho_count o) (N.of_nat (length msg))) ;;
  '(b, n, st) <~ l_soak (ha_block_size (lh_al H)) (lh_blocks H cx) p_hbuf q (ho_buffer o) (ho_size o) msg (ho_state o) ;;
  ret {| ho_state := st; ho_count := c; ho_buffer := b; ho_size := n |}.
(** sha_2_256.h:172-176, sha_2_512.h:198-208 *)
Fixpoint l_stor_words64 (cx : ctx) (p : ptr) (a : list N) (i : nat) (ws : list N) : L (list N) :=
  match ws with
  | [] => ret a
  | w :: ws => a <~ l_stor_be cx 8 1 p a i w ;; l_stor_words64 cx p a (S i) ws
  end.
(** sha_1_160.h:144-168, sha_2_256.h:160-184, sha_2_512.h:186-216: the number of blocks comes from a shift by a
    comparison, not from a branch. *)
Definition l_hash_finalize (cx : ctx) (H : lhash) (o : hash_obj) : L hash_obj :=
  let al := lh_al H in
  let bs := ha_block_size al in
  let lenb := if ha_wide al then 16%nat else 8%nat in
  let left_size := ho_size o in
  let last_size := (if (ha_limit al <=? left_size) then 2 * bs else bs)%nat in
  b <~ lwr p_hbuf (ho_buffer o) left_size 128 ;;
  b <~ l_zero_loop p_hbuf b (left_size + 1) (last_size - lenb - (left_size + 1)) ;;
  _ <~ emit [Rd (Member 11) 0; Rd (Member 11) 1] ;;
  ws <~ lift (length_words (ha_wide al) (ho_count o)) ;;
  t <~ l_stor_words64 cx (padd p_hbuf (last_size - lenb)) (skipn (last_size - lenb) b) 0 ws ;;
  let b := firstn (last_size - lenb) b ++ t in
  st <~ lh_blocks H cx (last_size / bs)%nat (ho_state o) p_hbuf b ;;
  ret {| ho_state := st; ho_count := ho_count o; ho_buffer := b; ho_size := ho_size o |}.
(** sha_1_160.h:174-191, sha_2_256.h:190-207, sha_2_512.h:222-239; [p]: the destination *)
Definition l_hash_digest (cx : ctx) (H : lhash) (o : hash_obj) (p : ptr) (dst : list N) (size : nat) : L (list N * nat) :=
  let n := Nat.min size (ha_digest_size (lh_al H)) in
  dst <~ l_copy_be cx 1 (ha_word (lh_al H)) p p_hstate dst (ho_state o) n ;;
  ret (dst, n).
(** The seven hashes with the portable code, and with the assembly code (sha_1_160.h, sha_2_256.h; SHA-2 of 64-bit words
    has none), whose accesses depend on its arguments only (C50_sha_constant_time). *)
Definition lh_sw (a : sha) (dsz : nat) : lhash := {|
  lh_al := milo_hash_opt a dsz;
  lh_blocks := match a with
               | SHA1 => l_sha1_blocks
               | SHA224 | SHA256 => fun cx => l_sha2_blocks cx sha_2_256_sw
               | _ => fun cx => l_sha2_blocks cx sha_2_512_sw
               end |}.
Definition lh_ni (a : sha) (j : nat -> list N -> list N -> list vec) (dsz : nat) : lhash := {|
  lh_al := ni_hash_opt a j dsz;
  lh_blocks := fun cx n st q src =>
    if cx_ce cx then lh_blocks (lh_sw a dsz) cx n st q src else
    match a with
    | SHA1 | SHA224 | SHA256 => _ <~ emit [RdN (fst q) (snd q) (64 * n); Call 2 [n]] ;; lift (ha_blocks (ni_hash_opt a j dsz) cx n st src)
    | _ => lh_blocks (lh_sw a dsz) cx n st q src
    end |}.

(** *** hash/apie.h *)
(** Lines 81-88, 62-73, 103-131, 149-163, 178-202 *)
Definition l_hapie_initialize (H : lhash) (p : hash_apie) : L hash_apie :=
  o <~ l_hash_initialize H (hp_impl p) ;; ret {| hp_impl := o; hp_finalized := false |}.
Definition l_hapie_do_finalize (cx : ctx) (H : lhash) (p : hash_apie) : L hash_apie :=
  lif (hp_finalized p) (ret p) (o <~ l_hash_finalize cx H (hp_impl p) ;; ret {| hp_impl := o; hp_finalized := true |}).
Definition l_hapie_update (cx : ctx) (H : lhash) (p : hash_apie) (msg : list N) : L hash_apie :=
  o <~ l_hash_update cx H (hp_impl p) (Arg 0, 0%nat) msg ;; ret {| hp_impl := o; hp_finalized := hp_finalized p |}.
Definition l_hapie_digest (cx : ctx) (H : lhash) (p : hash_apie) (dst : list N) (size : nat) : L (hash_apie * list N * nat) :=
  p <~ l_hapie_do_finalize cx H p ;;
  '(dst, n) <~ l_hash_digest cx H (hp_impl p) (Arg 1, 0%nat) dst size ;;
  ret (p, dst, n).
Definition l_hapie_digest_c (cx : ctx) (H : lhash) (p : hash_apie) (c : container) (size : nat) : L (hash_apie * container * nat) :=
  p <~ l_hapie_do_finalize cx H p ;;
  let size := Nat.min size (ha_digest_size (lh_al H)) in
  let '(c, size) := cresize c size in
  '(p, dst, n) <~ l_hapie_digest cx H p (cdata c) size ;;
  ret (p, cset c dst, n).
Definition l_hash_step (cx : ctx) (H : lhash) (p : hash_apie) (c : hash_call) : L (hash_apie * hash_out) :=
  match c with
  | HInit => p <~ l_hapie_initialize H p ;; ret (p, ONone)
  | HUpdate m => p <~ l_hapie_update cx H p m ;; ret (p, ONone)
  | HDigest d s => '(p, d, n) <~ l_hapie_digest cx H p d s ;; ret (p, ODigest d n)
  | HDigestC c s => '(p, c, n) <~ l_hapie_digest_c cx H p c s ;; ret (p, ODigestC c n)
  end.
Fixpoint l_hash_run (cx : ctx) (H : lhash) (p : hash_apie) (calls : list hash_call) : L (hash_apie * list hash_out) :=
  match calls with
  | [] => ret (p, [])
  | c :: calls =>
      '(p, o) <~ l_hash_step cx H p c ;;
      '(p, os) <~ l_hash_run cx H p calls ;;
      ret (p, o :: os)
  end.

(** *** hmac.h; m_buffer *)
Definition p_mbuf : ptr := (Member 13, 0%nat).
(** Lines 133-137 *)
Definition l_pad_step (bs : nat) (b : list N) (i : nat) : L (list N) :=
  x <~ lrd p_mbuf b i ;; b <~ lwr p_mbuf b i (N.lxor x 0x5C) ;;
  y <~ lrd p_mbuf b (i + bs) ;; lwr p_mbuf b (i + bs) (N.lxor y 0x36).
(** Lines 80-144; [q]: the key *)
Definition l_hmac_initialize (cx : ctx) (H : lhash) (o : hmac_obj) (q : ptr) (key : list N) : L hmac_obj :=
  let al := lh_al H in
  let bs := ha_block_size al in
  '(h, b, ksz) <~
    lif (bs <? length key)%nat
      (h <~ l_hash_initialize H (hm_hash o) ;;
       h <~ l_hash_update cx H h q key ;;
       h <~ l_hash_finalize cx H h ;;
       '(b, _) <~ l_hash_digest cx H h p_mbuf (hm_buffer o) (ha_digest_size al) ;;
       l <~ lrds p_mbuf b 0 (ha_digest_size al) ;;
       b <~ lwrs p_mbuf b bs l ;;
       ret (h, b, ha_digest_size al))
      (l <~ lrds q key 0 (length key) ;; b <~ lwrs p_mbuf (hm_buffer o) 0 l ;;
       l <~ lrds q key 0 (length key) ;; b <~ lwrs p_mbuf b bs l ;;
       ret (hm_hash o, b, length key)) ;;
  if (bs <? ksz)%nat then None else
  b <~ lat p_mbuf b ksz (fun p l => l_set cx 1 p l 0 (bs - ksz)) ;;
  b <~ lat p_mbuf b (bs + ksz) (fun p l => l_set cx 1 p l 0 (bs - ksz)) ;;
  b <~ l_for (l_pad_step bs) (seq 0 bs) b ;;
  l <~ lift (rds b bs bs) ;;
  h <~ l_hash_initialize H h ;;
  h <~ l_hash_update cx H h (padd p_mbuf bs) l ;;
  ret {| hm_hash := h; hm_buffer := b |}.
(** Lines 149-159, 161-176, 181-196 *)
Definition l_hmac_update (cx : ctx) (H : lhash) (o : hmac_obj) (q : ptr) (msg : list N) : L hmac_obj :=
  h <~ l_hash_update cx H (hm_hash o) q msg ;; ret {| hm_hash := h; hm_buffer := hm_buffer o |}.
Definition l_hmac_finalize (cx : ctx) (H : lhash) (o : hmac_obj) : L hmac_obj :=
  let al := lh_al H in
  let bs := ha_block_size al in
  h <~ l_hash_finalize cx H (hm_hash o) ;;
  b <~ lat p_mbuf (hm_buffer o) bs (fun p l => '(l, _) <~ l_hash_digest cx H h p l (ha_digest_size al) ;; ret l) ;;
  l <~ lift (rds b 0 (bs + ha_digest_size al)) ;;
  h <~ l_hash_initialize H h ;;
  h <~ l_hash_update cx H h p_mbuf l ;;
  h <~ l_hash_finalize cx H h ;;
  ret {| hm_hash := h; hm_buffer := b |}.
Definition l_hmac_digest (cx : ctx) (H : lhash) (hdsz : nat) (o : hmac_obj) (p : ptr) (dst : list N) (size : nat) : L (list N * nat) :=
  l_hash_digest cx H (hm_hash o) p dst (Nat.min size hdsz).

(** *** MAC classes and mac/apie.h *)
Record lmac := {
  lm_M : mac_alg;   (* the class it instruments *)
  lm_initialize : ctx -> ma_obj lm_M -> ptr -> list N -> L (ma_obj lm_M);
  lm_update : ctx -> ma_obj lm_M -> ptr -> list N -> L (ma_obj lm_M);
  lm_finalize : ctx -> ma_obj lm_M -> L (ma_obj lm_M);
  lm_digest : ctx -> ma_obj lm_M -> ptr -> list N -> nat -> L (list N * nat)
}.
Definition lm_hmac (H : lhash) (hdsz : nat) : lmac := {|
  lm_M := mac_hmac (lh_al H) hdsz;
  lm_initialize := fun cx => l_hmac_initialize cx H;
  lm_update := fun cx => l_hmac_update cx H;
  lm_finalize := fun cx => l_hmac_finalize cx H;
  lm_digest := fun cx => l_hmac_digest cx H hdsz |}.
(** The instrumented Poly1305 is the one of the AEAD, which takes overflow of 32-bit limbs as an error; C24 says that
    there is none. *)
Definition lm_poly (dsz : nat) : lmac := {|
  lm_M := mac_poly_ov true dsz;
  lm_initialize := l_poly_initialize;
  lm_update := l_poly_update;
  lm_finalize := l_poly_finalize;
  lm_digest := fun cx => l_poly_digest cx dsz |}.
(** mac/apie.h:135-169, 107-118, 184-216, 233-245, 262-284 *)
Definition l_mapie_initialize (cx : ctx) (M : lmac) (p : mac_apie (lm_M M)) (key : list N) : L (mac_apie (lm_M M)) :=
  o <~ lm_initialize M cx (mp_impl p) (Arg 0, 0%nat) key ;; ret {| mp_impl := o; mp_finalized := false |}.
Definition l_mapie_do_finalize (cx : ctx) (M : lmac) (p : mac_apie (lm_M M)) : L (mac_apie (lm_M M)) :=
  lif (mp_finalized p) (ret p) (o <~ lm_finalize M cx (mp_impl p) ;; ret {| mp_impl := o; mp_finalized := true |}).
Definition l_mapie_update (cx : ctx) (M : lmac) (p : mac_apie (lm_M M)) (msg : list N) : L (mac_apie (lm_M M)) :=
  o <~ lm_update M cx (mp_impl p) (Arg 1, 0%nat) msg ;; ret {| mp_impl := o; mp_finalized := mp_finalized p |}.
Definition l_mapie_digest (cx : ctx) (M : lmac) (p : mac_apie (lm_M M)) (dst : list N) (size : nat) : L (mac_apie (lm_M M) * list N * nat) :=
  p <~ l_mapie_do_finalize cx M p ;;
  '(dst, n) <~ lm_digest M cx (mp_impl p) (Arg 2, 0%nat) dst size ;;
  ret (p, dst, n).
Definition l_mapie_digest_c (cx : ctx) (M : lmac) (p : mac_apie (lm_M M)) (c : container) (size : nat)
  : L (mac_apie (lm_M M) * container * nat) :=
  p <~ l_mapie_do_finalize cx M p ;;
  let size := Nat.min size (ma_digest_size (lm_M M)) in
  let '(c, size) := cresize c size in
  '(p, dst, n) <~ l_mapie_digest cx M p (cdata c) size ;;
  ret (p, cset c dst, n).
Definition l_mac_step (cx : ctx) (M : lmac) (p : mac_apie (lm_M M)) (c : mac_call) : L (mac_apie (lm_M M) * hash_out) :=
  match c with
  | MInit k => p <~ l_mapie_initialize cx M p k ;; ret (p, ONone)
  | MUpdate m => p <~ l_mapie_update cx M p m ;; ret (p, ONone)
  | MDigest d s => '(p, d, n) <~ l_mapie_digest cx M p d s ;; ret (p, ODigest d n)
  | MDigestC c s => '(p, c, n) <~ l_mapie_digest_c cx M p c s ;; ret (p, ODigestC c n)
  end.
Fixpoint l_mac_run (cx : ctx) (M : lmac) (p : mac_apie (lm_M M)) (calls : list mac_call) : L (mac_apie (lm_M M) * list hash_out) :=
  match calls with
  | [] => ret (p, [])
  | c :: calls =>
      '(p, o) <~ l_mac_step cx M p c ;;
      '(p, os) <~ l_mac_run cx M p calls ;;
      ret (p, o :: os)
  end.
(** A new object, before [initialize]. *)
Definition mac_fresh (M : mac_alg) : mac_apie M := {| mp_impl := ma_new M; mp_finalized := false |}.

(** *** cipher/apie.h: lines 172-188 and 336-352, 204-231 and 368-395 *)
Definition l_capie_crypt_c (dir : direction) (B : lbackend) (cx : ctx) (o : cc_obj) (text : list N) (c : container) : L (cc_obj * container * nat) :=
  let '(c, _) := cresize c (match dir with Encrypt => cc_encrypt_size | Decrypt => cc_decrypt_size end (length text)) in
  '(o, m, size) <~ l_cc_crypt B cx o (text ++ cdata c) 0 (length text) (length text) ;;
  let c := cset c (skipn (length text) m) in
  let '(c, _) := cresize c size in
  ret (o, c, size).
Definition l_capie_crypt_same (dir : direction) (B : lbackend) (cx : ctx) (o : cc_obj) (c : container) : L (cc_obj * container * nat) :=
  let '(c, _) := cresize c (match dir with Encrypt => cc_encrypt_size | Decrypt => cc_decrypt_size end (length (cdata c))) in
  '(o, m, size) <~ l_cc_crypt B cx o (cdata c) 0 (length (cdata c)) 0 ;;
  let c := cset c m in
  let '(c, _) := cresize c size in
  ret (o, c, size).
Definition l_cipher_step (B : lbackend) (cx : ctx) (o : cc_obj) (call : cipher_call) : L (cc_obj * cipher_out) :=
  match call with
  | CInit k v => o <~ l_cc_initialize cx o (Arg 0, 0%nat) (Arg 1, 0%nat) k v ;; ret (o, CNone)
  | CCrypt d m s n t => '(o, m, n) <~ l_cc_crypt B cx o m s n t ;; ret (o, CMem m n)
  | CCryptC d t c => '(o, c, n) <~ l_capie_crypt_c d B cx o t c ;; ret (o, CCon c n)
  | CCryptSame d c => '(o, c, n) <~ l_capie_crypt_same d B cx o c ;; ret (o, CCon c n)
  end.
Fixpoint l_cipher_run (B : lbackend) (cx : ctx) (o : cc_obj) (calls : list cipher_call) : L (cc_obj * list cipher_out) :=
  match calls with
  | [] => ret (o, [])
  | c :: calls =>
      '(o, r) <~ l_cipher_step B cx o c ;;
      '(o, rs) <~ l_cipher_run B cx o calls ;;
      ret (o, r :: rs)
  end.

(** *** Key derivation; the caller's memory is [Mem] *)
(** memory.h:1187-1211: at compile time the bytes are copied. *)
Definition l_view_of (cx : ctx) (env : list N) (r : range) : L view :=
  _ <~ emit (if cx_ce cx then [RdN Mem (fst r) (snd r)] else []) ;; lift (view_of cx env r).
(** Where a view points: into the caller's memory, or to its own copy. *)
Definition view_ptr (k : nat) (v : view) : ptr := match v with VPtr o _ => (Mem, o) | VCopy _ => (Member k, 0%nat) end.
(** initialize, updates, finalize, digest *)
Definition l_mac_once (cx : ctx) (M : lmac) (h : ma_obj (lm_M M)) (q : ptr) (key : list N) (msgs : list (ptr * list N)) (p : ptr) (dst : list N) (off : nat)
  : L (ma_obj (lm_M M) * list N) :=
  h <~ lm_initialize M cx h q key ;;
  h <~ l_seq (fun h x => lm_update M cx h (fst x) (snd x)) msgs h ;;
  h <~ lm_finalize M cx h ;;
  dst <~ lat p dst off (fun p l => '(l, _) <~ lm_digest M cx h p l (ma_digest_size (lm_M M)) ;; ret l) ;;
  ret (h, dst).

(** *** hkdf.h; m_prk, m_buffer; the result [Arg 0] *)
Definition p_prk : ptr := (Member 14, 0%nat).
Definition p_kbuf : ptr := (Member 15, 0%nat).
Definition p_key : ptr := (Arg 0, 0%nat).
(** Lines 114-144 *)
Definition l_hk_initialize (cx : ctx) (M : lmac) (env : list N) (o : hk_obj (lm_M M)) (ikm salt info : range) : L (hk_obj (lm_M M)) :=
  v <~ l_view_of cx env info ;;
  i <~ lift (range_read env ikm) ;;
  s <~ lift (range_read env salt) ;;
  '(h, prk) <~ l_mac_once cx M (hk_mac o) (Mem, fst salt) s [((Mem, fst ikm), i)] p_prk (hk_prk o) 0 ;;
  ret {| hk_mac := h; hk_info := v; hk_counter := 1; hk_prk := prk; hk_buffer := hk_buffer o; hk_size := 0 |}.
(** Lines 77-104; [qp]: the previous block, [p]: the result *)
Definition l_hk_expand (cx : ctx) (M : lmac) (env : list N) (h : ma_obj (lm_M M)) (prk : list N) (v : view)
  (counter : N) (qp : ptr) (prev : list N) (p : ptr) (dst : list N) (off : nat) : L (ma_obj (lm_M M) * list N) :=
  info <~ lift (view_read env v) ;;
  l_mac_once cx M h p_prk prk [(qp, prev); (view_ptr 17 v, info); ((Local 12, 0%nat), [counter])] p dst off.
(** Lines 204-217 *)
Fixpoint l_hk_loop (cx : ctx) (M : lmac) (env : list N) (prk : list N) (v : view) (h : ma_obj (lm_M M)) (counter : N)
  (key : list N) (tmp : nat) (n : nat) : L (ma_obj (lm_M M) * N * list N * nat) :=
  match n with
  | O => _ <~ emit [Br false] ;; ret (h, counter, key, tmp)
  | S n =>
      _ <~ emit [Br true] ;;
      let es := ma_digest_size (lm_M M) in
      prev <~ lift (rds key tmp es) ;;
      '(h, key) <~ l_hk_expand cx M env h prk v counter (padd p_key tmp) prev p_key key (tmp + es) ;;
      l_hk_loop cx M env prk v h (wadd 8 counter 1) key (tmp + es) n
  end.
(** Lines 149-249 *)
Definition l_hk_derive (cx : ctx) (M : lmac) (env : list N) (o : hk_obj (lm_M M)) (key : list N) (a_size : nat)
  : L (hk_obj (lm_M M) * list N * nat) :=
  let es := ma_digest_size (lm_M M) in
  let copy := if (0 <? hk_size o)%nat then Nat.min a_size (hk_size o) else 0%nat in
  key <~ lif (0 <? hk_size o)%nat
           (lat p_key key 0 (fun p l => l_copy cx 1 1 p (padd p_kbuf (es - hk_size o)) l (skipn (es - hk_size o) (hk_buffer o)) copy)) (ret key) ;;
  let size := (hk_size o - copy)%nat in
  let left := (a_size - copy)%nat in
  lif (left =? 0)%nat
    (ret ({| hk_mac := hk_mac o; hk_info := hk_info o; hk_counter := hk_counter o; hk_prk := hk_prk o;
             hk_buffer := hk_buffer o; hk_size := size |}, key, a_size))
  (if (es =? 0)%nat then None
   else
    let full := (left / es)%nat in
    let last := (left mod es)%nat in
    let beg := if hk_counter o =? 1 then [] else hk_buffer o in
    _ <~ emit [Br (hk_counter o =? 1); Br (hk_counter o =? 1)] ;;
    '(h, c, key, buf, at_) <~
      lif (full =? 0)%nat
        ('(h, buf) <~ l_hk_expand cx M env (hk_mac o) (hk_prk o) (hk_info o) (hk_counter o) p_kbuf beg p_kbuf (hk_buffer o) 0 ;;
         ret (h, wadd 8 (hk_counter o) 1, key, buf, copy))
        ('(h, key) <~ l_hk_expand cx M env (hk_mac o) (hk_prk o) (hk_info o) (hk_counter o) p_kbuf beg p_key key copy ;;
         '(h, c, key, tmp) <~ l_hk_loop cx M env (hk_prk o) (hk_info o) h (wadd 8 (hk_counter o) 1) key copy (full - 1) ;;
         prev <~ lift (rds key tmp es) ;;
         '(h, buf) <~ l_hk_expand cx M env h (hk_prk o) (hk_info o) c (padd p_key tmp) prev p_kbuf (hk_buffer o) 0 ;;
         ret (h, wadd 8 c 1, key, buf, (tmp + es)%nat)) ;;
    key <~ lat p_key key at_ (fun p l => l_copy cx 1 1 p p_kbuf l buf last) ;;
    ret ({| hk_mac := h; hk_info := hk_info o; hk_counter := c; hk_prk := hk_prk o;
            hk_buffer := buf; hk_size := (es - last)%nat |}, key, a_size)).

(** *** pbkdf_2.h; m_buffer; locals buffer_0, buffer_1, buffer_counter *)
Definition p_bbuf : ptr := (Member 16, 0%nat).
Definition p_buffer_0 : ptr := (Local 13, 0%nat).
Definition p_buffer_1 : ptr := (Local 14, 0%nat).
(** Lines 154-174 *)
Definition l_pb_initialize (cx : ctx) (M : lmac) (env : list N) (o : pb_obj (lm_M M)) (ikm salt : range) (iterations : N) : L (pb_obj (lm_M M)) :=
  vi <~ l_view_of cx env ikm ;;
  vs <~ l_view_of cx env salt ;;
  ret {| pb_mac := pb_mac o; pb_ikm := vi; pb_salt := vs; pb_iterations := iterations; pb_counter := 1;
         pb_buffer := pb_buffer o; pb_size := 0 |}.
(** Lines 117-138; memory_xor is recorded with buffer_1 as the memory. *)
Fixpoint l_pb_loop (cx : ctx) (M : lmac) (env : list N) (vi : view) (h : ma_obj (lm_M M)) (buffer_0 buffer_1 : list N) (n : nat)
  : L (ma_obj (lm_M M) * list N) :=
  match n with
  | O => _ <~ emit [Br false] ;; ret (h, buffer_1)
  | S n =>
      _ <~ emit [Br true] ;;
      ikm <~ lift (view_read env vi) ;;
      '(h, buffer_0) <~ l_mac_once cx M h (view_ptr 18 vi) ikm [(p_buffer_0, buffer_0)] p_buffer_0 buffer_0 0 ;;
      buffer_1 <~ l_mxor_loop p_buffer_0 buffer_1 0 0 buffer_0 0 0 (ma_digest_size (lm_M M)) ;;
      l_pb_loop cx M env vi h buffer_0 buffer_1 n
  end.
(** Lines 79-145; [p]: the result *)
Definition l_pb_expand (cx : ctx) (M : lmac) (env : list N) (h : ma_obj (lm_M M)) (vi vs : view) (iterations counter : N)
  (p : ptr) (dst : list N) (off : nat) : L (ma_obj (lm_M M) * list N) :=
  let es := ma_digest_size (lm_M M) in
  bc <~ l_stor_be cx 4 1 (Local 15, 0%nat) (repeat 0 4) 0 counter ;;
  ikm <~ lift (view_read env vi) ;;
  salt <~ lift (view_read env vs) ;;
  '(h, buffer_0) <~ l_mac_once cx M h (view_ptr 18 vi) ikm [(view_ptr 19 vs, salt); ((Local 15, 0%nat), bc)] p_buffer_0 (repeat 0 es) 0 ;;
  buffer_1 <~ l_copy cx 1 1 p_buffer_1 p_buffer_0 (repeat 0 es) buffer_0 es ;;
  '(h, buffer_1) <~ l_pb_loop cx M env vi h buffer_0 buffer_1 (N.to_nat iterations - 1) ;;
  dst <~ lat p dst off (fun p l => l_copy cx 1 1 p p_buffer_1 l buffer_1 es) ;;
  ret (h, dst).
(** Lines 214-225 *)
Fixpoint l_pb_blocks (cx : ctx) (M : lmac) (env : list N) (vi vs : view) (iterations : N) (h : ma_obj (lm_M M)) (counter : N)
  (key : list N) (off : nat) (n : nat) : L (ma_obj (lm_M M) * N * list N * nat) :=
  match n with
  | O => _ <~ emit [Br false] ;; ret (h, counter, key, off)
  | S n =>
      _ <~ emit [Br true] ;;
      '(h, key) <~ l_pb_expand cx M env h vi vs iterations counter p_key key off ;;
      l_pb_blocks cx M env vi vs iterations h (wadd 32 counter 1) key (off + ma_digest_size (lm_M M)) n
  end.
(** Lines 180-254 *)
Definition l_pb_derive (cx : ctx) (M : lmac) (env : list N) (o : pb_obj (lm_M M)) (key : list N) (a_size : nat)
  : L (pb_obj (lm_M M) * list N * nat) :=
  let es := ma_digest_size (lm_M M) in
  let copy := if (0 <? pb_size o)%nat then Nat.min a_size (pb_size o) else 0%nat in
  key <~ lif (0 <? pb_size o)%nat
           (lat p_key key 0 (fun p l => l_copy cx 1 1 p (padd p_bbuf (es - pb_size o)) l (skipn (es - pb_size o) (pb_buffer o)) copy)) (ret key) ;;
  let size := (pb_size o - copy)%nat in
  let left := (a_size - copy)%nat in
  lif (left =? 0)%nat
    (ret ({| pb_mac := pb_mac o; pb_ikm := pb_ikm o; pb_salt := pb_salt o; pb_iterations := pb_iterations o;
             pb_counter := pb_counter o; pb_buffer := pb_buffer o; pb_size := size |}, key, a_size))
  (if (es =? 0)%nat then None
   else
    let full := (left / es)%nat in
    let last := (left mod es)%nat in
    '(h, c, key, off) <~ l_pb_blocks cx M env (pb_ikm o) (pb_salt o) (pb_iterations o) (pb_mac o) (pb_counter o) key copy full ;;
    lif (0 <? last)%nat
      ('(h, buf) <~ l_pb_expand cx M env h (pb_ikm o) (pb_salt o) (pb_iterations o) c p_bbuf (pb_buffer o) 0 ;;
       key <~ lat p_key key off (fun p l => l_copy cx 1 1 p p_bbuf l buf last) ;;
       ret ({| pb_mac := h; pb_ikm := pb_ikm o; pb_salt := pb_salt o; pb_iterations := pb_iterations o;
               pb_counter := wadd 32 c 1; pb_buffer := buf; pb_size := (es - last)%nat |}, key, a_size))
      (ret ({| pb_mac := h; pb_ikm := pb_ikm o; pb_salt := pb_salt o; pb_iterations := pb_iterations o;
               pb_counter := c; pb_buffer := pb_buffer o; pb_size := 0 |}, key, a_size))).

(** *** kdf/apie.h *)
Record lkdf := {
  lk_K : kdf_alg;   (* the class it instruments *)
  lk_initialize : ctx -> list N -> ka_obj lk_K -> ka_arg lk_K -> L (ka_obj lk_K);
  lk_derive : ctx -> list N -> ka_obj lk_K -> list N -> nat -> L (ka_obj lk_K * list N * nat)
}.
Definition lk_hkdf (M : lmac) : lkdf := {|
  lk_K := kdf_hkdf (lm_M M);
  lk_initialize := fun cx env o a => l_hk_initialize cx M env o (fst (fst a)) (snd (fst a)) (snd a);
  lk_derive := fun cx => l_hk_derive cx M |}.
Definition lk_pbkdf_2 (M : lmac) : lkdf := {|
  lk_K := kdf_pbkdf_2 (lm_M M);
  lk_initialize := fun cx env o a => l_pb_initialize cx M env o (fst (fst a)) (snd (fst a)) (snd a);
  lk_derive := fun cx => l_pb_derive cx M |}.
(** Lines 461-479 *)
Definition l_kapie_derive_c (cx : ctx) (K : lkdf) (env : list N) (o : ka_obj (lk_K K)) (c : container) (size : nat)
  : L (ka_obj (lk_K K) * container * nat) :=
  let '(c, size) := cresize c size in
  '(o, key, n) <~ lk_derive K cx env o (cdata c) size ;;
  ret (o, cset c key, n).
Definition l_kdf_step (cx : ctx) (K : lkdf) (env : list N) (o : ka_obj (lk_K K)) (c : kdf_call (ka_arg (lk_K K))) : L (ka_obj (lk_K K) * kdf_out) :=
  match c with
  | KInit a => o <~ lk_initialize K cx env o a ;; ret (o, KNone)
  | KDerive k s => '(o, k, n) <~ lk_derive K cx env o k s ;; ret (o, KKey k n)
  | KDeriveC c s => '(o, c, n) <~ l_kapie_derive_c cx K env o c s ;; ret (o, KCon c n)
  end.
(** The caller's memory is given at each call. *)
Fixpoint l_kdf_run_in (cx : ctx) (K : lkdf) (o : ka_obj (lk_K K)) (calls : list (list N * kdf_call (ka_arg (lk_K K)))) : L (ka_obj (lk_K K) * list kdf_out) :=
  match calls with
  | [] => ret (o, [])
  | (env, c) :: calls =>
      '(o, x) <~ l_kdf_step cx K env o c ;;
      '(o, xs) <~ l_kdf_run_in cx K o calls ;;
      ret (o, x :: xs)
  end.
