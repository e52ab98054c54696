(** Model of the SHA hashes: src/milo/primitive/detail/hash/sha/*.h (portable backend) and
    src/milo/primitive/hash/apie.h.

    Simplifications: template parameters become record fields; local uninitialised arrays are lists
    that grow, so reading an element not yet written is [None]; [size_t] sizes of caller ranges are
    list lengths. *)
From Verif Require Import Base Model_Memory Model_Update Model_Container.
From Verif Require Import Spec_Sha. (* only for the names of the seven algorithms *)
Local Open Scope N_scope.

(** [schedule[i] = v] for an uninitialised array of [cap] elements filled in order. *)
Definition put (cap : nat) (sch : list N) (i : nat) (v : N) : option (list N) :=
  if (i =? length sch)%nat && (i <? cap)%nat then Some (sch ++ [v]) else None.

(** The macros CH, MAJ, PARITY: sha_1_160_impl_sw.h:55-62, sha_2_256_impl_sw.h:74-78,
    sha_2_512_impl_sw.h:78-82. *)
Definition sw_ch (a0 a1 a2 : N) : N := N.lxor a2 (N.land a0 (N.lxor a1 a2)).
Definition sw_maj (a0 a1 a2 : N) : N := N.lxor (N.land a0 a1) (N.land a2 (N.lxor a0 a1)).
Definition sw_parity (a0 a1 a2 : N) : N := N.lxor (N.lxor a0 a1) a2.

(** *** sha_1_160_impl_sw.h *)

(** sha_1_160_impl_sw.h:21-24. *)
Definition sha1_k : list N := [0x5a827999; 0x6ed9eba1; 0x8f1bbcdc; 0xca62c1d6].

Definition vars5 : Type := N * N * N * N * N.

(** Lines 73-82: SCHEDULE_00_15 and SCHEDULE_16_79. *)
Definition sha1_schedule_00_15 (cx : ctx) (src sch : list N) (j : nat) : option (list N) :=
  v <- mem_load_be cx 4 1 src j ;; put 80 sch j v.
Definition sha1_schedule_16_79 (sch : list N) (j : nat) : option (list N) :=
  x3 <- rd sch (j - 3) ;; x8 <- rd sch (j - 8) ;; x14 <- rd sch (j - 14) ;; x16 <- rd sch (j - 16) ;;
  put 80 sch j (rotl 32 (N.lxor (N.lxor (N.lxor x3 x8) x14) x16) 1).

(** Lines 64-71 and 84-91: T_1 and ROUND. *)
Definition sha1_sw_round (kidx : nat) (fn : N -> N -> N -> N) (sch : list N) (v : vars5) (j : nat)
  : option vars5 :=
  let '(a, b, c, d, e) := v in
  k <- rd sha1_k kidx ;;
  s <- rd sch j ;;
  let t1 := wadd 32 (wadd 32 (wadd 32 (wadd 32 (rotl 32 a 5) (fn b c d)) e) k) s in
  Some (t1, a, rotr 32 b 2, c, d).

Definition sha1_step_load (cx : ctx) (src : list N) (p : list N * vars5) (j : nat)
  : option (list N * vars5) :=
  let '(sch, v) := p in
  sch <- sha1_schedule_00_15 cx src sch j ;;
  v <- sha1_sw_round 0 sw_ch sch v j ;;
  Some (sch, v).
Definition sha1_step_mix (kidx : nat) (fn : N -> N -> N -> N) (p : list N * vars5) (j : nat)
  : option (list N * vars5) :=
  let '(sch, v) := p in
  sch <- sha1_schedule_16_79 sch j ;;
  v <- sha1_sw_round kidx fn sch v j ;;
  Some (sch, v).

(** Lines 97-147: one iteration of the block loop. *)
Definition sha1_sw_block (cx : ctx) (v0 : vars5) (src : list N) : option vars5 :=
  let '(ap, bp, cp, dp, ep) := v0 in
  p <- foldM (sha1_step_load cx src) (seq 0 16) ([], v0) ;;
  p <- foldM (sha1_step_mix 0 sw_ch) (seq 16 4) p ;;
  p <- foldM (sha1_step_mix 1 sw_parity) (seq 20 20) p ;;
  p <- foldM (sha1_step_mix 2 sw_maj) (seq 40 20) p ;;
  p <- foldM (sha1_step_mix 3 sw_parity) (seq 60 20) p ;;
  let '(_, (a, b, c, d, e)) := p in
  Some (wadd 32 a ap, wadd 32 b bp, wadd 32 c cp, wadd 32 d dp, wadd 32 e ep).

Fixpoint sha1_sw_loop (cx : ctx) (n : nat) (v : vars5) (src : list N) : option vars5 :=
  match n with
  | O => Some v
  | S n => v <- sha1_sw_block cx v src ;; sha1_sw_loop cx n v (skipn 64 src)
  end.

(** sha_1_160_impl_sw.h:28-156 [blocks]. *)
Definition sha1_sw_blocks (cx : ctx) (n : nat) (st src : list N) : option (list N) :=
  a <- rd st 0 ;; b <- rd st 1 ;; c <- rd st 2 ;; d <- rd st 3 ;; e <- rd st 4 ;;
  '(a, b, c, d, e) <- sha1_sw_loop cx n (a, b, c, d, e) src ;;
  st <- wr st 0 a ;; st <- wr st 1 b ;; st <- wr st 2 c ;; st <- wr st 3 d ;; wr st 4 e.

(** *** sha_2_256_impl_sw.h and sha_2_512_impl_sw.h: the same text with a different word type,
    schedule size and constants, gathered in a record. *)
Record sha2_sw := {
  sw_w : N;                 (* bits of the word type *)
  sw_b : nat;               (* its size *)
  sw_n : nat;               (* schedule size and number of rounds *)
  sw_k : list N;
  sw_lower0 : N * N * N; sw_lower1 : N * N * N;
  sw_upper0 : N * N * N; sw_upper1 : N * N * N
}.

(** sha_2_256_impl_sw.h:21-38 (k), 80-90 (sigma macros). *)
Definition sha_2_256_sw : sha2_sw := {|
  sw_w := 32; sw_b := 4; sw_n := 64;
  sw_k := [
    0x428a2f98; 0x71374491; 0xb5c0fbcf; 0xe9b5dba5;
    0x3956c25b; 0x59f111f1; 0x923f82a4; 0xab1c5ed5;
    0xd807aa98; 0x12835b01; 0x243185be; 0x550c7dc3;
    0x72be5d74; 0x80deb1fe; 0x9bdc06a7; 0xc19bf174;
    0xe49b69c1; 0xefbe4786; 0x0fc19dc6; 0x240ca1cc;
    0x2de92c6f; 0x4a7484aa; 0x5cb0a9dc; 0x76f988da;
    0x983e5152; 0xa831c66d; 0xb00327c8; 0xbf597fc7;
    0xc6e00bf3; 0xd5a79147; 0x06ca6351; 0x14292967;
    0x27b70a85; 0x2e1b2138; 0x4d2c6dfc; 0x53380d13;
    0x650a7354; 0x766a0abb; 0x81c2c92e; 0x92722c85;
    0xa2bfe8a1; 0xa81a664b; 0xc24b8b70; 0xc76c51a3;
    0xd192e819; 0xd6990624; 0xf40e3585; 0x106aa070;
    0x19a4c116; 0x1e376c08; 0x2748774c; 0x34b0bcb5;
    0x391c0cb3; 0x4ed8aa4a; 0x5b9cca4f; 0x682e6ff3;
    0x748f82ee; 0x78a5636f; 0x84c87814; 0x8cc70208;
    0x90befffa; 0xa4506ceb; 0xbef9a3f7; 0xc67178f2 ];
  sw_lower0 := (7, 18, 3); sw_lower1 := (17, 19, 10);
  sw_upper0 := (2, 13, 22); sw_upper1 := (6, 11, 25) |}.

(** sha_2_512_impl_sw.h:21-42 (k), 84-94 (sigma macros). *)
Definition sha_2_512_sw : sha2_sw := {|
  sw_w := 64; sw_b := 8; sw_n := 80;
  sw_k := [
    0x428a2f98d728ae22; 0x7137449123ef65cd; 0xb5c0fbcfec4d3b2f; 0xe9b5dba58189dbbc;
    0x3956c25bf348b538; 0x59f111f1b605d019; 0x923f82a4af194f9b; 0xab1c5ed5da6d8118;
    0xd807aa98a3030242; 0x12835b0145706fbe; 0x243185be4ee4b28c; 0x550c7dc3d5ffb4e2;
    0x72be5d74f27b896f; 0x80deb1fe3b1696b1; 0x9bdc06a725c71235; 0xc19bf174cf692694;
    0xe49b69c19ef14ad2; 0xefbe4786384f25e3; 0x0fc19dc68b8cd5b5; 0x240ca1cc77ac9c65;
    0x2de92c6f592b0275; 0x4a7484aa6ea6e483; 0x5cb0a9dcbd41fbd4; 0x76f988da831153b5;
    0x983e5152ee66dfab; 0xa831c66d2db43210; 0xb00327c898fb213f; 0xbf597fc7beef0ee4;
    0xc6e00bf33da88fc2; 0xd5a79147930aa725; 0x06ca6351e003826f; 0x142929670a0e6e70;
    0x27b70a8546d22ffc; 0x2e1b21385c26c926; 0x4d2c6dfc5ac42aed; 0x53380d139d95b3df;
    0x650a73548baf63de; 0x766a0abb3c77b2a8; 0x81c2c92e47edaee6; 0x92722c851482353b;
    0xa2bfe8a14cf10364; 0xa81a664bbc423001; 0xc24b8b70d0f89791; 0xc76c51a30654be30;
    0xd192e819d6ef5218; 0xd69906245565a910; 0xf40e35855771202a; 0x106aa07032bbd1b8;
    0x19a4c116b8d2d0c8; 0x1e376c085141ab53; 0x2748774cdf8eeb99; 0x34b0bcb5e19b48a8;
    0x391c0cb3c5c95a63; 0x4ed8aa4ae3418acb; 0x5b9cca4f7763e373; 0x682e6ff3d6b2b8a3;
    0x748f82ee5defb2fc; 0x78a5636f43172f60; 0x84c87814a1f0ab72; 0x8cc702081a6439ec;
    0x90befffa23631e28; 0xa4506cebde82bde9; 0xbef9a3f7b2c67915; 0xc67178f2e372532b;
    0xca273eceea26619c; 0xd186b8c721c0c207; 0xeada7dd6cde0eb1e; 0xf57d4f7fee6ed178;
    0x06f067aa72176fba; 0x0a637dc5a2c898a6; 0x113f9804bef90dae; 0x1b710b35131c471b;
    0x28db77f523047d84; 0x32caab7b40c72493; 0x3c9ebe0a15c9bebc; 0x431d67c49c100d4c;
    0x4cc5d4becb3e42b6; 0x597f299cfc657e2a; 0x5fcb6fab3ad6faec; 0x6c44198c4a475817 ];
  sw_lower0 := (1, 8, 7); sw_lower1 := (19, 61, 6);
  sw_upper0 := (28, 34, 39); sw_upper1 := (14, 18, 41) |}.

(** SIGMA_LOWER_x: two rotations and a shift; SIGMA_UPPER_x: three rotations. *)
Definition sw_sigma_lower (w : N) (r : N * N * N) (x : N) : N :=
  let '(p, q, s) := r in N.lxor (N.lxor (rotr w x p) (rotr w x q)) (N.shiftr x s).
Definition sw_sigma_upper (w : N) (r : N * N * N) (x : N) : N :=
  let '(p, q, s) := r in N.lxor (N.lxor (rotr w x p) (rotr w x q)) (rotr w x s).

Definition vars8 : Type := N * N * N * N * N * N * N * N.

(** sha_2_256_impl_sw.h:107-116, sha_2_512_impl_sw.h:111-120: SCHEDULE_00_15, SCHEDULE_16_63/79. *)
Definition sha2_schedule_00_15 (cx : ctx) (p : sha2_sw) (src sch : list N) (j : nat) : option (list N) :=
  v <- mem_load_be cx (sw_b p) 1 src j ;; put (sw_n p) sch j v.
Definition sha2_schedule_16 (p : sha2_sw) (sch : list N) (j : nat) : option (list N) :=
  x7 <- rd sch (j - 7) ;; x16 <- rd sch (j - 16) ;; x2 <- rd sch (j - 2) ;; x15 <- rd sch (j - 15) ;;
  put (sw_n p) sch j
    (wadd (sw_w p) (wadd (sw_w p) (wadd (sw_w p) x7 x16) (sw_sigma_lower (sw_w p) (sw_lower1 p) x2))
       (sw_sigma_lower (sw_w p) (sw_lower0 p) x15)).

(** sha_2_256_impl_sw.h:92-105 and 118-129, sha_2_512_impl_sw.h:96-109 and 122-133: T_1, T_2, ROUND. *)
Definition sha2_sw_round (p : sha2_sw) (sch : list N) (v : vars8) (j : nat) : option vars8 :=
  let w := sw_w p in
  let '(a, b, c, d, e, f, g, h) := v in
  k <- rd (sw_k p) j ;;
  s <- rd sch j ;;
  let t1 := wadd w (wadd w (wadd w (wadd w (sw_sigma_upper w (sw_upper1 p) e) (sw_ch e f g)) h) k) s in
  let t2 := wadd w (sw_sigma_upper w (sw_upper0 p) a) (sw_maj a b c) in
  Some (wadd w t1 t2, a, b, c, wadd w d t1, e, f, g).

Definition sha2_step_load (cx : ctx) (p : sha2_sw) (src : list N) (q : list N * vars8) (j : nat)
  : option (list N * vars8) :=
  let '(sch, v) := q in
  sch <- sha2_schedule_00_15 cx p src sch j ;;
  v <- sha2_sw_round p sch v j ;;
  Some (sch, v).
Definition sha2_step_mix (p : sha2_sw) (q : list N * vars8) (j : nat) : option (list N * vars8) :=
  let '(sch, v) := q in
  sch <- sha2_schedule_16 p sch j ;;
  v <- sha2_sw_round p sch v j ;;
  Some (sch, v).

(** sha_2_256_impl_sw.h:135-172, sha_2_512_impl_sw.h:139-176: one iteration of the block loop. *)
Definition sha2_sw_block (cx : ctx) (p : sha2_sw) (v0 : vars8) (src : list N) : option vars8 :=
  let w := sw_w p in
  let '(ap, bp, cp, dp, ep, fp, gp, hp) := v0 in
  q <- foldM (sha2_step_load cx p src) (seq 0 16) ([], v0) ;;
  q <- foldM (sha2_step_mix p) (seq 16 (sw_n p - 16)) q ;;
  let '(_, (a, b, c, d, e, f, g, h)) := q in
  Some (wadd w a ap, wadd w b bp, wadd w c cp, wadd w d dp,
        wadd w e ep, wadd w f fp, wadd w g gp, wadd w h hp).

Fixpoint sha2_sw_loop (cx : ctx) (p : sha2_sw) (n : nat) (v : vars8) (src : list N) : option vars8 :=
  match n with
  | O => Some v
  | S n => v <- sha2_sw_block cx p v src ;; sha2_sw_loop cx p n v (skipn (16 * sw_b p) src)
  end.

(** sha_2_256_impl_sw.h:42-183, sha_2_512_impl_sw.h:46-187 [blocks]. *)
Definition sha2_sw_blocks (cx : ctx) (p : sha2_sw) (n : nat) (st src : list N) : option (list N) :=
  a <- rd st 0 ;; b <- rd st 1 ;; c <- rd st 2 ;; d <- rd st 3 ;;
  e <- rd st 4 ;; f <- rd st 5 ;; g <- rd st 6 ;; h <- rd st 7 ;;
  '(a, b, c, d, e, f, g, h) <- sha2_sw_loop cx p n (a, b, c, d, e, f, g, h) src ;;
  st <- wr st 0 a ;; st <- wr st 1 b ;; st <- wr st 2 c ;; st <- wr st 3 d ;;
  st <- wr st 4 e ;; st <- wr st 5 f ;; st <- wr st 6 g ;; wr st 7 h.

(** *** The hash classes: sha_1_160.h, sha_2_256.h, sha_2_512.h *)

(** What differs between the classes. *)
Record hash_alg := {
  ha_block_size : nat;
  ha_word : nat;            (* sizeof the state word *)
  ha_iv : list N;           (* the constants of [initialize] *)
  ha_wide : bool;           (* two-word byte counter (sha_2_512.h) *)
  ha_limit : nat;           (* 56 or 112: buffered bytes from which [finalize] needs a second block *)
  ha_blocks : ctx -> nat -> list N -> list N -> option (list N);
  ha_digest_size : nat      (* bits / 8, or the digest_size option *)
}.

(** The members m_state, m_processed_bytes, m_buffer, m_buffer_size. *)
Record hash_obj := { ho_state : list N; ho_count : list N; ho_buffer : list N; ho_size : nat }.

(** Default constructor (member initialisers): sha_2_256.h:66-76. *)
Definition hash_new (al : hash_alg) : hash_obj := {|
  ho_state := repeat 0 (length (ha_iv al));
  ho_count := if ha_wide al then [0; 0] else [0];
  ho_buffer := repeat 0 (2 * ha_block_size al);
  ho_size := 0 |}.

(** sha_1_160.h:101-119, sha_2_256.h:101-135, sha_2_512.h:99-160 [initialize]: m_buffer is kept. *)
Definition hash_initialize (al : hash_alg) (o : hash_obj) : hash_obj := {|
  ho_state := ha_iv al;
  ho_count := if ha_wide al then [0; 0] else [0];
  ho_buffer := ho_buffer o;
  ho_size := 0 |}.

(** sha_2_256.h:146; sha_2_512.h:171-172. *)
Definition count_add (wide : bool) (c : list N) (size : N) : option (list N) :=
  if wide then
    c0 <- rd c 0 ;; c1 <- rd c 1 ;;
    Some [wadd 64 c0 size; wadd 64 c1 (if (2 ^ 64 - 1 - size <? c0) then 1 else 0)]
  else
    c0 <- rd c 0 ;; Some [wadd 64 c0 size].

(** sha_1_160.h:125-141, sha_2_256.h:141-157, sha_2_512.h:166-183 [update]. *)
Definition hash_update (cx : ctx) (al : hash_alg) (o : hash_obj) (msg : list N) : option hash_obj :=
  c <- count_add (ha_wide al) (ho_count o) (N.of_nat (length msg)) ;;
  '(b, n, st) <- update_block_soak (ha_block_size al) (ha_blocks al cx)
                   (ho_buffer o) (ho_size o) msg (ho_state o) ;;
  Some {| ho_state := st; ho_count := c; ho_buffer := b; ho_size := n |}.

(** The 64-bit words stored as message length: sha_2_256.h:172-176, sha_2_512.h:198-208. *)
Definition length_words (wide : bool) (c : list N) : option (list N) :=
  if wide then
    c0 <- rd c 0 ;; c1 <- rd c 1 ;;
    Some [N.lor (wshl 64 c1 3) (N.shiftr c0 61); wshl 64 c0 3]
  else c0 <- rd c 0 ;; Some [wshl 64 c0 3].

(** [memory_stor_be<uint64_t>(ptr, i, w)] for the words in turn. *)
Fixpoint stor_words64 (cx : ctx) (ptr : list N) (i : nat) (ws : list N) : option (list N) :=
  match ws with
  | [] => Some ptr
  | w :: ws => ptr <- mem_stor_be cx 8 1 ptr i w ;; stor_words64 cx ptr (S i) ws
  end.

(** sha_1_160.h:144-168, sha_2_256.h:160-184, sha_2_512.h:186-216 [finalize]. *)
Definition hash_finalize (cx : ctx) (al : hash_alg) (o : hash_obj) : option hash_obj :=
  let bs := ha_block_size al in
  let lenb := if ha_wide al then 16%nat else 8%nat in
  let left_size := ho_size o in
  let last_size := (if (ha_limit al <=? left_size) then 2 * bs else bs)%nat in
  b <- wr (ho_buffer o) left_size 128 ;;
  b <- zero_loop b (left_size + 1) (last_size - lenb - (left_size + 1)) ;;
  ws <- length_words (ha_wide al) (ho_count o) ;;
  t <- stor_words64 cx (skipn (last_size - lenb) b) 0 ws ;;
  let b := firstn (last_size - lenb) b ++ t in
  st <- ha_blocks al cx (last_size / bs)%nat (ho_state o) b ;;
  Some {| ho_state := st; ho_count := ho_count o; ho_buffer := b; ho_size := ho_size o |}.

(** sha_1_160.h:174-191, sha_2_256.h:190-207, sha_2_512.h:222-239 [digest]: destination and size. *)
Definition hash_digest (cx : ctx) (al : hash_alg) (o : hash_obj) (dst : list N) (size : nat)
  : option (list N * nat) :=
  let n := Nat.min size (ha_digest_size al) in
  dst <- mem_copy_be cx 1 (ha_word al) dst (ho_state o) n ;;
  Some (dst, n).

(** The destructor: sha_1_160.h:84-90, sha_2_256.h:84-90, sha_2_512.h:82-88. *)
Definition hash_destroy (o : hash_obj) : option hash_obj :=
  s <- mem_erase (ho_state o) (length (ho_state o)) ;;
  c <- mem_erase (ho_count o) (length (ho_count o)) ;;
  b <- mem_erase (ho_buffer o) (length (ho_buffer o)) ;;
  Some {| ho_state := s; ho_count := c; ho_buffer := b; ho_size := 0 |}.

(** *** The concrete classes *)

(** sha_1_160.h:108-115. *)
Definition sha_1_160_iv : list N := [0x67452301; 0xefcdab89; 0x98badcfe; 0x10325476; 0xc3d2e1f0].
(** sha_2_256.h:109-130. *)
Definition sha_2_224_iv : list N :=
  [0xc1059ed8; 0x367cd507; 0x3070dd17; 0xf70e5939; 0xffc00b31; 0x68581511; 0x64f98fa7; 0xbefa4fa4].
Definition sha_2_256_iv : list N :=
  [0x6a09e667; 0xbb67ae85; 0x3c6ef372; 0xa54ff53a; 0x510e527f; 0x9b05688c; 0x1f83d9ab; 0x5be0cd19].
(** sha_2_512.h:109-155. *)
Definition sha_2_512_224_iv : list N :=
  [0x8c3d37c819544da2; 0x73e1996689dcd4d6; 0x1dfab7ae32ff9c82; 0x679dd514582f9fcf;
   0x0f6d2b697bd44da8; 0x77e36f7304c48942; 0x3f9d85a86a1d36c8; 0x1112e6ad91d692a1].
Definition sha_2_512_256_iv : list N :=
  [0x22312194fc2bf72c; 0x9f555fa3c84c64c2; 0x2393b86b6f53b151; 0x963877195940eabd;
   0x96283ee2a88effe3; 0xbe5e1e2553863992; 0x2b0199fc2c85b8aa; 0x0eb72ddc81c52ca2].
Definition sha_2_384_iv : list N :=
  [0xcbbb9d5dc1059ed8; 0x629a292a367cd507; 0x9159015a3070dd17; 0x152fecd8f70e5939;
   0x67332667ffc00b31; 0x8eb44a8768581511; 0xdb0c2e0d64f98fa7; 0x47b5481dbefa4fa4].
Definition sha_2_512_iv : list N :=
  [0x6a09e667f3bcc908; 0xbb67ae8584caa73b; 0x3c6ef372fe94f82b; 0xa54ff53a5f1d36f1;
   0x510e527fade682d1; 0x9b05688c2b3e6c1f; 0x1f83d9abfb41bd6b; 0x5be0cd19137e2179].

Definition hash_sha_1_160 (dsz : nat) : hash_alg := {|
  ha_block_size := 64; ha_word := 4; ha_iv := sha_1_160_iv; ha_wide := false; ha_limit := 56;
  ha_blocks := sha1_sw_blocks; ha_digest_size := dsz |}.
Definition hash_sha_2_256 (iv : list N) (dsz : nat) : hash_alg := {|
  ha_block_size := 64; ha_word := 4; ha_iv := iv; ha_wide := false; ha_limit := 56;
  ha_blocks := fun cx => sha2_sw_blocks cx sha_2_256_sw; ha_digest_size := dsz |}.
Definition hash_sha_2_512 (iv : list N) (dsz : nat) : hash_alg := {|
  ha_block_size := 128; ha_word := 8; ha_iv := iv; ha_wide := true; ha_limit := 112;
  ha_blocks := fun cx => sha2_sw_blocks cx sha_2_512_sw; ha_digest_size := dsz |}.

(** primitive/hash/sha.h: the seven public hashes, with the digest_size option [dsz]
    ([sha_digest_size a], that is bits / 8, by default: sha_1_160.h:55-60, sha_2_256.h:57-62,
    sha_2_512.h:55-60). *)
Definition milo_hash_opt (a : sha) (dsz : nat) : hash_alg :=
  match a with
  | SHA1 => hash_sha_1_160 dsz
  | SHA224 => hash_sha_2_256 sha_2_224_iv dsz
  | SHA256 => hash_sha_2_256 sha_2_256_iv dsz
  | SHA384 => hash_sha_2_512 sha_2_384_iv dsz
  | SHA512 => hash_sha_2_512 sha_2_512_iv dsz
  | SHA512_224 => hash_sha_2_512 sha_2_512_224_iv dsz
  | SHA512_256 => hash_sha_2_512 sha_2_512_256_iv dsz
  end.
Definition milo_hash (a : sha) : hash_alg :=
  milo_hash_opt a
    (match a with
     | SHA1 => 160 | SHA224 => 224 | SHA256 => 256 | SHA384 => 384 | SHA512 => 512
     | SHA512_224 => 224 | SHA512_256 => 256
     end / 8)%nat.

(** *** hash/apie.h *)
Record hash_apie := { hp_impl : hash_obj; hp_finalized : bool }.

(** hash/apie.h:81-88 [initialize]; constructor 40-43. *)
Definition hapie_initialize (al : hash_alg) (p : hash_apie) : hash_apie :=
  {| hp_impl := hash_initialize al (hp_impl p); hp_finalized := false |}.
Definition hapie_new (al : hash_alg) : hash_apie :=
  {| hp_impl := hash_initialize al (hash_new al); hp_finalized := false |}.

(** hash/apie.h:62-73 [do_finalize]. *)
Definition hapie_do_finalize (cx : ctx) (al : hash_alg) (p : hash_apie) : option hash_apie :=
  if hp_finalized p then Some p
  else o <- hash_finalize cx al (hp_impl p) ;; Some {| hp_impl := o; hp_finalized := true |}.

(** hash/apie.h:103-131 [update], both overloads. *)
Definition hapie_update (cx : ctx) (al : hash_alg) (p : hash_apie) (msg : list N) : option hash_apie :=
  o <- hash_update cx al (hp_impl p) msg ;; Some {| hp_impl := o; hp_finalized := hp_finalized p |}.

(** hash/apie.h:149-163 [digest(ptr, size)]: the object, the destination and the returned size. *)
Definition hapie_digest (cx : ctx) (al : hash_alg) (p : hash_apie) (dst : list N) (size : nat)
  : option (hash_apie * list N * nat) :=
  p <- hapie_do_finalize cx al p ;;
  '(dst, n) <- hash_digest cx al (hp_impl p) dst size ;;
  Some (p, dst, n).

(** hash/apie.h:178-202 [digest(container, size)]. *)
Definition hapie_digest_c (cx : ctx) (al : hash_alg) (p : hash_apie) (c : container) (size : nat)
  : option (hash_apie * container * nat) :=
  p <- hapie_do_finalize cx al p ;;
  let size := Nat.min size (ha_digest_size al) in
  let '(c, size) := cresize c size in
  '(p, dst, n) <- hapie_digest cx al p (cdata c) size ;;
  Some (p, cset c dst, n).

(** hash/apie.h:218-240 and 252-272: digest into a fresh container. *)
Definition hapie_digest_new (cx : ctx) (al : hash_alg) (p : hash_apie) (size : nat)
  : option (hash_apie * list N) :=
  '(p, c, _) <- hapie_digest_c cx al p (Dynamic []) size ;; Some (p, cdata c).
(** A default constructed std::array has indeterminate elements [junk]. *)
Definition hapie_digest_static (cx : ctx) (al : hash_alg) (p : hash_apie) (junk : list N)
  : option (hash_apie * list N) :=
  '(p, c, _) <- hapie_digest_c cx al p (Static junk) (length junk) ;; Some (p, cdata c).

(** hash/apie.h:293-318 and 341-425, the free functions. *)
Definition hash_free_digest (cx : ctx) (al : hash_alg) (msg dst : list N) (size : nat)
  : option (list N * nat) :=
  p <- hapie_update cx al (hapie_new al) msg ;;
  '(_, dst, n) <- hapie_digest cx al p dst size ;; Some (dst, n).
Definition hash_free_digest_c (cx : ctx) (al : hash_alg) (msg : list N) (c : container) (size : nat)
  : option (container * nat) :=
  p <- hapie_update cx al (hapie_new al) msg ;;
  '(_, c, n) <- hapie_digest_c cx al p c size ;; Some (c, n).
Definition hash_free_digest_new (cx : ctx) (al : hash_alg) (msg : list N) (size : nat) : option (list N) :=
  p <- hapie_update cx al (hapie_new al) msg ;;
  '(_, d) <- hapie_digest_new cx al p size ;; Some d.
Definition hash_free_digest_static (cx : ctx) (al : hash_alg) (msg junk : list N) : option (list N) :=
  p <- hapie_update cx al (hapie_new al) msg ;;
  '(_, d) <- hapie_digest_static cx al p junk ;; Some d.

(** *** Call sequences on one object (not code of the library: how a program uses it) *)

(** Construct, then one [update] per chunk. *)
Definition hash_stream (cx : ctx) (al : hash_alg) (chunks : list (list N)) : option hash_apie :=
  foldM (hapie_update cx al) chunks (hapie_new al).

(** Any history of calls; the observation of a call is what it returns or writes. *)
Inductive hash_call :=
| HInit
| HUpdate (msg : list N)
| HDigest (dst : list N) (size : nat)
| HDigestC (c : container) (size : nat).

Inductive hash_out :=
| ONone
| ODigest (dst : list N) (n : nat)
| ODigestC (c : container) (n : nat).

Definition hash_step (cx : ctx) (al : hash_alg) (p : hash_apie) (c : hash_call)
  : option (hash_apie * hash_out) :=
  match c with
  | HInit => Some (hapie_initialize al p, ONone)
  | HUpdate m => p <- hapie_update cx al p m ;; Some (p, ONone)
  | HDigest d s => '(p, d, n) <- hapie_digest cx al p d s ;; Some (p, ODigest d n)
  | HDigestC c s => '(p, c, n) <- hapie_digest_c cx al p c s ;; Some (p, ODigestC c n)
  end.

Fixpoint hash_run (cx : ctx) (al : hash_alg) (p : hash_apie) (calls : list hash_call)
  : option (hash_apie * list hash_out) :=
  match calls with
  | [] => Some (p, [])
  | c :: calls =>
      '(p, o) <- hash_step cx al p c ;;
      '(p, os) <- hash_run cx al p calls ;;
      Some (p, o :: os)
  end.
