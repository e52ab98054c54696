(** The testing interface: src/milo/primitive/KIND/test.h.  Containers are of bytes; a function that throws within a [try] block
    makes the test return false. [junk] is what an uninitialised std::array holds. *)
From Verif Require Import Base Model_Memory Model_Container Model_Update Model_Codec Model_Sha Model_Mac Model_Cipher Model_Aead Model_Kdf.
Local Open Scope N_scope.

(** *** Test vectors *)

(** hash/test.h:36-63 [digest] *)
Definition test_hash (cx : ctx) (al : hash_alg) (msg digest junk : list N) : option bool :=
  d <- hash_free_digest_static cx al msg junk ;; mem_equal_c cx 1 1 d digest.
(** mac/test.h:40-78 [digest]; [key_size] of the class, 0: any *)
Definition test_mac (cx : ctx) (M : mac_alg) (key_size : nat) (key msg digest junk : list N) : option bool :=
  if negb (key_size =? 0)%nat && (key_size <? length key)%nat then Some false
  else d <- mac_free_digest_static cx M key msg junk ;; mem_equal_c cx 1 1 d digest.
(** cipher/test.h:44-84 [encrypt], 110-150 [decrypt] *)
Definition test_cipher (dir : direction) (B : backend) (cx : ctx) (key iv text result : list N) : option bool :=
  r <- cipher_free_new dir B cx key iv text ;; mem_equal_c cx 1 1 r result.
(** aead/test.h:60-110 [encrypt] *)
Definition test_aead_encrypt (B : backend) (cx : ctx) (dsz : nat) (key iv aad text ciphertext digest junk : list N) : option bool :=
  '(c, d) <- aead_free_encrypt_new B cx dsz key iv aad text junk ;;
  same <- mem_equal_c cx 1 1 c ciphertext ;;
  if negb same then Some false else mem_match_c cx 1 1 d digest.
(** aead/test.h:140-183 [decrypt] *)
Definition test_aead_decrypt (B : backend) (cx : ctx) (dsz : nat) (key iv aad text digest plaintext junk : list N) : option bool :=
  r <- aead_free_decrypt_new B cx dsz key iv aad text junk digest ;;
  match r with
  | Returns p => mem_equal_c cx 1 1 p plaintext
  | Throws _ => Some false
  | Terminates => None
  end.
(** kdf/test.h:44-90, 114-159 [derive] *)
Definition test_kdf (cx : ctx) (K : kdf_alg) (env : list N) (a : ka_arg K) (key : list N) : option bool :=
  k <- kdf_free_new cx K env a (length key) ;; mem_equal_c cx 1 1 k key.
(** codec/test.h:44-75 [encode], 91-122 [decode] *)
Definition test_encode (cx : ctx) (k : codec) (from to : list N) : option bool :=
  t <- apie_encode_new k from ;; mem_equal_c cx 1 1 t to.
Definition test_decode (cx : ctx) (k : codec) (from to : list N) : option bool :=
  r <- apie_decode_new k from ;;
  match r with
  | Returns t => mem_equal_c cx 1 1 t to
  | Throws _ => Some false
  | Terminates => None
  end.

(** *** Differential tests.  [Some true] and [Some false] are the results; [None] is undefined behaviour or a loop that does
    not end within the given number of steps. *)

(** The loops over the sizes of the updates: hash/test.h:133-159, mac/test.h:156-190, cipher/test.h:295-370.  [body] runs both
    implementations with the sizes [n0], [n1] and compares. *)
Fixpoint size_loop {A : Type} (body : A -> nat -> nat -> option (A * bool)) (limit grow steps : nat) (s : A) (n0 n1 : nat)
  : option (A * bool) :=
  if (n0 <=? limit + grow)%nat || (n1 <=? limit + grow)%nat then
    match steps with
    | O => None
    | S steps =>
        '(s, ok) <- body s n0 n1 ;;
        if ok then size_loop body limit grow steps s (n1 + grow)%nat n0 else Some (s, false)
    end
  else Some (s, true).
(** The lambdas [update_loop]: hash/test.h:100-127, mac/test.h:116-150, and cipher/test.h:213-289: [size / upd] pieces
    of [upd] bytes, then the rest. *)
Fixpoint piece_loop {A : Type} (piece : A -> nat -> nat -> option A) (upd offs n : nat) (s : A) : option (A * nat) :=
  match n with
  | O => Some (s, offs)
  | S n => s <- piece s offs upd ;; piece_loop piece upd (offs + upd) n s
  end.
Definition update_loop {A : Type} (piece : A -> nat -> nat -> option A) (size upd : nat) (s : A) : option A :=
  if (upd =? 0)%nat then None
  else
    '(s, offs) <- piece_loop piece upd 0 (size / upd) s ;;
    if (offs <? size)%nat then piece s offs (size - offs)%nat else Some s.
(** The outer loops: for every [i] a pass, then [input\[i\] = char(i)]: hash/test.h:131-162, mac/test.h:154-193. *)
Fixpoint input_loop {A : Type} (pass : A -> list N -> option (A * bool)) (i n : nat) (s : A) (input : list N) : option bool :=
  match n with
  | O => Some true
  | S n =>
      '(s, ok) <- pass s input ;;
      if ok then input <- wr input i (N.of_nat i mod 256) ;; input_loop pass (S i) n s input else Some false
  end.
Definition same_bytes (a b : list N) : bool := if list_eq_dec N.eq_dec a b then true else false.

(** hash/test.h:76-165 [differential]: both objects run in [cx]; [steps] bounds the inner loop. *)
Definition hash_feed (cx : ctx) (al : hash_alg) (input : list N) (upd : nat) (p : hash_apie) : option hash_apie :=
  update_loop (fun p offs n => m <- rds input offs n ;; hapie_update cx al p m) (length input) upd (hapie_initialize al p).
Definition hash_differential_size (cx : ctx) (al0 al1 : hash_alg) (junk : list N) (size steps : nat) : option bool :=
  input_loop
    (fun s input =>
       size_loop
         (fun s n0 n1 =>
            let '(p0, p1) := s in
            p0 <- hash_feed cx al0 input n0 p0 ;;
            p1 <- hash_feed cx al1 input n1 p1 ;;
            '(p0, d0) <- hapie_digest_static cx al0 p0 junk ;;
            '(p1, d1) <- hapie_digest_static cx al1 p1 junk ;;
            Some ((p0, p1), same_bytes d0 d1))
         size 3 steps s 1 1)
    0 size (hapie_new al0, hapie_new al1) (repeat 0 size).
Definition hash_differential (cx : ctx) (al0 al1 : hash_alg) (junk : list N) (steps : nat) : option bool :=
  hash_differential_size cx al0 al1 junk (64 * 8) steps.

(** mac/test.h:91-196 [differential]; the two key sizes are always equal.  A default constructed object: [m_finalized] is not
    initialised ([fin]). *)
Definition mac_feed (cx : ctx) (M : mac_alg) (input : list N) (key_size upd : nat) (p : mac_apie M) : option (mac_apie M) :=
  key <- rds input 0 (Nat.min key_size (length input)) ;;
  p <- mapie_initialize cx M p key ;;
  update_loop (fun p offs n => m <- rds input offs n ;; mapie_update cx M p m) (length input) upd p.
Definition mac_differential_size (cx : ctx) (M0 M1 : mac_alg) (fin : bool) (junk : list N) (size steps : nat) : option bool :=
  input_loop
    (fun s input =>
       let '(p0, p1) := s in
       '(p0, p1, _, ok) <- size_loop
         (fun s n0 n1 =>
            let '(p0, p1, key_size) := s in
            p0 <- mac_feed cx M0 input key_size n0 p0 ;;
            p1 <- mac_feed cx M1 input key_size n1 p1 ;;
            '(p0, d0) <- mapie_digest_static cx M0 p0 junk ;;
            '(p1, d1) <- mapie_digest_static cx M1 p1 junk ;;
            Some ((p0, p1, (key_size + 3)%nat), same_bytes d0 d1))
         size 3 steps (p0, p1, 0%nat) 1 1 ;;
       Some ((p0, p1), ok))
    0 size ({| mp_impl := ma_new M0; mp_finalized := fin |}, {| mp_impl := ma_new M1; mp_finalized := fin |}) (repeat 0 size).
Definition mac_differential (cx : ctx) (M0 M1 : mac_alg) (fin : bool) (junk : list N) (steps : nat) : option bool :=
  mac_differential_size cx M0 M1 fin junk (64 * 8) steps.

(** cipher/test.h:163-379 [differential].  The five buffers of [size] bytes lie in one memory [m]: data, encrypted and decrypted by the
    first, encrypted and decrypted by the second. *)
Definition cipher_pass (dir : direction) (B : backend) (cx : ctx) (key iv : list N) (size upd src dst : nat) (o : cc_obj) (m : list N)
  : option (cc_obj * list N) :=
  o <- capie_initialize cx o key iv ;;
  update_loop (fun s offs n => let '(o, m) := s in
                 '(o, m, _) <- capie_crypt dir B cx o m (src + offs) n (dst + offs) ;; Some (o, m)) size upd (o, m).
(** memory_equal of two of the buffers *)
Definition equal_at (cx : ctx) (m : list N) (size i j : nat) : option bool :=
  a <- rds m (i * size) size ;; b <- rds m (j * size) size ;; mem_equal_c cx 1 1 a b.
Definition cipher_compare (B0 B1 : backend) (cx : ctx) (key iv : list N) (size : nat) (s : cc_obj * cc_obj * list N) (n0 n1 : nat)
  : option (cc_obj * cc_obj * list N * bool) :=
  let '(o0, o1, m) := s in
  '(o0, m) <- cipher_pass Encrypt B0 cx key iv size n0 0 (1 * size) o0 m ;;
  '(o1, m) <- cipher_pass Encrypt B1 cx key iv size n1 0 (3 * size) o1 m ;;
  b <- equal_at cx m size 1 3 ;;
  if negb b then Some (o0, o1, m, false) else
  '(o0, m) <- cipher_pass Decrypt B0 cx key iv size n0 (3 * size) (2 * size) o0 m ;;
  '(o1, m) <- cipher_pass Decrypt B1 cx key iv size n1 (1 * size) (4 * size) o1 m ;;
  b <- equal_at cx m size 0 2 ;;
  if negb b then Some (o0, o1, m, false) else
  b <- equal_at cx m size 0 4 ;;
  if negb b then Some (o0, o1, m, false) else
  b <- equal_at cx m size 2 4 ;;
  Some (o0, o1, m, b).
(** Lines 291-376: key, iv and data change, and the growth of the sizes. *)
Fixpoint cipher_loop (B0 B1 : backend) (cx : ctx) (size steps : nat) (i n grow : nat) (s : cc_obj * cc_obj * list N) (key iv : list N)
  : option bool :=
  match n with
  | O => Some true
  | S n =>
      '(s, ok) <- size_loop (cipher_compare B0 B1 cx key iv size) size grow steps s 1 1 ;;
      if ok then
        let '(o0, o1, m) := s in
        let c := N.of_nat i mod 256 in
        key <- wr key (i mod length key) c ;;
        iv <- wr iv (i mod length iv) c ;;
        m <- wr m i c ;;
        cipher_loop B0 B1 cx size steps (S i) n (S grow) (o0, o1, m) key iv
      else Some false
  end.
Definition cipher_differential_size (B0 B1 : backend) (cx : ctx) (size steps : nat) : option bool :=
  cipher_loop B0 B1 cx size steps 0 size 1 (cc_new, cc_new, repeat 0 (5 * size)) (repeat 0 32) (repeat 0 16).
Definition cipher_differential (B0 B1 : backend) (cx : ctx) (steps : nat) : option bool :=
  cipher_differential_size B0 B1 cx (64 * 64) steps.

(** kdf/test.h:172-246 and 259-331 [differential]: [arg i] are the arguments of pass [i], all of them the array [input];
    keys of 0, 1, 2, .. bytes are derived into [key_0] and [key_1]. *)
Fixpoint kdf_sizes (cx : ctx) (K0 K1 : kdf_alg) (a0 : ka_arg K0) (a1 : ka_arg K1) (input : list N) (j n : nat)
  (s : ka_obj K0 * ka_obj K1 * list N * list N) : option (ka_obj K0 * ka_obj K1 * list N * list N * bool) :=
  match n with
  | O => Some (s, true)
  | S n =>
      let '(o0, o1, key_0, key_1) := s in
      o0 <- ka_initialize K0 cx input o0 a0 ;;
      o1 <- ka_initialize K1 cx input o1 a1 ;;
      '(o0, key_0, _) <- ka_derive K0 cx input o0 key_0 j ;;
      '(o1, key_1, _) <- ka_derive K1 cx input o1 key_1 j ;;
      b <- mem_equal cx 1 1 key_0 key_1 j ;;
      if b then kdf_sizes cx K0 K1 a0 a1 input (S j) n (o0, o1, key_0, key_1) else Some (o0, o1, key_0, key_1, false)
  end.
Fixpoint kdf_inputs (cx : ctx) (K0 K1 : kdf_alg) (a0 : nat -> ka_arg K0) (a1 : nat -> ka_arg K1) (limit : nat) (i n : nat)
  (s : ka_obj K0 * ka_obj K1 * list N * list N) (input : list N) : option bool :=
  match n with
  | O => Some true
  | S n =>
      '(s, ok) <- kdf_sizes cx K0 K1 (a0 i) (a1 i) input 0 limit s ;;
      if ok then input <- wr input i (N.of_nat i mod 256) ;; kdf_inputs cx K0 K1 a0 a1 limit (S i) n s input else Some false
  end.
Definition kdf_differential_size (cx : ctx) (K0 K1 : kdf_alg) (a0 : nat -> ka_arg K0) (a1 : nat -> ka_arg K1) (size : nat) : option bool :=
  kdf_inputs cx K0 K1 a0 a1 size 0 size (ka_new K0, ka_new K1, repeat 0 size, repeat 0 size) (repeat 0 size).
(** HKDF: 64 * 4 bytes as ikm, salt and info; PBKDF2: 64 * 2 bytes as password and salt, and i iterations. *)
Definition hkdf_differential (cx : ctx) (M0 M1 : mac_alg) : option bool :=
  let r := (0%nat, (64 * 4)%nat) in
  kdf_differential_size cx (kdf_hkdf M0) (kdf_hkdf M1) (fun _ => (r, r, r)) (fun _ => (r, r, r)) (64 * 4).
Definition pbkdf_2_differential (cx : ctx) (M0 M1 : mac_alg) : option bool :=
  let r := (0%nat, (64 * 2)%nat) in
  kdf_differential_size cx (kdf_pbkdf_2 M0) (kdf_pbkdf_2 M1) (fun i => (r, r, N.of_nat i)) (fun i => (r, r, N.of_nat i)) (64 * 2).
