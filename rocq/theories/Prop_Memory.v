(** Properties C11-C13.  Specification: [Spec_Bytes].
    A context [cx] fixes the byte order of the host and whether the call is evaluated at compile time
    or at run time; [arr_bytes (cx_big cx) ps arr] is the memory image of an array of [ps]-byte words. *)
From Verif Require Import Base BaseLemmas Spec_Bytes Model_Memory BytesLemmas Proof_Memory Proof_Memory2 Proof_Memory3 Proof_Memory4 Proof_Memory5.
Local Open Scope N_scope.

(** *** C11 *)
Theorem C11_store_be : forall cx vs ps arr off val,
  int_size vs -> int_size ps -> words (bits ps) arr -> val < 2 ^ bits vs ->
  (off * vs + vs <= length arr * ps)%nat ->
  exists arr', mem_stor_be cx vs ps arr off val = Some arr' /\ words (bits ps) arr' /\ length arr' = length arr /\
    mem_load_be cx vs ps arr' off = Some val /\
    arr_bytes (cx_big cx) ps arr'
    = firstn (off * vs) (arr_bytes (cx_big cx) ps arr) ++ be_enc vs val
      ++ skipn (off * vs + vs) (arr_bytes (cx_big cx) ps arr).
Proof. exact be_store_load. Qed.
Print Assumptions C11_store_be.

Theorem C11_store_le : forall cx vs ps arr off val,
  int_size vs -> int_size ps -> words (bits ps) arr -> val < 2 ^ bits vs ->
  (off * vs + vs <= length arr * ps)%nat ->
  exists arr', mem_stor_le cx vs ps arr off val = Some arr' /\ words (bits ps) arr' /\ length arr' = length arr /\
    mem_load_le cx vs ps arr' off = Some val /\
    arr_bytes (cx_big cx) ps arr'
    = firstn (off * vs) (arr_bytes (cx_big cx) ps arr) ++ le_enc vs val
      ++ skipn (off * vs + vs) (arr_bytes (cx_big cx) ps arr).
Proof. exact le_store_load. Qed.
Print Assumptions C11_store_le.

Theorem C11_load_be : forall cx vs ps arr off,
  int_size vs -> int_size ps -> words (bits ps) arr -> (off * vs + vs <= length arr * ps)%nat ->
  mem_load_be cx vs ps arr off
  = Some (be_dec (firstn vs (skipn (off * vs) (arr_bytes (cx_big cx) ps arr)))).
Proof. exact mem_load_be_spec. Qed.
Print Assumptions C11_load_be.

Theorem C11_load_le : forall cx vs ps arr off,
  int_size vs -> int_size ps -> words (bits ps) arr -> (off * vs + vs <= length arr * ps)%nat ->
  mem_load_le cx vs ps arr off
  = Some (le_dec (firstn vs (skipn (off * vs) (arr_bytes (cx_big cx) ps arr)))).
Proof. exact mem_load_le_spec. Qed.
Print Assumptions C11_load_le.

(** Compile-time and run-time evaluation agree. *)
Theorem C11_load_paths_agree : forall b vs ps arr off,
  int_size vs -> int_size ps -> words (bits ps) arr -> (off * vs + vs <= length arr * ps)%nat ->
  mem_load_be {| cx_big := b; cx_ce := true |} vs ps arr off
    = mem_load_be {| cx_big := b; cx_ce := false |} vs ps arr off /\
  mem_load_le {| cx_big := b; cx_ce := true |} vs ps arr off
    = mem_load_le {| cx_big := b; cx_ce := false |} vs ps arr off.
Proof. exact load_paths. Qed.
Print Assumptions C11_load_paths_agree.

Theorem C11_store_paths_agree : forall b vs ps arr off val,
  int_size vs -> int_size ps -> words (bits ps) arr -> val < 2 ^ bits vs ->
  (off * vs + vs <= length arr * ps)%nat ->
  mem_stor_be {| cx_big := b; cx_ce := true |} vs ps arr off val
    = mem_stor_be {| cx_big := b; cx_ce := false |} vs ps arr off val /\
  mem_stor_le {| cx_big := b; cx_ce := true |} vs ps arr off val
    = mem_stor_le {| cx_big := b; cx_ce := false |} vs ps arr off val.
Proof. exact stor_paths. Qed.
Print Assumptions C11_store_paths_agree.

(** On byte arrays the result does not depend on the host either. *)
Theorem C11_byte_arrays_host_independent : forall cx cx' vs arr off val,
  int_size vs -> bytes arr -> val < 2 ^ bits vs -> (off * vs + vs <= length arr)%nat ->
  mem_stor_be cx vs 1 arr off val = mem_stor_be cx' vs 1 arr off val /\
  mem_stor_le cx vs 1 arr off val = mem_stor_le cx' vs 1 arr off val /\
  mem_load_be cx vs 1 arr off = mem_load_be cx' vs 1 arr off /\
  mem_load_le cx vs 1 arr off = mem_load_le cx' vs 1 arr off.
Proof. exact bytes_host_independent. Qed.
Print Assumptions C11_byte_arrays_host_independent.

(** Copying words out to bytes (how digests leave the library). *)
Theorem C11_copy_words_be : forall cx ss dst src n,
  int_size ss -> (1 < ss)%nat -> words (bits ss) src ->
  bytes dst -> (n <= length dst)%nat -> (n <= length src * ss)%nat ->
  mem_copy_be cx 1 ss dst src n = Some (firstn n (flat_map (be_enc ss) src) ++ skipn n dst).
Proof. exact mem_copy_be_spec. Qed.
Print Assumptions C11_copy_words_be.

Theorem C11_copy_words_le : forall cx ss dst src n,
  int_size ss -> (1 < ss)%nat -> words (bits ss) src ->
  bytes dst -> (n <= length dst)%nat -> (n <= length src * ss)%nat ->
  mem_copy_le cx 1 ss dst src n = Some (firstn n (flat_map (le_enc ss) src) ++ skipn n dst).
Proof. exact mem_copy_le_spec. Qed.
Print Assumptions C11_copy_words_le.

(** The overloads with a size: at most [n] array elements are touched.  A load takes the missing bytes as zeros,
    a store writes only the leading bytes. *)
Theorem C11_load_be_sized : forall cx vs ps arr off n,
  int_size vs -> int_size ps -> words (bits ps) arr -> (off * vs + Nat.min vs (ps * n) <= length arr * ps)%nat ->
  mem_load_be_n cx vs ps arr off n
  = Some (be_dec (pad_to vs (firstn (Nat.min vs (ps * n)) (skipn (off * vs) (arr_bytes (cx_big cx) ps arr))))).
Proof. exact mem_load_be_n_spec. Qed.
Print Assumptions C11_load_be_sized.
Theorem C11_load_le_sized : forall cx vs ps arr off n,
  int_size vs -> int_size ps -> words (bits ps) arr -> (off * vs + Nat.min vs (ps * n) <= length arr * ps)%nat ->
  mem_load_le_n cx vs ps arr off n
  = Some (le_dec (pad_to vs (firstn (Nat.min vs (ps * n)) (skipn (off * vs) (arr_bytes (cx_big cx) ps arr))))).
Proof. exact mem_load_le_n_spec. Qed.
Print Assumptions C11_load_le_sized.
Theorem C11_store_be_sized : forall cx vs ps arr off val n,
  int_size vs -> int_size ps -> words (bits ps) arr -> val < 2 ^ bits vs ->
  (off * vs + Nat.min vs (ps * n) <= length arr * ps)%nat ->
  exists arr', mem_stor_be_n cx vs ps arr off val n = Some arr' /\ words (bits ps) arr' /\ length arr' = length arr /\
    arr_bytes (cx_big cx) ps arr'
    = firstn (off * vs) (arr_bytes (cx_big cx) ps arr) ++ firstn (Nat.min vs (ps * n)) (be_enc vs val)
      ++ skipn (off * vs + Nat.min vs (ps * n)) (arr_bytes (cx_big cx) ps arr).
Proof. exact mem_stor_be_n_spec. Qed.
Print Assumptions C11_store_be_sized.
Theorem C11_store_le_sized : forall cx vs ps arr off val n,
  int_size vs -> int_size ps -> words (bits ps) arr -> val < 2 ^ bits vs ->
  (off * vs + Nat.min vs (ps * n) <= length arr * ps)%nat ->
  exists arr', mem_stor_le_n cx vs ps arr off val n = Some arr' /\ words (bits ps) arr' /\ length arr' = length arr /\
    arr_bytes (cx_big cx) ps arr'
    = firstn (off * vs) (arr_bytes (cx_big cx) ps arr) ++ firstn (Nat.min vs (ps * n)) (le_enc vs val)
      ++ skipn (off * vs + Nat.min vs (ps * n)) (arr_bytes (cx_big cx) ps arr).
Proof. exact mem_stor_le_n_spec. Qed.
Print Assumptions C11_store_le_sized.

Example C11_case :
  mem_load_be_n {| cx_big := true; cx_ce := true |} 4 1 [1; 2; 3; 4; 5; 6; 7] 1 3 = Some 0x05060700 /\
  mem_load_le_n {| cx_big := true; cx_ce := false |} 4 2 [0x0102] 0 1 = Some 0x0201 /\
  mem_stor_be_n {| cx_big := false; cx_ce := true |} 8 2 [1; 2; 3] 0 0x1122334455667788 2 = Some [0x2211; 0x4433; 3] /\
  mem_stor_be {| cx_big := false; cx_ce := true |} 4 2 [1; 2; 3; 4] 1 0x0a0b0c0d
  = Some [1; 2; 0x0b0a; 0x0d0c]
  /\ mem_stor_be {| cx_big := true; cx_ce := false |} 2 4 [0x01020304] 1 0xaabb = Some [0x0102aabb]
  /\ mem_load_le {| cx_big := true; cx_ce := true |} 4 1 [9; 9; 9; 9; 1; 2; 3; 4] 1 = Some 0x04030201.
Proof. vm_compute. repeat split. Qed.

(** *** C12 *)
Theorem C12_match_exact : forall cx pa pb a b n,
  int_size pa -> int_size pb -> words (bits pa) a -> words (bits pb) b ->
  (n <= length a * pa)%nat -> (n <= length b * pb)%nat ->
  exists r, mem_match cx pa pb a b n = Some r /\
  (r = true <-> firstn n (arr_bytes (cx_big cx) pa a) = firstn n (arr_bytes (cx_big cx) pb b)).
Proof. exact mem_match_spec. Qed.
Print Assumptions C12_match_exact.

Theorem C12_match_containers : forall cx a b, bytes a -> bytes b ->
  exists r, mem_match_c cx 1 1 a b = Some r /\ (r = true <-> a = b).
Proof. exact mem_match_c_bytes. Qed.
Print Assumptions C12_match_containers.

Theorem C12_match_word_containers : forall cx pa pb a b,
  int_size pa -> int_size pb -> words (bits pa) a -> words (bits pb) b ->
  exists r, mem_match_c cx pa pb a b = Some r /\
  (r = true <-> arr_bytes (cx_big cx) pa a = arr_bytes (cx_big cx) pb b).
Proof. exact mem_match_c_spec. Qed.
Print Assumptions C12_match_word_containers.

(** The non-constant-time comparison is exact too. *)
Theorem C12_equal_containers : forall cx pa pb a b,
  int_size pa -> int_size pb -> words (bits pa) a -> words (bits pb) b ->
  exists r, mem_equal_c cx pa pb a b = Some r /\
  (r = true <-> arr_bytes (cx_big cx) pa a = arr_bytes (cx_big cx) pb b).
Proof. exact mem_equal_c_spec. Qed.
Print Assumptions C12_equal_containers.

Example C12_case :
  mem_match_c {| cx_big := false; cx_ce := false |} 1 1 [1; 2; 3] [1; 2; 3] = Some true /\
  mem_match_c {| cx_big := false; cx_ce := false |} 1 1 [1; 2; 3] [1; 2] = Some false /\
  mem_match_c {| cx_big := false; cx_ce := true |} 1 1 [1; 2; 3] [1; 6; 3] = Some false.
Proof. vm_compute. repeat split. Qed.

(** *** C13: [dst] is the old contents of the destination array; the result does not depend on it. *)
Theorem C13_init_le : forall cx pd dst src, int_size pd -> bytes src ->
  mem_init_le cx pd 1 dst src = Some (le_words pd (length dst) (pad_to (length dst * pd) src)).
Proof. exact init_bytes_le. Qed.
Print Assumptions C13_init_le.

Theorem C13_init_be : forall cx pd dst src, int_size pd -> bytes src ->
  mem_init_be cx pd 1 dst src = Some (be_words pd (length dst) (pad_to (length dst * pd) src)).
Proof. exact init_bytes_be. Qed.
Print Assumptions C13_init_be.

(** Native order: the memory image is the padded source, on both evaluation paths. *)
Theorem C13_init_native : forall cx pd ps dst src, int_size pd -> int_size ps -> words (bits ps) src ->
  mem_init cx pd ps dst src
  = Some (arr_of_bytes (cx_big cx) pd (length dst)
            (pad_to (length dst * pd) (arr_bytes (cx_big cx) ps src))).
Proof. exact mem_init_spec. Qed.
Print Assumptions C13_init_native.

Theorem C13_copy : forall cx dst src n, bytes dst -> bytes src ->
  (n <= length src)%nat -> (n <= length dst)%nat ->
  mem_copy cx 1 1 dst src n = Some (firstn n src ++ skipn n dst).
Proof. exact copy_bytes. Qed.
Print Assumptions C13_copy.

(** Arrays of any widths, in terms of their memory images: exactly [n] bytes change. *)
Theorem C13_copy_words : forall cx pd ps dst src n, int_size pd -> int_size ps -> words (bits pd) dst -> words (bits ps) src ->
  (n <= length src * ps)%nat -> (n <= length dst * pd)%nat ->
  exists dst', mem_copy cx pd ps dst src n = Some dst' /\ length dst' = length dst /\ words (bits pd) dst' /\
    arr_bytes (cx_big cx) pd dst' = firstn n (arr_bytes (cx_big cx) ps src) ++ skipn n (arr_bytes (cx_big cx) pd dst).
Proof. exact mem_copy_spec. Qed.
Print Assumptions C13_copy_words.

Theorem C13_set : forall cx ps dst v n, int_size ps -> v < 256 -> words (bits ps) dst -> (n <= length dst * ps)%nat ->
  exists dst', mem_set cx ps dst v n = Some dst' /\ length dst' = length dst /\ words (bits ps) dst' /\
    arr_bytes (cx_big cx) ps dst' = repeat v n ++ skipn n (arr_bytes (cx_big cx) ps dst).
Proof. exact mem_set_spec. Qed.
Print Assumptions C13_set.

Theorem C13_xor : forall cx pd pa pb dst a b n, int_size pd -> int_size pa -> int_size pb ->
  words (bits pd) dst -> words (bits pa) a -> words (bits pb) b ->
  (n <= length a * pa)%nat -> (n <= length b * pb)%nat -> (n <= length dst * pd)%nat ->
  exists dst', mem_xor cx pd pa pb dst a b n = Some dst' /\ length dst' = length dst /\ words (bits pd) dst' /\
    arr_bytes (cx_big cx) pd dst' =
      map (fun i => N.lxor (nth i (arr_bytes (cx_big cx) pa a) 0) (nth i (arr_bytes (cx_big cx) pb b) 0)) (seq 0 n) ++
      skipn n (arr_bytes (cx_big cx) pd dst).
Proof. exact mem_xor_spec. Qed.
Print Assumptions C13_xor.

Example C13_case_words :
  mem_set {| cx_big := true; cx_ce := true |} 4 [0x11223344; 0x55667788] 0xaa 5 = Some [0xaaaaaaaa; 0xaa667788] /\
  mem_xor {| cx_big := false; cx_ce := true |} 2 4 1 [1; 2; 3] [0x04030201; 0x08070605] [0xff; 0; 0xff; 0; 0xff] 5 = Some [0x02fe; 0x04fc; 0xfa].
Proof. vm_compute. repeat split. Qed.

Example C13_case :
  mem_init_le {| cx_big := false; cx_ce := true |} 4 1 [7; 7] [1; 2; 3; 4; 5] = Some [0x04030201; 5] /\
  mem_init_le {| cx_big := true; cx_ce := false |} 4 1 [7] [1; 2; 3; 4; 5] = Some [0x04030201].
Proof. vm_compute. repeat split. Qed.
