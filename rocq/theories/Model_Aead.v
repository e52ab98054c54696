(** Model of src/milo/primitive/detail/aead/chacha/chacha_20_poly_1305.h and src/milo/primitive/aead/apie.h.

    As in [Model_Cipher] the texts live in one flat memory [m] and pointers are offsets into it; additional data,
    keys, ivs and digests are separate ranges given by the bytes they hold.  [dsz] is the digest_size option of the
    Poly1305 type (default 16). *)
From Verif Require Import Base Model_Memory Model_Update Model_Container Model_Sha Model_Mac Model_Hmac Model_Poly Model_Cipher.
Local Open Scope N_scope.

(** *** chacha_20_poly_1305.h *)

(** m_cipher, m_mac, m_aad_processed_size, m_edd_processed_size (lines 46-52). *)
Record aead_obj := { ao_cipher : cc_obj; ao_mac : poly_obj; ao_aad : N; ao_edd : N }.
(** Default construction; the two uint64_t members are indeterminate until [initialize], [j1] and [j2] here. *)
Definition aead_new (j1 j2 : N) : aead_obj := {| ao_cipher := cc_new; ao_mac := poly_new; ao_aad := j1; ao_edd := j2 |}.

(** Lines 78-122 [initialize]. *)
Definition aead_initialize (B : backend) (cx : ctx) (o : aead_obj) (key iv : list N) : option aead_obj :=
  let init_cipher_iv := repeat 0 16 in
  let init_mac_key := repeat 0 64 in
  init_cipher_iv <- at_off init_cipher_iv 4 (fun p => mem_init cx 1 1 p iv) ;;
  c <- cc_initialize cx (ao_cipher o) key init_cipher_iv ;;
  '(c, init_mac_key, _) <- cc_encrypt B cx c init_mac_key 0 64 0 ;;
  h <- poly_initialize true cx (ao_mac o) init_mac_key ;;
  Some {| ao_cipher := c; ao_mac := h; ao_aad := 0; ao_edd := 0 |}.

(** Lines 128-139 [aad]. *)
Definition aead_aad (cx : ctx) (o : aead_obj) (data : list N) : option aead_obj :=
  h <- poly_update true cx (ao_mac o) data ;;
  Some {| ao_cipher := ao_cipher o; ao_mac := h;
          ao_aad := wadd 64 (ao_aad o) (N.of_nat (length data)); ao_edd := ao_edd o |}.

(** Lines 150 and 245: [(16 - size % 16) & 0b1111] bytes of a 16-byte zero buffer. *)
Definition aead_zeros (size : N) : option (list N) :=
  rds (repeat 0 16) 0 (N.to_nat (N.land (16 - size mod 16) 15)).

(** Lines 141-152 [aadover]. *)
Definition aead_aadover (cx : ctx) (o : aead_obj) : option aead_obj :=
  z <- aead_zeros (ao_aad o) ;;
  h <- poly_update true cx (ao_mac o) z ;;
  Some {| ao_cipher := ao_cipher o; ao_mac := h; ao_aad := ao_aad o; ao_edd := ao_edd o |}.

(** Lines 158-178 [encrypt]. *)
Definition aead_encrypt (B : backend) (cx : ctx) (o : aead_obj) (m : list N) (src size dst : nat)
  : option (aead_obj * list N * nat) :=
  '(c, m, n) <- cc_encrypt B cx (ao_cipher o) m src size dst ;;
  ct <- rds m dst n ;;
  h <- poly_update true cx (ao_mac o) ct ;;
  Some ({| ao_cipher := c; ao_mac := h; ao_aad := ao_aad o; ao_edd := wadd 64 (ao_edd o) (N.of_nat n) |}, m, n).

(** Lines 199-219 [decrypt]. *)
Definition aead_decrypt (B : backend) (cx : ctx) (o : aead_obj) (m : list N) (src size dst : nat)
  : option (aead_obj * list N * nat) :=
  ct <- rds m src size ;;
  h <- poly_update true cx (ao_mac o) ct ;;
  '(c, m, n) <- cc_decrypt B cx (ao_cipher o) m src size dst ;;
  Some ({| ao_cipher := c; ao_mac := h; ao_aad := ao_aad o; ao_edd := wadd 64 (ao_edd o) (N.of_nat n) |}, m, n).

(** Lines 183-193 and 224-234. *)
Definition aead_encrypt_size (size : nat) : nat := cc_encrypt_size size.
Definition aead_decrypt_size (size : nat) : nat := cc_decrypt_size size.

(** Lines 236-268 [finalize]; [buffer_last] is uninitialised, then wholly written. *)
Definition aead_finalize (cx : ctx) (o : aead_obj) : option aead_obj :=
  z <- aead_zeros (ao_edd o) ;;
  h <- poly_update true cx (ao_mac o) z ;;
  b <- mem_stor_le cx 8 1 (repeat 0 16) 0 (ao_aad o) ;;
  b <- mem_stor_le cx 8 1 b 1 (ao_edd o) ;;
  h <- poly_update true cx h b ;;
  h <- poly_finalize true cx h ;;
  Some {| ao_cipher := ao_cipher o; ao_mac := h; ao_aad := ao_aad o; ao_edd := ao_edd o |}.

(** Lines 273-283 [digest]. *)
Definition aead_digest (cx : ctx) (dsz : nat) (o : aead_obj) (dst : list N) (size : nat) : option (list N * nat) :=
  poly_digest cx dsz (ao_mac o) dst size.

(** *** aead/apie.h *)
Record aead_apie := { ap_impl : aead_obj; ap_aad_done : bool; ap_done : bool }.

(** apie.h:179-195 and 214-225 [initialize]. *)
Definition aapie_initialize (B : backend) (cx : ctx) (p : aead_apie) (key iv : list N) : option aead_apie :=
  o <- aead_initialize B cx (ap_impl p) key iv ;; Some {| ap_impl := o; ap_aad_done := false; ap_done := false |}.
(** apie.h:85-126: constructors.  The members without initialiser hold [j1], [j2], [b1], [b2] before. *)
Definition aapie_new_from (j1 j2 : N) (b1 b2 : bool) (B : backend) (cx : ctx) (key iv : list N) : option aead_apie :=
  aapie_initialize B cx {| ap_impl := aead_new j1 j2; ap_aad_done := b1; ap_done := b2 |} key iv.
Definition aapie_new : backend -> ctx -> list N -> list N -> option aead_apie := aapie_new_from 0 0 false false.

(** apie.h:130-141 [do_finalize_aad] and 143-154 [do_finalize]. *)
Definition aapie_finalize_aad (cx : ctx) (p : aead_apie) : option aead_apie :=
  if ap_aad_done p then Some p
  else o <- aead_aadover cx (ap_impl p) ;; Some {| ap_impl := o; ap_aad_done := true; ap_done := ap_done p |}.
Definition aapie_finalize (cx : ctx) (p : aead_apie) : option aead_apie :=
  if ap_done p then Some p
  else o <- aead_finalize cx (ap_impl p) ;; Some {| ap_impl := o; ap_aad_done := ap_aad_done p; ap_done := true |}.

(** apie.h:241-272 [aad]. *)
Definition aapie_aad (cx : ctx) (p : aead_apie) (data : list N) : option aead_apie :=
  o <- aead_aad cx (ap_impl p) data ;; Some {| ap_impl := o; ap_aad_done := ap_aad_done p; ap_done := ap_done p |}.

(** apie.h:295-308 and 461-474: [encrypt] and [decrypt] on pointers. *)
Definition aapie_crypt (dir : direction) (B : backend) (cx : ctx) (p : aead_apie) (m : list N) (src size dst : nat)
  : option (aead_apie * list N * nat) :=
  p <- aapie_finalize_aad cx p ;;
  '(o, m, n) <- match dir with
                | Encrypt => aead_encrypt B cx (ap_impl p) m src size dst
                | Decrypt => aead_decrypt B cx (ap_impl p) m src size dst
                end ;;
  Some ({| ap_impl := o; ap_aad_done := ap_aad_done p; ap_done := ap_done p |}, m, n).

Definition aapie_size (dir : direction) (n : nat) : nat :=
  match dir with Encrypt => aead_encrypt_size n | Decrypt => aead_decrypt_size n end.

(** apie.h:329-351 and 495-517: source and destination containers, not the same one; and the same one. *)
Definition aapie_crypt_c (dir : direction) (B : backend) (cx : ctx) (p : aead_apie) (text : list N) (c : container)
  : option (aead_apie * container * nat) :=
  let '(c, _) := cresize c (aapie_size dir (length text)) in
  '(p, m, n) <- aapie_crypt dir B cx p (text ++ cdata c) 0 (length text) (length text) ;;
  let c := cset c (skipn (length text) m) in
  let '(c, _) := cresize c n in
  Some (p, c, n).
Definition aapie_crypt_same (dir : direction) (B : backend) (cx : ctx) (p : aead_apie) (c : container)
  : option (aead_apie * container * nat) :=
  let '(c, _) := cresize c (aapie_size dir (length (cdata c))) in
  '(p, m, n) <- aapie_crypt dir B cx p (cdata c) 0 (length (cdata c)) 0 ;;
  let c := cset c m in
  let '(c, _) := cresize c n in
  Some (p, c, n).
(** apie.h:370-387 and 536-553: into a new resizable container. *)
Definition aapie_crypt_new (dir : direction) (B : backend) (cx : ctx) (p : aead_apie) (text : list N)
  : option (aead_apie * list N) :=
  '(p, c, _) <- aapie_crypt_c dir B cx p text (Dynamic []) ;; Some (p, cdata c).

(** apie.h:622-633 [digest](ptr, size). *)
Definition aapie_digest (cx : ctx) (dsz : nat) (p : aead_apie) (dst : list N) (size : nat)
  : option (aead_apie * list N * nat) :=
  p <- aapie_finalize cx p ;;
  '(dst, n) <- aead_digest cx dsz (ap_impl p) dst size ;;
  Some (p, dst, n).
(** apie.h:651-672 [digest](container, size). *)
Definition aapie_digest_c (cx : ctx) (dsz : nat) (p : aead_apie) (c : container) (size : nat)
  : option (aead_apie * container * nat) :=
  p <- aapie_finalize cx p ;;
  let size := Nat.min size dsz in
  let '(c, size) := cresize c size in
  '(p, dst, n) <- aapie_digest cx dsz p (cdata c) size ;;
  Some (p, cset c dst, n).
(** apie.h:688-705 and 719-735; [junk] is the uninitialised array. *)
Definition aapie_digest_new (cx : ctx) (dsz : nat) (p : aead_apie) (size : nat) : option (aead_apie * list N) :=
  '(p, c, _) <- aapie_digest_c cx dsz p (Dynamic []) size ;; Some (p, cdata c).
Definition aapie_digest_static (cx : ctx) (dsz : nat) (p : aead_apie) (junk : list N) : option (aead_apie * list N) :=
  '(p, c, _) <- aapie_digest_c cx dsz p (Static junk) (length junk) ;; Some (p, cdata c).

(** apie.h:753-769 and 818-828 [verify] with an error object; [junk] is the array result of [digest()]. *)
Definition aapie_verify (cx : ctx) (dsz : nat) (p : aead_apie) (junk mac : list N) : option (aead_apie * errcode) :=
  '(p, d) <- aapie_digest_static cx dsz p junk ;;
  b <- mem_match_c cx 1 1 d mac ;;
  Some (p, if b then err_none else err_aead_verify).
(** apie.h:785-802 and 841-850: without an error object. *)
Definition aapie_verify_throw (cx : ctx) (dsz : nat) (p : aead_apie) (junk mac : list N)
  : option (aead_apie * outcome unit) :=
  '(p, e) <- aapie_verify cx dsz p junk mac ;;
  Some (p, if err_bool e then Throws e else Returns tt).

(** A function declared noexcept(true) that an exception would leave calls std::terminate. *)
Definition noexcept_if {A} (b : bool) (r : outcome A) : outcome A :=
  match r with Throws e => if b then Terminates else r | _ => r end.

(** Free [encrypt], apie.h:902-942 (pointers), 985-1022 (containers), 1061-1088 (new containers).  The first two do not compile when
    instantiated (their tuple of references does not convert to the declared tuple of sizes); modelled is the evident meaning. *)
Definition aead_free_encrypt (B : backend) (cx : ctx) (dsz : nat) (key iv aad m : list N) (src size dst : nat)
  (mac : list N) : option (list N * list N * nat * nat) :=
  p <- aapie_new B cx key iv ;; p <- aapie_aad cx p aad ;;
  '(p, m, n) <- aapie_crypt Encrypt B cx p m src size dst ;;
  '(_, mac, k) <- aapie_digest cx dsz p mac dsz ;;
  Some (m, mac, n, k).
Definition aead_free_encrypt_c (B : backend) (cx : ctx) (dsz : nat) (key iv aad text : list N) (c mac : container)
  : option (container * container * nat * nat) :=
  p <- aapie_new B cx key iv ;; p <- aapie_aad cx p aad ;;
  '(p, c, n) <- aapie_crypt_c Encrypt B cx p text c ;;
  '(_, mac, k) <- aapie_digest_c cx dsz p mac dsz ;;
  Some (c, mac, n, k).
Definition aead_free_encrypt_new (B : backend) (cx : ctx) (dsz : nat) (key iv aad text junk : list N)
  : option (list N * list N) :=
  p <- aapie_new B cx key iv ;; p <- aapie_aad cx p aad ;;
  '(p, c) <- aapie_crypt_new Encrypt B cx p text ;;
  '(_, d) <- aapie_digest_static cx dsz p junk ;;
  Some (c, d).

(** Free [decrypt] on pointers, apie.h:1147-1196: without an error object (noexcept(sizeof...(t_error) == 0), that
    is noexcept(true)) and with one.  The memory is what the caller sees afterwards. *)
Definition aead_free_decrypt (B : backend) (cx : ctx) (dsz : nat) (key iv aad m : list N) (src size : nat)
  (junk mac : list N) (dst : nat) : option (list N * outcome nat) :=
  p <- aapie_new B cx key iv ;; p <- aapie_aad cx p aad ;;
  '(p, m, n) <- aapie_crypt Decrypt B cx p m src size dst ;;
  '(_, r) <- aapie_verify_throw cx dsz p junk mac ;;
  Some (m, noexcept_if true (match r with Returns _ => Returns n | Throws e => Throws e | Terminates => Terminates end)).
Definition aead_free_decrypt_err (B : backend) (cx : ctx) (dsz : nat) (key iv aad m : list N) (src size : nat)
  (junk mac : list N) (dst : nat) : option (list N * nat * errcode) :=
  p <- aapie_new B cx key iv ;; p <- aapie_aad cx p aad ;;
  '(p, m, n) <- aapie_crypt Decrypt B cx p m src size dst ;;
  '(_, e) <- aapie_verify cx dsz p junk mac ;;
  Some (m, n, e).

(** Free [decrypt] into a container, apie.h:1245-1285; without an error object it is noexcept(true) exactly when the
    container has a fixed size. *)
Definition is_static (c : container) : bool := match c with Static _ => true | Dynamic _ => false end.
Definition aead_free_decrypt_c (B : backend) (cx : ctx) (dsz : nat) (key iv aad text junk mac : list N) (c : container)
  : option (container * outcome nat) :=
  p <- aapie_new B cx key iv ;; p <- aapie_aad cx p aad ;;
  '(p, c, n) <- aapie_crypt_c Decrypt B cx p text c ;;
  '(_, r) <- aapie_verify_throw cx dsz p junk mac ;;
  Some (c, noexcept_if (is_static c)
             (match r with Returns _ => Returns n | Throws e => Throws e | Terminates => Terminates end)).
Definition aead_free_decrypt_c_err (B : backend) (cx : ctx) (dsz : nat) (key iv aad text junk mac : list N) (c : container)
  : option (container * nat * errcode) :=
  p <- aapie_new B cx key iv ;; p <- aapie_aad cx p aad ;;
  '(p, c, n) <- aapie_crypt_c Decrypt B cx p text c ;;
  '(_, e) <- aapie_verify cx dsz p junk mac ;;
  Some (c, n, e).

(** Free [decrypt] returning a new container, apie.h:1332-1365 (noexcept(false)). *)
Definition aead_free_decrypt_new (B : backend) (cx : ctx) (dsz : nat) (key iv aad text junk mac : list N)
  : option (outcome (list N)) :=
  p <- aapie_new B cx key iv ;; p <- aapie_aad cx p aad ;;
  '(p, d) <- aapie_crypt_new Decrypt B cx p text ;;
  '(_, r) <- aapie_verify_throw cx dsz p junk mac ;;
  Some (match r with Returns _ => Returns d | Throws e => Throws e | Terminates => Terminates end).
Definition aead_free_decrypt_new_err (B : backend) (cx : ctx) (dsz : nat) (key iv aad text junk mac : list N)
  : option (list N * errcode) :=
  p <- aapie_new B cx key iv ;; p <- aapie_aad cx p aad ;;
  '(p, d) <- aapie_crypt_new Decrypt B cx p text ;;
  '(_, e) <- aapie_verify cx dsz p junk mac ;;
  Some (d, e).

(** *** Call sequences on one object *)
Inductive aead_call :=
| AInit (key iv : list N)
| AAad (data : list N)
| ACrypt (dir : direction) (m : list N) (src size dst : nat)
| ACryptC (dir : direction) (text : list N) (c : container)
| ACryptSame (dir : direction) (c : container)
| ADigest (dst : list N) (size : nat)
| ADigestC (c : container) (size : nat)
| AVerify (junk mac : list N).
Inductive aead_out :=
| ANone
| AMem (m : list N) (size : nat)
| ACon (c : container) (size : nat)
| ATag (dst : list N) (size : nat)
| ATagC (c : container) (size : nat)
| AErr (e : errcode).

Definition aead_step (B : backend) (cx : ctx) (dsz : nat) (p : aead_apie) (c : aead_call)
  : option (aead_apie * aead_out) :=
  match c with
  | AInit k v => p <- aapie_initialize B cx p k v ;; Some (p, ANone)
  | AAad d => p <- aapie_aad cx p d ;; Some (p, ANone)
  | ACrypt dir m s n d => '(p, m, n) <- aapie_crypt dir B cx p m s n d ;; Some (p, AMem m n)
  | ACryptC dir t c => '(p, c, n) <- aapie_crypt_c dir B cx p t c ;; Some (p, ACon c n)
  | ACryptSame dir c => '(p, c, n) <- aapie_crypt_same dir B cx p c ;; Some (p, ACon c n)
  | ADigest d s => '(p, d, n) <- aapie_digest cx dsz p d s ;; Some (p, ATag d n)
  | ADigestC c s => '(p, c, n) <- aapie_digest_c cx dsz p c s ;; Some (p, ATagC c n)
  | AVerify j m => '(p, e) <- aapie_verify cx dsz p j m ;; Some (p, AErr e)
  end.
Fixpoint aead_run (B : backend) (cx : ctx) (dsz : nat) (p : aead_apie) (calls : list aead_call)
  : option (aead_apie * list aead_out) :=
  match calls with
  | [] => Some (p, [])
  | c :: calls =>
      '(p, o) <- aead_step B cx dsz p c ;;
      '(p, os) <- aead_run B cx dsz p calls ;;
      Some (p, o :: os)
  end.
