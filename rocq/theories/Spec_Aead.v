(** AEAD_CHACHA20_POLY1305 (RFC 8439 sections 2.6 and 2.8) and what the AEAD API promises about call histories. *)
From Verif Require Import Base Spec_Bytes Spec_ChaCha Spec_Poly Spec_Range Model_Memory Model_Container Model_Cipher Model_Aead Spec_Hash.
Local Open Scope N_scope.

(** *** RFC 8439 *)
Definition aead_otk (key nonce : list N) : list N := firstn 32 (chacha20_block key 0 nonce).
(** Zero bytes up to a multiple of 16. *)
Definition pad16 (n : nat) : list N := repeat 0 ((16 - n mod 16) mod 16).
Definition aead_mac_data (aad ct : list N) : list N :=
  aad ++ pad16 (length aad) ++ ct ++ pad16 (length ct) ++
  le_enc 8 (N.of_nat (length aad)) ++ le_enc 8 (N.of_nat (length ct)).
Definition aead_tag (key nonce aad ct : list N) : list N := poly1305 (aead_otk key nonce) (aead_mac_data aad ct).
(** The tag that the library computes on a host with the given byte order ([aead_tag_on false] is [aead_tag]; see [poly1305_on]). *)
Definition aead_tag_on (big : bool) (key nonce aad ct : list N) : list N :=
  poly1305_on big (aead_otk key nonce) (aead_mac_data aad ct).
(** Encryption and decryption of the text (block counter from 1 on). *)
Definition aead_text (key nonce text : list N) : list N := chacha20 key 1 nonce text.

(** *** Histories *)
(** Calls a correct program may make (see [ccall_ok], [mcall_ok]); [dsz] is the digest size. *)
Definition acall_ok (dsz : nat) (c : aead_call) : Prop :=
  match c with
  | AInit k v => bytes k /\ bytes v
  | AAad d => chunk d
  | ACrypt _ m s n d => bytes m /\ (s + n <= length m)%nat /\ (d + n <= length m)%nat /\ apart d s n /\ N.of_nat n < 2 ^ 64
  | ACryptC _ t c => chunk t /\ bytes (cdata c) /\
      match c with Dynamic _ => True | Static l => (length t <= length l)%nat end
  | ACryptSame _ c => chunk (cdata c)
  | ADigest d s => bytes d /\ (Nat.min s dsz <= length d)%nat
  | ADigestC c s => bytes (cdata c)
  | AVerify j m => bytes j /\ length j = dsz /\ bytes m
  end.

Definition is_tag_call (c : aead_call) : bool :=
  match c with ADigest _ _ | ADigestC _ _ | AVerify _ _ => true | _ => false end.

(** The order RFC 8439 assumes: additional data, then text, then the tag.  [texted]: encrypt or decrypt has been
    called since the last initialize; [tagged]: the tag has been asked for; [n]: size of the additional data so far.
    If no text is ever given, the additional data has to fill whole 16-byte blocks (see C34 for why). *)
Fixpoint aorderly (texted tagged : bool) (n : nat) (calls : list aead_call) : bool :=
  match calls with
  | [] => true
  | AInit _ _ :: calls => aorderly false false 0 calls
  | AAad d :: calls => negb texted && negb tagged && aorderly texted tagged (n + length d) calls
  | c :: calls =>
      if is_tag_call c then (texted || (n mod 16 =? 0)%nat) && aorderly texted true n calls
      else negb tagged && aorderly true tagged n calls
  end.

(** The answers, given the inputs since the last initialize: [aad] so far and ciphertext [ct] so far. *)
Definition atag_out (tag : list N) (c : aead_call) : aead_out :=
  match c with
  | ADigest d s => ATag (firstn s tag ++ skipn (Nat.min s (length tag)) d) (Nat.min s (length tag))
  | ADigestC (Dynamic _) s => ATagC (Dynamic (firstn s tag)) (Nat.min s (length tag))
  | ADigestC (Static l) s =>
      let n := Nat.min (Nat.min s (length tag)) (length l) in ATagC (Static (firstn n tag ++ skipn n l)) n
  | AVerify _ m => AErr (if list_eq_dec N.eq_dec m tag then err_none else err_aead_verify)
  | _ => ANone
  end.
(** The text given to a call, and what comes out when that is [r]. *)
Definition atext_in (c : aead_call) : list N :=
  match c with
  | ACrypt _ m s n _ => slice m s n
  | ACryptC _ t _ => t
  | ACryptSame _ c => cdata c
  | _ => []
  end.
Definition atext_out (r : list N) (c : aead_call) : aead_out :=
  match c with
  | ACrypt _ m _ n d => AMem (put m d r) n
  | ACryptC _ t (Dynamic _) => ACon (Dynamic r) (length r)
  | ACryptC _ t (Static l) => ACon (Static (r ++ skipn (length r) l)) (length r)
  | ACryptSame _ c => ACon (cset c r) (length r)
  | _ => ANone
  end.
Definition acipher (c : aead_call) (x r : list N) : list N :=
  match c with
  | ACrypt Decrypt _ _ _ _ | ACryptC Decrypt _ _ | ACryptSame Decrypt _ => x
  | _ => r
  end.
Fixpoint aexpected_on (big : bool) (dsz : nat) (key iv aad ct : list N) (calls : list aead_call) : list aead_out :=
  match calls with
  | [] => []
  | AInit k v :: calls => ANone :: aexpected_on big dsz k v [] [] calls
  | AAad d :: calls => ANone :: aexpected_on big dsz key iv (aad ++ d) ct calls
  | c :: calls =>
      if is_tag_call c
      then atag_out (firstn dsz (aead_tag_on big (pad_to 32 key) (pad_to 12 iv) aad ct)) c :: aexpected_on big dsz key iv aad ct calls
      else
        let x := atext_in c in
        let r := xor_with (chacha20_byte (pad_to 32 key) 1 (pad_to 12 iv)) (length ct) x in
        atext_out r c :: aexpected_on big dsz key iv aad (ct ++ acipher c x r) calls
  end.
(** The same with the tag of RFC 8439. *)
Definition aexpected := aexpected_on false.

(** Additional data and text in pieces, each piece of text into a new container. *)
Fixpoint aad_pieces (cx : ctx) (p : aead_apie) (ads : list (list N)) : option aead_apie :=
  match ads with [] => Some p | d :: ads => p <- aapie_aad cx p d ;; aad_pieces cx p ads end.
Fixpoint text_pieces (dir : direction) (B : backend) (cx : ctx) (p : aead_apie) (ts : list (list N))
  : option (aead_apie * list (list N)) :=
  match ts with
  | [] => Some (p, [])
  | t :: ts =>
      '(p, r) <- aapie_crypt_new dir B cx p t ;;
      '(p, rs) <- text_pieces dir B cx p ts ;;
      Some (p, r :: rs)
  end.

(** All ways to get the tag give [tag]. *)
Definition areturns (cx : ctx) (dsz : nat) (p : aead_apie) (tag : list N) : Prop :=
  (forall dst size, bytes dst -> (Nat.min size (length tag) <= length dst)%nat ->
     exists p', aapie_digest cx dsz p dst size
       = Some (p', firstn size tag ++ skipn (Nat.min size (length tag)) dst, Nat.min size (length tag))) /\
  (forall l size, bytes l ->
     exists p', aapie_digest_c cx dsz p (Dynamic l) size
       = Some (p', Dynamic (firstn size tag), Nat.min size (length tag))) /\
  (forall l size, bytes l ->
     let n := Nat.min (Nat.min size (length tag)) (length l) in
     exists p', aapie_digest_c cx dsz p (Static l) size = Some (p', Static (firstn n tag ++ skipn n l), n)) /\
  (forall size, exists p', aapie_digest_new cx dsz p size = Some (p', firstn size tag)) /\
  (forall junk, bytes junk ->
     exists p', aapie_digest_static cx dsz p junk = Some (p', firstn (length junk) tag ++ skipn (length tag) junk)).
