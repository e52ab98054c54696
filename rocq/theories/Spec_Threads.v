(** What programs of several threads may do, and what they see. *)
From Verif Require Import Base Spec_Bytes Spec_Sha Spec_Range Spec_Hash Spec_ChaCha Spec_Cipher Spec_Aead Model_Memory Model_Container Model_Sha Model_Mac Model_Hmac Model_Poly Model_Cipher Model_Aead Model_Kdf Model_Threads.
Local Open Scope N_scope.

(** An object that has just been constructed, from any key and nonce; those of key derivation by the constructor without arguments. *)
Definition constructed (cx : ctx) (B : backend) (x : thing) : Prop :=
  match x with
  | THash al p => (exists a n, al = milo_hash_opt a n /\ (n <= sha_digest_size a)%nat) /\ p = hapie_new al
  | TMac M p => ((exists a n, M = mac_hmac (milo_hash a) n /\ (n <= sha_digest_size a)%nat) \/ (exists n, M = mac_poly n /\ (n <= 16)%nat)) /\
                exists key, chunk key /\ mapie_new cx M key = Some p
  | TCipher o => exists key iv, bytes key /\ bytes iv /\ capie_new cx key iv = Some o
  | TAead z p => (z <= 16)%nat /\ exists key iv, bytes key /\ bytes iv /\ aapie_new B cx key iv = Some p
  | THkdf M o => (exists a n, M = mac_hmac (milo_hash a) n /\ (1 <= n <= sha_digest_size a)%nat) /\ o = hk_new M
  | TPbkdf2 M o => (exists a n, M = mac_hmac (milo_hash a) n /\ (1 <= n <= sha_digest_size a)%nat) /\ o = pb_new M
  end.

Definition within (r : nat * nat) (a : nat) : Prop := (fst r <= a < fst r + snd r)%nat.
(** The size of the tag or digest of an object. *)
Definition tag_size (x : thing) : nat :=
  match x with THash al _ => ha_digest_size al | TMac M _ => ma_digest_size M | TAead z _ => z | _ => 0%nat end.
(** The bytes of the memory a call reads, and those it writes. *)
Definition reads (c : scall) (a : nat) : Prop :=
  match c with
  | SInit k v => within k a \/ within v a
  | SFeed r => within r a
  | SCrypt _ s n _ => within (s, n) a
  | STag _ _ => False
  | SVerify _ r => within r a
  | SKey i s f => within i a \/ within s a \/ within f a
  | SPass i s _ => within i a \/ within s a
  | SDerive _ _ => False
  end.
Definition writes (z : nat) (c : scall) (a : nat) : Prop :=
  match c with
  | SCrypt _ _ n d => within (d, n) a
  | STag d n => within (d, Nat.min n z) a
  | SDerive d n => within (d, n) a
  | _ => False
  end.
Definition touches (z : nat) (c : scall) (a : nat) : Prop := reads c a \/ writes z c a.

(** The bytes an object of key derivation goes on reading after the call: those of info (HKDF), and of ikm and salt (PBKDF2). *)
Definition keeps (c : scall) (a : nat) : Prop :=
  match c with SKey _ _ f => within f a | SPass i s _ => within i a \/ within s a | _ => False end.

(** A call the class of [x] has, with ranges that lie in a memory of [len] bytes. *)
Definition inside (len : nat) (r : nat * nat) : Prop := (fst r + snd r <= len)%nat /\ N.of_nat (snd r) < 2 ^ 64.
Definition legal (x : thing) (len : nat) (c : scall) : Prop :=
  match x, c with
  | (THash _ _ | TMac _ _ | TCipher _ | TAead _ _), SInit k v => inside len k /\ inside len v
  | (THash _ _ | TMac _ _ | TAead _ _), SFeed r => inside len r
  | (TCipher _ | TAead _ _), SCrypt _ s n d => inside len (s, n) /\ inside len (d, n) /\ apart d s n
  | (THash _ _ | TMac _ _ | TAead _ _), STag d n => (d + Nat.min n (tag_size x) <= len)%nat
  | TAead _ _, SVerify junk r => inside len r /\ bytes junk /\ length junk = tag_size x
  | THkdf _ _, SKey i s f => inside len i /\ inside len s /\ inside len f
  | TPbkdf2 _ _, SPass i s _ => inside len i /\ inside len s
  | (THkdf _ _ | TPbkdf2 _ _), SDerive d n => (d + n <= len)%nat
  | _, _ => False
  end.

(** No key is derived over the inputs the object keeps (see C62). *)
Definition inputs_kept (tr : trace) : Prop :=
  forall i d n c a, In (i, SDerive d n) tr -> In (i, c) tr -> keeps c a -> ~ within (d, n) a.

(** No byte is written by a call on one object and touched by a call on another: programs whose threads use different objects and
    different buffers, or share buffers that are only read. *)
Definition race_free (xs : nat -> thing) (tr : trace) : Prop :=
  forall i c j d a, In (i, c) tr -> In (j, d) tr -> i <> j -> writes (tag_size (xs i)) c a -> ~ touches (tag_size (xs j)) d a.

(** The calls on object [i], and the outcomes of those calls. *)
Definition mine {A} (i : nat) (l : list (nat * A)) : list (nat * A) := filter (fun p => (fst p =? i)%nat) l.

(** Programs whose threads wait for each other.  The bytes a call uses: those it reads and writes, and for derive those of the inputs the
    object was given (at any time in the program). *)
Definition uses (xs : nat -> thing) (tr : trace) (e : nat * scall) (a : nat) : Prop :=
  touches (tag_size (xs (fst e))) (snd e) a \/
  match snd e with SDerive _ _ => exists k, In (fst e, k) tr /\ keeps k a | _ => False end.
(** Calls on one object, and calls one of which writes a byte the other one uses. *)
Definition conflict (xs : nat -> thing) (tr : trace) (e f : nat * scall) : Prop :=
  fst e = fst f \/ exists a, writes (tag_size (xs (fst e))) (snd e) a /\ uses xs tr f a \/ uses xs tr e a /\ writes (tag_size (xs (fst f))) (snd f) a.
Definition event_dec (e f : nat * scall) : {e = f} + {e <> f}.
Proof. repeat decide equality. Defined.
(** The occurrences of [e] and [f] in a schedule. *)
Definition only (e f : nat * scall) (tr : trace) : trace :=
  filter (fun x => if event_dec x e then true else if event_dec x f then true else false) tr.
(** Two schedules of one program: the same calls, and calls that conflict are made in the same order. *)
Definition same_order (xs : nat -> thing) (tr tr2 : trace) : Prop := forall e f, conflict xs tr e f -> only e f tr = only e f tr2.

(** What C71 asks of a program and of the order [tr] in which its calls take place. *)
Record program (cx : ctx) (B : backend) (xs : nat -> thing) (m : list N) (tr : trace) : Prop := {
  pr_backend : backend_ok cx B;
  pr_objects : forall i, constructed cx B (xs i);
  pr_memory : bytes m;
  pr_legal : forall i c, In (i, c) tr -> legal (xs i) (length m) c;
  pr_race : race_free xs tr;
  pr_kept : inputs_kept tr
}.
(** The calls of [tr] on object [i] are [cs], in this order. *)
Definition does (tr : trace) (i : nat) (cs : list scall) : Prop := mine i tr = map (pair i) cs.
(** No call of the list touches a byte that an earlier one wrote: results are not overwritten, and not read back. *)
Definition undisturbed (z : nat) (cs : list scall) : Prop := ForallOrdPairs (fun c d => forall a, writes z c a -> ~ touches z d a) cs.
(** The bytes of range [r]. *)
Definition content (m : list N) (r : nat * nat) : list N := slice m (fst r) (snd r).
(** One object used for one message after another.  A message of a hash object: the parts, the pointer and size for the digest. *)
Definition hash_calls (e : list (nat * nat) * nat * nat) : list scall := let '(rs, d, n) := e in SInit (0, 0)%nat (0, 0)%nat :: map SFeed rs ++ [STag d n].
(** Of a MAC object: also the key. *)
Definition mac_calls (e : (nat * nat) * list (nat * nat) * nat * nat) : list scall := let '(k, rs, d, n) := e in SInit k (0, 0)%nat :: map SFeed rs ++ [STag d n].
(** Of a cipher object: key, nonce, and the parts of the text with their sources, sizes and destinations. *)
Definition crypts (l : list (direction * nat * nat * nat)) : list scall := map (fun '(dir, s, n, d) => SCrypt dir s n d) l.
Definition cipher_calls (e : (nat * nat) * (nat * nat) * list (direction * nat * nat * nat)) : list scall := let '(k, v, l) := e in SInit k v :: crypts l.
Definition inputs_of (m : list N) (l : list (direction * nat * nat * nat)) : list N := concat (map (fun '(dir, s, n, d) => content m (s, n)) l).
Definition outputs_of (m : list N) (l : list (direction * nat * nat * nat)) : list N := concat (map (fun '(dir, s, n, d) => content m (d, n)) l).
Definition crypt_outs (l : list (direction * nat * nat * nat)) : list sout := map (fun '(dir, s, n, d) => SSize n) l.
(** Of an AEAD object: key, nonce, parts of the associated data, parts of the text, and a call of digest or verify. *)
Record aead_message := { am_key : nat * nat; am_iv : nat * nat; am_aad : list (nat * nat); am_dir : direction; am_text : list (nat * nat * nat); am_last : scall }.
Definition parts (e : aead_message) : list (direction * nat * nat * nat) := map (fun '(s, n, d) => (am_dir e, s, n, d)) (am_text e).
Definition aead_calls (e : aead_message) : list scall := SInit (am_key e) (am_iv e) :: map SFeed (am_aad e) ++ crypts (parts e) ++ [am_last e].
(** What comes out as text, the tag, and what digest or verify says. *)
Definition text_of (m : list N) (e : aead_message) : list N :=
  aead_text (pad_to 32 (content m (am_key e))) (pad_to 12 (content m (am_iv e))) (inputs_of m (parts e)).
Definition tag_of (cx : ctx) (z : nat) (m : list N) (e : aead_message) : list N :=
  firstn z (aead_tag_on (cx_big cx) (pad_to 32 (content m (am_key e))) (pad_to 12 (content m (am_iv e))) (concat (map (content m) (am_aad e)))
    (match am_dir e with Encrypt => text_of m e | Decrypt => inputs_of m (parts e) end)).
Definition last_out (cx : ctx) (z : nat) (m : list N) (e : aead_message) : sout :=
  match am_last e with
  | STag _ n => SSize (Nat.min n z)
  | SVerify _ r => SError (if list_eq_dec N.eq_dec (content m r) (tag_of cx z m e) then err_none else err_aead_verify)
  | _ => SNone
  end.
(** A message that ends in digest or verify and has text (without a call for the text the tag is another one: see C29). *)
Definition complete (e : aead_message) : Prop := am_text e <> [] /\ match am_last e with STag _ _ | SVerify _ _ => True | _ => False end.
(** The program runs to its end; the memory is then [m'] and the calls on object [i] gave [outs]. *)
Definition ends (cx : ctx) (B : backend) (xs : nat -> thing) (m : list N) (tr : trace) (i : nat) (m' : list N) (outs : list sout) : Prop :=
  exists xs' os, run B cx tr xs m = Some (xs', m', os) /\ mine i os = map (pair i) outs.
