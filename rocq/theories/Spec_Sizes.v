(** C45: what a call leaves in the object it was asked to fill. *)
From Verif Require Import Base Spec_Bytes Model_Container Model_Sha Model_Mac Model_Cipher Model_Aead Model_Kdf.
Local Open Scope N_scope.

(** [ask] bytes were asked for.  A resizable container (a [std::vector], say) ends up with exactly that many and a container
    of fixed size (a [std::array]) gets as many as it has room for and keeps the rest of its bytes; the number returned is
    the number of bytes given. *)
Definition filled (ask : nat) (c c' : container) (n : nat) : Prop :=
  match c, c' with
  | Dynamic _, Dynamic l' => length l' = ask /\ n = ask
  | Static l, Static l' => n = Nat.min ask (length l) /\ length l' = length l /\ skipn n l' = skipn n l
  | _, _ => False
  end.
(** A range of bytes at a pointer. *)
Definition written (ask : nat) (l l' : list N) (n : nat) : Prop := n = ask /\ length l' = length l /\ skipn n l' = skipn n l.
(** The range that starts at [d] in a memory. *)
Definition written_at (ask d : nat) (m m' : list N) (n : nat) : Prop :=
  n = ask /\ length m' = length m /\ firstn d m' = firstn d m /\ skipn (d + n) m' = skipn (d + n) m.

(** Every call of a history and its answer; a digest has [ds] bytes. *)
Definition hsized (ds : nat) (c : hash_call) (o : hash_out) : Prop :=
  match c, o with
  | HDigest d s, ODigest d' n => written (Nat.min s ds) d d' n
  | HDigestC c s, ODigestC c' n => filled (Nat.min s ds) c c' n
  | HInit, ONone | HUpdate _, ONone => True
  | _, _ => False
  end.
Definition msized (ds : nat) (c : mac_call) (o : hash_out) : Prop :=
  match c, o with
  | MDigest d s, ODigest d' n => written (Nat.min s ds) d d' n
  | MDigestC c s, ODigestC c' n => filled (Nat.min s ds) c c' n
  | MInit _, ONone | MUpdate _, ONone => True
  | _, _ => False
  end.
Definition csized (c : cipher_call) (o : cipher_out) : Prop :=
  match c, o with
  | CCrypt _ m _ n d, CMem m' k => written_at n d m m' k
  | CCryptC _ t c, CCon c' k => filled (length t) c c' k
  | CCryptSame _ c, CCon c' k => filled (length (cdata c)) c c' k
  | CInit _ _, CNone => True
  | _, _ => False
  end.
Definition asized (ds : nat) (c : aead_call) (o : aead_out) : Prop :=
  match c, o with
  | ACrypt _ m _ n d, AMem m' k => written_at n d m m' k
  | ACryptC _ t c, ACon c' k => filled (length t) c c' k
  | ACryptSame _ c, ACon c' k => filled (length (cdata c)) c c' k
  | ADigest d s, ATag d' n => written (Nat.min s ds) d d' n
  | ADigestC c s, ATagC c' n => filled (Nat.min s ds) c c' n
  | AInit _ _, ANone | AAad _, ANone => True
  | AVerify _ _, AErr _ => True
  | _, _ => False
  end.
Definition ksized {A} (c : kdf_call A) (o : kdf_out) : Prop :=
  match c, o with
  | KDerive k s, KKey k' n => written s k k' n
  | KDeriveC c s, KCon c' n => filled s c c' n
  | KInit _, KNone => True
  | _, _ => False
  end.
