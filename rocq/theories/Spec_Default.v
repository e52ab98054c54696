(** What a user may ask about objects that were not initialized. *)
From Verif Require Import Base Spec_Bytes Spec_ChaCha Spec_Range Spec_Cipher Spec_Hash Spec_Mac Spec_Aead Model_Memory Model_Container Model_Sha
  Model_Mac Model_Cipher Model_Aead Model_Default.
Local Open Scope N_scope.

Definition use_ok {C} (ok : C -> Prop) (u : use C) : Prop := match u with Call c => ok c | Copy => True end.
Definition minit (u : use mac_call) : bool := match u with Call (MInit _) => true | _ => false end.
Definition mupdate (u : use mac_call) : bool := match u with Call (MUpdate _) => true | _ => false end.
Definition ainit_use (u : use aead_call) : bool := match u with Call (AInit _ _) => true | _ => false end.

(** Some use other than [initialize] and [update] comes before the first [initialize]. *)
Definition early_mac (us : list (use mac_call)) : Prop :=
  exists before u after, us = before ++ u :: after /\ Forall (fun x => minit x = false) before /\
    minit u = false /\ mupdate u = false.
(** Some use comes before the first [initialize]. *)
Definition early_aead (us : list (use aead_call)) : Prop := exists u after, us = u :: after /\ ainit_use u = false.

(** The answers to calls and copies: a copy answers nothing and changes nothing. *)
Fixpoint plain_calls {C} (us : list (use C)) : list C :=
  match us with [] => [] | Call c :: us => c :: plain_calls us | Copy :: us => plain_calls us end.
Fixpoint with_copies {C A} (none : A) (us : list (use C)) (outs : list A) : list A :=
  match us, outs with
  | Copy :: us, outs => none :: with_copies none us outs
  | Call _ :: us, o :: outs => o :: with_copies none us outs
  | _, _ => []
  end.

(** The key stream of a cipher whose 16 state words, constants included, are zero. *)
Definition zero_byte (j : nat) : N := st_byte (repeat 0 16) j.

(** The answers of an AEAD object that was never initialized: the text xored with that stream from its beginning on,
    and the tag of zero bytes. *)
Fixpoint zexpected (dsz pos : nat) (calls : list aead_call) : list aead_out :=
  match calls with
  | [] => []
  | AInit _ _ :: _ => []
  | AAad d :: calls => ANone :: zexpected dsz pos calls
  | c :: calls =>
      if is_tag_call c then atag_out (repeat 0 dsz) c :: zexpected dsz pos calls
      else atext_out (xor_with zero_byte pos (atext_in c)) c :: zexpected dsz (pos + length (atext_in c)) calls
  end.
Definition no_init (c : aead_call) : Prop := match c with AInit _ _ => False | _ => True end.
Definition no_key (c : mac_call) : Prop := match c with MInit _ => False | _ => True end.
Definition zanswer (dsz : nat) (c : mac_call) : hash_out := mprefix (repeat 0 dsz) c.
