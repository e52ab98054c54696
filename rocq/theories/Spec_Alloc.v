(** What the caller may count on when the allocator fails (C64). *)
From Verif Require Import Base Model_Container Model_Codec Model_Sha Model_Mac Model_Kdf Model_Cipher Model_Aead Model_Alloc.
Local Open Scope N_scope.

(** The number of failures the allocator has in store. *)
Fixpoint failures (h : heap) : nat :=
  match h with [] => 0 | true :: h => failures h | false :: h => S (failures h) end.

(** The exceptions the caller got. *)
Fixpoint exceptions {X Y} (rs : list (ended X Y)) : nat :=
  match rs with [] => 0 | NoMemory _ :: rs => S (exceptions rs) | _ :: rs => exceptions rs end.

(** A container that has to grow to hold [n] bytes. *)
Definition must_grow (c : container) (n : nat) : Prop :=
  match c with Dynamic l => (length l < n)%nat | Static _ => False end.

(** *** One call.  [normal] is the answer of the same call when memory is available. *)

(** Either the normal answer, or exactly one failure of the allocator, reported to a caller who finds [before]; and
    only if the container [c] had to grow to [n] bytes. *)
Definition all_or_nothing {X Y} (c : container) (n : nat) (before : Y) (normal : X) (h : heap)
  (call : option (ended X Y * heap)) : Prop :=
  exists h', (call = Some (Done normal, h') /\ failures h' = failures h) \/
             (call = Some (NoMemory before, h') /\ S (failures h') = failures h /\ must_grow c n).

(** A call on an object that returns its answer in a new container: the normal answer, and the object [after]; or one
    failure of the allocator, reported, and the object [failed]; the latter only if the container is to hold something. *)
Definition new_or_nothing {O X} (n : nat) (after failed : O) (normal : X) (h : heap) (call : option (O * ended X unit * heap)) : Prop :=
  exists h', (call = Some (after, Done normal, h') /\ failures h' = failures h) \/
             (call = Some (failed, NoMemory tt, h') /\ S (failures h') = failures h /\ (0 < n)%nat).

(** *** Histories.  A history with failures is explained by a history without: a failed call that [acts] has had the
    effect of the call on the object, one that does not has had none. *)
Section Histories.
  Context {C X Y : Type} (acts : C -> bool).
  (** The calls that have had an effect. *)
  Fixpoint effective (calls : list C) (rs : list (ended X Y)) : list C :=
    match calls, rs with
    | c :: calls, Done _ :: rs => c :: effective calls rs
    | c :: calls, _ :: rs => if acts c then c :: effective calls rs else effective calls rs
    | _, _ => []
    end.
  (** Every call that came back gave the answer in [os], the answers to the effective calls. *)
  Fixpoint same_answers (calls : list C) (rs : list (ended X Y)) (os : list X) : Prop :=
    match calls, rs with
    | c :: calls, Done x :: rs => match os with o :: os => o = x /\ same_answers calls rs os | [] => False end
    | c :: calls, _ :: rs =>
        if acts c then match os with _ :: os => same_answers calls rs os | [] => False end
        else same_answers calls rs os
    | _, _ => os = []
    end.
End Histories.

(** Every failed call left its container [target] as it was, which had to grow to [n] bytes. *)
Definition untouched {C X} (target : C -> option (container * nat)) (c : C) (r : ended X container) : Prop :=
  match r with
  | Done _ => True
  | NoMemory k => exists n, target c = Some (k, n) /\ must_grow k n
  | Aborted => False
  end.

(** The container of a call and the number of bytes it is to hold. *)
Definition hash_target (digest_size : nat) (c : hash_call) : option (container * nat) :=
  match c with HDigestC c s => Some (c, Nat.min s digest_size) | _ => None end.
Definition mac_target (digest_size : nat) (c : mac_call) : option (container * nat) :=
  match c with MDigestC c s => Some (c, Nat.min s digest_size) | _ => None end.
Definition kdf_target {A} (c : kdf_call A) : option (container * nat) :=
  match c with KDeriveC c s => Some (c, s) | _ => None end.
Definition cipher_target (c : cipher_call) : option (container * nat) :=
  match c with CCryptC _ t c => Some (c, length t) | _ => None end.
Definition aead_target (digest_size : nat) (c : aead_call) : option (container * nat) :=
  match c with
  | ACryptC _ t c => Some (c, length t)
  | ADigestC c s => Some (c, Nat.min s digest_size)
  | _ => None
  end.
(** A failed digest has ended the message, like a digest that came back; a failed encryption, decryption or
    derivation has done nothing. *)
Definition aead_acts (c : aead_call) : bool := match c with ADigestC _ _ => true | _ => false end.

(** What a history of calls with an allocator has to satisfy; [run] is the history without failures. *)
Definition explained {O C X} (acts : C -> bool) (target : C -> option (container * nat))
  (run : O -> list C -> option (O * list X)) (step : O -> C -> heap -> option (O * ended X container * heap))
  (o : O) (calls : list C) (h : heap) : Prop :=
  exists o' rs h' os,
    run_a step o calls h = Some (o', rs, h') /\
    failures h = (exceptions rs + failures h')%nat /\
    Forall2 (untouched target) calls rs /\
    run o (effective acts calls rs) = Some (o', os) /\
    same_answers acts calls rs os.
