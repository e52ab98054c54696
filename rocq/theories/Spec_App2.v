(** What is said of the values that the benchmark tool prints. *)
From Verif Require Import Base Model_App Spec_App.
Local Open Scope N_scope.

(** The JSON value that is meant; [show a b] is the text for the double [a / b]. *)
Section Meant.
  Context (show : N -> N -> list N).
  Fixpoint meant (v : var) : jv :=
    match v with
    | VStr s => JString s
    | VUnsigned n => JInteger n
    | VRatio a b => JNumber (show a b)
    | VBool b => JBool b
    | VArray l => JArray (map meant l)
    | VObject l => JObject (map (fun e => (fst e, meant (snd e))) l)
    end.
End Meant.
(** [part v x]: [x] occurs in [v]. *)
Inductive part : var -> var -> Prop :=
| p_here v : part v v
| p_array l x v : In x l -> part x v -> part (VArray l) v
| p_object l k x v : In (k, x) l -> part x v -> part (VObject l) v.
(** No string and no key in [v] has a character that must be escaped. *)
Definition plain (v : var) : Prop :=
  (forall s, part v (VStr s) -> Forall (fun c => ~ special c) s) /\
  (forall l k x, part v (VObject l) -> In (k, x) l -> Forall (fun c => ~ special c) k).
(** [reaches v path x]: following the keys [path] in [v] leads to [x]. *)
Inductive reaches : var -> list (list N) -> var -> Prop :=
| r_here v : reaches v [] v
| r_key k v l path x : In (k, v) l -> reaches v path x -> reaches (VObject l) (k :: path) x.
(** Parameter [name] is given the value [n] among the arguments [l]. *)
Definition given (l : list (list N)) (name : list N) (n : N) : Prop :=
  exists pre v post, l = pre ++ assignment name v :: post /\ Forall (fun x => optional x /\ ~ begins name x) pre /\ decimal v n /\ n < 2 ^ 64.
(** The number of measured repeats: as given, but at least one; 1024 if it is not given. *)
Definition repeats (l : list (list N)) (name : list N) (T : N) : Prop :=
  (exists t, given l name t /\ T = N.max 1 t) \/ (Forall (fun x => ~ begins name x) l /\ T = 1024).
(** The arguments, separated by single spaces. *)
Fixpoint spaced (l : list (list N)) : list N :=
  match l with [] => [] | [x] => x | x :: l => x ++ [32] ++ spaced l end.
