(** What programs may do with values that stand for bytes, and what they mean: variables hold byte strings. *)
From Verif Require Import Base Model_View. (* the type [vop] only *)

Definition values := nat -> option (list N).
Definition none : values := fun _ => None.
Definition put (m : values) (x : nat) (l : option (list N)) : values := fun y => if Nat.eq_dec y x then l else m y.
(** [does moved_empty env m op m' a]: in the lawful step [op] the values change from [m] to [m'], and [a] is read.  A variable is made only
    when it is not alive, used and destroyed only when it is; a range lies within [env].  What a variable that was moved from
    holds is a matter of [moved_empty]: nothing, or still the same. *)
Inductive does (moved_empty : bool) (env : list N) (m : values) : vop -> values -> option (list N) -> Prop :=
| do_default x : m x = None -> does moved_empty env m (VDefault x) (put m x (Some [])) None
| do_range x off size : m x = None -> off + size <= length env ->
    does moved_empty env m (VRange x off size) (put m x (Some (firstn size (skipn off env)))) None
| do_copy x y l : m x = None -> m y = Some l -> does moved_empty env m (VCopyOf x y) (put m x (Some l)) None
| do_move x y l : m x = None -> m y = Some l ->
    does moved_empty env m (VMoveOf x y) (put (if moved_empty then put m y (Some []) else m) x (Some l)) None
| do_assign x y l k : m x = Some k -> m y = Some l -> does moved_empty env m (VAssign x y) (put m x (Some l)) None
| do_assign_move x y l k : m x = Some k -> m y = Some l ->
    does moved_empty env m (VAssignMove x y) (put (if moved_empty then put m y (Some []) else m) x (Some l)) None
| do_init x off size k : m x = Some k -> off + size <= length env ->
    does moved_empty env m (VInit x off size) (put m x (Some (firstn size (skipn off env)))) None
| do_destroy x l : m x = Some l -> does moved_empty env m (VDestroy x) (put m x None) None
| do_read x l : m x = Some l -> does moved_empty env m (VReadAll x) m (Some l).
Inductive program (moved_empty : bool) (env : list N) : values -> list vop -> values -> list (option (list N)) -> Prop :=
| pr_nil m : program moved_empty env m [] m []
| pr_cons m op m' a ops m'' l : does moved_empty env m op m' a -> program moved_empty env m' ops m'' l ->
    program moved_empty env m (op :: ops) m'' (a :: l).
