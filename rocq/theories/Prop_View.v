(** C59: key derivation objects keep their inputs in constant evaluation without misusing memory. *)
From Verif Require Import Base Model_View Spec_View Proof_View.

(** In constant evaluation every lawful program of constructions, copies, moves, assignments (to itself, too) and destructions
    runs: no freed or foreign memory is freed or read; each variable reads as the value it was given, whatever happened to
    the object it was copied from and to the caller's range. *)
Theorem C59_values : forall env ops m answers, program true env none ops m answers ->
  exists h s, vrun true env [] [] ops = Some (h, s, answers).
Proof.
  intros env ops m l P. destruct (run_ce env none ops m l P [] [] inv_start (NoDup_nil _)) as (h & s & E & _). exists h, s. exact E.
Qed.
Print Assumptions C59_values.
(** When all variables are destroyed, all memory is freed (constant evaluation requires it). *)
Theorem C59_no_leak : forall env ops m answers, program true env none ops m answers -> (forall x, m x = None) ->
  exists h s, vrun true env [] [] ops = Some (h, s, answers) /\ forall b, In b h -> b = None.
Proof.
  intros env ops m l P Hm. destruct (run_ce env none ops m l P [] [] inv_start (NoDup_nil _)) as (h & s & E & HI). exists h, s. split; [exact E|].
  exact (inv_empty _ _ _ HI Hm).
Qed.
Print Assumptions C59_no_leak.
(** At run time the same programs allocate nothing; a moved-from variable keeps its value. *)
Theorem C59_run_time : forall env ops m answers, program false env none ops m answers ->
  exists s, vrun false env [] [] ops = Some ([], s, answers).
Proof. intros env ops m l P. apply (run_rt env none ops m l P); [intros x; exact I|constructor]. Qed.
Print Assumptions C59_run_time.
(** Make a, copy it to b, assign a new range to a, assign b to itself, move b to c, read a, b, c, destroy all. *)
Definition c59_ops : list vop := [VRange 0 0 2; VCopyOf 1 0; VInit 0 1 2; VAssign 1 1; VMoveOf 2 1; VReadAll 0; VReadAll 1; VReadAll 2; VDestroy 0; VDestroy 1; VDestroy 2].
Example C59_case : exists m, program true [7; 8; 9]%N none c59_ops m [None; None; None; None; None; Some [8; 9]%N; Some []; Some [7; 8]%N; None; None; None] /\ forall x, m x = None.
Proof.
  eexists. split.
  - unfold c59_ops. eapply pr_cons; [apply do_range; [reflexivity|cbn; lia]|]. eapply pr_cons; [eapply do_copy; reflexivity|].
    eapply pr_cons; [eapply do_init; [reflexivity|cbn; lia]|]. eapply pr_cons; [eapply do_assign; reflexivity|]. eapply pr_cons; [eapply do_move; reflexivity|].
    eapply pr_cons; [eapply do_read; reflexivity|]. eapply pr_cons; [eapply do_read; reflexivity|]. eapply pr_cons; [eapply do_read; reflexivity|].
    eapply pr_cons; [eapply do_destroy; reflexivity|]. eapply pr_cons; [eapply do_destroy; reflexivity|]. eapply pr_cons; [eapply do_destroy; reflexivity|]. apply pr_nil.
  - intros x. unfold put, none. repeat (destruct (Nat.eq_dec _ _); [subst; try reflexivity; try lia|]); try reflexivity.
Qed.
