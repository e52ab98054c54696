(** memory.h:1116-1282 [memory_bytes_const_view]: the bytes that a key derivation object keeps (hkdf.h:39, pbkdf_2.h:39-41), with
    the memory it allocates and frees.

    The allocated memory is a list of blocks, the address of a block is its position; a freed block is [None].  A pointer is
    null, the address of a block, or (at run time) the offset of a range of the caller. Undefined behaviour is [None]; in
    constant evaluation the compiler rejects it. *)
From Verif Require Import Base.
Local Open Scope N_scope.

Inductive pointer := Null | Block (a : nat) | Caller (off : nat).
Record mview := { mv_ptr : pointer; mv_size : nat }.
Definition blocks := list (option (list N)).

(** [new value_type\[size\]], then filled. *)
Definition b_new (h : blocks) (l : list N) : blocks * pointer := (h ++ [Some l], Block (length h)).
(** [delete\[\] ptr]: nothing for null; undefined for memory of the caller and for freed memory. *)
Definition b_delete (h : blocks) (p : pointer) : option blocks :=
  match p with
  | Null => Some h
  | Block a =>
      match nth_error h a with
      | Some (Some _) => Some (firstn a h ++ None :: skipn (S a) h)
      | _ => None
      end
  | Caller _ => None
  end.
(** Reading [size] bytes one after the other. *)
Definition b_read (env : list N) (h : blocks) (p : pointer) (size : nat) : option (list N) :=
  match size with
  | O => Some []
  | _ =>
      match p with
      | Null => None
      | Block a => match nth_error h a with Some (Some l) => if (length l <? size)%nat then None else Some (firstn size l) | _ => None end
      | Caller off => if (length env <? off + size)%nat then None else Some (firstn size (skipn off env))
      end
  end.

(** Lines 1130-1134 *)
Definition mv_default : mview := {| mv_ptr := Null; mv_size := 0 |}.
(** Lines 1136-1146: move construction, [(new, old)]; [ce]: in constant evaluation *)
Definition mv_move (ce : bool) (o : mview) : mview * mview :=
  ({| mv_ptr := mv_ptr o; mv_size := mv_size o |}, if ce then {| mv_ptr := Null; mv_size := 0 |} else o).
(** Lines 1148-1168: copy construction *)
Definition mv_copy (ce : bool) (env : list N) (h : blocks) (o : mview) : option (blocks * mview) :=
  if ce then
    l <- b_read env h (mv_ptr o) (mv_size o) ;;
    let '(h, p) := b_new h l in
    Some (h, {| mv_ptr := p; mv_size := mv_size o |})
  else Some (h, {| mv_ptr := mv_ptr o; mv_size := mv_size o |}).
(** Lines 1170-1176: destruction *)
Definition mv_destroy (ce : bool) (h : blocks) (o : mview) : option blocks :=
  if ce then b_delete h (mv_ptr o) else Some h.
(** Lines 1180-1207: construction from a range *)
Definition mv_range (ce : bool) (env : list N) (h : blocks) (off size : nat) : option (blocks * mview) :=
  if ce then
    l <- b_read env h (Caller off) size ;;
    let '(h, p) := b_new h l in
    Some (h, {| mv_ptr := p; mv_size := size |})
  else Some (h, {| mv_ptr := Caller off; mv_size := size |}).
(** Lines 1211-1235: move assignment, [(this, object)]; [same]: both are one object *)
Definition mv_assign_move (ce : bool) (same : bool) (h : blocks) (this o : mview) : option (blocks * mview * mview) :=
  if ce then
    if same then Some (h, this, o)
    else
      h <- b_delete h (mv_ptr this) ;;
      Some (h, {| mv_ptr := mv_ptr o; mv_size := mv_size o |}, {| mv_ptr := Null; mv_size := 0 |})
  else Some (h, {| mv_ptr := mv_ptr o; mv_size := mv_size o |}, o).
(** Lines 1237-1265: copy assignment *)
Definition mv_assign_copy (ce : bool) (env : list N) (same : bool) (h : blocks) (this o : mview) : option (blocks * mview) :=
  if ce then
    if same then Some (h, this)
    else
      h <- b_delete h (mv_ptr this) ;;
      l <- b_read env h (mv_ptr o) (mv_size o) ;;
      let '(h, p) := b_new h l in
      Some (h, {| mv_ptr := p; mv_size := mv_size o |})
  else Some (h, {| mv_ptr := mv_ptr o; mv_size := mv_size o |}).

(** A program that makes, uses and destroys such objects; variables are numbers. *)
Inductive vop :=
| VDefault (x : nat)                   (* lines 1130-1134 *)
| VRange (x off size : nat)            (* 1180-1207 *)
| VCopyOf (x y : nat)                  (* x is made from y: 1148-1168 *)
| VMoveOf (x y : nat)                  (* x is made from y, which is moved from: 1136-1146 *)
| VAssign (x y : nat)                  (* 1237-1265 *)
| VAssignMove (x y : nat)              (* 1211-1235 *)
| VInit (x off size : nat)             (* x = view(range): hkdf.h:123-126, pbkdf_2.h:163-170: a temporary, move assigned, destroyed *)
| VDestroy (x : nat)                   (* 1170-1176 *)
| VReadAll (x : nat).                  (* data(), size(): 1269-1281 *)
(** The live variables *)
Definition vars := list (nat * mview).
Fixpoint v_get (s : vars) (x : nat) : option mview :=
  match s with [] => None | (y, v) :: s => if (x =? y)%nat then Some v else v_get s x end.
Fixpoint v_set (s : vars) (x : nat) (v : mview) : vars :=
  match s with [] => [(x, v)] | (y, w) :: s => if (x =? y)%nat then (x, v) :: s else (y, w) :: v_set s x v end.
Fixpoint v_drop (s : vars) (x : nat) : vars :=
  match s with [] => [] | (y, w) :: s => if (x =? y)%nat then s else (y, w) :: v_drop s x end.
Definition vstep (ce : bool) (env : list N) (h : blocks) (s : vars) (op : vop) : option (blocks * vars * option (list N)) :=
  match op with
  | VDefault x => Some (h, v_set s x mv_default, None)
  | VRange x off size => '(h, v) <- mv_range ce env h off size ;; Some (h, v_set s x v, None)
  | VCopyOf x y => o <- v_get s y ;; '(h, v) <- mv_copy ce env h o ;; Some (h, v_set s x v, None)
  | VMoveOf x y => o <- v_get s y ;; let '(v, o) := mv_move ce o in Some (h, v_set (v_set s y o) x v, None)
  | VAssign x y =>
      this <- v_get s x ;; o <- v_get s y ;;
      '(h, v) <- mv_assign_copy ce env (x =? y)%nat h this o ;; Some (h, v_set s x v, None)
  | VAssignMove x y =>
      this <- v_get s x ;; o <- v_get s y ;;
      '(h, v, o) <- mv_assign_move ce (x =? y)%nat h this o ;; Some (h, v_set (v_set s y o) x v, None)
  | VInit x off size =>
      this <- v_get s x ;;
      '(h, tmp) <- mv_range ce env h off size ;;
      '(h, v, tmp) <- mv_assign_move ce false h this tmp ;;
      h <- mv_destroy ce h tmp ;;
      Some (h, v_set s x v, None)
  | VDestroy x => o <- v_get s x ;; h <- mv_destroy ce h o ;; Some (h, v_drop s x, None)
  | VReadAll x => o <- v_get s x ;; l <- b_read env h (mv_ptr o) (mv_size o) ;; Some (h, s, Some l)
  end.
Fixpoint vrun (ce : bool) (env : list N) (h : blocks) (s : vars) (ops : list vop) : option (blocks * vars * list (option (list N))) :=
  match ops with
  | [] => Some (h, s, [])
  | op :: ops =>
      '(h, s, a) <- vstep ce env h s op ;;
      '(h, s, l) <- vrun ce env h s ops ;;
      Some (h, s, a :: l)
  end.
