(** Error codes (src/milo/error.h) and byte containers (src/milo/internal/utility.h). *)
From Verif Require Import Base.
Local Open Scope N_scope.

(** src/milo/error.h:17-26 [error::code]. *)
Inductive errcode :=
| err_none | err_size | err_aead_verify
| err_codec_base_64_encode | err_codec_base_64_decode
| err_codec_base_16_encode | err_codec_base_16_decode.

(** src/milo/error.h:74-80 [operator bool]. *)
Definition err_bool (e : errcode) : bool :=
  match e with err_none => false | _ => true end.

(** src/milo/error.h:117-121 [clear]. *)
Definition err_clear (e : errcode) : errcode := err_none.

(** A byte container: resizable ([std::vector], [std::string]) or of fixed size ([std::array], span). *)
Inductive container := Dynamic (l : list N) | Static (l : list N).

Definition cdata (c : container) : list N := match c with Dynamic l => l | Static l => l end.

(** [std::vector::resize(n, 0)]. *)
Definition resize_list (l : list N) (n : nat) : list N := firstn n l ++ repeat 0 (n - length l).

(** utility.h:151-173 [internal::resize]: new container and returned size. *)
Definition cresize (c : container) (n : nat) : container * nat :=
  match c with
  | Dynamic l => (Dynamic (resize_list l n), n)
  | Static l => (Static l, Nat.min n (length l))
  end.

Definition cset (c : container) (l : list N) : container :=
  match c with Dynamic _ => Dynamic l | Static _ => Static l end.

(** Outcome of a call that may throw. *)
Inductive outcome (A : Type) := Returns (a : A) | Throws (e : errcode) | Terminates.
Arguments Returns {A} a.
Arguments Throws {A} e.
Arguments Terminates {A}.

