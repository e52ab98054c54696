(** RFC 4648: base 16 (section 8) and base 64 with padding (section 4).
    Independent of the code: alphabets as strings, digits by division. *)
From Coq Require Import String Ascii.
From Verif Require Import Base.
Local Open Scope N_scope.

Definition text (s : string) : list N := map N_of_ascii (list_ascii_of_string s).

Definition hex_lower : list N := text "0123456789abcdef".
Definition hex_upper : list N := text "0123456789ABCDEF".
Definition b64_alphabet : list N :=
  text "ABCDEFGHIJKLMNOPQRSTUVWXYZabcdefghijklmnopqrstuvwxyz0123456789+/".
Definition pad_char : N := N_of_ascii "=".

(** Digit [d] in alphabet [al]; only used with [d < length al]. *)
Definition digit (al : list N) (d : N) : N := nth (N.to_nat d) al 0.

(** Position of a character in an alphabet. *)
Fixpoint index_of (al : list N) (c : N) : option N :=
  match al with
  | [] => None
  | x :: r => if x =? c then Some 0 else option_map N.succ (index_of r c)
  end.

(** Base 16: two lower-case digits per byte. *)
Definition spec_hex (l : list N) : list N :=
  flat_map (fun b => [digit hex_lower (b / 16); digit hex_lower (b mod 16)]) l.

(** Value of a hex digit, either case. *)
Definition hex_value (c : N) : option N :=
  match index_of hex_lower c with
  | Some v => Some v
  | None => index_of hex_upper c
  end.

(** The bytes denoted by an even-length hex text; [None] if it is not one. *)
Fixpoint spec_unhex (t : list N) : option (list N) :=
  match t with
  | [] => Some []
  | [_] => None
  | c :: d :: r =>
      match hex_value c, hex_value d, spec_unhex r with
      | Some x, Some y, Some l => Some (x * 16 + y :: l)
      | _, _, _ => None
      end
  end.

(** The text read as one number with an implicit leading zero when its length is odd. *)
Definition spec_unhex_any (t : list N) : option (list N) :=
  if Nat.odd (length t) then spec_unhex (N_of_ascii "0" :: t) else spec_unhex t.

(** Upper-case a lower-case hex letter. *)
Definition upper (c : N) : N := if (97 <=? c) && (c <=? 122) then c - 32 else c.

(** Base 64: 24-bit groups, most significant 6 bits first. *)
Fixpoint spec_b64 (l : list N) : list N :=
  match l with
  | [] => []
  | [a] =>
      let n := a * 2 ^ 4 in
      [digit b64_alphabet (n / 64); digit b64_alphabet (n mod 64); pad_char; pad_char]
  | [a; b] =>
      let n := (a * 2 ^ 8 + b) * 2 ^ 2 in
      [digit b64_alphabet (n / 2 ^ 12); digit b64_alphabet (n / 64 mod 64);
       digit b64_alphabet (n mod 64); pad_char]
  | a :: b :: c :: r =>
      let n := a * 2 ^ 16 + b * 2 ^ 8 + c in
      [digit b64_alphabet (n / 2 ^ 18); digit b64_alphabet (n / 2 ^ 12 mod 64);
       digit b64_alphabet (n / 64 mod 64); digit b64_alphabet (n mod 64)] ++ spec_b64 r
  end.

Definition b64_value (c : N) : option N := index_of b64_alphabet c.

(** The bytes denoted by a padded base 64 text; [None] if it is malformed.  As RFC 4648 section 3.5
    allows, unused trailing bits are ignored. *)
Fixpoint spec_unb64 (t : list N) : option (list N) :=
  match t with
  | [] => Some []
  | [w; x; y; z] =>
      match b64_value w, b64_value x, b64_value y, b64_value z with
      | Some w, Some x, Some y, Some z =>
          let n := w * 2 ^ 18 + x * 2 ^ 12 + y * 2 ^ 6 + z in
          Some [n / 2 ^ 16; n / 2 ^ 8 mod 256; n mod 256]
      | Some w, Some x, Some y, None =>
          if z =? pad_char then
            let n := w * 2 ^ 12 + x * 2 ^ 6 + y in Some [n / 2 ^ 10; n / 2 ^ 2 mod 256]
          else None
      | Some w, Some x, None, None =>
          if (y =? pad_char) && (z =? pad_char) then
            let n := w * 2 ^ 6 + x in Some [n / 2 ^ 4]
          else None
      | _, _, _, _ => None
      end
  | w :: x :: y :: z :: r =>
      match b64_value w, b64_value x, b64_value y, b64_value z, spec_unb64 r with
      | Some w, Some x, Some y, Some z, Some l =>
          let n := w * 2 ^ 18 + x * 2 ^ 12 + y * 2 ^ 6 + z in
          Some (n / 2 ^ 16 :: n / 2 ^ 8 mod 256 :: n mod 256 :: l)
      | _, _, _, _, _ => None
      end
  | _ => None
  end.
