(** What the two text decoders compute on every text, well formed or not, and on either kind of
    platform ([sg]: plain [char] is signed).  RFC 4648 text is [Spec_Codec]; this file adds the three
    deviations of the library: characters from 128 on are digits when [char] is signed, odd-length
    base 16 text skips an output byte and ignores its last two characters, and the size reported with
    a base 16 error counts characters. *)
From Verif Require Import Base Spec_Codec.
Local Open Scope N_scope.

(** The value of a character: the RFC digit value; with signed [char] a character from 128 on is
    taken for a digit with its own code as the value. *)
Definition hex_value_on (sg : bool) (c : N) : option N :=
  if sg && (128 <=? c) then Some c else hex_value c.
Definition b64_value_on (sg : bool) (c : N) : option N :=
  if sg && (128 <=? c) then Some c else b64_value c.

(** Two base 16 digits make a byte.  For RFC digits (below 16) the value is [x * 16 + y]. *)
Definition hex_byte (x y : N) : N := N.lor (x * 16) y mod 256.

(** Pairs are decoded from the left up to the end or the first pair with a bad character: the bytes,
    and whether the end was reached. *)
Fixpoint hex_run (sg : bool) (t : list N) : list N * bool :=
  match t with
  | c :: d :: r =>
      match hex_value_on sg c, hex_value_on sg d with
      | Some x, Some y => let (l, ok) := hex_run sg r in (hex_byte x y :: l, ok)
      | _, _ => ([], false)
      end
  | _ => ([], true)
  end.

(** Base 16 decoding of any text into the bytes [to]: new contents, size returned, success. *)
Definition hex_decoding (sg : bool) (t to : list N) : list N * nat * bool :=
  if Nat.odd (length t) then
    match t with
    | [] => (to, 0%nat, true)
    | c :: r =>
        match hex_value_on sg c with
        | None => (to, 0%nat, false)
        | Some v =>
            (** all of [r] but its last two characters; they go to the bytes from the third on *)
            let (g, ok) := hex_run sg (firstn (length r - 2) r) in
            (v :: firstn 1 (skipn 1 to) ++ g ++ skipn (2 + length g) to,
             if ok then Nat.div2 (length t + 1) else (1 + 2 * length g)%nat, ok)
        end
    end
  else
    let (g, ok) := hex_run sg t in
    (g ++ skipn (length g) to, if ok then length g else (2 * length g)%nat, ok).

(** Base 64: bytes of a group, for digits below 64 those of the 24-bit number
    [w * 2^18 + x * 2^12 + y * 2^6 + z]. *)
Definition b64_byte0 (w x : N) : N := N.lor (w * 4) (x / 16) mod 256.
Definition b64_byte1 (x y : N) : N := N.lor (x * 16) (y / 4) mod 256.
Definition b64_byte2 (y z : N) : N := N.lor (y * 64) z mod 256.

(** The last group, with its padding. *)
Definition b64_last (sg : bool) (w x y z : N) : option (list N) :=
  match b64_value_on sg w, b64_value_on sg x with
  | Some a, Some b =>
      if z =? pad_char then
        if y =? pad_char then Some [b64_byte0 a b]
        else match b64_value_on sg y with
             | Some c => Some [b64_byte0 a b; b64_byte1 b c]
             | None => None
             end
      else
        match b64_value_on sg y, b64_value_on sg z with
        | Some c, Some d => Some [b64_byte0 a b; b64_byte1 b c; b64_byte2 c d]
        | _, _ => None
        end
  | _, _ => None
  end.

Fixpoint b64_run (sg : bool) (t : list N) : list N * bool :=
  match t with
  | [w; x; y; z] =>
      match b64_last sg w x y z with Some l => (l, true) | None => ([], false) end
  | w :: x :: y :: z :: r =>
      match b64_value_on sg w, b64_value_on sg x, b64_value_on sg y, b64_value_on sg z with
      | Some a, Some b, Some c, Some d =>
          let (l, ok) := b64_run sg r in
          (b64_byte0 a b :: b64_byte1 b c :: b64_byte2 c d :: l, ok)
      | _, _, _, _ => ([], false)
      end
  | _ => ([], true)
  end.

(** Base 64 decoding of any text: the bytes decoded, success. *)
Definition b64_decoding (sg : bool) (t : list N) : list N * bool :=
  if (length t mod 4 =? 0)%nat then b64_run sg t else ([], false).
