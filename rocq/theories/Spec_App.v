(** What the documentation of the benchmark tool says (doc/benchmarking.md:121-193) and what JSON is (RFC 8259). *)
From Verif Require Import Base.
Local Open Scope N_scope.

(** A pattern expression: ['*'] (42) stands for any string, every other character for itself. *)
Inductive matches : list N -> list N -> Prop :=
| m_nil : matches [] []
| m_star w p m : matches p m -> matches (42 :: p) (w ++ m)
| m_char c p m : c <> 42 -> matches p m -> matches (c :: p) (c :: m).

(** A number in decimal digits. *)
Inductive decimal : list N -> N -> Prop :=
| d_one d : d < 10 -> decimal [48 + d] d
| d_more s n d : decimal s n -> d < 10 -> decimal (s ++ [48 + d]) (10 * n + d).

(** [x] begins with [p]. *)
Definition prefix (p x : list N) : Prop := exists y, x = p ++ y.
(** An option or a parameter of a command: it begins with two dashes. *)
Definition optional (x : list N) : Prop := prefix [45; 45] x.
(** [--name=value] *)
Definition assignment (name v : list N) : list N := [45; 45] ++ name ++ [61] ++ v.

(** Whether an argument is recognised as [--name] or [--name=...] is a matter of how it begins. *)
Definition begins (name x : list N) : Prop := prefix ([45; 45] ++ name) x.
(** Two lists of options and parameters of one command that differ only in their order and in arguments that the command
    does not know; [names] are those it knows, and none of them is given twice. *)
Definition same_arguments (names : list (list N)) (l l' : list (list N)) : Prop :=
  Forall optional l /\ Forall optional l' /\
  (forall n x, In n names -> begins n x -> (In x l <-> In x l')) /\
  (forall n x y, In n names -> In x l -> In y l -> begins n x -> begins n y -> x = y).

(** *** JSON (RFC 8259) *)
(** Section 2: insignificant white space *)
Definition ws (l : list N) : Prop := Forall (fun c => c = 32 \/ c = 9 \/ c = 10 \/ c = 13) l.
(** Section 7: characters that must be escaped: quotation mark, reverse solidus, and the control characters. *)
Definition special (c : N) : Prop := c = 34 \/ c = 92 \/ c < 32.
Definition hex (c : N) : Prop := 48 <= c <= 57 \/ 65 <= c <= 70 \/ 97 <= c <= 102.
(** [chars t s]: the text [t] between quotation marks stands for the string [s] (characters are not decoded further;
    which character a numeric escape stands for is left open). *)
Inductive chars : list N -> list N -> Prop :=
| c_nil : chars [] []
| c_plain c t s : ~ special c -> chars t s -> chars (c :: t) (c :: s)
| c_short e c t s : In (e, c) [(34, 34); (92, 92); (47, 47); (98, 8); (102, 12); (110, 10); (114, 13); (116, 9)] -> chars t s -> chars (92 :: e :: t) (c :: s)
| c_u h1 h2 h3 h4 c t s : hex h1 -> hex h2 -> hex h3 -> hex h4 -> chars t s -> chars (92 :: 117 :: h1 :: h2 :: h3 :: h4 :: t) (c :: s).
(** Section 6: numbers *)
Definition ds (l : list N) : Prop := l <> [] /\ Forall (fun c => 48 <= c <= 57) l.
Inductive number : list N -> Prop :=
| n_intro sign int frac exp :
    (sign = [] \/ sign = [45]) ->
    (int = [48] \/ (ds int /\ hd 0 int <> 48)) ->
    (frac = [] \/ exists f, frac = 46 :: f /\ ds f) ->
    (exp = [] \/ exists e s f, exp = e :: s ++ f /\ (e = 69 \/ e = 101) /\ (s = [] \/ s = [43] \/ s = [45]) /\ ds f) ->
    number (sign ++ int ++ frac ++ exp).
(** Values: an integer is told from other numbers, which stand for themselves. *)
Inductive jv := JNull | JString (s : list N) | JInteger (n : N) | JNumber (t : list N) | JBool (b : bool) | JArray (l : list jv) | JObject (l : list (list N * jv)).
(** Sections 3, 4, 5: [json v t]: [t] is a JSON text for [v]. *)
Inductive json : jv -> list N -> Prop :=
| j_string t s : chars t s -> json (JString s) ([34] ++ t ++ [34])
| j_integer n t : decimal t n -> (t = [48] \/ hd 0 t <> 48) -> json (JInteger n) t
| j_number t : number t -> json (JNumber t) t
| j_null : json JNull [110; 117; 108; 108]
| j_true : json (JBool true) [116; 114; 117; 101]
| j_false : json (JBool false) [102; 97; 108; 115; 101]
| j_array l t : elements l t -> json (JArray l) ([91] ++ t ++ [93])
| j_object l t : members l t -> json (JObject l) ([123] ++ t ++ [125])
with elements : list jv -> list N -> Prop :=
| e_nil w : ws w -> elements [] w
| e_one v t w1 w2 : json v t -> ws w1 -> ws w2 -> elements [v] (w1 ++ t ++ w2)
| e_cons v t l u w1 w2 : json v t -> ws w1 -> ws w2 -> l <> [] -> elements l u -> elements (v :: l) (w1 ++ t ++ w2 ++ [44] ++ u)
with members : list (list N * jv) -> list N -> Prop :=
| o_nil w : ws w -> members [] w
| o_one k kt v t w1 w2 w3 w4 : chars kt k -> json v t -> ws w1 -> ws w2 -> ws w3 -> ws w4 ->
    members [(k, v)] (w1 ++ ([34] ++ kt ++ [34]) ++ w2 ++ [58] ++ w3 ++ t ++ w4)
| o_cons k kt v t l u w1 w2 w3 w4 : chars kt k -> json v t -> ws w1 -> ws w2 -> ws w3 -> ws w4 -> l <> [] -> members l u ->
    members ((k, v) :: l) (w1 ++ ([34] ++ kt ++ [34]) ++ w2 ++ [58] ++ w3 ++ t ++ w4 ++ [44] ++ u).

(** An argument whose value is empty, or begins with the number zero. *)
Definition zero_value (x : list N) : Prop :=
  exists u v, x = u ++ [61] ++ v /\ ~ In 61 u /\
    (v = [] \/ exists z w, v = z ++ w /\ z <> [] /\ Forall (fun c => c = 48) z /\ ~ (48 <= hd 0 w <= 57)).
