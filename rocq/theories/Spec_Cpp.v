(** Reading a generated test program the way a C++ compiler does, and what running it means.
    Independent of the generator: the text is cut into lines (every token of these programs lies within one), leading blanks and empty lines are dropped. *)
From Coq Require Import String Ascii.
From Verif Require Import Base Spec_Codec.
Local Open Scope N_scope.

Definition newline : N := 10.
Definition space : N := 32.
(** Lines without their leading blanks; empty ones dropped.  [cur]: the line so far. *)
Definition keep (cur : list N) (r : list (list N)) : list (list N) := match cur with [] => r | _ => cur :: r end.
Fixpoint lines_from (cur : list N) (t : list N) : list (list N) :=
  match t with
  | [] => keep cur []
  | c :: t =>
      if c =? newline then keep cur (lines_from [] t)
      else if (c =? space) && match cur with [] => true | _ => false end then lines_from [] t
      else lines_from (cur ++ [c]) t
  end.
Definition lines (t : list N) : list (list N) := lines_from [] t.

(** *** String literals ([lex.string], [lex.ccon]): the characters up to the closing quote, and what follows it.
    \xD...D takes as many hexadecimal digits as there are and must fit a byte; of the simple escapes, \n, \\ and the quotes. *)
Inductive lexing := Plain | Escaped | Hex (v : option N).
Definition simple_escape (c : N) : option N :=
  if c =? 110 then Some 10 else if c =? 92 then Some 92 else if c =? 34 then Some 34 else if c =? 39 then Some 39 else None.
Definition push (v : N) (x : option (list N * list N)) : option (list N * list N) := match x with Some (l, r) => Some (v :: l, r) | None => None end.
Fixpoint chars (st : lexing) (t : list N) : option (list N * list N) :=
  match t with
  | [] => None
  | c :: t =>
      let plain := if c =? 34 then Some ([], t) else if c =? 92 then chars Escaped t else push c (chars Plain t) in
      match st with
      | Plain => plain
      | Escaped => if c =? 120 then chars (Hex None) t else match simple_escape c with Some v => push v (chars Plain t) | None => None end
      | Hex v =>
          match hex_value c with
          | Some d => chars (Hex (Some (match v with None => d | Some v => 16 * v + d end))) t
          | None => match v with Some v => if v <? 256 then push v plain else None | None => None end
          end
      end
  end.
(** Adjacent literals, one a line, are one literal ([lex.phases] 6, after the escapes: phase 5); it ends with the line on which something follows the
    closing quote: the suffix.  Result: value, what follows the last quote, the lines after. *)
Fixpoint literal (ls : list (list N)) : option (list N * list N * list (list N)) :=
  match ls with
  | (34 :: l) :: ls =>
      match chars Plain l with
      | Some (v, []) => match literal ls with Some (w, tail, ls) => Some (v ++ w, tail, ls) | None => None end
      | Some (v, tail) => Some (v, tail, ls)
      | None => None
      end
  | _ => None
  end.
(** A decimal number and what follows; none of more than one digit starts with 0 (that would be octal). *)
Fixpoint digits_from (v : N) (t : list N) : N * list N :=
  match t with
  | c :: r => if (48 <=? c) && (c <=? 57) then digits_from (10 * v + (c - 48)) r else (v, t)
  | [] => (v, [])
  end.
Definition number (t : list N) : option (N * list N) :=
  match t with
  | c :: r => if (49 <=? c) && (c <=? 57) then Some (digits_from (c - 48) r)
              else if c =? 48 then match r with d :: _ => if (48 <=? d) && (d <=? 57) then None else Some (0, r) | [] => Some (0, r) end else None
  | [] => None
  end.
(** What follows a given beginning. *)
Fixpoint after (s t : list N) : option (list N) :=
  match s, t with
  | [], _ => Some t
  | a :: s, b :: t => if a =? b then after s t else None
  | _, [] => None
  end.

(** *** The program *)
Inductive value := VBytes (l : list N) | VNumber (n : N).
(** Initialisers of the members named [names], [true]: a number of type uint32_t, [false]: a literal with the suffix _cv. *)
Fixpoint members (names : list (list N * bool)) (ls : list (list N)) : option (list value * list (list N)) :=
  match names with
  | [] => Some ([], ls)
  | (n, num) :: names =>
      let comma := match names with [] => [] | _ => text "," end in
      match ls with
      | [] => None
      | l :: ls =>
          x <- (if num then
                  r <- after (text "." ++ n ++ text " = ") l ;; '(v, tail) <- number r ;;
                  if list_eq_dec N.eq_dec tail comma then (if v <? 2 ^ 32 then Some (VNumber v, ls) else None) else None
                else
                  if list_eq_dec N.eq_dec l (text "." ++ n ++ text " =") then
                    '(v, tail, ls) <- literal ls ;; if list_eq_dec N.eq_dec tail (text "_cv" ++ comma) then Some (VBytes v, ls) else None
                  else None) ;;
          '(vs, ls) <- members names (snd x) ;; Some (fst x :: vs, ls)
      end
  end.
Definition expect (l : list N) (ls : list (list N)) : option (list (list N)) :=
  match ls with x :: ls => if list_eq_dec N.eq_dec x l then Some ls else None | [] => None end.
Record vector := { vec_id : N; vec_values : list value }.
Definition read_vector (names : list (list N * bool)) (ls : list (list N)) : option (vector * list (list N)) :=
  ls <- expect (text "test_vector") ls ;; ls <- expect (text "{") ls ;;
  match ls with
  | [] => None
  | l :: ls =>
      r <- after (text ".id = ") l ;; '(i, tail) <- number r ;;
      if list_eq_dec N.eq_dec tail (text ",") then if 2 ^ 64 <=? i then None else
        '(vs, ls) <- members names ls ;; ls <- expect (text "},") ls ;; Some ({| vec_id := i; vec_values := vs |}, ls)
      else None
  end.
(** [n] vectors *)
Fixpoint read_vectors (n : nat) (names : list (list N * bool)) (ls : list (list N)) : option (list vector * list (list N)) :=
  match n with
  | O => Some ([], ls)
  | S n => '(v, ls) <- read_vector names ls ;; '(vs, ls) <- read_vectors n names ls ;; Some (v :: vs, ls)
  end.
(** Statements of main *)
Inductive statement := Cpltime (impl : list N) | Runtime (impl : list N) | Differential (a b : list N) | Return (n : N).
Fixpoint upto (c : N) (t : list N) : option (list N * list N) :=
  match t with [] => None | x :: t => if x =? c then Some ([], t) else match upto c t with Some (a, b) => Some (x :: a, b) | None => None end end.
Definition read_statement (l : list N) : option statement :=
  match after (text "TEST_CPLTIME(") l with
  | Some r => '(a, r) <- upto 41 r ;; if list_eq_dec N.eq_dec r (text ";") then Some (Cpltime a) else None
  | None =>
  match after (text "TEST_RUNTIME(") l with
  | Some r => '(a, r) <- upto 41 r ;; if list_eq_dec N.eq_dec r (text ";") then Some (Runtime a) else None
  | None =>
  match after (text "TEST_DIFFERENTIAL(") l with
  | Some r => '(a, r) <- upto 44 r ;; r <- after (text " ") r ;; '(b, r) <- upto 41 r ;; if list_eq_dec N.eq_dec r (text ";") then Some (Differential a b) else None
  | None => r <- after (text "return ") l ;; '(n, r) <- number r ;; if list_eq_dec N.eq_dec r (text ";") then Some (Return n) else None
  end end end.
(** up to the closing brace *)
Fixpoint read_statements (ls : list (list N)) : option (list statement) :=
  match ls with
  | [] => None
  | l :: ls => if list_eq_dec N.eq_dec l (text "}") then match ls with [] => Some [] | _ => None end
               else s <- read_statement l ;; r <- read_statements ls ;; Some (s :: r)
  end.
(** The parts that are the same in all programs, but for the members, the function called and the namespace of differential. *)
Record source := { so_members : list (list N * bool); so_header : list N; so_call : list N; so_differential : option (list N) }.
Definition struct_source (so : source) : list (list N) :=
  [text "struct test_vector"; text "{"; text "const size_t id;"]
  ++ map (fun '(n, num) => (if num : bool then text "const uint32_t " else text "const milo::container::chars_const_view_dynamic ") ++ n ++ text ";") (so_members so)
  ++ [text "};"].
Fixpoint arguments (l : list (list N)) : list (list N) :=
  match l with [] => [] | [x] => [text "test_vector." ++ x] | x :: l => (text "test_vector." ++ x ++ text ",") :: arguments l end.
Definition q : list N := [34].
Definition test_source (so : source) : list (list N) :=
  [text "template<"; text "typename t_impl"; text ">"; text "constexpr auto"; text "test("; text ") noexcept(true) -> size_t"; text "{";
   text "for (auto&& test_vector :test_vectors)"; text "{"; text "auto result = " ++ so_call so ++ text "("]
  ++ arguments (map fst (so_members so))
  ++ [text ");"; text "if (!result)"; text "{"; text "return test_vector.id;"; text "}"; text "}"; text "return 0;"; text "}"]
  ++ [text "#ifdef MILO_TEST_CONSTEXPR";
      text "#define TEST_CPLTIME(a_impl) {static_assert(test<a_impl>() == 0, " ++ q ++ text "cpltime error of " ++ q ++ text " #a_impl);}";
      text "#else";
      text "#define TEST_CPLTIME(a_impl) {static_assert(true, " ++ q ++ text "cpltime error of " ++ q ++ text " #a_impl);}";
      text "#endif";
      text "#define TEST_RUNTIME(a_impl) {volatile auto test_cb = test<a_impl>;if (test_cb() != 0){std::cerr << " ++ q ++ text "runtime error of " ++ q
        ++ text " #a_impl " ++ q ++ text "\n" ++ q ++ text ";return 1;}}"]
  ++ match so_differential so with
     | None => []
     | Some ns => [text "#define TEST_DIFFERENTIAL(a_impl_a, a_impl_b) {volatile auto test_cb = milo::primitive::" ++ ns
         ++ text "::test::differential<a_impl_a, a_impl_b>;if (!test_cb()){std::cerr << " ++ q ++ text "runtime differential error of " ++ q
         ++ text " #a_impl_a " ++ q ++ text " and " ++ q ++ text " #a_impl_b " ++ q ++ text "\n" ++ q ++ text ";return 1;}}"]
     end
  ++ [text "auto"; text "main("; text ") noexcept(false) -> int"; text "{"; text "using namespace milo::primitive;"].
Fixpoint expects (es : list (list N)) (ls : list (list N)) : option (list (list N)) :=
  match es with [] => Some ls | e :: es => ls <- expect e ls ;; expects es ls end.
(** The headers included, and what follows. *)
Fixpoint read_includes (ls : list (list N)) : option (list (list N) * list (list N)) :=
  match ls with
  | [] => None
  | l :: ls => match after (text "#include ") l with
               | Some h => '(hs, ls) <- read_includes ls ;; Some (h :: hs, ls)
               | None => if list_eq_dec N.eq_dec l (text "using namespace milo::literal;") then Some ([], ls) else None
               end
  end.
Record program := { pr_includes : list (list N); pr_vectors : list vector; pr_main : list statement }.
(** The number of initialisers is the size of the array. *)
Definition read_program (so : source) (t : list N) : option program :=
  '(hs, ls) <- read_includes (lines t) ;; ls <- expects (struct_source so) ls ;;
  match ls with
  | [] => None
  | l :: ls =>
      r <- after (text "constexpr milo::container::array<test_vector, ") l ;; '(n, r) <- number r ;;
      if list_eq_dec N.eq_dec r (text "> test_vectors") then
        ls <- expect (text "{") ls ;; '(vs, ls) <- read_vectors (N.to_nat n) (so_members so) ls ;; ls <- expect (text "};") ls ;;
        ls <- expects (test_source so) ls ;; m <- read_statements ls ;; Some {| pr_includes := hs; pr_vectors := vs; pr_main := m |}
      else None
  end.

(** *** Running it.  [check i v]: the function called, for implementation [i], on the members of a vector; [differential a b]: the function of that
    name; [None]: undefined behaviour. *)
Section Run.
  Context (check : list N -> list value -> option bool) (differential : list N -> list N -> option bool).
  (** test<i>(): the id of the first vector that fails, 0 if none does *)
  Fixpoint test (i : list N) (vs : list vector) : option N :=
    match vs with
    | [] => Some 0
    | v :: vs => r <- check i (vec_values v) ;; if r : bool then test i vs else Some (vec_id v)
    end.
  (** main: exit code, and what is written to std::cerr.  TEST_CPLTIME does nothing when the program runs. *)
  Fixpoint run_main (vs : list vector) (ss : list statement) : option (N * list N) :=
    match ss with
    | [] => Some (0, [])
    | Cpltime _ :: ss => run_main vs ss
    | Runtime i :: ss => r <- test i vs ;; if r =? 0 then run_main vs ss else Some (1, text "runtime error of " ++ i ++ [newline])
    | Differential a b :: ss =>
        r <- differential a b ;; if r : bool then run_main vs ss else Some (1, text "runtime differential error of " ++ a ++ text " and " ++ b ++ [newline])
    | Return n :: _ => Some (n, [])
    end.
  Definition run (p : program) : option (N * list N) := run_main (pr_vectors p) (pr_main p).
End Run.
(** Whether the program compiles: with MILO_TEST_CONSTEXPR the static assertions of TEST_CPLTIME hold; [check] is the function evaluated by the compiler. *)
Definition compiles (check : list N -> list value -> option bool) (test_constexpr : bool) (p : program) : Prop :=
  forall i, In (Cpltime i) (pr_main p) -> test_constexpr = true -> test check i (pr_vectors p) = Some 0.
