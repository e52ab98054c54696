(** The generator of the test programs (tool/codegen) and the programs it writes (test/primitive/NAME.cpp).
    Text is a list of character codes; [None]: the generator stops with an exception and writes nothing.
    A vector is a JSON object with unique keys; of JSON values, texts and non-negative integers occur. *)
From Coq Require Import String Ascii.
From Verif Require Import Base Model_App.
Local Open Scope N_scope.

Definition txt (s : string) : list N := map N_of_ascii (list_ascii_of_string s).

(** *** src/cpp/lang.py *)
(** The argument of gen_body: a line, a Python list (indented), a Python tuple (not indented). *)
Inductive part := Line (s : list N) | Deep (l : list part) | Flat (l : list part).
(** lang.py:42-67 [gen_body] *)
Fixpoint gen_part (ident : nat) (p : part) {struct p} : list N :=
  match p with
  | Line s => repeat 32 (ident * 4) ++ s ++ [10]
  | Deep l => flat_map (gen_part (S ident)) l
  | Flat l => flat_map (gen_part ident) l
  end.
Definition gen_body (l : list part) : list N := flat_map (gen_part 0) l.
(** lang.py:31-39 [gen_include] *)
Definition gen_include (l : list (list N)) : part := Flat (map (fun i => Line (txt "#include " ++ i)) l).
(** lang.py:70-78 [gen_block], [a_body] a list *)
Definition gen_block (body : list part) (end_ : list N) : part := Flat [Line (txt "{"); Deep body; Line (txt "}" ++ end_)].
(** lang.py:98-107 [gen_loop_for_range] *)
Definition gen_loop_for_range (decl expr : list N) (body : list part) : part :=
  Flat [Line (txt "for (auto&& " ++ decl ++ txt " :" ++ expr ++ txt ")"); gen_block body []].
(** lang.py:124-147 [gen_if] without else, [a_body] a string *)
Definition gen_if (e : list N) (body : list N) : part := Flat [Line (txt "if (" ++ e ++ txt ")"); gen_block [Line body] []].
(** lang.py:150-161 [gen_type], 209-217 [gen_struct] *)
Definition gen_struct (name : list N) (body : list part) : part := Flat [Line (txt "struct " ++ name); gen_block body (txt ";")].
(** [a[i: i + wrap] for i in range(0, len(a), wrap)] *)
Fixpoint slices (fuel wrap : nat) (l : list N) : list (list N) :=
  match fuel, l with
  | S fuel, _ :: _ => firstn wrap l :: slices fuel wrap (skipn wrap l)
  | _, _ => []
  end.
(** [chunks[len(chunks) - 1] += end] *)
Fixpoint add_end (l : list (list N)) (end_ : list N) : list (list N) :=
  match l with
  | [] => []
  | [x] => [x ++ end_]
  | x :: l => x :: add_end l end_
  end.
(** lang.py:164-179 [gen_str], wrap 64 *)
Definition gen_str (s end_ : list N) : part :=
  let chunks := map (fun c => [34] ++ c ++ [34]) (slices (length s) 64 s) in
  Flat (map Line (match chunks with [] => [end_] | _ => add_end chunks end_ end)).
(** f'\\x{byte:02x}' *)
Definition nibble (n : N) : N := if n <? 10 then 48 + n else 87 + n.
Definition hex_escape (b : N) : list N := [92; 120; nibble (b / 16); nibble (b mod 16)].
(** lang.py:182-206 [gen_bytes_to_hex_str], wrap 16 *)
Definition gen_bytes_to_hex_str (b end_ : list N) : part :=
  let chunks := map (fun c => [34] ++ flat_map hex_escape c ++ [34]) (slices (length b) 16 b) in
  Flat (map Line (match chunks with [] => [[34; 34] ++ end_] | _ => add_end chunks end_ end)).
(** lang.py:231-274 [gen_function] as it is called: not static *)
Definition gen_function (name : list N) (constexpr noexcept : bool) (returns : list N) (body : list part) : part :=
  Flat [Flat []; Line (if constexpr then txt "constexpr auto" else txt "auto"); Line (name ++ txt "("); Deep [];
        Line (txt ") " ++ (if noexcept then txt "noexcept(true)" else txt "noexcept(false)") ++ txt " -> " ++ returns); gen_block body []].

(** *** src/cpp/milo.py *)
(** milo.py:6-43 [gen_test_primitive_core]; the members with their commas *)
Fixpoint with_commas (l : list (list N)) : list (list N) :=
  match l with [] => [] | [x] => [x] | x :: l => (x ++ txt ",") :: with_commas l end.
Definition gen_core (call : list N) (members : list (list N)) : part :=
  Flat [Line (txt "template<"); Deep [Line (txt "typename t_impl")]; Line (txt ">");
    gen_function (txt "test") true true (txt "size_t")
      [gen_loop_for_range (txt "test_vector") (txt "test_vectors")
         [Line (txt "auto result = " ++ call ++ txt "("); Deep (map (fun m => Line (txt "test_vector." ++ m)) (with_commas members)); Line (txt ");");
          Line []; gen_if (txt "!result") (txt "return test_vector.id;")];
       Line []; Line (txt "return 0;")]].
(** milo.py:46-69 [gen_test_primitive_macros]; the namespace when [a_differential] *)
Definition quote : string := String (ascii_of_N 34) EmptyString.
Definition macros (diff : option (list N)) : list (list N) :=
  [txt "#ifdef MILO_TEST_CONSTEXPR";
   txt ("#define TEST_CPLTIME(a_impl) {static_assert(test<a_impl>() == 0, " ++ quote ++ "cpltime error of " ++ quote ++ " #a_impl);}");
   txt "#else";
   txt ("#define TEST_CPLTIME(a_impl) {static_assert(true, " ++ quote ++ "cpltime error of " ++ quote ++ " #a_impl);}");
   txt "#endif";
   txt ("#define TEST_RUNTIME(a_impl) {volatile auto test_cb = test<a_impl>;if (test_cb() != 0){std::cerr << " ++ quote ++ "runtime error of " ++ quote
        ++ " #a_impl " ++ quote ++ "\n" ++ quote ++ ";return 1;}}")]
  ++ match diff with
     | None => []
     | Some ns => [(txt "#define TEST_DIFFERENTIAL(a_impl_a, a_impl_b) {volatile auto test_cb = milo::primitive::" ++ ns ++
         txt ("::test::differential<a_impl_a, a_impl_b>;if (!test_cb()){std::cerr << " ++ quote ++ "runtime differential error of " ++ quote ++ " #a_impl_a "
              ++ quote ++ " and " ++ quote ++ " #a_impl_b " ++ quote ++ "\n" ++ quote ++ ";return 1;}}"))%list]
     end.
(** itertools.combinations(l, 2) *)
Fixpoint pairs {A} (l : list A) : list (A * A) :=
  match l with [] => [] | x :: l => (map (pair x) l ++ pairs l)%list end.
(** milo.py:72-96 [gen_test_primitive_main] *)
Definition gen_main (cpltime runtime : list (list N)) (diff : bool) : part :=
  gen_function (txt "main") false false (txt "int")
    [Line (txt "using namespace milo::primitive;"); Line [];
     Flat (map (fun i => Line (txt "TEST_CPLTIME(" ++ i ++ txt ");")%list) cpltime ++ [Line []]);
     Flat (map (fun i => Line (txt "TEST_RUNTIME(" ++ i ++ txt ");")%list) runtime ++ [Line []]);
     Flat (if diff then (map (fun '(a, b) => Line (txt "TEST_DIFFERENTIAL(" ++ a ++ txt ", " ++ b ++ txt ");")%list) (pairs runtime) ++ [Line []])%list else []);
     Line (txt "return " ++ (match cpltime, runtime with [], [] => txt "1" | _, _ => txt "0" end) ++ txt ";")%list].

(** *** src/cpp/test/primitive *)
Inductive jval := JText (t : list N) | JInt (n : N).
Definition jobject := list (list N * jval).
Fixpoint key (k : list N) (o : jobject) : option jval :=
  match o with [] => None | (k', v) :: o => if list_eq_dec N.eq_dec k k' then Some v else key k o end.
(** str(value) in an f-string *)
Definition show (v : jval) : list N := match v with JText t => t | JInt n => dec n end.
(** bytes.fromhex: pairs of hexadecimal digits, ASCII whitespace between them is skipped *)
Definition hexv (c : N) : option N :=
  if (48 <=? c) && (c <=? 57) then Some (c - 48)
  else if (97 <=? c) && (c <=? 102) then Some (c - 87)
  else if (65 <=? c) && (c <=? 70) then Some (c - 55) else None.
Fixpoint fromhex_loop (hi : option N) (t : list N) : option (list N) :=
  match t with
  | [] => match hi with None => Some [] | Some _ => None end
  | c :: t =>
      match hi with
      | None => if (c =? 32) || ((9 <=? c) && (c <=? 13)) then fromhex_loop None t else h <- hexv c ;; fromhex_loop (Some h) t
      | Some h => l <- hexv c ;; r <- fromhex_loop None t ;; Some (h * 16 + l :: r)
      end
  end.
Definition fromhex (v : jval) : option (list N) := match v with JText t => fromhex_loop None t | JInt _ => None end.

(** The members of a vector after id: written with gen_bytes_to_hex_str, with gen_str, as a number. *)
Inductive member := MBytes | MText | MNumber.
(** What the ten modules differ in: the header, the members, the function called with them in this order, the namespace of differential. *)
Record scheme := { sc_header : list N; sc_members : list (list N * member); sc_call : list N; sc_differential : option (list N) }.
Definition s_hash : scheme := {| (* hash.py *)
  sc_header := txt "<milo/primitive/hash/test.h>"; sc_members := [(txt "message", MBytes); (txt "digest", MBytes)];
  sc_call := txt "milo::primitive::hash::test::digest<t_impl>"; sc_differential := Some (txt "hash") |}.
Definition s_mac : scheme := {| (* mac.py *)
  sc_header := txt "<milo/primitive/mac/test.h>"; sc_members := [(txt "key", MBytes); (txt "message", MBytes); (txt "digest", MBytes)];
  sc_call := txt "milo::primitive::mac::test::digest<t_impl>"; sc_differential := Some (txt "mac") |}.
Definition s_cipher_encrypt : scheme := {| (* cipher_encrypt.py *)
  sc_header := txt "<milo/primitive/cipher/test.h>"; sc_members := [(txt "key", MBytes); (txt "iv", MBytes); (txt "plaintext", MBytes); (txt "ciphertext", MBytes)];
  sc_call := txt "milo::primitive::cipher::test::encrypt<t_impl>"; sc_differential := Some (txt "cipher") |}.
Definition s_cipher_decrypt : scheme := {| (* cipher_decrypt.py *)
  sc_header := txt "<milo/primitive/cipher/test.h>"; sc_members := [(txt "key", MBytes); (txt "iv", MBytes); (txt "ciphertext", MBytes); (txt "plaintext", MBytes)];
  sc_call := txt "milo::primitive::cipher::test::decrypt<t_impl>"; sc_differential := Some (txt "cipher") |}.
Definition s_aead_encrypt : scheme := {| (* aead_encrypt.py *)
  sc_header := txt "<milo/primitive/aead/test.h>";
  sc_members := [(txt "key", MBytes); (txt "iv", MBytes); (txt "aad", MBytes); (txt "plaintext", MBytes); (txt "ciphertext", MBytes); (txt "digest", MBytes)];
  sc_call := txt "milo::primitive::aead::test<t_impl>::encrypt"; sc_differential := None |}.
Definition s_aead_decrypt : scheme := {| (* aead_decrypt.py *)
  sc_header := txt "<milo/primitive/aead/test.h>";
  sc_members := [(txt "key", MBytes); (txt "iv", MBytes); (txt "aad", MBytes); (txt "ciphertext", MBytes); (txt "digest", MBytes); (txt "plaintext", MBytes)];
  sc_call := txt "milo::primitive::aead::test<t_impl>::decrypt"; sc_differential := None |}.
Definition s_codec_encode : scheme := {| (* codec_encode.py *)
  sc_header := txt "<milo/primitive/codec/test.h>"; sc_members := [(txt "from", MBytes); (txt "to", MText)];
  sc_call := txt "milo::primitive::codec::test<t_impl>::encode"; sc_differential := None |}.
Definition s_codec_decode : scheme := {| (* codec_decode.py *)
  sc_header := txt "<milo/primitive/codec/test.h>"; sc_members := [(txt "from", MText); (txt "to", MBytes)];
  sc_call := txt "milo::primitive::codec::test<t_impl>::decode"; sc_differential := None |}.
Definition s_kdf_hkdf : scheme := {| (* kdf_hkdf.py *)
  sc_header := txt "<milo/primitive/kdf/test.h>"; sc_members := [(txt "ikm", MBytes); (txt "salt", MBytes); (txt "info", MBytes); (txt "key", MBytes)];
  sc_call := txt "milo::primitive::kdf::test::derive<t_impl>"; sc_differential := Some (txt "kdf") |}.
Definition s_kdf_pbkdf_2 : scheme := {| (* kdf_pbkdf_2.py *)
  sc_header := txt "<milo/primitive/kdf/test.h>"; sc_members := [(txt "ikm", MBytes); (txt "salt", MBytes); (txt "iterations", MNumber); (txt "key", MBytes)];
  sc_call := txt "milo::primitive::kdf::test::derive<t_impl>"; sc_differential := Some (txt "kdf") |}.

Record config := { cf_cpltime : list (list N); cf_runtime : list (list N); cf_include : list (list N); cf_vectors : list (list jobject) }.
(** hash.py:51-60 and the same place of the others *)
Definition gen_member_decl (m : list N * member) : list part :=
  [Line []; Line (match snd m with MNumber => txt "const uint32_t " | _ => txt "const milo::container::chars_const_view_dynamic " end ++ fst m ++ txt ";")%list].
(** hash.py:71-86 and the same place of the others; no comma after the last member *)
Fixpoint gen_members (ms : list (list N * member)) (v : jobject) : option (list part) :=
  match ms with
  | [] => Some []
  | (n, k) :: ms =>
      let comma := match ms with [] => [] | _ => txt "," end in
      x <- key n v ;;
      p <- match k with
           | MBytes => b <- fromhex x ;; Some [Line (txt "." ++ n ++ txt " =")%list; gen_bytes_to_hex_str b (txt "_cv" ++ comma)%list]
           | MText => match x with JText t => Some [Line (txt "." ++ n ++ txt " =")%list; gen_str t (txt "_cv" ++ comma)%list] | JInt _ => None end
           | MNumber => Some [Line (txt "." ++ n ++ txt " = " ++ show x ++ comma)%list]
           end ;;
      r <- gen_members ms v ;; Some (p ++ r)%list
  end.
(** hash.py:65-93 and the same place of the others *)
Definition gen_vector (sc : scheme) (v : jobject) : option part :=
  i <- key (txt "id") v ;; ms <- gen_members (sc_members sc) v ;;
  Some (Flat [Line (txt "test_vector"); Deep [gen_block (Line (txt ".id = " ++ show i ++ txt ",")%list :: ms) (txt ",")]]).
Fixpoint mapM {A B} (f : A -> option B) (l : list A) : option (list B) :=
  match l with [] => Some [] | x :: l => y <- f x ;; r <- mapM f l ;; Some (y :: r) end.
(** hash.py:5-121 and the other nine: [gen] *)
Definition gen (sc : scheme) (c : config) : option (list N) :=
  let vs := concat (cf_vectors c) in
  ps <- mapM (gen_vector sc) vs ;;
  Some (gen_body [
    Line []; Line []; gen_include [txt "<iostream>"]; Line []; gen_include [txt "<milo/internal.h>"; txt "<milo/literal.h>"]; Line [];
    gen_include (cf_include c); gen_include [sc_header sc]; Line []; Line []; Line (txt "using namespace milo::literal;"); Line [];
    gen_struct (txt "test_vector") (Line (txt "const size_t id;") :: flat_map gen_member_decl (sc_members sc)); Line [];
    Line (txt "constexpr milo::container::array<test_vector, " ++ dec (N.of_nat (length vs)) ++ txt "> test_vectors")%list;
    Deep [gen_block ps (txt ";")]; Line [];
    gen_core (sc_call sc) (map fst (sc_members sc)); Line [];
    Flat (map Line (macros (sc_differential sc))); Line [];
    gen_main (cf_cpltime c) (cf_runtime c) (match sc_differential sc with Some _ => true | None => false end); Line []]).

(** *** main.py:55-79: the module chosen by "scheme" (the JSON file is read and the text written by the Python library); [None]: KeyError *)
Definition callbacks : list (list N * scheme) :=
  [(txt "test-primitive-aead-decrypt", s_aead_decrypt); (txt "test-primitive-aead-encrypt", s_aead_encrypt); (txt "test-primitive-cipher-decrypt", s_cipher_decrypt);
   (txt "test-primitive-cipher-encrypt", s_cipher_encrypt); (txt "test-primitive-codec-decode", s_codec_decode); (txt "test-primitive-codec-encode", s_codec_encode);
   (txt "test-primitive-hash", s_hash); (txt "test-primitive-kdf-hkdf", s_kdf_hkdf); (txt "test-primitive-kdf-pbkdf-2", s_kdf_pbkdf_2); (txt "test-primitive-mac", s_mac)].
Definition scheme_of (name : list N) : option scheme :=
  match find (fun e => if list_eq_dec N.eq_dec (fst e) name then true else false) callbacks with Some (_, sc) => Some sc | None => None end.
