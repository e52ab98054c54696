(** The benchmark tool: app/include/milo/app.  Strings are lists of character codes.
    Not modelled: allocation failure, the texts of the error messages, what is measured (each benchmark takes the number
    of nanoseconds that [clock] gives for its name), rounding of the quotients that are printed. *)
From Verif Require Import Base Model_AppNames.
Local Open Scope N_scope.

(** *** Strings of the standard library *)
Fixpoint str_eqb (a b : list N) : bool :=
  match a, b with
  | [], [] => true
  | x :: a, y :: b => (x =? y) && str_eqb a b
  | _, _ => false
  end.
(** starts_with *)
Fixpoint starts_with (p s : list N) : bool :=
  match p, s with
  | [], _ => true
  | x :: p, y :: s => (x =? y) && starts_with p s
  | _ :: _, [] => false
  end.
Fixpoint index_of (f : N -> bool) (s : list N) : option nat :=
  match s with [] => None | c :: s => if f c then Some 0%nat else option_map S (index_of f s) end.
(** find_first_of and find_first_not_of (one character), from [pos]; [None] is npos. *)
Definition find_first (f : N -> bool) (s : list N) (pos : nat) : option nat := option_map (Nat.add pos) (index_of f (skipn pos s)).
(** find(ptr, pos, size) *)
Fixpoint index_of_sub (p s : list N) : option nat :=
  if starts_with p s then Some 0%nat else match s with [] => None | _ :: s => option_map S (index_of_sub p s) end.
Definition find_sub (s p : list N) (pos : nat) : option nat :=
  if (length s <? pos)%nat then None else option_map (Nat.add pos) (index_of_sub p (skipn pos s)).

(** *** pattern.h:11-92 [pattern_match_star]; [None]: the loop has not ended after [fuel] rounds. *)
Definition star : N := 42.
Fixpoint pattern_loop (fuel : nat) (p m : list N) (ppos mpos : nat) : option bool :=
  match fuel with
  | O => None
  | S fuel =>
      match find_first (fun c => negb (c =? star)) p ppos with                            (* 46-49 *)
      | None => Some (if (ppos <? length p)%nat then last p 0 =? star else (length m =? mpos)%nat)   (* 51-61 *)
      | Some b =>
          let e := match find_first (fun c => c =? star) p b with None => length p | Some e => e end in   (* 63-71 *)
          let size := (e - b)%nat in
          match find_sub m (firstn size (skipn b p)) mpos with                            (* 73-81 *)
          | None => Some false
          | Some k => pattern_loop fuel p m (b + size) (k + size)
          end
      end
  end.
Definition pattern_match_star (p m : list N) : option bool :=
  if str_eqb p [star] then Some true                                                       (* 25-28 *)
  else match p, m with
       | [], [] => Some true                                                               (* 30-38 *)
       | [], _ => Some false
       | _, _ => pattern_loop (S (length p)) p m 0 0
       end.

(** *** app.h *)
Inductive exn :=
| NoCommand                                    (* 117-125 *)
| UnknownCommand (c : list N)                  (* std::map::at *)
| BadCall                                      (* an empty std::function is called *)
| Missing (name command : list N)              (* 222-246 *)
| NoValue (name command : list N)              (* 252-260 *)
| NotANumber (name command value : list N).    (* 279-291 *)
Inductive result (A : Type) := Ok (a : A) | Throw (e : exn).
Arguments Ok {A} a.
Arguments Throw {A} e.

(** The arguments from m_args_cur on, and the top of m_commands. *)
Record args := { ar_cur : list (list N); ar_top : list N }.
(** Lines 49-70; [argv] without the name of the program. *)
Definition args_new (argv : list (list N)) : args := {| ar_cur := argv; ar_top := s_milo ++ s__application |}.
(** Lines 75-95: [pop_back] of an empty string is undefined. *)
Definition dump (argv : list (list N)) : option (list N) :=
  match flat_map (fun a => a ++ [32]) argv with [] => None | s => Some (removelast s) end.
Definition dash (a : list N) : bool := starts_with [45] a.
Definition dashes (a : list N) : bool := starts_with [45; 45] a.
(** Lines 104-133 *)
Fixpoint command_loop (cur : list (list N)) : result (list N * args) :=
  match cur with
  | [] => Throw NoCommand
  | a :: cur => if dash a then command_loop cur else Ok (a, {| ar_cur := cur; ar_top := a ++ s__command |})
  end.
Definition command (a : args) : result (list N * args) := command_loop (ar_cur a).
(** Lines 163-187 *)
Fixpoint option_loop (name : list N) (cur : list (list N)) : bool :=
  match cur with
  | [] => false
  | a :: cur => if dashes a then (if str_eqb (skipn 2 a) name then true else option_loop name cur) else false
  end.
Definition opt (a : args) (name : list N) : bool := option_loop name (ar_cur a).
(** std::from_chars to a 64-bit unsigned integer, base 10: the longest prefix of digits; [None]: no digit, or too large. *)
Definition is_digit (c : N) : bool := (48 <=? c) && (c <=? 57).
Fixpoint digits (s : list N) : list N := match s with [] => [] | c :: s => if is_digit c then c :: digits s else [] end.
Definition value (ds : list N) : N := fold_left (fun v c => v * 10 + (c - 48)) ds 0.
Definition from_chars (s : list N) : option N :=
  match digits s with [] => None | ds => if value ds <? 2 ^ 64 then Some (value ds) else None end.
(** Lines 190-318 with an integral type *)
Fixpoint parameter_loop (name : list N) (cur : list (list N)) : option (list N) :=
  match cur with
  | [] => None
  | a :: cur => if dashes a then (if starts_with name (skipn 2 a) then Some a else parameter_loop name cur) else None
  end.
Definition parameter (a : args) (name : list N) : result N :=
  match parameter_loop name (ar_cur a) with
  | None => Throw (Missing name (ar_top a))
  | Some it =>
      match index_of (N.eqb 61) it with
      | None => Throw (NoValue name (ar_top a))
      | Some pos =>
          if (length it <=? pos + 1)%nat then Ok 0
          else let v := skipn (pos + 1) it in
               match from_chars v with None => Throw (NotANumber name (ar_top a) v) | Some n => Ok n end
      end
  end.
(** Lines 321-342 *)
Definition parameter_or (a : args) (name : list N) (default : N) : N := match parameter a name with Ok v => v | Throw _ => default end.

(** *** type.h: values; [VRatio a b] is the double [double(a) / double(b)]; an object is the list of its entries in the
    order of iteration. *)
Inductive var :=
| VStr (s : list N) | VUnsigned (n : N) | VRatio (a b : N) | VBool (b : bool) | VArray (l : list var) | VObject (l : list (list N * var)).
(** std::to_string of an unsigned number *)
Fixpoint dec_loop (fuel : nat) (n : N) : list N :=
  match fuel with
  | O => []
  | S fuel => if n <? 10 then [48 + n] else dec_loop fuel (n / 10) ++ [48 + n mod 10]
  end.
Definition dec (n : N) : list N := dec_loop (S (N.size_nat n)) n.
Section Json.
  (** std::to_string of the quotient of two doubles *)
  Context (show : N -> N -> list N).
  Definition quoted (s : list N) : list N := [34] ++ s ++ [34].
  (** The entries or elements; [n] counts down, and a comma follows while it is not 0 (lines 838-842 and 877-880, 892-896 and 924-927). *)
  Fixpoint commas (n : nat) (l : list (list N)) : list N :=
    match l with [] => [] | x :: l => x ++ (if (0 <? n - 1)%nat then [44] else []) ++ commas (n - 1) l end.
  (** Lines 318-354 and 832-883, 886-930.  Keys are strings here. *)
  Fixpoint to_json (v : var) : list N :=
    match v with
    | VStr s => quoted s
    | VUnsigned n => dec n
    | VRatio a b => show a b
    | VBool b => if b then s_true else s_false
    | VArray l => [91] ++ commas (length l) (map to_json l) ++ [93]
    | VObject l => [123] ++ commas (length l) (map (fun e => quoted (fst e) ++ [58] ++ to_json (snd e)) l) ++ [125]
    end.
End Json.

(** *** benchmark.h *)
Record bench_options := { bo_cpu_clock : N; bo_repeats_warm : N; bo_repeats_time : N }.
(** Lines 112-130 *)
Definition declared (advanced : bool) (g : group) : list (list N) := gr_basic g ++ if advanced then gr_advanced g else [].
(** parameter.h:99-165 *)
Fixpoint parse (a : args) (names : list (list N)) : result (list (list N * N)) :=
  match names with
  | [] => Ok []
  | n :: names =>
      match parameter a n with
      | Throw e => Throw e
      | Ok v => match parse a names with Throw e => Throw e | Ok l => Ok ((n, v) :: l) end
      end
  end.
Fixpoint size_of (l : list (list N * N)) (name : list N) : N :=
  match l with [] => 0 | (n, v) :: l => if str_eqb n name then v else size_of l name end.
(** The names that match, in order. *)
Fixpoint selected (p : list N) (names : list (list N)) : option (list (list N)) :=
  match names with
  | [] => Some []
  | n :: names => b <- pattern_match_star p n ;; l <- selected p names ;; Some (if b then n :: l else l)
  end.
(** Lines 170-188: the configuration *)
Definition config_of (o : bench_options) (inputs : list (list N * N)) : var :=
  VObject [(s_benchmark, VObject ([(s_repeats_warm, VUnsigned (bo_repeats_warm o)); (s_repeats_time, VUnsigned (bo_repeats_time o))] ++
                                  (if bo_cpu_clock o =? 0 then [] else [(s_cpu_clock, VUnsigned (bo_cpu_clock o))])));
           (s_input, VObject (map (fun e => (fst e, VUnsigned (snd e))) inputs))].
(** Lines 213-243: [ns] measured nanoseconds, [processed] bytes *)
Definition metrics_of (o : bench_options) (ns processed : N) : var :=
  let t := bo_repeats_time o in
  VObject ([(s_duration, VObject [(s_nanoseconds_per_call, VRatio ns t)])] ++
    (if processed =? 0 then [] else
       [(s_throughput, VObject [(s_gigabytes_per_second, VRatio processed ns); (s_megabytes_per_second, VRatio (wmul 64 processed 1000) ns)])]) ++
    (if (processed =? 0) || (bo_cpu_clock o =? 0) then [] else
       [(s_cpu, VObject [(s_cycles_per_call, VRatio (wmul 64 (bo_cpu_clock o) ns) (wmul 64 1000000000 t));
                         (s_cycles_per_byte, VRatio (wmul 64 (bo_cpu_clock o) ns) (wmul 64 1000000000 processed))])])).
Definition processed_of (o : bench_options) (g : group) (inputs : list (list N * N)) : N :=
  wmul 64 (bo_repeats_time o) (fold_left (fun s n => wadd 64 s (size_of inputs n)) (gr_processed g) 0).
(** What [invoke] adds: printed lines, and results (made on demand). *)
Record bench_state := { bs_lines : list (list N); bs_results : option (list (list N * var)) }.
(** Lines 138-246; reading the first element of an empty array is undefined. *)
Definition invoke (clock : list N -> N) (o : bench_options) (advanced : bool) (a : args) (p : list N) (g : group) (s : bench_state)
  : option (result bench_state) :=
  let names := declared advanced g in
  if str_eqb p s_list then Some (Ok {| bs_lines := bs_lines s ++ names; bs_results := bs_results s |})
  else
    sel <- selected p names ;;
    match sel with
    | [] => Some (Ok s)
    | _ =>
        match parse a (gr_parameters g) with
        | Throw e => Some (Throw e)
        | Ok inputs =>
            if existsb (fun n => size_of inputs n =? 0) (gr_first g) then None
            else
              let entry n := (n, VObject [(s_config, config_of o inputs); (s_metrics, metrics_of o (clock n) (processed_of o g inputs))]) in
              Some (Ok {| bs_lines := bs_lines s;
                          bs_results := Some (match bs_results s with None => [] | Some l => l end ++ map entry sel) |})
        end
    end.
(** Lines 970-1229 *)
Fixpoint invoke_all (clock : list N -> N) (o : bench_options) (advanced : bool) (a : args) (p : list N) (gs : list group) (s : bench_state)
  : option (result bench_state) :=
  match gs with
  | [] => Some (Ok s)
  | g :: gs =>
      r <- invoke clock o advanced a p g s ;;
      match r with Throw e => Some (Throw e) | Ok s => invoke_all clock o advanced a p gs s end
  end.
Definition primitive (clock : list N -> N) (o : bench_options) (advanced : bool) (a : args) : option (result bench_state) :=
  match command a with
  | Throw e => Some (Throw e)
  | Ok (p, a) => invoke_all clock o advanced a p groups {| bs_lines := []; bs_results := None |}
  end.

(** *** run.h:12-75, benchmark.h:1231-1272, version.h:12-18 *)
(** Names and versions compiled in. *)
Record build := { bd_compiler : list N; bd_compiler_version : list N; bd_version : list N }.
Inductive stdout := PrintVersion | PrintLines (l : list (list N)) | PrintJson (v : var).
Inductive exit := Exit0 (o : stdout) | Exit1 (e : exn).
Definition result_var (r : option (list (list N * var))) : var :=
  VObject (match r with None => [] | Some l => [(s_benchmark, VObject [(s_primitive, VObject l)])] end).
Definition context_var (b : build) (argv : list (list N)) (d : list N) (r : var) : var :=
  VObject [(s_compiler, VObject [(s_name, VStr (bd_compiler b)); (s_version, VStr (bd_compiler_version b))]);
           (s_project, VObject [(s_name, VStr s_milo); (s_version, VStr (bd_version b))]);
           (s_command, VObject [(s_dump, VStr d); (s_args, VArray (map VStr argv))]);
           (s_result, r)].
Definition run_benchmark (b : build) (clock : list N -> N) (argv : list (list N)) (d : list N) (verbose advanced : bool) (a : args) : option exit :=
  let o := {| bo_cpu_clock := wmul 64 (parameter_or a s_cpu_clock 0) 1000000;
              bo_repeats_warm := parameter_or a s_repeats_warm 128;
              bo_repeats_time := let t := parameter_or a s_repeats_time 1024 in if t =? 0 then 1 else t |} in
  match command a with
  | Throw e => Some (Exit1 e)
  | Ok (c, a) =>
      if str_eqb c s_primitive then
        r <- primitive clock o advanced a ;;
        match r with
        | Throw e => Some (Exit1 e)
        | Ok s =>
            (* [list] prints lines and suppresses the result *)
            match command a with
            | Ok (p, _) =>
                if str_eqb p s_list then Some (Exit0 (PrintLines (bs_lines s)))
                else Some (Exit0 (PrintJson (if verbose then context_var b argv d (result_var (bs_results s)) else result_var (bs_results s))))
            | Throw e => Some (Exit1 e)
            end
        end
      else Some (Exit1 BadCall)
  end.
Definition run (b : build) (clock : list N -> N) (argv : list (list N)) : option exit :=
  let a := args_new argv in
  d <- dump argv ;;
  let verbose := opt a s_verbose in
  let advanced := opt a s_advanced in
  match command a with
  | Throw e => Some (Exit1 e)
  | Ok (c, a) =>
      if str_eqb c s_benchmark then run_benchmark b clock argv d verbose advanced a
      else if str_eqb c s_version then Some (Exit0 PrintVersion)
      else Some (Exit1 (UnknownCommand c))
  end.
