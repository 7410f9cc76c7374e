(** The command line: external/cmdline/cmdline.h, and the main functions in /repo/tools up to the point
    where they call the library.  Arguments are byte strings without 0; messages and usage texts on the
    terminal are left out. *)
From Coq Require Import String.
From Verif Require Import M_Base M_DataPoint M_Text M_Str.
Local Open Scope list_scope.
Local Open Scope Z_scope.

(** operator< of std::string, the order of std::map<std::string, ...> (cmdline.h:774). *)
Fixpoint str_ltb (a b : list Z) : bool :=
  match a, b with
  | _, [] => false
  | [], _ :: _ => true
  | x :: a', y :: b' => (x <? y) || ((x =? y) && str_ltb a' b')
  end.
(** lexical_cast<int>(std::string), cmdline.h:77-85: istringstream ss(arg); ss >> ret && ss.eof();
    [None]: std::bad_cast. *)
Definition read_int (s : list Z) : option Z :=
  let s1 := snd (find_if_not is_space s) in
  let '(neg, s2) := match s1 with 45 :: r => (true, r) | 43 :: r => (false, r) | _ => (false, s1) end in
  let '(ds, rest) := find_if_not is_digit s2 in
  match ds, rest with
  | _ :: _, [] =>
    let v := fold_left (fun a d => 10 * a + (d - 48)) ds 0 in
    let v := if (neg : bool) then - v else v in
    if (-2147483648 <=? v) && (v <=? 2147483647) then Some v else None
  | _, _ => None
  end.

(** showinfo(group), sol_train.cc:105-114: what is printed of the names of all classes, in the order of
    the map; [None]: back() of an empty vector. *)
Fixpoint showinfo (group : list Z) (names : list (list Z)) : option (list (list Z)) :=
  match names with
  | [] => Some []
  | n :: r =>
    do parts <- str_split 95 n;
    match parts with
    | [] => None
    | p :: _ => do l <- showinfo group r; Some (if str_eqb (last parts []) group then p :: l else l)
    end
  end.
(** ClassInfoMap() with everything that is registered, reflector.h:38: sorted by name. *)
Fixpoint ins_name (n : list Z) (l : list (list Z)) : list (list Z) :=
  match l with [] => [n] | k :: r => if str_ltb n k then n :: l else k :: ins_name n r end.
Definition class_names : list (list Z) :=
  fold_right (fun p l => ins_name (lower (full_name (fst p) (snd p))) l) [] builtin.

Section Cmd.
Context {R : Type}.
(** lexical_cast<float>(std::string), cmdline.h:77-85. *)
Variable read_float : list Z -> option R.

(** The values of an option. *)
Inductive val : Type := VS (s : list Z) | VI (z : Z) | VF (r : R).
(** default_reader<std::string> (the string itself, cmdline.h:60-64, 145-147), oneof_reader<std::string>
    (169-180), default_reader<int>, default_reader<float>. *)
Inductive reader : Type := RString | ROneOf (alts : list (list Z)) | RInt | RFloat.
(** reader(value); [None]: an exception, caught at cmdline.h:716. *)
Definition read (r : reader) (s : list Z) : option val :=
  match r with
  | RString => Some (VS s)
  | ROneOf alts => if existsb (fun a => str_eqb a s) alts then Some (VS s) else None
  | RInt => do z <- read_int s; Some (VI z)
  | RFloat => do x <- read_float s; Some (VF x)
  end.
(** option_without_value ([o_read] = None; it has no value, [o_val] is not used) and option_with_value,
    cmdline.h:653-772. *)
Record opt := mkopt { o_short : Z; o_need : bool; o_read : option reader; o_has : bool; o_val : val }.
(** options, cmdline.h:774: a list sorted by name. *)
Definition opts := list (list Z * opt).
(** options[name] = new ..., a new entry, cmdline.h:313, 331. *)
Fixpoint ins (n : list Z) (o : opt) (m : opts) : opts :=
  match m with
  | [] => [(n, o)]
  | (k, p) :: r => if str_ltb n k then (n, o) :: m else (k, p) :: ins n o r
  end.
(** options[name]->set(...), cmdline.h:620, 631: a write to the option; name is in the map. *)
Fixpoint put (n : list Z) (o : opt) (m : opts) : opts :=
  match m with
  | [] => []
  | (k, p) :: r => if str_eqb k n then (k, o) :: r else (k, p) :: put n o r
  end.
(** A call of add, cmdline.h:309-335: name, short name, need, reader ([None]: the first overload), default. *)
Record decl := mkdecl { d_name : list Z; d_short : Z; d_need : bool; d_read : option reader; d_def : val }.
(** [None]: throws "multiple definition". *)
Definition add (d : decl) (m : opts) : option opts :=
  match reg_find (d_name d) m with
  | Some _ => None
  | None => Some (ins (d_name d) (mkopt (d_short d) (d_need d) (d_read d) false (d_def d)) m)
  end.
(** The calls of add one after the other, as in the tools cited below. *)
Fixpoint adds (l : list decl) (m : opts) : option opts :=
  match l with [] => Some m | d :: r => do m' <- add d m; adds r m' end.

(** The messages of errors, cmdline.h:414, 427, 445-450, 466-471, 479-483, 501, 617-632. *)
Inductive err : Type :=
| ENoArgs | EShort (c : Z) | EUndef (n : list Z) | ENeedsValue (n : list Z) | EInvalid (n v : list Z)
| EUndefShort (c : Z) | EAmbiguous (c : Z) | ENeed (n : list Z).
(** options, errors, others. *)
Record pst := mkpst { q_opts : opts; q_errs : list err; q_rest : list (list Z) }.
(** errors.push_back, in the same lines. *)
Definition fail (e : err) (s : pst) : pst := mkpst (q_opts s) (q_errs s ++ [e]) (q_rest s).
(** set_option(name), cmdline.h:615-624. *)
Definition set1 (n : list Z) (s : pst) : pst :=
  match reg_find n (q_opts s) with
  | None => fail (EUndef n) s
  | Some o =>
    match o_read o with
    | Some _ => fail (ENeedsValue n) s
    | None => mkpst (put n (mkopt (o_short o) (o_need o) (o_read o) true (o_val o)) (q_opts s)) (q_errs s) (q_rest s)
    end
  end.
(** set_option(name, value), cmdline.h:626-635 with 668, 712-720. *)
Definition set2 (n v : list Z) (s : pst) : pst :=
  match reg_find n (q_opts s) with
  | None => fail (EUndef n) s
  | Some o =>
    match o_read o with
    | None => fail (EInvalid n v) s
    | Some r =>
      match read r v with
      | None => fail (EInvalid n v) s
      | Some x => mkpst (put n (mkopt (o_short o) (o_need o) (o_read o) true x) (q_opts s)) (q_errs s) (q_rest s)
      end
    end
  end.
(** lookup, cmdline.h:419-433: from short to long names; [inr c]: ambiguous, parse gives up. *)
Fixpoint char_find (c : Z) (m : list (Z * list Z)) : option (list Z) :=
  match m with [] => None | (k, n) :: r => if k =? c then Some n else char_find c r end.
Fixpoint lookup_of (m : opts) (lk : list (Z * list Z)) : list (Z * list Z) + Z :=
  match m with
  | [] => inl lk
  | (n, o) :: r =>
    match n with
    | [] => lookup_of r lk
    | _ =>
      if o_short o =? 0 then lookup_of r lk
      else match char_find (o_short o) lk with
           | Some _ => inr (o_short o)
           | None => lookup_of r ((o_short o, n) :: lk)
           end
    end
  end.
(** The inner loop over a group of short options except its last one, cmdline.h:462-476. *)
Fixpoint shorts (lk : list (Z * list Z)) (cs : list Z) (s : pst) : pst :=
  match cs with
  | [] => s
  | c :: r =>
    shorts lk r
      (match char_find c lk with
       | None => fail (EUndefShort c) s
       | Some [] => fail (EAmbiguous c) s
       | Some n => set1 n s
       end)
  end.
(** strchr(s, c), cmdline.h:437-440: what lies before and after. *)
Fixpoint strchr (c : Z) (s : list Z) : option (list Z * list Z) :=
  match s with
  | [] => None
  | x :: r => if x =? c then Some ([], r) else do (a, b) <- strchr c r; Some (x :: a, b)
  end.
(** options.find(name)->second->has_value(), cmdline.h:489. *)
Definition has_value (n : list Z) (s : pst) : bool :=
  match reg_find n (q_opts s) with Some o => match o_read o with Some _ => true | None => false end | None => false end.
(** The loop over the arguments, cmdline.h:435-496. *)
Fixpoint parse_args (lk : list (Z * list Z)) (args : list (list Z)) (s : pst) : pst :=
  match args with
  | [] => s
  | a :: r =>
    match a with
    | 45 :: 45 :: t =>
      match strchr 61 t with
      | Some (n, v) => parse_args lk r (set2 n v s)
      | None =>
        match reg_find t (q_opts s) with
        | None => parse_args lk r (fail (EUndef t) s)
        | Some o =>
          match o_read o with
          | Some _ =>
            match r with
            | [] => fail (ENeedsValue t) s
            | v :: r' => parse_args lk r' (set2 t v s)
            end
          | None => parse_args lk r (set1 t s)
          end
        end
      end
    | [45] => parse_args lk r s
    | 45 :: cs =>
      let s1 := shorts lk (removelast cs) s in
      let last := last cs 0 in
      match char_find last lk with
      | None => parse_args lk r (fail (EUndefShort last) s1)
      | Some [] => parse_args lk r (fail (EAmbiguous last) s1)
      | Some n =>
        match r with
        | v :: r' => if has_value n s1 then parse_args lk r' (set2 n v s1) else parse_args lk r (set1 n s1)
        | [] => parse_args lk r (set1 n s1)
        end
      end
    | _ => parse_args lk r (mkpst (q_opts s) (q_errs s) (q_rest s ++ [a]))
    end
  end.
(** valid(), cmdline.h:672, 724-727, in the loop at 498-501. *)
Definition missing (m : opts) : list err :=
  map (fun p => ENeed (fst p)) (filter (fun p => match o_read (snd p) with Some _ => o_need (snd p) && negb (o_has (snd p)) | None => false end) m).
(** parse(argc, argv), cmdline.h:409-504. *)
Definition parse (m : opts) (argv : list (list Z)) : bool * pst :=
  match argv with
  | [] => (false, mkpst m [ENoArgs] [])
  | _ :: args =>
    match lookup_of m [] with
    | inr c => (false, mkpst m [EShort c] [])
    | inl lk =>
      let s := parse_args lk args (mkpst m [] []) in
      let errs := q_errs s ++ missing (q_opts s) in
      (match errs with [] => true | _ => false end, mkpst (q_opts s) errs (q_rest s))
    end
  end.
(** exist(name), cmdline.h:341-345; [None]: throws. *)
Definition exist (n : list Z) (m : opts) : option bool := do o <- reg_find n m; Some (o_has o).
(** get<T>(name), cmdline.h:347-355; [None]: throws (no such option, or another type). *)
Definition get_s (n : list Z) (m : opts) : option (list Z) :=
  do o <- reg_find n m; match o_read o, o_val o with Some _, VS x => Some x | _, _ => None end.
Definition get_i (n : list Z) (m : opts) : option Z :=
  do o <- reg_find n m; match o_read o, o_val o with Some _, VI x => Some x | _, _ => None end.
Definition get_f (n : list Z) (m : opts) : option R :=
  do o <- reg_find n m; match o_read o, o_val o with Some _, VF x => Some x | _, _ => None end.
(** parse_check(argc, argv), cmdline.h:516-519, 603-613: add --help unless it is there, parse, and stop
    the program after --help, without arguments, or with errors. *)
Inductive started : Type := Stops (code : Z) | Runs (s : pst).
(** add("help", 'h', ...), cmdline.h:517. *)
Definition help : decl := mkdecl (bytes "help") 104 false None (VS []).
(** check(argc, ok), cmdline.h:603-613. *)
Definition check (argc : nat) (ok : bool) (s : pst) : option started :=
  do h <- exist (bytes "help") (q_opts s);
  if (Nat.eqb argc 1 && negb ok) || h then Some (Stops 0) else if negb ok then Some (Stops 1) else Some (Runs s).
Definition parse_check (m : opts) (argv : list (list Z)) : option started :=
  do m1 <- (match reg_find (bytes "help") m with Some _ => Some m | None => add help m end);
  let '(ok, s) := parse m1 argv in check (length argv) ok s.

(* ---------------------------------------------------------------- the tools *)
(** add<string>(...), add<int>(...), add<float>(...), add(...) as the tools call them, cmdline.h:309-335. *)
Definition str_opt (n : string) (c : Z) (need : bool) (def : string) : decl := mkdecl (bytes n) c need (Some RString) (VS (bytes def)).
Definition oneof_opt (n : string) (c : Z) (def : string) (alts : list string) : decl :=
  mkdecl (bytes n) c false (Some (ROneOf (map bytes alts))) (VS (bytes def)).
Definition int_opt (n : string) (c : Z) (need : bool) (def : Z) : decl := mkdecl (bytes n) c need (Some RInt) (VI def).

(** What a tool passes on to the library: analyze.cc:29, converter.cc:37-42, shuffle.cc:30-32, split.cc:31-35, concat.cc:55-. *)
Inductive call : Type :=
| Analyze (input type output : list Z)
| Convert (input type output out_type : list Z) (binarize : option R)
| Shuffle (input type output out_type : list Z)
| Split (input type : list Z) (folds : Z) (prefix out_type : list Z) (shuffle : bool)
| Concat (inputs : list (list Z)) (type output out_type : list Z).
Inductive ran : Type := Ended (code : Z) | Calls (c : call).
(** The common frame of the main functions cited below: declare, parse_check, read the options. *)
Definition start (D : list decl) (argv : list (list Z)) (f : opts -> option call) : option ran :=
  do m <- adds D [];
  do r <- parse_check m argv;
  match r with Stops c => Some (Ended c) | Runs s => do c <- f (q_opts s); Some (Calls c) end.
(** tools/analyze.cc:21-29. *)
Definition analyze_opts : list decl := [str_opt "input" 105 true ""; str_opt "input_type" 115 true ""; str_opt "output" 111 false "-"].
Definition analyze_main (argv : list (list Z)) : option ran :=
  start analyze_opts argv (fun m =>
    do i <- get_s (bytes "input") m; do t <- get_s (bytes "input_type") m; do o <- get_s (bytes "output") m;
    Some (Analyze i t o)).
(** tools/converter.cc:24-42; [zero]: the default of add<float>, float(). *)
Definition convert_opts (zero : R) : list decl :=
  [str_opt "input" 105 true ""; str_opt "input_type" 115 true ""; str_opt "output" 111 true ""; str_opt "output_type" 100 true "";
   mkdecl (bytes "binary_thresh") 98 false (Some RFloat) (VF zero)].
Definition convert_main (zero : R) (argv : list (list Z)) : option ran :=
  start (convert_opts zero) argv (fun m =>
    do b <- exist (bytes "binary_thresh") m;
    do th <- (if (b : bool) then do x <- get_f (bytes "binary_thresh") m; Some (Some x) else Some None);
    do i <- get_s (bytes "input") m; do t <- get_s (bytes "input_type") m; do o <- get_s (bytes "output") m; do ot <- get_s (bytes "output_type") m;
    Some (Convert i t o ot th)).
(** tools/shuffle.cc:22-32. *)
Definition shuffle_opts : list decl :=
  [str_opt "input" 105 true ""; str_opt "input_type" 115 true ""; str_opt "output" 111 false "-"; str_opt "output_type" 100 false ""].
Definition shuffle_main (argv : list (list Z)) : option ran :=
  start shuffle_opts argv (fun m =>
    do i <- get_s (bytes "input") m; do t <- get_s (bytes "input_type") m; do o <- get_s (bytes "output") m; do ot <- get_s (bytes "output_type") m;
    Some (Shuffle i t o ot)).
(** tools/split.cc:22-35. *)
Definition split_opts : list decl :=
  [str_opt "input" 105 true ""; str_opt "input_type" 115 true ""; int_opt "fold" 110 true 0; str_opt "output_prefix" 111 true "";
   str_opt "output_type" 100 true ""; mkdecl (bytes "shuffle") 114 false None (VS [])].
Definition split_main (argv : list (list Z)) : option ran :=
  start split_opts argv (fun m =>
    do i <- get_s (bytes "input") m; do t <- get_s (bytes "input_type") m; do k <- get_i (bytes "fold") m; do o <- get_s (bytes "output_prefix") m;
    do ot <- get_s (bytes "output_type") m; do sh <- exist (bytes "shuffle") m;
    Some (Split i t k o ot sh)).
(** tools/concat.cc:30-55 (the list of inputs: 55). *)
Definition concat_opts : list decl :=
  [str_opt "input" 105 true ""; str_opt "input_type" 115 true ""; str_opt "output" 111 true ""; str_opt "output_type" 100 true ""].
Definition concat_main (argv : list (list Z)) : option ran :=
  start concat_opts argv (fun m =>
    do i <- get_s (bytes "input") m; do t <- get_s (bytes "input_type") m; do o <- get_s (bytes "output") m; do ot <- get_s (bytes "output_type") m;
    do l <- str_split 59 i;
    Some (Concat l t o ot)).

(** sol_train.cc:39-158.  Where the model comes from; what is set; and the rest of the plan. *)
Inductive source : Type := FromFile (path : list Z) | Create (algo : list Z) (classes : Z).
Record plan := mkplan {
  t_source : source;
  t_settings : list (list Z * list Z);    (* the calls of SetParameter, in this order, if none fails *)
  t_complete : bool;                      (* false: then return Status_Invalid_Argument *)
  t_input : list Z; t_output : list Z; t_format : list Z; t_pass : Z; t_batch : Z; t_buf : Z
}.
(** The loop over the parts of --params, sol_train.cc:63-79: the settings before the first part that does
    not split in two, and whether there is none such. *)
Fixpoint settings_of (parts : list (list Z)) : option (list (list Z * list Z) * bool) :=
  match parts with
  | [] => Some ([], true)
  | p :: r =>
    do w <- str_split 61 p;
    match w with
    | [a; b] => do (l, ok) <- settings_of r; Some ((strip a, strip b) :: l, ok)
    | _ => Some ([], false)
    end
  end.
Definition params_of (params : list Z) : option (list (list Z * list Z) * bool) :=
  match params with [] => Some ([], true) | _ => do parts <- str_split 59 params; settings_of parts end.
(** getparser, sol_train.cc:116-140. *)
Definition train_opts : list decl :=
  [oneof_opt "show" 115 "" [""; "model"; "loss"; "reader"; "writer"]%string; oneof_opt "format" 102 "svm" ["csv"; "svm"; "bin"]%string;
   int_opt "classes" 99 false 2; int_opt "pass" 112 false 1; str_opt "dim" 100 false ""; int_opt "batchsize" 98 false 256; int_opt "bufsize" 0 false 2;
   str_opt "algo" 97 false "ogd"; str_opt "model" 109 false ""; str_opt "params" 0 false ""; help].
(** The end of the front end: the program stops with a code, prints the classes of a group, or goes on. *)
Inductive front : Type := FStop (code : Z) | FShow (group : list Z) | FPlan (p : plan).
(** getparser 142-157 and train 39-86. *)
Definition train_main (argv : list (list Z)) : option front :=
  do m <- adds train_opts [];
  let '(ok, s) := parse m argv in
  let o := q_opts s in
  do sh <- exist (bytes "show") o;
  if (sh : bool) then do g <- get_s (bytes "show") o; Some (FShow g) else
  do h <- exist (bytes "help") o;
  if (Nat.eqb (length argv) 1 && negb ok) || h then Some (FStop 0) else
  if negb ok then Some (FStop 1) else
  match (match q_rest s with [i] => Some (i, []) | [i; w] => Some (i, w) | _ => None end) with
  | None => Some (FStop 4)
  | Some (input, output) =>
    do em <- exist (bytes "model") o;
    do al <- get_s (bytes "algo") o;
    do src <- (if (em : bool) then do p <- get_s (bytes "model") o; Some (Some (FromFile p))
               else match al with [] => Some None | _ => do c <- get_i (bytes "classes") o; Some (Some (Create al c)) end);
    match src with
    | None => Some (FStop 4)
    | Some src =>
      do ps <- get_s (bytes "params") o;
      do (l, complete) <- params_of ps;
      do fm <- get_s (bytes "format") o; do pass <- get_i (bytes "pass") o; do b <- get_i (bytes "batchsize") o; do bf <- get_i (bytes "bufsize") o;
      Some (FPlan (mkplan src l complete input output fm pass b bf))
    end
  end.
(** sol_test.cc:39-110. *)
Record test_plan := mktest { e_model : list Z; e_filter : option (list Z); e_input : list Z; e_output : list Z; e_format : list Z; e_batch : Z; e_buf : Z }.
Definition test_opts : list decl :=
  [oneof_opt "format" 102 "svm" ["csv"; "svm"; "bin"]%string; int_opt "batchsize" 98 false 256; int_opt "bufsize" 0 false 2; str_opt "filter" 0 false ""; help].
Definition test_main (argv : list (list Z)) : option (Z + test_plan) :=
  do m <- adds test_opts [];
  let '(ok, s) := parse m argv in
  let o := q_opts s in
  do h <- exist (bytes "help") o;
  if (Nat.eqb (length argv) 1 && negb ok) || h then Some (inl 0) else
  if negb ok then Some (inl 1) else
  match (match q_rest s with [mo; i] => Some (mo, i, []) | [mo; i; w] => Some (mo, i, w) | _ => None end) with
  | None => Some (inl 4)
  | Some (mo, input, output) =>
    do ef <- exist (bytes "filter") o;
    do fl <- (if (ef : bool) then do f <- get_s (bytes "filter") o; Some (Some f) else Some None);
    do fm <- get_s (bytes "format") o; do b <- get_i (bytes "batchsize") o; do bf <- get_i (bytes "bufsize") o;
    Some (inr (mktest mo fl input output fm b bf))
  end.
End Cmd.
Arguments val : clear implicits.
Arguments opt : clear implicits.
Arguments opts : clear implicits.
Arguments decl : clear implicits.
Arguments pst : clear implicits.
