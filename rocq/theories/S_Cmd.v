(** How a command line is written, and what it says; independent of the parser in M_Cmd (of which only the
    declarations of options and the kinds of values are used). *)
From Coq Require Import String.
From Verif Require Import M_Base M_Text M_Str S_Text S_Str M_Cmd.
Local Open Scope list_scope.
Local Open Scope Z_scope.

(** The ways to write an item.  [Assign]: --name=value; [Give]: --name value; [Mark]: --name; [Marks]: a group of
    short names, -abc; [Short]: such a group whose last one takes a value, -abc value; [Word]: a free argument;
    [Dash]: a single -. *)
Inductive item : Type :=
| Assign (n v : list Z) | Give (n v : list Z) | Mark (n : list Z)
| Marks (cs : list Z) | Short (cs : list Z) (c : Z) (v : list Z) | Word (w : list Z) | Dash.
Definition text (i : item) : list (list Z) :=
  match i with
  | Assign n v => [[45; 45] ++ n ++ [61] ++ v]
  | Give n v => [[45; 45] ++ n; v]
  | Mark n => [[45; 45] ++ n]
  | Marks cs => [[45] ++ cs]
  | Short cs c v => [[45] ++ cs ++ [c]; v]
  | Word w => [w]
  | Dash => [[45]]
  end.
(** Such that it cannot be taken for another kind. *)
Definition spelled (i : item) : Prop :=
  match i with
  | Assign n _ | Give n _ | Mark n => ~ In 61 n
  | Marks cs => cs <> [] /\ hd 0 cs <> 45
  | Short cs c _ => hd 0 (cs ++ [c]) <> 45
  | Word w => hd 0 w <> 45
  | Dash => True
  end.
Definition line (its : list item) : list (list Z) := flat_map text its.
Definition words (its : list item) : list (list Z) := flat_map (fun i => match i with Word w => [w] | _ => [] end) its.

(** The number written with these digits. *)
Fixpoint decimal (ds : list Z) : Z :=
  match ds with [] => 0 | c :: r => (c - 48) * 10 ^ Z.of_nat (length r) + decimal r end.
(** The number a text stands for: blanks, a sign, digits, nothing else; and it must be an int. *)
Definition is_int (s : list Z) (z : Z) : Prop :=
  exists bl sg ds, s = bl ++ sg ++ ds /\ Forall (fun c => c = 32 \/ 9 <= c <= 13) bl /\ ds <> [] /\ Forall (fun c => 48 <= c <= 57) ds /\
    (sg = [] /\ z = decimal ds \/ sg = [43] /\ z = decimal ds \/ sg = [45] /\ z = - decimal ds) /\ - 2 ^ 31 <= z < 2 ^ 31.

(* --------------------------------------------------------------- the settings *)
(** The first word of a text: what stands between blanks and the next blank. *)
Definition blank (c : Z) : Prop := c = 32 \/ c = 9.
Definition first_word (s w : list Z) : Prop :=
  exists pre rest, s = pre ++ w ++ rest /\ Forall blank pre /\ Forall (fun c => ~ blank c) w /\
    (rest = [] \/ exists c r, rest = c :: r /\ blank c) /\ (w = [] -> rest = []).
(** name=value. *)
Definition setting (part : list Z) (p : list Z * list Z) : Prop :=
  exists a b, pieces 61 part [a; b] /\ first_word a (fst p) /\ first_word b (snd p).
(** name=value;name=value;...: the settings, up to the first part that is none. *)
Definition settings (s : list Z) (l : list (list Z * list Z)) (all : bool) : Prop :=
  exists parts, pieces 59 s parts /\
    if all then Forall2 setting parts l
    else exists pre bad post, parts = pre ++ bad :: post /\ Forall2 setting pre l /\ forall a b, ~ pieces 61 bad [a; b].

Section S.
Context {R : Type}.
Variable read_float : list Z -> option R.

(** The value a text stands for. *)
Definition reads (r : reader) (s : list Z) (x : val R) : Prop :=
  match r with
  | RString => x = VS s
  | ROneOf alts => In s alts /\ x = VS s
  | RInt => exists z, is_int s z /\ x = VI z
  | RFloat => exists f, read_float s = Some f /\ x = VF f
  end.
(** The long name of a short one. *)
Definition long (D : list (decl R)) (c : Z) (n : list Z) : Prop :=
  exists d, In d D /\ d_short d = c /\ d_name d = n /\ c <> 0 /\ n <> [].
(** What an item says: the long names of the options it sets, with the text given. *)
Inductive says (D : list (decl R)) : item -> list (list Z * option (list Z)) -> Prop :=
| S_assign n v : says D (Assign n v) [(n, Some v)]
| S_give n v : says D (Give n v) [(n, Some v)]
| S_mark n : says D (Mark n) [(n, None)]
| S_marks cs ns : Forall2 (long D) cs ns -> says D (Marks cs) (map (fun n => (n, None)) ns)
| S_short cs ns c n v : Forall2 (long D) cs ns -> long D c n -> says D (Short cs c v) (map (fun n => (n, None)) ns ++ [(n, Some v)])
| S_word w : says D (Word w) []
| S_dash : says D Dash [].
(** An option is set with a text its reader accepts, a flag without a text. *)
Definition allowed (D : list (decl R)) (e : list Z * option (list Z)) : Prop :=
  exists d, In d D /\ d_name d = fst e /\
    match snd e, d_read d with None, None => True | Some v, Some r => exists x, reads r v x | _, _ => False end.
(** args is a command line that says [said], with these free words. *)
Definition command (D : list (decl R)) (args : list (list Z)) (said : list (list Z * option (list Z))) (ws : list (list Z)) : Prop :=
  exists its parts, args = line its /\ Forall spelled its /\ Forall2 (says D) its parts /\ said = concat parts /\
    Forall (allowed D) said /\ ws = words its.
(** The option is mentioned. *)
Definition mentioned (said : list (list Z * option (list Z))) (n : list Z) : Prop := exists v, In (n, v) said.
(** All options that are needed are there. *)
Definition complete (D : list (decl R)) (said : list (list Z * option (list Z))) : Prop :=
  forall d, In d D -> d_need d = true -> d_read d <> None -> mentioned said (d_name d).
(** The value of an option: what is said last, or the default. *)
Definition final (D : list (decl R)) (said : list (list Z * option (list Z))) (n : list Z) (x : val R) : Prop :=
  exists d r, In d D /\ d_name d = n /\ d_read d = Some r /\
    (~ mentioned said n /\ x = d_def d \/
     exists pre v post, said = pre ++ (n, Some v) :: post /\ ~ mentioned post n /\ reads r v x).

(** Declarations without contradictions. *)
Definition unambiguous (D : list (decl R)) : Prop :=
  NoDup (map d_name D) /\
  forall d d', In d D -> In d' D -> d_name d <> [] -> d_name d' <> [] -> d_short d = d_short d' -> d_short d <> 0 -> d_name d = d_name d'.
(** What get<T>(name) returns. *)
Definition got (m : opts R) (n : list Z) (x : val R) : Prop :=
  match x with VS s => get_s n m = Some s | VI z => get_i n m = Some z | VF f => get_f n m = Some f end.

(* ---------------------------------------------------------------- the tools *)
(** The command line asks for the work of a tool, without --help, which all tools know. *)
Definition asks (D : list (decl R)) (argv : list (list Z)) (said : list (list Z * option (list Z))) : Prop :=
  exists prog args ws, argv = prog :: args /\ command (D ++ [help]) args said ws /\ complete (D ++ [help]) said /\ ~ mentioned said (bytes "help").
Definition text_of (D : list (decl R)) (said : list (list Z * option (list Z))) (n : string) (s : list Z) : Prop := final (D ++ [help]) said (bytes n) (VS s).
(** What each tool is asked to do. *)
Definition job_analyze said (c : call (R:=R)) : Prop :=
  exists i t o, c = Analyze i t o /\ text_of analyze_opts said "input" i /\ text_of analyze_opts said "input_type" t /\ text_of analyze_opts said "output" o.
Definition job_convert (zero : R) said (c : call (R:=R)) : Prop :=
  exists i t o u th, c = Convert i t o u th /\
    text_of (convert_opts zero) said "input" i /\ text_of (convert_opts zero) said "input_type" t /\
    text_of (convert_opts zero) said "output" o /\ text_of (convert_opts zero) said "output_type" u /\
    match th with
    | None => ~ mentioned said (bytes "binary_thresh")
    | Some x => mentioned said (bytes "binary_thresh") /\ final (convert_opts zero ++ [help]) said (bytes "binary_thresh") (VF x)
    end.
Definition job_shuffle said (c : call (R:=R)) : Prop :=
  exists i t o u, c = Shuffle i t o u /\ text_of shuffle_opts said "input" i /\ text_of shuffle_opts said "input_type" t /\
    text_of shuffle_opts said "output" o /\ text_of shuffle_opts said "output_type" u.
Definition job_split said (c : call (R:=R)) : Prop :=
  exists i t k o u sh, c = Split i t k o u sh /\ text_of split_opts said "input" i /\ text_of split_opts said "input_type" t /\
    final (split_opts ++ [help]) said (bytes "fold") (VI k) /\ text_of split_opts said "output_prefix" o /\ text_of split_opts said "output_type" u /\
    (sh = true <-> mentioned said (bytes "shuffle")).
Definition job_concat said (c : call (R:=R)) : Prop :=
  exists i l t o u, c = Concat l t o u /\ text_of concat_opts said "input" i /\ pieces 59 i l /\ text_of concat_opts said "input_type" t /\
    text_of concat_opts said "output" o /\ text_of concat_opts said "output_type" u.

(** What sol_train is asked to do. *)
Definition train_value said (n : string) (x : val R) : Prop := final train_opts said (bytes n) x.
Definition plan_of (said : list (list Z * option (list Z))) (ws : list (list Z)) (p : plan) : Prop :=
  (ws = [t_input p] /\ t_output p = [] \/ ws = [t_input p; t_output p]) /\
  match t_source p with
  | FromFile path => mentioned said (bytes "model") /\ train_value said "model" (VS path)
  | Create a c => ~ mentioned said (bytes "model") /\ a <> [] /\ train_value said "algo" (VS a) /\ train_value said "classes" (VI c)
  end /\
  (exists ps, train_value said "params" (VS ps) /\ settings ps (t_settings p) (t_complete p)) /\
  train_value said "format" (VS (t_format p)) /\ train_value said "pass" (VI (t_pass p)) /\
  train_value said "batchsize" (VI (t_batch p)) /\ train_value said "bufsize" (VI (t_buf p)).
(** What sol_test is asked to do. *)
Definition test_value said (n : string) (x : val R) : Prop := final test_opts said (bytes n) x.
Definition test_of (said : list (list Z * option (list Z))) (ws : list (list Z)) (p : test_plan) : Prop :=
  (ws = [e_model p; e_input p] /\ e_output p = [] \/ ws = [e_model p; e_input p; e_output p]) /\
  match e_filter p with
  | None => ~ mentioned said (bytes "filter")
  | Some f => mentioned said (bytes "filter") /\ test_value said "filter" (VS f)
  end /\
  test_value said "format" (VS (e_format p)) /\ test_value said "batchsize" (VI (e_batch p)) /\ test_value said "bufsize" (VI (e_buf p)).
End S.
