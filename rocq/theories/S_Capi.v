(** What the programs on top of the library should do; only the types of M_Capi and the library are used. *)
From Coq Require Import String.
From Verif Require Import M_Base M_Num M_Expr M_Text M_Str S_Text S_Str M_Cmd S_Cmd M_Capi.
Local Open Scope list_scope.
Local Open Scope Z_scope.

Section S.
Context {R MD IT W : Type}.
Variable N : num R.
Variable L : library R MD IT W.

(** The same order to lsol_c and to sol_train ... *)
Definition same_training (a : args) (p : plan) : Prop :=
  a_train a = true /\
  match t_source p with
  | FromFile path => a_model a = Some path
  | Create al c => a_model a = None /\ a_algo a = al /\ al <> [] /\ a_classes a = c
  end /\
  a_settings a = t_settings p /\ a_complete a = t_complete p /\ a_input a = t_input p /\ a_format a = t_format p /\
  a_pass a = t_pass p /\ a_batch a = t_batch p /\ a_buf a = t_buf p /\
  a_output a = match t_output p with [] => None | path => Some path end.
(** ... and to sol_test. *)
Definition same_testing (a : args) (p : test_plan) : Prop :=
  a_train a = false /\
  a_model a = Some (e_model p) /\ a_filter a = e_filter p /\ a_input a = e_input p /\ a_format a = e_format p /\
  a_batch a = e_batch p /\ a_buf a = e_buf p /\ a_output a = match e_output p with [] => None | path => Some path end.
(** Both end alike: by an exception; with the same failure and no rate; or with the same files, where one prints the
    accuracy and ends with 0, and the other prints the error rate and ends with a status of which [code] holds. *)
Definition alike (code : Z -> Prop) (direct other : run R W) : Prop :=
  match direct, other with
  | Threw, Threw => True
  | Ended c o w, Ended c' o' w' =>
    w' = w /\ (c <> 0 /\ c' = c /\ o = [] /\ o' = [] \/ exists err, c = 0 /\ o = [n_sub N (one N) err] /\ o' = [err] /\ code c')
  | _, _ => False
  end.
(** A status that Save returns for this path, or 0 if nothing is to be saved. *)
Definition save_status (output : option (list Z)) (w : W) (c : Z) : Prop :=
  match output with None => c = 0 | Some path => exists m, c = fst (l_save L m path w) end.

(** The settings are all accepted. *)
Inductive accepted : MD -> list (list Z * list Z) -> MD -> Prop :=
| A_nil m : accepted m [] m
| A_cons m n v m1 l m2 : l_set L n v m = SetOk m1 -> accepted m1 l m2 -> accepted m ((n, v) :: l) m2.
(** The model the arguments ask for. *)
Definition source_model (a : args) (w : W) : option MD :=
  match a_model a with Some path => l_load L path w | None => match a_algo a with [] => None | al => l_create L al (a_classes a) end end.

(** The objects on the heap. *)
Definition live (s : st MD IT W) : nat := length (filter (fun o => match o with Some _ => true | None => false end) (s_heap s)).

(* ------------------------------------------------------------- clients *)
(** What a statement does to the variables: it is given a new object, it is read as a model, as an iterator. *)
Definition targets (c : cmd) : option nat :=
  match c with KIter v _ _ | KModel v _ _ | KRestore v _ | KCopy v _ => Some v | _ => None end.
Definition as_model (c : cmd) : option nat :=
  match c with KSet v _ _ | KTrain v _ | KTest v _ _ | KSave v _ => Some v | _ => None end.
Definition as_iter (c : cmd) : option nat :=
  match c with KLoad v _ _ _ => Some v | KTrain _ i | KTest _ i _ => Some i | _ => None end.
Definition released_model (c : cmd) : option nat := match c with KRelModel v => Some v | _ => None end.
Definition released_iter (c : cmd) : option nat := match c with KRelIter v => Some v | _ => None end.
(** The statement mentions the variable. *)
Definition mentions (c : cmd) (v : nat) : Prop :=
  targets c = Some v \/ as_model c = Some v \/ as_iter c = Some v \/ released_model c = Some v \/ released_iter c = Some v \/
  match c with KCopy _ u => u = v | _ => False end.
Definition copies (c : cmd) : Prop := match c with KCopy _ _ => True | _ => False end.
(** The object a variable refers to. *)
Definition sees (e : env) (s : st MD IT W) (v : nat) (o : obj MD IT) : Prop :=
  exists a, e v = Some a /\ nth_error (s_heap s) a = Some (Some o).
Definition sees_model e s v := exists m, sees e s v (OModel m).
Definition sees_iter e s v := exists i, sees e s v (OIter i).
(** The statement is used as the interface asks: functions get an object of the right kind; a release gets that or null. *)
Definition proper (e : env) (s : st MD IT W) (c : cmd) : Prop :=
  (forall v, as_model c = Some v -> sees_model e s v) /\ (forall v, as_iter c = Some v -> sees_iter e s v) /\
  (forall v, released_model c = Some v -> e v = None \/ sees_model e s v) /\
  (forall v, released_iter c = Some v -> e v = None \/ sees_iter e s v).
End S.

Section Line.
Context {R : Type}.
Variable read_float : list Z -> option R.
(** What the command line of lsol_c asks for. *)
Definition lsol_value said (n : string) (x : val R) : Prop := final read_float lsol_opts said (bytes n) x.
Definition lsol_given said (n : string) (x : option (list Z)) : Prop :=
  match x with None => ~ mentioned said (bytes n) | Some s => mentioned said (bytes n) /\ lsol_value said n (VS s) end.
Definition args_of (said : list (list Z * option (list Z))) (a : args) : Prop :=
  lsol_value said "task" (VS (bytes (if a_train a then "train" else "test")%string)) /\
  mentioned said (bytes "input") /\ lsol_value said "input" (VS (a_input a)) /\ lsol_value said "format" (VS (a_format a)) /\
  lsol_value said "classes" (VI (a_classes a)) /\ lsol_value said "pass" (VI (a_pass a)) /\
  lsol_value said "batchsize" (VI (a_batch a)) /\ lsol_value said "bufsize" (VI (a_buf a)) /\
  lsol_given said "output" (a_output a) /\ lsol_value said "algo" (VS (a_algo a)) /\ lsol_given said "model" (a_model a) /\
  lsol_given said "filter" (a_filter a) /\ exists ps, lsol_value said "params" (VS ps) /\ settings ps (a_settings a) (a_complete a).
End Line.
