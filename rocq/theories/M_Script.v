(** The scripts python/sol_train.py and python/sol_test.py on the class SOL (M_Py).  Cross validation (M_Cv), the files behind a data set and
    argparse are parameters; messages and times are left out. *)
From Coq Require Import String.
From Verif Require Import M_Base M_Num M_Expr M_Text M_Str M_Cmd M_Capi M_Cv M_Py.
Local Open Scope list_scope.
Local Open Scope Z_scope.

(** Values of a dictionary of parameters: an int, a bool, or anything else by its text. *)
Inductive pyval : Type := PInt (z : Z) | PBool (b : bool) | PText (t : list Z).
(** A dictionary; the order does not matter. *)
Definition dict := list (list Z * pyval).
(** d[k] (None: k is not in d) and del d[k]; Python. *)
Fixpoint dget (k : list Z) (d : dict) : option pyval := match d with [] => None | (n, v) :: r => if str_eqb n k then Some v else dget k r end.
Definition ddel (k : list Z) (d : dict) : dict := filter (fun p => negb (str_eqb (fst p) k)) d.
(** d[k] = v if there was such a value, sol_train.py:71-74. *)
Definition dput (k : list Z) (v : option pyval) (d : dict) : dict := match v with Some x => assign str_eqb d k x | None => d end.
(** The conversion to a C int, pysol.pyx:52-53 (None: TypeError; all ints are taken to fit). *)
Definition as_int (v : pyval) : option Z := match v with PInt z => Some z | PBool b => Some (Z.b2z b) | PText _ => None end.
(** verbose as a truth value, pysol.pyx:86-88 (an empty text is taken to be False there too). *)
Definition as_bool (v : pyval) : bool :=
  match v with PInt z => negb (z =? 0) | PBool b => b | PText [] => false | PText _ => true end.
Definition or_default {A} (v : option pyval) (f : pyval -> option A) (x : A) : option A := match v with Some y => f y | None => Some x end.
Definition is_key (d : dict) (k : string) : bool := match dget (bytes k) d with Some _ => true | None => false end.

(** item.split('='), sol_train.py:187, 193. *)
Fixpoint py_split (c : Z) (t : list Z) : list (list Z) :=
  match t with
  | [] => [[]]
  | x :: r => if x =? c then [] :: py_split c r else match py_split c r with p :: ps => (x :: p) :: ps | [] => [[x]] end
  end.
(** The loop over args.params, sol_train.py:185-188 (None: IndexError). *)
Fixpoint set_items (l : list (list Z)) (d : dict) : option dict :=
  match l with
  | [] => Some d
  | item :: r => match py_split 61 item with a :: b :: _ => set_items r (assign str_eqb d a (PText b)) | _ => None end
  end.

Section Script.
Context {R MD W C : Type}.
Variable N : num R.
Variable Y : pylib R MD W C.
Variable py_int : list Z -> option Z.
(** str(v), pysol.pyx:127. *)
Variable py_str : pyval -> list Z.
Notation state := (st (model MD) (list reader) W).

(** The attributes of a DataSet, dataset.py. *)
Record dataset := mkdataset { d_path : list Z; d_type : list Z; d_pass : Z; d_classes : Z }.
(** How a script ends: it gives an accuracy (and the model), an exception leaves it, the process ends, or its behaviour is undefined. *)
Inductive script : Type := Accuracy (r : R) (o : sol) (s : state) | Raised (s : state) | Died | Undef.
Definition then_ {A} (r : pyres MD W A) (f : A -> sol -> state -> script) : script :=
  match r with PRet a o s => f a o s | PRaise _ s => Raised s | PCrash => Died | PBad => Undef end.

(** The keyword arguments of SOL, pysol.pyx:52-53: batch_size, buf_size, verbose and the settings (None: TypeError). *)
Definition keywords (d : dict) : option (Z * Z * bool * list (list Z * list Z)) :=
  match or_default (dget (bytes "batch_size") d) as_int 256, or_default (dget (bytes "buf_size") d) as_int 2 with
  | Some b, Some f =>
    let v := match dget (bytes "verbose") d with Some x => as_bool x | None => false end in
    Some (b, f, v, map (fun p => (fst p, py_str (snd p))) (ddel (bytes "verbose") (ddel (bytes "buf_size") (ddel (bytes "batch_size") d))))
  | _, _ => None
  end.
(** SOL(name, classes, **d) and SOL( **d): algo and class_num must not come twice. *)
Definition make (algo : option (nat * list Z)) (classes : Z) (d : dict) (s : state) (f : sol -> state -> script) : script :=
  if is_key d "algo" || is_key d "class_num" then Raised s else
  match keywords d with
  | None => Raised s
  | Some (batch, buf, verbose, ps) => then_ (cinit N Y algo classes batch buf verbose ps s) (fun _ o s1 => f o s1)
  end.
(** fit and save at the end of train and finetune, sol_train.py:86-96, 162-172. *)
Definition fit_save (alive : nat -> bool) (dt : dataset) (output : option (list Z)) (o : sol) (s : state) : script :=
  then_ (fit N Y alive (DPath (d_path dt) (Some (d_type dt))) (d_pass dt) o s) (fun r o1 s1 =>
  match output with
  | None => Accuracy r o1 s1
  | Some path => then_ (save N Y path o1 s1) (fun _ o2 s2 => Accuracy r o2 s2)
  end).

(** Cross validation: CV(...) with the extra parameters, train_val, get_best_param and save_results (None: an exception), and
    CV.load_results (None: there is no file; Some None: an exception). *)
Variable cross : dict -> W -> option (dict * W).
Variable cached : W -> option (option dict).
(** The parameters the model is made with, the files behind, and the caller's dictionary; None: an exception.  sol_train.py:51-78. *)
Definition choose (cv retrain : bool) (d : dict) (w : W) : option (dict * W) * dict :=
  if negb cv then (Some (d, w), d) else
  match (if retrain then None else cached w) with
  | Some None => (None, d)
  | Some (Some best) => let d1 := update str_eqb d best in (Some (d1, w), d1)
  | None =>
    let param_B := dget (bytes "B") d in
    let d1 := ddel (bytes "B") d in
    let param_lambda := dget (bytes "lambda") d1 in
    let d2 := ddel (bytes "lambda") d1 in
    match cross d2 w with
    | None => (None, d2)
    | Some (best, w1) =>
      let d3 := update str_eqb (dput (bytes "lambda") param_lambda (dput (bytes "B") param_B d2)) best in (Some (d3, w1), d3)
    end
  end.
(** train, sol_train.py:17-96, with the dictionary it leaves behind. *)
Definition train (alive : nat -> bool) (dt : dataset) (name : nat * list Z) (d : dict) (output : option (list Z)) (cv retrain : bool) (s : state) : script * dict :=
  match choose cv retrain d (s_world s) with
  | (None, d1) => (Raised s, d1)
  | (Some (d1, w), d2) => (make (Some name) (d_classes dt) d1 (mkst (s_heap s) w) (fit_save alive dt output), d2)
  end.
(** finetune, sol_train.py:121-172, with the dictionary it leaves behind. *)
Definition init_params (d : dict) : dict := filter (fun p => existsb (str_eqb (fst p)) [bytes "batch_size"; bytes "buf_size"; bytes "verbose"]) d.
Definition finetune (alive : nat -> bool) (dt : dataset) (path : list Z) (d : dict) (output : option (list Z)) (s : state) : script * dict :=
  let rest := ddel (bytes "verbose") (ddel (bytes "buf_size") (ddel (bytes "batch_size") d)) in
  (make None (-1) (init_params d) s (fun o s1 =>
   then_ (load N Y py_int path o s1) (fun _ o2 s2 =>
   then_ (name alive o2 s2) (fun _ o3 s3 =>
   then_ (set_params N Y (map (fun p => (fst p, py_str (snd p))) rest) o3 s3) (fun _ o4 s4 => fit_save alive dt output o4 s4)))), rest).
(** main of sol_test.py without an output file, sol_test.py:96-108. *)
Definition test_script (alive : nat -> bool) (dt : dataset) (path : list Z) (batch buf : Z) (s : state) : script :=
  then_ (cinit N Y None (-1) batch buf false [] s) (fun _ o s1 =>
  then_ (load N Y py_int path o s1) (fun _ o2 s2 =>
  then_ (name alive o2 s2) (fun _ o3 s3 =>
  then_ (score N Y alive (DPath (d_path dt) (Some (d_type dt))) o3 s3) (fun r o4 s4 => Accuracy r o4 s4)))).
End Script.
Arguments script : clear implicits. Arguments Accuracy {R MD W}. Arguments Raised {R MD W}. Arguments Died {R MD W}. Arguments Undef {R MD W}.
