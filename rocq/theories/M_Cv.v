(** Cross validation in Python: python/cv.py, and what it uses of python/dataset.py.  The language is Python 2.  Log
    messages, the result file and paths are left out; the class SOL is a parameter. *)
From Coq Require Import String.
From Verif Require Import M_Base M_Num M_Expr M_DataPoint M_Text M_Str M_Tools.
Local Open Scope list_scope.
Local Open Scope nat_scope.

(* ------------------------------------------------------------- the search space *)
Section Space.
Context {K V : Type}.
(** np.prod(param_nums), cv.py:28-31; the items of the dictionary in the order in which items() gives them.  Sizes are
    unbounded here; an empty dictionary (np.prod is the float 1.0 then) is outside of the model. *)
Definition space_size (params : list (K * list V)) : nat := fold_left Nat.mul (map (fun p => length (snd p)) params) 1.
(** The inner loop, cv.py:36-39: one parameter setting.  [None]: an exception (division by zero, index out of range). *)
Fixpoint assignment (params : list (K * list V)) (param_id : nat) : option (list (K * V)) :=
  match params with
  | [] => Some []
  | (k, vs) :: r =>
    if Nat.eqb (length vs) 0 then None else
    do v <- nth_error vs (param_id mod length vs);
    do rest <- assignment r (param_id / length vs);
    Some ((k, v) :: rest)
  end.
Fixpoint assignments (params : list (K * list V)) (ids : list nat) : option (list (list (K * V))) :=
  match ids with
  | [] => Some []
  | i :: r => do a <- assignment params i; do rest <- assignments params r; Some (a :: rest)
  end.
(** SearchSpace.__init__, cv.py:33-40. *)
Definition search_space (params : list (K * list V)) : option (list (list (K * V))) :=
  assignments params (seq 0 (space_size params)).
(** params.update(extra_params), cv.py:162-163; [same] compares keys.  The order of a dictionary does not matter. *)
Fixpoint assign (same : K -> K -> bool) (d : list (K * V)) (k : K) (v : V) : list (K * V) :=
  match d with [] => [(k, v)] | (k', v') :: r => if same k' k then (k', v) :: r else (k', v') :: assign same r k v end.
Definition update (same : K -> K -> bool) (d extra : list (K * V)) : list (K * V) :=
  fold_left (fun d p => assign same d (fst p) (snd p)) extra d.
End Space.

(* ---------------------------------------------------------------- one task *)
Section Task.
Context {P M D A : Type}.
(** SOL(...), fit and score of pysol.pyx; [None]: an exception. *)
Variables (create : P -> option M) (fit : D -> M -> option (A * M)) (score : D -> M -> option A).
(** dt.split_path(i) and the file behind it, dataset.py:73-77; [None]: the file does not exist, an exception. *)
Variable slices : nat -> option D.
(** cv.py:60-63; [last] is the variable train_accu. *)
Fixpoint fit_slices (val : nat) (is : list nat) (last : option A) (m : M) : option (option A * M) :=
  match is with
  | [] => Some (last, m)
  | i :: r =>
    if Nat.eqb i val then fit_slices val r last m else
    do d <- slices i; do am <- fit d m; fit_slices val r (Some (fst am)) (snd am)
  end.
(** cv.py:59-63. *)
Fixpoint fit_passes (pass fold val : nat) (last : option A) (m : M) : option (option A * M) :=
  match pass with
  | O => Some (last, m)
  | S p => do lm <- fit_slices val (seq 0 fold) last m; fit_passes p fold val (fst lm) (snd lm)
  end.
(** train_val_executor, cv.py:51-72, one round; the accuracies put into the result queue.  train_accu without a value
    is an exception (line 70). *)
Definition train_val_task (pass fold val : nat) (params : P) : option (A * A) :=
  do m <- create params;
  do lm <- fit_passes pass fold val None m;
  do d <- slices val;
  do va <- score d (snd lm);
  do ta <- fst lm;
  Some (ta, va).
End Task.

(* ------------------------------------------------------------- the processes *)
Section Procs.
Context {A : Type}.
(** The task with this number: the two accuracies, or an exception that ends the process. *)
Variable evaluate : nat -> option (A * A).
(** A worker: in task_queue.get() (cv.py:48), in a task, behind break (49-50, before task_queue.put(None) at 73), at its
    end, ended by an exception. *)
Inductive worker : Type := Waiting | Busy (k : nat) | Stopping | Gone | Dead.
(** The parent: [n] more results to come (cv.py:176-179), and the lists filled so far; then join (181-182) done. *)
Inductive parent : Type := Collect (n : nat) (tr va : list A) | Finished (tr va : list A).
(** The queues are first-in first-out; what one process puts is taken to be there at once. *)
Record sys := mksys { tasks : list (option nat); results : list (nat * (A * A)); workers : list worker; par : parent }.
(** cv.py:157-174; [zero] is the 0 of lines 168-169. *)
Definition start (zero : A) (size procs : nat) : sys :=
  mksys (map Some (seq 0 size) ++ [None]) [] (repeat Waiting procs) (Collect size (repeat zero size) (repeat zero size)).
Definition ended (w : worker) : bool := match w with Gone | Dead => true | _ => false end.
(** One step of one process: cv.py:48; 72; an exception in 51-70; 49-50; 73; 176-179; 181-184. *)
Inductive step : sys -> sys -> Prop :=
| S_get k t r a b p : step (mksys (Some k :: t) r (a ++ Waiting :: b) p) (mksys t r (a ++ Busy k :: b) p)
| S_put k x t r a b p : evaluate k = Some x -> step (mksys t r (a ++ Busy k :: b) p) (mksys t (r ++ [(k, x)]) (a ++ Waiting :: b) p)
| S_raise k t r a b p : evaluate k = None -> step (mksys t r (a ++ Busy k :: b) p) (mksys t r (a ++ Dead :: b) p)
| S_none t r a b p : step (mksys (None :: t) r (a ++ Waiting :: b) p) (mksys t r (a ++ Stopping :: b) p)
| S_again t r a b p : step (mksys t r (a ++ Stopping :: b) p) (mksys (t ++ [None]) r (a ++ Gone :: b) p)
| S_collect k x t r w n tr va :
    step (mksys t ((k, x) :: r) w (Collect (S n) tr va)) (mksys t r w (Collect n (upd k (fst x) tr) (upd k (snd x) va)))
| S_join t r w tr va : forallb ended w = true -> step (mksys t r w (Collect 0 tr va)) (mksys t r w (Finished tr va)).
End Procs.
Arguments parent : clear implicits. Arguments sys : clear implicits.

(* ---------------------------------------------------------------- the scores *)
Section Scores.
Context {R : Type}.
Variable N : num R.
(** scores[:, j] = col, cv.py:134-135, 138-139. *)
Fixpoint set_col (j : nat) (col : list R) (m : list (list R)) : list (list R) :=
  match m, col with row :: rm, x :: rc => upd j x row :: set_col j rc rm | _, _ => m end.
Fixpoint set_cols (j : nat) (cols : list (list R)) (m : list (list R)) : list (list R) :=
  match cols with [] => m | c :: r => set_cols (S j) r (set_col j c m) end.
(** np.zeros((size, fold_num + 1)), cv.py:105-106. *)
Definition no_scores (size fold : nat) : list (list R) := repeat (repeat (zero N) (fold + 1)) size.
(** CV.train_val, cv.py:127-139, for one of the two tables: [cols] are the lists the folds give, [m] is the table as it
    was.  np.sum adds from left to right here. *)
Definition table (fold : nat) (cols : list (list R)) (m : list (list R)) : list (list R) :=
  let m1 := set_cols 0 cols m in
  set_col fold (map (fun row => n_div N (fold_left (n_add N) row (zero N)) (n_int N (Z.of_nat fold))) m1) m1.
(** np.argmax: the first largest value, or the first NaN. *)
Fixpoint argmax_from (i best : nat) (x : R) (l : list R) : nat :=
  if negb (n_le N x x) then best else
  match l with [] => best | y :: r => if n_le N y x then argmax_from (S i) best x r else argmax_from (S i) i y r end.
Definition argmax (l : list R) : option nat := match l with [] => None | x :: r => Some (argmax_from 1 0 x r) end.
(** The column at cv.py:194. *)
Fixpoint column (j : nat) (m : list (list R)) : option (list R) :=
  match m with [] => Some [] | row :: r => do x <- nth_error row j; do rest <- column j r; Some (x :: rest) end.
(** get_best_param, cv.py:186-195. *)
Definition best_param {X} (space : list X) (fold : nat) (val_scores : list (list R)) : option (X * nat) :=
  do c <- column fold val_scores; do i <- argmax c; do p <- nth_error space i; Some (p, i).
End Scores.

(* ---------------------------------------------------------------- the slices *)
Section Slices.
Context {F : Type}.
(** The slice files in the working directory of the data set: number and type.  dataset.py:74, 135, 138. *)
Definition dir := nat -> list Z -> option F.
(** pysol.split_data (tools.cc:223-285) on the data file: number of slices, type; the status and the files left. *)
Variable split_data : nat -> list Z -> dir -> Z * dir.
Definition remove (i : nat) (t : list Z) (d : dir) : dir :=
  fun j u => if Nat.eqb j i && str_eqb u t then None else d j u.
Definition there (i : nat) (t : list Z) (d : dir) : bool := match d i t with Some _ => true | None => false end.
(** DataSet.split_file, dataset.py:123-149: [dtype] is the type of the data file, [tgt] the argument tgt_type (None
    becomes the text "None" in the file names of 135 and 138).  [false]: sys.exit(). *)
Definition split_file (dtype : list Z) (n : nat) (tgt : option (list Z)) (d : dir) : bool * dir :=
  let name := match tgt with None => bytes "None" | Some t => t end in
  let slice_type := match tgt with None => dtype | Some t => t end in
  let extra := there n name d in
  let exist := forallb (fun i => there i name d) (seq 0 n) && negb extra in
  let d1 := if extra then remove n name d else d in
  if exist then (true, d1) else
  let '(ret, d2) := split_data n slice_type d1 in ((ret =? 0)%Z, d2).
End Slices.
Arguments dir : clear implicits.

(* ------------------------------------------------------- the analysis of the data *)
(** printf("%lu"). *)
Definition lu (n : Z) : option (list Z) := dec_digits 20 n.
Definition line (head : string) (num : list Z) : list Z := bytes head ++ num ++ [10%Z].
Fixpoint class_lines (l : list (Z * Z)) : option (list Z) :=
  match l with
  | [] => Some []
  | (c, n) :: r =>
    do cs <- print_d c; do ns <- lu n; do rest <- class_lines r;
    Some (bytes "data number of class " ++ cs ++ bytes " : " ++ ns ++ [10%Z] ++ rest)
  end.
(** The text analyze writes, tools.cc:87-97; [sparsity]: the text of the percentage, if the line is written. *)
Definition report_text (r : report) (sparsity : option (list Z)) : option (list Z) :=
  do a <- lu (r_data r); do b <- lu (r_feats r); do c <- lu (r_dim r); do d <- lu (r_used r); do e <- lu (r_class_num r);
  do cl <- class_lines (r_classes r);
  Some (line "data number  : " a ++ line "feat number  : " b ++ line "dimension    : " c ++ line "nonzero feat : " d ++
        line "class num    : " e ++ match sparsity with None => [] | Some s => line "data sparsity: " (s ++ bytes "%") end ++ cl).
(** Python's re for the patterns LITERAL\s*:\s*(\d+), dataset.py:45, 54, 64: the digits and what is behind the match. *)
Fixpoint literal (l t : list Z) : option (list Z) :=
  match l, t with [], _ => Some t | c :: r, d :: s => if (c =? d)%Z then literal r s else None | _ :: _, [] => None end.
Definition match_at (l t : list Z) : option (list Z * list Z) :=
  do r <- literal l t;
  match snd (find_if_not M_Str.is_space r) with
  | c :: r1 =>
    if negb (c =? 58)%Z then None else
    let '(ds, r2) := find_if_not is_digit (snd (find_if_not M_Str.is_space r1)) in
    match ds with [] => None | _ => Some (ds, r2) end
  | [] => None
  end.
(** pattern.findall(text): [skip] characters belong to the last match. *)
Fixpoint findall (l : list Z) (skip : nat) (t : list Z) : list (list Z) :=
  match t with
  | [] => []
  | _ :: s =>
    match skip with
    | S k => findall l k s
    | O => match match_at l t with Some (ds, r) => ds :: findall l (length s - length r) s | None => findall l 0 s end
    end
  end.
(** One number, dataset.py:45-51, 54-61, 64-70; [None]: sys.exit(). *)
Definition info (name : string) (text : list Z) : option Z :=
  match findall (bytes name) 0 text with [ds] => Some (digits_value 0 ds) | _ => None end.
(** DataSet.__analyze_dataset behind line 43: data_num, dim, class_num. *)
Definition dataset_info (text : list Z) : option (Z * Z * Z) :=
  do a <- info "data number" text; do b <- info "dimension" text; do c <- info "class num" text; Some (a, b, c).
