(** The Python class SOL, python/pysol.pyx, on the C interface (M_Capi).  Python 2: str is bytes.  What the classes do is a
    parameter; dtypes other than float64 (an exception), and matrices of the wrong shape, are outside of the model. *)
From Coq Require Import String.
From Verif Require Import M_Base M_Num M_Expr M_DataPoint M_Text M_Str M_Cmd M_Capi.
Local Open Scope list_scope.
Local Open Scope Z_scope.

Section Py.
Context {R MD W C : Type}.
Variable N : num R.

(** What a DataReadTask reads (data_read_task.cc): a file, or memory of Python objects, here matrix and labels; [None]:
    labels in an array that is freed when __load_data returns (pysol.pyx:164: no reference is kept). *)
Inductive reader : Type := RFile (path format : list Z) (pass : Z) | RArray (x : nat) (y : option nat) (pass : Z).
(** OnlineModel::Train: the rate; 0 because BeginTrain refused, before any data are read (online_model.cc:138-141); an exception. *)
Inductive trained : Type := Rate (err : R) (m : MD) | Refused (m : MD) | TrainThrows.
(** The function Train calls, online_model.h; a Python object (None is an object that always exists). *)
Inductive callback : Type := CDefault | CNone | CObject (k : nat).
(** The classes (model.h, data_iter.h); [y_shows]: Train calls the callback (online_model.cc:181-187), [y_info]: the names and values
    of sol_GetModelParameters. *)
Record pylib := mkpylib {
  y_create : list Z -> Z -> option MD;
  y_load : list Z -> W -> option MD;
  y_set : list Z -> list Z -> MD -> setres MD;
  y_good : reader -> W -> bool;
  y_train : MD -> list reader -> W -> trained;
  y_shows : MD -> bool;
  y_test : MD -> list reader -> W -> option (R * MD);
  y_predict : MD -> list reader -> W -> option (list C * MD);
  y_save : MD -> list Z -> W -> Z * W;
  y_info : MD -> list (list Z * list Z)
}.
Variable Y : pylib.
(** A model object with its callback, and an iterator: the readers that have not run yet (data_iter.cc:65-99: Train, Test and Predict run
    them all, and a reader that is not good is not added). *)
Notation model := (MD * callback)%type.
Definition add_reader (r : reader) (i : list reader) (w : W) : Z * list reader := if y_good Y r w then (0, i ++ [r]) else (4, i).
Definition py_library : library R model (list reader) W := mklib
  (fun a n => match y_create Y a n with Some m => Some (m, CDefault) | None => None end)
  (fun p w => match y_load Y p w with Some m => Some (m, CDefault) | None => None end)
  (fun n v m => match y_set Y n v (fst m) with SetOk m' => SetOk (m', snd m) | SetInvalid m' => SetInvalid (m', snd m) | SetThrows => SetThrows end)
  (fun _ _ => [])
  (fun p f n => add_reader (RFile p f n))
  (fun m i w => match y_train Y (fst m) i w with
                | Rate err m' => Some (err, (m', snd m), [])
                | Refused m' => Some (zero N, (m', snd m), i)
                | TrainThrows => None
                end)
  (fun m i _ w => match y_test Y (fst m) i w with Some (err, m') => Some (err, (m', snd m), [], w) | None => None end)
  (fun m p w => y_save Y (fst m) p w).
Notation L := py_library.
Notation state := (st model (list reader) W).

(** self.algo, a const char*: a text of the module ('none', line 78), the buffer of the bytes object given (73), or the buffer of one that
    died with the dictionary of load (324). *)
Inductive chars : Type := Literal (t : list Z) | Buffer (k : nat) (t : list Z) | Freed.
(** The object, pysol.pyx:45-50. *)
Record sol := mksol { o_model : handle; o_iter : handle; o_algo : chars; o_classes : Z; o_verbose : bool }.
(** A method returns, raises, ends the process (an exception of C++ gets into Cython's code without except +), or has no defined
    behaviour. *)
Inductive pyres (A : Type) : Type := PRet (a : A) (o : sol) (s : state) | PRaise (o : sol) (s : state) | PCrash | PBad.
Arguments PRet {A}. Arguments PRaise {A}. Arguments PCrash {A}. Arguments PBad {A}.
(** A call of the C interface in a method; statements one after the other; not code of /repo. *)
Definition call {A B} (r : res model (list reader) W A) (f : A -> state -> pyres B) : pyres B :=
  match r with Ret a s => f a s | Exn => PCrash | Bad => PBad end.
Definition andthen {A B} (r : pyres A) (f : A -> sol -> state -> pyres B) : pyres B :=
  match r with PRet a o s => f a o s | PRaise o s => PRaise o s | PCrash => PCrash | PBad => PBad end.

(** The loop of set_params, pysol.pyx:126-129 (in the order of iteritems). *)
Fixpoint set_loop (l : list (list Z * list Z)) (o : sol) (s : state) : pyres unit :=
  match l with
  | [] => PRet tt o s
  | (k, v) :: r => call (sol_set_model_parameter L (o_model o) k v s) (fun ret s1 => if ret =? 0 then set_loop r o s1 else PRaise o s1)
  end.
(** set_params, pysol.pyx:123-129. *)
Definition set_params (l : list (list Z * list Z)) (o : sol) (s : state) : pyres unit :=
  match l with [] => PRet tt o s | _ => match o_model o with None => PRaise o s | Some _ => set_loop l o s end end.
(** get_params, pysol.pyx:138-140: the items in the order in which they are assigned. *)
Definition get_params (o : sol) (s : state) : pyres (list (list Z * list Z)) :=
  match model_at (o_model o) s with Some m => PRet (y_info Y (fst m)) o s | None => PBad end.
(** inspect_learning, pysol.pyx:142-144 with c_api.cc:146-152; no reference to the handler is kept. *)
Definition inspect_learning (h : callback) (o : sol) (s : state) : pyres unit :=
  match o_model o with
  | None => PRet tt o s
  | Some _ => match model_at (o_model o) s with Some m => PRet tt o (store (o_model o) (OModel (fst m, h)) s) | None => PBad end
  end.
(** __dealloc__, pysol.pyx:90-96. *)
Definition dealloc (o : sol) (s : state) : res model (list reader) W unit :=
  M_Capi.seq (sol_release_iter (o_iter o) s) (fun _ s1 => M_Capi.seq (sol_release_model (o_model o) s1) (fun _ s2 => Ret tt s2)).
(** __cinit__, pysol.pyx:52-88; [algo]: the bytes object and its text.  An exception in it is followed by __dealloc__; fields not yet set are
    null. *)
Definition cinit (algo : option (nat * list Z)) (classes batch buf : Z) (verbose : bool) (params : list (list Z * list Z)) (s : state) : pyres unit :=
  let made :=
    match algo with
    | Some (k, t) =>
      call (sol_create_model L t classes s) (fun h s1 => set_params params (mksol h None (Buffer k t) classes false) s1)
    | None => PRet tt (mksol None None (Literal (bytes "none")) (-1) false) s
    end in
  match made with
  | PRet _ o s1 =>
    call (sol_create_iter L batch buf s1) (fun i s2 =>
    let o1 := mksol (o_model o) i (o_algo o) (o_classes o) (o_verbose o) in
    andthen (if verbose then PRet tt o1 s2 else inspect_learning CNone o1 s2) (fun _ o2 s3 =>
    PRet tt (mksol (o_model o2) (o_iter o2) (o_algo o2) (o_classes o2) verbose) s3))
  | PRaise o s1 => match dealloc o s1 with Ret _ s2 => PRaise o s2 | _ => PBad end
  | r => r
  end.

(** The data arguments: a path and a type (None is no char*: TypeError), or a matrix and labels (None: zeros). *)
Inductive data : Type := DPath (path : list Z) (format : option (list Z)) | DArray (x : nat) (y : option nat).
(** __load_data, pysol.pyx:158-189; sol_loadArray and sol_loadCsrMatrix (c_api.cc:155-171) are AddReader as well. *)
Definition load_data (d : data) (pass : Z) (o : sol) (s : state) : pyres unit :=
  match d with
  | DPath _ None => PRaise o s
  | DPath p (Some f) => call (sol_load_data L (o_iter o) p f pass s) (fun ret s1 => if ret =? 0 then PRet tt o s1 else PRaise o s1)
  | DArray x y =>
    match iter_at (o_iter o) s with
    | Some i => let '(ret, i') := add_reader (RArray x y pass) i (s_world s) in
                let s1 := store (o_iter o) (OIter i') s in if ret =? 0 then PRet tt o s1 else PRaise o s1
    | None => PBad
    end
  end.
(** [alive k]: the object is still there (someone has a reference). *)
Section Alive.
Variable alive : nat -> bool.
(** The memory a reader goes through. *)
Definition readable (r : reader) : bool :=
  match r with RFile _ _ _ => true | RArray x (Some y) _ => alive x && alive y | RArray _ None _ => false end.
Definition reading {A} (o : sol) (s : state) (k : pyres A) : pyres A :=
  match iter_at (o_iter o) s with Some i => if forallb readable i then k else PBad | None => PBad end.
(** The callback of Train. *)
Definition callable (c : callback) : bool := match c with CObject k => alive k | _ => true end.
(** fit, pysol.pyx:207-211. *)
Definition fit (d : data) (pass : Z) (o : sol) (s : state) : pyres R :=
  match o_model o with
  | None => PRaise o s
  | Some _ =>
    andthen (load_data d pass o s) (fun _ o1 s1 =>
    let train := call (sol_train L (o_model o1) (o_iter o1) s1) (fun err s2 => PRet (n_sub N (one N) err) o1 s2) in
    match model_at (o_model o1) s1, iter_at (o_iter o1) s1 with
    | Some m, Some i =>
      match y_train Y (fst m) i (s_world s1) with
      | Refused _ => train
      | _ => reading o1 s1 (if y_shows Y (fst m) && negb (callable (snd m)) then PBad else train)
      end
    | _, _ => PBad
    end)
  end.
(** score, pysol.pyx:227-231. *)
Definition score (d : data) (o : sol) (s : state) : pyres R :=
  match o_model o with
  | None => PRaise o s
  | Some _ =>
    andthen (load_data d 1 o s) (fun _ o1 s1 =>
    reading o1 s1 (call (sol_test L (o_model o1) (o_iter o1) None s1) (fun err s2 => PRet (n_sub N (one N) err) o1 s2)))
  end.
(** predict and decision_function, pysol.pyx:252-267, 286-296, up to the arrays made of the callbacks' arguments; sol_Predict,
    c_api.cc:114-138. *)
Definition predict (d : data) (o : sol) (s : state) : pyres (list C) :=
  match o_model o with
  | None => PRaise o s
  | Some _ =>
    andthen (load_data d 1 o s) (fun _ o1 s1 =>
    reading o1 s1
      (match model_at (o_model o1) s1, iter_at (o_iter o1) s1 with
       | Some m, Some i =>
         match y_predict Y (fst m) i (s_world s1) with
         | Some (cs, m') => PRet cs o1 (store (o_iter o1) (OIter []) (store (o_model o1) (OModel (m', snd m)) s1))
         | None => PCrash
         end
       | _, _ => PBad
       end))
  end.
(** name, pysol.pyx:98-100. *)
Definition name (o : sol) (s : state) : pyres (list Z) :=
  match o_algo o with
  | Literal t => PRet t o s
  | Buffer k t => if alive k then PRet t o s else PBad
  | Freed => PBad
  end.
End Alive.
(** save, pysol.pyx:306-307: the status is not looked at. *)
Definition save (path : list Z) (o : sol) (s : state) : pyres unit :=
  match o_model o with None => PRaise o s | Some _ => call (sol_save_model L (o_model o) path s) (fun _ s1 => PRet tt o s1) end.
(** A value of a dictionary filled in this order. *)
Fixpoint lookup (k : list Z) (l : list (list Z * list Z)) : option (list Z) :=
  match l with [] => None | (n, v) :: r => match lookup k r with Some x => Some x | None => if str_eqb n k then Some v else None end end.
(** int(text) of Python; [None]: ValueError. *)
Variable py_int : list Z -> option Z.
(** load, pysol.pyx:321-332: whether it returns self (or None). *)
Definition load (path : list Z) (o : sol) (s : state) : pyres bool :=
  call (sol_restore_model L path s) (fun h s1 =>
  let o1 := mksol h (o_iter o) (o_algo o) (o_classes o) (o_verbose o) in
  match h with
  | None => PRet false o1 s1
  | Some _ =>
    andthen (get_params o1 s1) (fun ps o2 s2 =>
    match lookup (bytes "model") ps with
    | None => PRaise o2 s2
    | Some _ =>
      let o3 := mksol (o_model o2) (o_iter o2) Freed (o_classes o2) (o_verbose o2) in
      match lookup (bytes "cls_num") ps with
      | None => PRaise o3 s2
      | Some t =>
        match py_int t with
        | None => PRaise o3 s2
        | Some c =>
          let o4 := mksol (o_model o3) (o_iter o3) (o_algo o3) c (o_verbose o3) in
          andthen (if o_verbose o4 then PRet tt o4 s2 else inspect_learning CNone o4 s2) (fun _ o5 s3 => PRet true o5 s3)
        end
      end
    end)
  end).

(* ------------------------------------------------------------ programs *)
(** What a program does with an object; [PDrop k]: the last reference to the object k goes away. *)
Inductive op : Type :=
| PSet (l : list (list Z * list Z)) | PGet | PInspect (h : callback) | PFit (d : data) (pass : Z) | PScore (d : data) | PPredict (d : data)
| PName | PSave (path : list Z) | PLoad (path : list Z) | PDrop (k : nat).
(** What comes back. *)
Inductive value : Type := VUnit | VBool (b : bool) | VRate (r : R) | VCalls (l : list C) | VText (t : list Z) | VDict (l : list (list Z * list Z)) | VRaised.
(** After one operation: the program goes on (an exception is caught), or not. *)
Inductive outcome : Type := Goes (v : value) (o : sol) (s : state) (alive : nat -> bool) | Crashed | Undefined.
Definition outcome_of {A} (alive : nat -> bool) (f : A -> value) (r : pyres A) : outcome :=
  match r with PRet a o s => Goes (f a) o s alive | PRaise o s => Goes VRaised o s alive | PCrash => Crashed | PBad => Undefined end.
Definition run1 (p : op) (o : sol) (s : state) (alive : nat -> bool) : outcome :=
  match p with
  | PSet l => outcome_of alive (fun _ => VUnit) (set_params l o s)
  | PGet => outcome_of alive VDict (get_params o s)
  | PInspect h => outcome_of alive (fun _ => VUnit) (inspect_learning h o s)
  | PFit d n => outcome_of alive VRate (fit alive d n o s)
  | PScore d => outcome_of alive VRate (score alive d o s)
  | PPredict d => outcome_of alive VCalls (predict alive d o s)
  | PName => outcome_of alive VText (name alive o s)
  | PSave path => outcome_of alive (fun _ => VUnit) (save path o s)
  | PLoad path => outcome_of alive VBool (load path o s)
  | PDrop k => Goes VUnit o s (fun j => if Nat.eqb j k then false else alive j)
  end.
(** A program; the values of its operations, first to last; not code of /repo. *)
Fixpoint run (l : list op) (o : sol) (s : state) (alive : nat -> bool) : outcome * list value :=
  match l with
  | [] => (Goes VUnit o s alive, [])
  | p :: r => match run1 p o s alive with
              | Goes v o1 s1 a1 => let '(x, vs) := run r o1 s1 a1 in (x, v :: vs)
              | x => (x, [])
              end
  end.
End Py.
Arguments pylib : clear implicits.
Arguments pyres : clear implicits. Arguments PRet {MD W A}. Arguments PRaise {MD W A}. Arguments PCrash {MD W A}. Arguments PBad {MD W A}.
Notation model MD := (MD * callback)%type.
Arguments trained : clear implicits. Arguments Rate {R MD}. Arguments Refused {R MD}. Arguments TrainThrows {R MD}.
Arguments outcome : clear implicits. Arguments Goes {R MD W C}. Arguments Crashed {R MD W C}. Arguments Undefined {R MD W C}.
Arguments value : clear implicits. Arguments VUnit {R C}. Arguments VBool {R C}. Arguments VRate {R C}. Arguments VCalls {R C}. Arguments VText {R C}. Arguments VDict {R C}. Arguments VRaised {R C}.
