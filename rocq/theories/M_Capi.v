(** The C interface as its clients see it (src/sol/c_api.cc), and the programs on top of the library: tools/lsol_c.cc
    through the C interface, tools/sol_train.cc and tools/sol_test.cc directly.  What the classes do is a parameter
    ([library]); they are modelled elsewhere.  Messages on the terminal other than the printed rates are left out. *)
From Coq Require Import String.
From Verif Require Import M_Base M_Num M_Expr M_DataPoint M_Text M_Str M_Cmd.
Local Open Scope list_scope.
Local Open Scope Z_scope.

Section Capi.
Context {R MD IT W : Type}.
Variable N : num R.

(** SetParameter: it returns, throws std::invalid_argument (the model may have changed), or throws something else. *)
Inductive setres : Type := SetOk (m : MD) | SetInvalid (m : MD) | SetThrows.
(** The classes: Model::Create and Model::Load ([None]: nullptr), SetParameter, DataIter::DataIter, AddReader (the
    status), Train and Test (the rate; [None]: an exception), Save (the status).  [W]: the files.  model.h, data_iter.h. *)
Record library := mklib {
  l_create : list Z -> Z -> option MD;
  l_load : list Z -> W -> option MD;
  l_set : list Z -> list Z -> MD -> setres;
  l_iter : Z -> Z -> IT;
  l_add : list Z -> list Z -> Z -> IT -> W -> Z * IT;
  l_train : MD -> IT -> W -> option (R * MD * IT);
  l_test : MD -> IT -> option (list Z) -> W -> option (R * MD * IT * W);
  l_save : MD -> list Z -> W -> Z * W
}.
Variable L : library.

(* ------------------------------------------------------------- c_api.cc *)
(** What new has created and delete has not destroyed; addresses are not used again. *)
Inductive obj : Type := OModel (m : MD) | OIter (i : IT).
Record st := mkst { s_heap : list (option obj); s_world : W }.
(** A void*, c_api.h; [None]: nullptr. *)
Definition handle := option nat.
(** A call returns, an exception leaves it, or it has no defined behaviour. *)
Inductive res (A : Type) : Type := Ret (a : A) (s : st) | Exn | Bad.
Arguments Ret {A}. Arguments Exn {A}. Arguments Bad {A}.
(** Statements one after the other; not code of /repo. *)
Definition seq {A B} (r : res A) (f : A -> st -> res B) : res B :=
  match r with Ret a s => f a s | Exn => Exn | Bad => Bad end.
(** The casts (Model* )(model) and (DataIter* )(data_iter) with the use of the result, c_api.cc:39, 53, 64, 97-98. *)
Definition at_ (h : handle) (s : st) : option obj :=
  match h with None => None | Some a => match nth_error (s_heap s) a with Some o => o | None => None end end.
Definition model_at (h : handle) (s : st) : option MD := match at_ h s with Some (OModel m) => Some m | _ => None end.
Definition iter_at (h : handle) (s : st) : option IT := match at_ h s with Some (OIter i) => Some i | _ => None end.
(** A write to an object that is there, and delete; not code of /repo. *)
Fixpoint poke (a : nat) (o : option obj) (l : list (option obj)) : list (option obj) :=
  match l, a with [], _ => [] | _ :: r, O => o :: r | x :: r, S b => x :: poke b o r end.
Definition store (h : handle) (o : obj) (s : st) : st :=
  match h with None => s | Some a => mkst (poke a (Some o) (s_heap s)) (s_world s) end.
Definition free (h : handle) (s : st) : st :=
  match h with None => s | Some a => mkst (poke a None (s_heap s)) (s_world s) end.
(** new, c_api.cc:30; reflector.h (the create functions). *)
Definition alloc (o : obj) (s : st) : res handle := Ret (Some (length (s_heap s))) (mkst (s_heap s ++ [Some o]) (s_world s)).

(** c_api.cc:29-31. *)
Definition sol_create_iter (batch buf : Z) (s : st) : res handle := alloc (OIter (l_iter L batch buf)) s.
(** c_api.cc:33-36 and 57-60 with DeletePointer (util.h:21-25): the caller's pointer afterwards. *)
Definition sol_release_iter (h : handle) (s : st) : res handle :=
  match h with None => Ret None s | Some _ => match iter_at h s with Some _ => Ret None (free h s) | None => Bad end end.
Definition sol_release_model (h : handle) (s : st) : res handle :=
  match h with None => Ret None s | Some _ => match model_at h s with Some _ => Ret None (free h s) | None => Bad end end.
(** c_api.cc:38-42. *)
Definition sol_load_data (h : handle) (path format : list Z) (pass : Z) (s : st) : res Z :=
  match iter_at h s with
  | Some i => let '(ret, i') := l_add L path format pass i (s_world s) in Ret ret (store h (OIter i') s)
  | None => Bad
  end.
(** c_api.cc:44-46. *)
Definition sol_create_model (name : list Z) (classes : Z) (s : st) : res handle :=
  match l_create L name classes with Some m => alloc (OModel m) s | None => Ret None s end.
(** c_api.cc:48-50. *)
Definition sol_restore_model (path : list Z) (s : st) : res handle :=
  match l_load L path (s_world s) with Some m => alloc (OModel m) s | None => Ret None s end.
(** c_api.cc:52-55. *)
Definition sol_save_model (h : handle) (path : list Z) (s : st) : res Z :=
  match model_at h s with
  | Some m => let '(ret, w) := l_save L m path (s_world s) in Ret ret (mkst (s_heap s) w)
  | None => Bad
  end.
(** c_api.cc:62-73: only std::invalid_argument is caught. *)
Definition sol_set_model_parameter (h : handle) (name value : list Z) (s : st) : res Z :=
  match model_at h s with
  | Some m =>
    match l_set L name value m with
    | SetOk m' => Ret 0 (store h (OModel m') s)
    | SetInvalid m' => Ret 4 (store h (OModel m') s)
    | SetThrows => Exn
    end
  | None => Bad
  end.
(** c_api.cc:96-100. *)
Definition sol_train (h hi : handle) (s : st) : res R :=
  match model_at h s, iter_at hi s with
  | Some m, Some i =>
    match l_train L m i (s_world s) with
    | Some (err, m', i') => Ret err (store hi (OIter i') (store h (OModel m') s))
    | None => Exn
    end
  | _, _ => Bad
  end.
(** c_api.cc:102-111. *)
Definition sol_test (h hi : handle) (out : option (list Z)) (s : st) : res R :=
  match model_at h s, iter_at hi s with
  | Some m, Some i =>
    match l_test L m i out (s_world s) with
    | Some (err, m', i', w) => Ret err (store hi (OIter i') (store h (OModel m') (mkst (s_heap s) w)))
    | None => Exn
    end
  | _, _ => Bad
  end.

(* ------------------------------------------------------------- lsol_c.cc *)
(** The values of the options, lsol_c.cc:158-188 ([None]: the option does not exist() on the command line). *)
Record args := mkargs {
  a_train : bool; a_input : list Z; a_format : list Z; a_classes : Z; a_pass : Z; a_batch : Z; a_buf : Z;
  a_output : option (list Z); a_algo : list Z; a_model : option (list Z); a_filter : option (list Z);
  a_settings : list (list Z * list Z); a_complete : bool
}.
(** The loop at lsol_c.cc:67-80 over the parts of --params (split and stripped as in M_Cmd.params_of): [inl]: return at
    line 71, [inr ret]: the loop is left with this value of ret. *)
Fixpoint set_all (model : handle) (l : list (list Z * list Z)) (complete : bool) (s : st) : res (Z + Z) :=
  match l with
  | [] => Ret (if complete then inr 0 else inl 4) s
  | (n, v) :: r =>
    seq (sol_set_model_parameter model n v s) (fun ret s1 =>
      if ret =? 0 then set_all model r complete s1 else Ret (inr ret) s1)
  end.
(** train, lsol_c.cc:50-108: the exit status and the rates printed. *)
Definition lsol_train (a : args) (s : st) : res (Z * list R) :=
  match (match a_model a with
         | Some path => Some (sol_restore_model path s)
         | None => match a_algo a with [] => None | al => Some (sol_create_model al (a_classes a) s) end
         end) with
  | None => Ret (4, []) s
  | Some created =>
    seq created (fun model s1 =>
    let ret := match model with None => 4 | Some _ => 0 end in
    seq (if ret =? 0 then set_all model (a_settings a) (a_complete a) s1 else Ret (inr ret) s1) (fun r s2 =>
    match r with
    | inl code => Ret (code, []) s2
    | inr ret =>
      seq (if ret =? 0 then
             seq (sol_create_iter (a_batch a) (a_buf a) s2) (fun h s3 =>
             seq (sol_load_data h (a_input a) (a_format a) (a_pass a) s3) (fun ret s4 => Ret (h, ret) s4))
           else Ret (None, ret) s2) (fun '(iter, ret) s3 =>
      seq (if ret =? 0 then
             seq (sol_train model iter s3) (fun accu s4 =>
             match a_output a with
             | Some path => seq (sol_save_model model path s4) (fun ret s5 => Ret (ret, [accu]) s5)
             | None => Ret (ret, [accu]) s4
             end)
           else Ret (ret, []) s3) (fun '(ret, out) s4 =>
      seq (sol_release_model model s4) (fun _ s5 =>
      seq (sol_release_iter iter s5) (fun _ s6 => Ret (ret, out) s6))))
    end))
  end.
(** test, lsol_c.cc:110-145. *)
Definition lsol_test (a : args) (s : st) : res (Z * list R) :=
  match a_model a with
  | None => Ret (4, []) s
  | Some path =>
    seq (sol_restore_model path s) (fun model s1 =>
    let ret := match model with None => 4 | Some _ => 0 end in
    seq (match a_filter a with
         | Some f => sol_set_model_parameter model (bytes "filter") f s1
         | None => Ret ret s1
         end) (fun ret s2 =>
    seq (if ret =? 0 then
           seq (sol_create_iter (a_batch a) (a_buf a) s2) (fun h s3 =>
           seq (sol_load_data h (a_input a) (a_format a) 1 s3) (fun ret s4 => Ret (h, ret) s4))
         else Ret (None, ret) s2) (fun '(iter, ret) s3 =>
    seq (if ret =? 0 then seq (sol_test model iter (a_output a) s3) (fun accu s4 => Ret (ret, [accu]) s4)
         else Ret (ret, []) s3) (fun '(ret, out) s4 =>
    seq (sol_release_model model s4) (fun _ s5 =>
    seq (sol_release_iter iter s5) (fun _ s6 => Ret (ret, out) s6))))))
  end.
(** main, lsol_c.cc:40-47, behind getparser. *)
Definition lsol_run (a : args) (s : st) : res (Z * list R) := if a_train a then lsol_train a s else lsol_test a s.

(* ------------------------------------------- sol_train.cc and sol_test.cc *)
(** How a program ends: with a status, rates printed and files; by an exception; without defined behaviour. *)
Inductive run : Type := Ended (code : Z) (printed : list R) (w : W) | Threw | Undef.
(** What is seen of a program on the C interface from outside; not code of /repo. *)
Definition outside (r : res (Z * list R)) : run :=
  match r with Ret (c, out) s => Ended c out (s_world s) | Exn => Threw | Bad => Undef end.
(** sol_train.cc:64-79. *)
Fixpoint set_direct (m : MD) (l : list (list Z * list Z)) (complete : bool) : option (MD + Z) :=
  match l with
  | [] => Some (if complete then inl m else inr 4)
  | (n, v) :: r =>
    match l_set L n v m with
    | SetOk m' => set_direct m' r complete
    | SetInvalid _ => Some (inr 4)
    | SetThrows => None
    end
  end.
(** train, sol_train.cc:50-103, from the plan (M_Cmd.train_main: 39-86); 1.f - err_rate is printed (93), the status of
    Save is not looked at (99). *)
Definition direct_train (p : plan) (w : W) : run :=
  match (match t_source p with FromFile path => l_load L path w | Create al c => l_create L al c end) with
  | None => Ended 4 [] w
  | Some m =>
    match set_direct m (t_settings p) (t_complete p) with
    | None => Threw
    | Some (inr code) => Ended code [] w
    | Some (inl m1) =>
      let '(ret, i) := l_add L (t_input p) (t_format p) (t_pass p) (l_iter L (t_batch p) (t_buf p)) w in
      if negb (ret =? 0) then Ended ret [] w else
      match l_train L m1 i w with
      | None => Threw
      | Some (err, m2, _) =>
        Ended 0 [n_sub N (one N) err] (match t_output p with [] => w | path => snd (l_save L m2 path w) end)
      end
    end
  end.
(** test, sol_test.cc:53-84. *)
Definition direct_test (p : test_plan) (w : W) : run :=
  match l_load L (e_model p) w with
  | None => Ended 4 [] w
  | Some m =>
    match (match e_filter p with None => SetOk m | Some f => l_set L (bytes "filter") f m end) with
    | SetThrows => Threw
    | SetInvalid _ => Ended 4 [] w
    | SetOk m1 =>
      let '(ret, i) := l_add L (e_input p) (e_format p) 1 (l_iter L (e_batch p) (e_buf p)) w in
      if negb (ret =? 0) then Ended ret [] w else
      match l_test L m1 i (match e_output p with [] => None | path => Some path end) w with
      | None => Threw
      | Some (err, _, _, w') => Ended 0 [n_sub N (one N) err] w'
      end
    end
  end.

(* ------------------------------------------------------------ other clients *)
(** The statements of a client that keeps handles in variables: one for each function above, and v = u. *)
Inductive cmd : Type :=
| KIter (v : nat) (batch buf : Z) | KModel (v : nat) (name : list Z) (classes : Z) | KRestore (v : nat) (path : list Z)
| KRelIter (v : nat) | KRelModel (v : nat) | KLoad (v : nat) (path format : list Z) (pass : Z)
| KSet (v : nat) (name value : list Z) | KTrain (v i : nat) | KTest (v i : nat) (out : option (list Z)) | KSave (v : nat) (path : list Z)
| KCopy (v u : nat).
(** The variables of the client; not code of /repo. *)
Definition env := nat -> handle.
Definition bind_var (e : env) (v : nat) (h : handle) : env := fun u => if Nat.eqb u v then h else e u.
(** One statement, as the functions above say. *)
Definition exec1 (c : cmd) (e : env) (s : st) : res env :=
  match c with
  | KIter v b n => seq (sol_create_iter b n s) (fun h s' => Ret (bind_var e v h) s')
  | KModel v a n => seq (sol_create_model a n s) (fun h s' => Ret (bind_var e v h) s')
  | KRestore v p => seq (sol_restore_model p s) (fun h s' => Ret (bind_var e v h) s')
  | KRelIter v => seq (sol_release_iter (e v) s) (fun h s' => Ret (bind_var e v h) s')
  | KRelModel v => seq (sol_release_model (e v) s) (fun h s' => Ret (bind_var e v h) s')
  | KLoad v p f n => seq (sol_load_data (e v) p f n s) (fun _ s' => Ret e s')
  | KSet v n x => seq (sol_set_model_parameter (e v) n x s) (fun _ s' => Ret e s')
  | KTrain v i => seq (sol_train (e v) (e i) s) (fun _ s' => Ret e s')
  | KTest v i o => seq (sol_test (e v) (e i) o s) (fun _ s' => Ret e s')
  | KSave v p => seq (sol_save_model (e v) p s) (fun _ s' => Ret e s')
  | KCopy v u => Ret (bind_var e v (e u)) s
  end.
(** A client; not code of /repo. *)
Fixpoint exec (cs : list cmd) (e : env) (s : st) : res env :=
  match cs with [] => Ret e s | c :: r => seq (exec1 c e s) (exec r) end.
End Capi.
Arguments setres : clear implicits. Arguments SetOk {MD}. Arguments SetInvalid {MD}. Arguments SetThrows {MD}.
Arguments library : clear implicits.
Arguments obj : clear implicits. Arguments OModel {MD IT}. Arguments OIter {MD IT}.
Arguments st : clear implicits. Arguments mkst {MD IT W}. Arguments s_heap {MD IT W}. Arguments s_world {MD IT W}.
Arguments res : clear implicits. Arguments Ret {MD IT W A}. Arguments Exn {MD IT W A}. Arguments Bad {MD IT W A}.
Arguments run : clear implicits. Arguments Ended {R W}. Arguments Threw {R W}. Arguments Undef {R W}.

(* ------------------------------------------------------------- the command line of lsol_c *)
Section Line.
Context {R : Type}.
Variable read_float : list Z -> option R.
(** getparser, lsol_c.cc:158-191. *)
Definition lsol_opts : list (decl R) :=
  [oneof_opt "show" 115 "" [""; "model"; "loss"; "reader"; "writer"]%string; oneof_opt "task" 116 "train" ["train"; "test"]%string;
   str_opt "input" 105 true ""; oneof_opt "format" 102 "svm" ["csv"; "svm"; "bin"]%string; int_opt "classes" 99 false 2; int_opt "pass" 112 false 1;
   str_opt "dim" 100 false ""; int_opt "batchsize" 98 false 256; int_opt "bufsize" 0 false 2; str_opt "output" 111 false "";
   str_opt "algo" 97 false ""; str_opt "model" 109 false ""; str_opt "filter" 0 false ""; str_opt "params" 0 false ""; help].
(** The value of an option that exists on the line, lsol_c.cc:54, 98, 114, 122, 136. *)
Definition given (n : string) (o : opts R) : option (option (list Z)) :=
  do e <- exist (bytes n) o; if (e : bool) then do x <- get_s (bytes n) o; Some (Some x) else Some None.
Inductive lfront : Type := LStop (code : Z) | LShow (group : list Z) | LArgs (a : args).
(** getparser 193-208, main 40-47 (the option task is one of the two), and the values that train and test look up. *)
Definition lsol_main (argv : list (list Z)) : option lfront :=
  do m <- adds lsol_opts [];
  let '(ok, s) := parse read_float m argv in
  let o := q_opts s in
  do sh <- exist (bytes "show") o;
  if (sh : bool) then do g <- get_s (bytes "show") o; Some (LShow g) else
  do h <- exist (bytes "help") o;
  if (Nat.eqb (length argv) 1 && negb ok) || h then Some (LStop 0) else
  if negb ok then Some (LStop 1) else
  do t <- get_s (bytes "task") o;
  do i <- get_s (bytes "input") o; do fm <- get_s (bytes "format") o; do c <- get_i (bytes "classes") o; do pa <- get_i (bytes "pass") o;
  do b <- get_i (bytes "batchsize") o; do bf <- get_i (bytes "bufsize") o; do out <- given "output" o; do al <- get_s (bytes "algo") o;
  do mo <- given "model" o; do fl <- given "filter" o; do ps <- get_s (bytes "params") o;
  do (l, complete) <- params_of ps;
  Some (LArgs (mkargs (str_eqb t (bytes "train")) i fm c pa b bf out al mo fl l complete)).
End Line.
