(** What programs may rely on with the Python class SOL; only the types of M_Py are used, and the functions under test. *)
From Coq Require Import String.
From Verif Require Import M_Base M_Num M_Expr M_Text M_Str M_Cmd M_Capi M_Py.
Local Open Scope list_scope.
Local Open Scope Z_scope.

(** The same objects exist on two heaps. *)
Definition same_objects {MD IT} (h h' : list (option (obj MD IT))) : Prop :=
  forall a x, nth_error h a = Some (Some x) <-> nth_error h' a = Some (Some x).

(** Matrices have labels, and both exist. *)
Definition labelled (alive : nat -> bool) (d : data) : Prop :=
  match d with DPath _ _ => True | DArray x y => alive x = true /\ exists y', y = Some y' /\ alive y' = true end.
(** What the data arguments name. *)
Definition source (d : data) (pass : Z) : option reader :=
  match d with DPath _ None => None | DPath p (Some f) => Some (RFile p f pass) | DArray x y => Some (RArray x y pass) end.
(** A program that never uses what is gone: get_params with a model only ([has]: the object was made with one), it and name not behind a
    load, labels for all matrices, handlers and the name kept ([hs]: the handlers so far, [k0]: the name). *)
Fixpoint careful (has fresh : bool) (k0 : option nat) (hs : list nat) (alive : nat -> bool) (l : list op) : Prop :=
  match l with
  | [] => True
  | p :: r =>
    match p with
    | PFit d _ | PScore d | PPredict d => labelled alive d /\ careful has fresh k0 hs alive r
    | PGet => has = true /\ fresh = true /\ careful has fresh k0 hs alive r
    | PName => fresh = true /\ careful has fresh k0 hs alive r
    | PInspect (CObject k) => alive k = true /\ careful has fresh k0 (k :: hs) alive r
    | PInspect _ | PSet _ | PSave _ => careful has fresh k0 hs alive r
    | PLoad _ => careful has false k0 hs alive r
    | PDrop k => ~ In k hs /\ k0 <> Some k /\ careful has fresh k0 hs (fun j => if Nat.eqb j k then false else alive j) r
    end
  end.

Section S.
Context {R MD W C : Type}.
(** An object in its usual state: its model and handler, and no data waiting. *)
Definition ready (o : sol) (s : st (model MD) (list reader) W) (m : MD) (h : callback) : Prop :=
  model_at (o_model o) s = Some (m, h) /\ iter_at (o_iter o) s = Some [].
(** Train never gives up because of its settings. *)
Definition never_refuses (Y : pylib R MD W C) : Prop := forall m i w m', y_train Y m i w <> Refused m'.
(** load is not called while the object holds a model, [step] being one operation. *)
Fixpoint no_reload (step : op -> sol -> st (model MD) (list reader) W -> (nat -> bool) -> outcome R MD W C) (l : list op) (o : sol)
  (s : st (model MD) (list reader) W) (alive : nat -> bool) : Prop :=
  match l with
  | [] => True
  | p :: r => (match p with PLoad _ => o_model o = None | _ => True end) /\
    forall v o' s' a', step p o s alive = Goes v o' s' a' -> no_reload step r o' s' a'
  end.
End S.
