(** Exact arithmetic with a value for "not a number": the real numbers and one more element that every
    operation outside of its domain yields (division by zero, root of a negative number, logarithm or
    power of a number that is not positive), that every operation passes on, and that every comparison
    is false for.  Used to say that no computation leaves its domain. *)
From Coq Require Import Reals.
From Verif Require Import M_Base M_Num M_Expr M_Loss M_Online M_Olm M_OlmSel M_Algs S_Expr S_Online S_Session.
Local Open Scope R_scope.

Definition xreal : Type := option R.
Definition lift1 (f : R -> R) (a : xreal) : xreal := match a with Some x => Some (f x) | None => None end.
Definition lift2 (f : R -> R -> R) (a b : xreal) : xreal :=
  match a, b with Some x, Some y => Some (f x y) | _, _ => None end.
Definition test2 (f : R -> R -> bool) (a b : xreal) : bool :=
  match a, b with Some x, Some y => f x y | _, _ => false end.
Definition xdiv (a b : xreal) : xreal :=
  match a, b with Some x, Some y => if Req_EM_T y 0 then None else Some (x / y) | _, _ => None end.
Definition xsqrt (a : xreal) : xreal := match a with Some x => if Rlt_dec x 0 then None else Some (sqrt x) | None => None end.
Definition xlog (a : xreal) : xreal := match a with Some x => if Rle_dec x 0 then None else Some (ln x) | None => None end.
Definition xpow (a b : xreal) : xreal :=
  match a, b with Some x, Some y => if Rle_dec x 0 then None else Some (Rpower x y) | _, _ => None end.
Definition Xnum : num xreal := mknum xreal
  (lift2 Rplus) (lift2 Rminus) (lift2 Rmult) xdiv (lift1 Ropp)
  (test2 (n_lt Rnum)) (test2 (n_le Rnum)) (test2 (n_eq Rnum))
  (fun z => Some (IZR z)) (fun m e => Some (R_of_dec m e)) xsqrt (lift1 Rtrigo_def.exp) xlog xpow
  (Some (n_fmax Rnum)) (fun a => match a with Some x => R_toint x | None => 0%Z end).

(** A number. *)
Definition fin (a : xreal) : Prop := exists x, a = Some x.
Definition above (lo : R) (a : xreal) : Prop := exists x, a = Some x /\ lo <= x.
Definition pos (a : xreal) : Prop := exists x, a = Some x /\ 0 < x.

(** All numbers of an example. *)
Definition fin_point (p : point xreal) : Prop := Forall fin (p_val p).
(** Some feature is not zero. *)
Definition nonzero (p : point xreal) : Prop := exists x, In (Some x) (p_val p) /\ x <> 0.

(** The members of a new model that hold numbers. *)
Definition fin_core (c : core (R:=xreal)) : Prop :=
  Forall (Forall fin) (c_ws c) /\ Forall fin (c_g c) /\ fin (c_eta c) /\ fin (c_b0 c) /\ fin (c_margin c) /\
  fin (c_vt c) /\ (forall m, c_cost c = Some m -> fin m).

(** Parameters a user may choose: numbers, positive where the algorithm divides by them. *)
Definition params_ok (k : kind (R:=xreal)) (loss : loss_kind) : Prop :=
  match k with
  | KPerceptron | KPA => True
  | KPA1 C => fin C
  | KPA2 C => pos C
  | KOGD e t | KPET e t _ => fin e /\ fin t
  | KSTG e t l _ _ | KFOBOS_L1 e t l _ => fin e /\ fin t /\ fin l
  | KRDA s => pos s
  | KRDA_L1 s l _ => pos s /\ fin l
  | KERDA_L1 s l r _ => pos s /\ fin l /\ fin r
  | KALMA2 a C s => pos a /\ fin C /\ pos s
  | KSOP a => pos a
  | KAROW r | KSOFS r _ => pos r
  | KCW a phi _ => pos a /\ pos phi /\ (loss = LHinge \/ loss = LMaxHinge \/ loss = LUniHinge)
  | KECCW a phi _ => pos a /\ pos phi /\ (loss = LHinge \/ loss = LMaxHinge)
  | KAdaFOBOS d | KAdaFOBOS_OFS d _ | KAdaRDA d | KAdaRDA_OFS d _ => pos d
  | KAdaFOBOS_L1 d l _ | KAdaRDA_L1 d l _ => pos d /\ fin l
  | KFOFS l _ => pos l
  end.
(** The number of examples the model has already seen, as far as it matters: l1 dual averaging divides
    by it. *)
Definition start_ok (k : kind (R:=xreal)) (c : core (R:=xreal)) : Prop :=
  match k with KRDA_L1 _ _ _ => (1 <= c_iter c)%Z | _ => (0 <= c_iter c)%Z end.
(** Sum of squares. *)
Definition sq_sum (vs : list xreal) : R := fold_right (fun v s => match v with Some x => x * x | None => 0 end + s) 0 vs.
(** The examples that cannot take the model out of the numbers: for PA those with a non-zero feature, for
    CW also any if the bias is learned, for ECCW those whose norm is small in addition. *)
Definition example_ok (k : kind (R:=xreal)) (p : point xreal) : Prop :=
  fin_point p /\
  match k with
  | KPA => nonzero p
  | KCW _ _ b => b = true \/ nonzero p
  | KECCW a _ b => (b = true \/ nonzero p) /\ exists x, a = Some x /\ 2 * (x * (sq_sum (p_val p) + 1)) <= 1
  | _ => True
  end.
(** All examples given to Train, after preprocessing, satisfy X; all given to Test do. *)
Definition trains_on (X : point xreal -> Prop) (pre : point xreal -> option (point xreal)) (u : use (R:=xreal)) : Prop :=
  match u with
  | UTrain bs => Forall (Forall (fun d => forall x, pre (fst d) = Some x -> X x)) bs
  | _ => True
  end.
(** Some selected feature of the example is not zero ([flags]: the features chosen by the user, all if
    absent). *)
Definition selected_nonzero (flags : option (list bool)) (p : point xreal) : Prop :=
  exists i x, In (i, Some x) (combine (p_idx p) (p_val p)) /\ x <> 0 /\
    match flags with None => True | Some fl => nth_error fl (Z.to_nat i) = Some true end.
