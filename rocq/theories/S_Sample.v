(** Selective sampling (active learning) and cost-sensitive margins: what the settings mean. *)
From Coq Require Import Reals.
From Verif Require Import M_Base M_Num M_Expr M_Loss M_Online S_Online S_Loss.
Local Open Scope R_scope.

(** How far the answer [lab] is from being another one: the distance of the only score from zero, or of
    the answer's score from the best of the other classes. *)
Definition confidence (ps : list R) (lab : Z) (m : R) : Prop :=
  match ps with
  | [s] => m = Rabs s
  | _ => exists j best own, nth_error ps (Z.to_nat lab) = Some own /\ best_other ps (Z.to_nat lab) j /\
           nth_error ps j = Some best /\ m = own - best
  end.
(** The label is asked for with probability b / (b + m): for the draws u of [0,1] up to that value. *)
Definition asked (b m u : R) : Prop := u * (b + m) <= b.

(** The margin an example must be classified with: the chosen one for the positive class, else 1. *)
Definition class_margin (cost : R) (y : Z) : R := if (y =? 1)%Z then cost else 1.

(** The same model with another setting of cost_margin and of the margin it last used. *)
Definition with_cost {A} (c : core (R:=A)) (cost : option A) (m : A) : core :=
  mkcore (c_ws c) (c_g c) (c_dim c) (c_eta c) (c_b0 c) (c_t0 c) (c_iter c) (c_data c) (c_err c) (c_upd c)
    (c_lazy c) (c_active c) cost (c_loss c) m (c_vt c) (c_updated c).
