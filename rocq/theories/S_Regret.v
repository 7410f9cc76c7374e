(** Learning compared with a fixed predictor chosen in hindsight, in exact arithmetic. *)
From Coq Require Import Reals.
From Verif Require Import M_Base M_Num M_Expr M_Loss M_Online M_Olm M_OlmSel M_Algs S_Expr S_Real S_Online S_Session S_Learn.
Local Open Scope R_scope.

(** Training on a list of examples, with every example as the model saw it and the weights it had to
    predict with. *)
Fixpoint rounds (k : kind (R:=R)) (pre : point R -> option (point R)) (ds : list (point R * R)) (c : core (R:=R)) (e : state_of k)
  : option (list (point R * list (list R)) * core (R:=R) * state_of k) :=
  match ds with
  | [] => Some ([], c, e)
  | d :: r =>
    do x <- pre (fst d);
    do (c1, e1) <- train_point Rnum (alg_of Rnum k) pre d c e;
    do (tr, c2, e2) <- rounds k pre r c1 e1;
    Some ((x, c_ws c) :: tr, c2, e2)
  end.
(** The loss linear functions vs have on an example, with margin m: the hinge of the signed score for
    two classes, the largest hinge against another class for more. *)
Definition margin_loss (m : R) (vs : list (list R)) (x : point R) : R :=
  match vs with
  | [v] => hinge m (IZR (p_label x) * lin v (feats x))
  | _ => let y := Z.to_nat (p_label x) in
    fold_right Rmax 0 (map (fun j => if (j =? y)%nat then 0 else hinge m (lin (nth y vs []) (feats x) - lin (nth j vs []) (feats x))) (seq 0 (length vs)))
  end.
(** Sums over the rounds. *)
Definition total {A} (f : A -> R) (l : list A) : R := fold_right (fun a s => f a + s) 0 l.
(** The loss suffered in a round, and the loss of fixed linear functions us on its example. *)
Definition suffered (m : R) (t : point R * list (list R)) : R := margin_loss m (snd t) (fst t).
Definition hindsight (m : R) (us : list (list R)) (t : point R * list (list R)) : R := margin_loss m us (fst t).
(** The squared length of linear functions. *)
Definition length2 (us : list (list R)) : R := total sumsq us.
(** Linear functions of n classes without a bias. *)
Definition unbiased (n : nat) (us : list (list R)) : Prop := length us = n /\ Forall (fun u => nth 0 u 0 = 0) us.
(** The classes an example moves: one weight vector for two classes, two of them for more. *)
Definition moved (n : nat) : R := if (n =? 1)%nat then 1 else 2.
(** A label of a problem with two classes, or with n. *)
Definition labelled (n : nat) (y : Z) : Prop := if (n =? 1)%nat then (y = 1 \/ y = -1)%Z else (0 <= y < Z.of_nat n)%Z.
(** An example after preprocessing, for these theorems: not zero, feature indexes from 1 on. *)
Definition proper (n : nat) (x : point R) : Prop :=
  wf_point 0 x /\ Forall (fun i => (1 <= i)%Z) (p_idx x) /\ 0 < sqnorm (feats x) /\ labelled n (p_label x).
(** A model as constructed, without bias steps, active learning, cost margins, with updates on loss. *)
Definition plain_model (n : nat) (c : core (R:=R)) : Prop :=
  fresh Rnum n c /\ c_b0 c = 0 /\ c_active c <= 0 /\ c_lazy c = false /\ c_cost c = None.
(** Scores above the smallest float, which the code takes for minus infinity when it looks for the best
    other class. *)
Definition finite_scores (n : nat) (tr : list (point R * list (list R))) : Prop :=
  (n <> 1)%nat -> Forall (fun t => Forall (fun w => - n_fmax Rnum < lin w (feats (fst t))) (snd t)) tr.
(** The hinge loss that goes with the number of classes. *)
Definition hinge_for (n : nat) : loss_kind := if (n =? 1)%nat then LHinge else LMaxHinge.

(** ** Gradient descent, two classes *)
(** The loss of score s for label y. *)
Definition loss_at (loss : loss_kind) (m : R) (y : Z) (s : R) : R :=
  match loss with
  | LLogistic => ln (1 + Rtrigo_def.exp (- (s * IZR y)))
  | _ => hinge m (IZR y * s)
  end.
(** The least loss of a score with the wrong sign. *)
Definition floor (loss : loss_kind) (m : R) : R := match loss with LLogistic => ln 2 | _ => m end.
(** The loss suffered in a round, and the loss of a fixed linear function (with a component for the
    bias, which counts sqrt b0). *)
Definition own_loss (loss : loss_kind) (m : R) (t : point R * list (list R)) : R := loss_at loss m (p_label (fst t)) (lin (nth 0 (snd t) []) (feats (fst t))).
Definition fixed_loss (loss : loss_kind) (m b0 : R) (u : list R * R) (t : point R * list (list R)) : R := loss_at loss m (p_label (fst t)) (value b0 u (feats (fst t))).
(** The step size in round t. *)
Definition rate (eta0 power_t : R) (t : Z) : R := eta0 / Rpower (IZR t) power_t.
(** Sums over the rounds that depend on the number of the round; the first one has number t. *)
Fixpoint timed {A} (f : Z -> A -> R) (t : Z) (l : list A) : R :=
  match l with [] => 0 | a :: r => f t a + timed f (t + 1) r end.
(** The code's logistic loss is exact up to this much. *)
Definition slack (loss : loss_kind) : R := match loss with LLogistic => Rtrigo_def.exp (-100) | _ => 0 end.
(** A model of two classes as constructed, any bias factor, without active learning and cost margins. *)
Definition descent_model (c : core (R:=R)) : Prop :=
  fresh Rnum 1 c /\ 0 <= c_b0 c /\ c_active c <= 0 /\ c_lazy c = false /\ c_cost c = None /\ (0 <= c_iter c)%Z.
Definition usable (x : point R) : Prop := wf_point 0 x /\ Forall (fun i => (1 <= i)%Z) (p_idx x) /\ (p_label x = 1 \/ p_label x = -1)%Z.
