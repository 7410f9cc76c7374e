(** What the learning algorithms are meant to compute, in exact arithmetic. *)
From Coq Require Import Reals.
From Verif Require Import M_Base M_Num M_Expr M_Loss M_Online M_Olm M_OlmSel M_Algs S_Expr S_Real S_Online S_Session.
Local Open Scope R_scope.

(** The second-order models keep one number per class and feature: the confidence (variance) of the
    weight (AROW, SOFS, CW, ECCW; for SOP 1 / (a + X), shared by all classes), or the scale of the
    adaptive models.  Every feature, seen or not, has one; [conf0] is its initial value. *)
Definition confs (k : kind (R:=R)) : state_of k -> list (list R) :=
  match k return state_of k -> list (list R) with
  | KAROW _ | KCW _ _ _ | KECCW _ _ _ | KAdaFOBOS _ => fun e => e
  | KSOFS _ _ | KAdaFOBOS_OFS _ _ => fun s => s_vecs s
  | KSOP a => fun s => [map (fun X => 1 / (a + X)) (fst s)]
  | KAdaFOBOS_L1 _ _ _ => fun s => fst s
  | KAdaRDA _ | KAdaRDA_L1 _ _ _ => fun s => map fst s
  | KAdaRDA_OFS _ _ => fun s => s_vecs (fst s)
  | _ => fun _ => []
  end.
Definition conf0 (k : kind (R:=R)) : R :=
  match k with
  | KCW a _ _ | KECCW a _ _ => a
  | KSOP a => 1 / a
  | KAdaFOBOS d | KAdaFOBOS_L1 d _ _ | KAdaFOBOS_OFS d _ | KAdaRDA d | KAdaRDA_L1 d _ _ | KAdaRDA_OFS d _ => d
  | _ => 1
  end.
(** The number of class j and feature i. *)
Definition conf (k : kind (R:=R)) (e : state_of k) (j i : nat) : R := nth i (nth j (confs k e) []) (conf0 k).

(** The models with confidences that shrink, and those with scales that grow. *)
Definition shrinking (k : kind (R:=R)) : bool :=
  match k with KAROW _ | KSOFS _ _ | KCW _ _ _ | KECCW _ _ _ | KSOP _ => true | _ => false end.
Definition adaptive (k : kind (R:=R)) : bool :=
  match k with
  | KAdaFOBOS _ | KAdaFOBOS_L1 _ _ _ | KAdaFOBOS_OFS _ _ | KAdaRDA _ | KAdaRDA_L1 _ _ _ | KAdaRDA_OFS _ _ => true
  | _ => false
  end.
(** Positive parameters; CW and ECCW take the hinge losses only. *)
Definition conf_params (k : kind (R:=R)) (loss : loss_kind) : Prop :=
  match k with
  | KAROW r | KSOFS r _ => 0 < r
  | KCW a phi _ => 0 < a /\ 0 < phi /\ (loss = LHinge \/ loss = LMaxHinge \/ loss = LUniHinge)
  | KECCW a phi _ => 0 < a /\ 0 < phi /\ (loss = LHinge \/ loss = LMaxHinge)
  | KSOP a => 0 < a
  | _ => 0 < conf0 k
  end.
(** Squared norm of an example. *)
Definition sqnorm (x : list (Z * R)) : R := fold_right (fun q s => snd q * snd q + s) 0 x.
(** The examples for which the property holds: all for AROW, SOFS and SOP; those with a non-zero
    feature for CW; those with a small norm in addition for ECCW. *)
Definition conf_example (k : kind (R:=R)) (p : point R) : Prop :=
  match k with
  | KCW _ _ _ => exists v, In v (p_val p) /\ v <> 0
  | KECCW a _ _ => (exists v, In v (p_val p) /\ v <> 0) /\ 2 * (a * (sqnorm (feats p) + 1)) <= 1
  | _ => True
  end.
(** The training examples of a session satisfy X after preprocessing. *)
Definition trained_on (X : point R -> Prop) (pre : point R -> option (point R)) (us : list (use (R:=R))) : Prop :=
  Forall (fun u => match u with
                   | UTrain bs => Forall (Forall (fun d => forall x, pre (fst d) = Some x -> X x)) bs
                   | _ => True
                   end) us.
(** Training on a list of examples, with the example and the gradients of every update that was made:
    an update is visible as an increase of the update counter, the gradients are those the loss
    returned. *)
Fixpoint traced (k : kind (R:=R)) (pre : point R -> option (point R)) (ds : list (point R * R)) (c : core (R:=R)) (e : state_of k)
  : option (list (point R * list R) * core (R:=R) * state_of k) :=
  match ds with
  | [] => Some ([], c, e)
  | d :: r =>
    do (c1, e1) <- train_point Rnum (alg_of Rnum k) pre d c e;
    do x <- pre (fst d);
    do (tr, c2, e2) <- traced k pre r c1 e1;
    Some ((if (c_upd c1 =? c_upd c)%Z then tr else (x, c_g c1) :: tr), c2, e2)
  end.
(** The squared gradients of class j at feature i summed over the updates; the bias (feature 0) has
    the constant value 1 in addition to what an example gives for index 0. *)
Definition accumulated (j i : nat) (tr : list (point R * list R)) : R :=
  fold_right (fun q s => let g := nth j (snd q) 0 in
                         g * xv (feats (fst q)) i * (g * xv (feats (fst q)) i) + (if (i =? 0)%nat then g * g else 0) + s) 0 tr.

(** The squared length of a dense vector, and the radius of the ball a model keeps its weights in. *)
Definition sumsq (g : list R) : R := fold_right (fun a s => a * a + s) 0 g.
Definition radius (k : kind (R:=R)) : option R :=
  match k with
  | KALMA2 _ _ _ => Some 1
  | KFOFS lam _ => Some (1 / sqrt lam)
  | _ => None
  end.

(** The inner product of a dense vector with an example, and the value a linear function (weights
    and a bias component) gives to an example when the bias feature has the constant value sqrt b0. *)
Definition inner (u : list R) (x : list (Z * R)) : R := fold_right (fun q s => nth (Z.to_nat (fst q)) u 0 * snd q + s) 0 x.
Definition value (b0 : R) (s : list R * R) (x : list (Z * R)) : R := inner (fst s) x + sqrt b0 * snd s.
(** The squared length of a family of linear functions, one per class. *)
Definition size2 (ss : list (list R * R)) : R := fold_right (fun s a => sumsq (fst s) + snd s * snd s + a) 0 ss.
(** A family of linear functions classifies an example with margin gamma: by sign if there is one, by
    the largest value if there are more. *)
Definition separates (b0 gamma : R) (ss : list (list R * R)) (p : point R) : Prop :=
  match ss with
  | [s] => (p_label p = 1 \/ p_label p = -1)%Z /\ gamma <= IZR (p_label p) * value b0 s (feats p)
  | _ => forall j, (j < length ss)%nat -> j <> Z.to_nat (p_label p) ->
      gamma <= value b0 (nth (Z.to_nat (p_label p)) ss ([], 0)) (feats p) - value b0 (nth j ss ([], 0)) (feats p)
  end.
(** Examples of bounded length whose feature indexes start at 1 (0 is the bias). *)
Definition bounded (b0 rad2 : R) (p : point R) : Prop :=
  Forall (fun i => (1 <= i)%Z) (p_idx p) /\ sqnorm (feats p) + b0 <= rad2.

(** The score a weight vector gives to an example (the bias is at position 0), the hinge function and
    the squared distance of two families of weight vectors. *)
Definition lin (w : list R) (x : list (Z * R)) : R := inner w x + nth 0 w 0.
Definition hinge (m z : R) : R := Rmax 0 (m - z).
Definition dist2 (n d : nat) (vs ws : list (list R)) : R :=
  rsum n (fun j => rsum d (fun i => (nth i (nth j vs []) 0 - nth i (nth j ws []) 0) * (nth i (nth j vs []) 0 - nth i (nth j ws []) 0))).
(** The margin asked of an example with label y: cost-sensitive learning asks its own of label 1. *)
Definition asked (c : core (R:=R)) (y : Z) : R :=
  match c_cost c with None => c_margin c | Some m => if (y =? 1)%Z then m else 1 end.
(** The passive-aggressive problems: of all weights with the same bias, the new ones ws' are at least
    as good as any others vs in balancing the distance from the old ones ws with the loss H. *)
Definition aggressive (k : kind (R:=R)) (n d : nat) (H : list (list R) -> R) (ws ws' : list (list R)) : Prop :=
  forall vs, length vs = n -> Forall (fun v => length v = d) vs -> (forall j, nth 0 (nth j vs []) 0 = nth 0 (nth j ws []) 0) ->
  match k with
  | KPA => H ws' = 0 /\ (H vs = 0 -> dist2 n d ws' ws <= dist2 n d vs ws)
  | KPA1 C => dist2 n d ws' ws / 2 + C * H ws' <= dist2 n d vs ws / 2 + C * H vs
  | KPA2 C => dist2 n d ws' ws / 2 + C * (H ws' * H ws') <= dist2 n d vs ws / 2 + C * (H vs * H vs)
  | _ => False
  end.
