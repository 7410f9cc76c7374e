(** What the training framework is meant to do. *)
From Verif Require Import M_Base M_Num M_Expr M_Loss M_Online S_Expr.
From Coq Require Import Sorted.

Section S.
Context {R : Type}.
Variable N : num R.

(** A well-formed example: one value per index, indexes strictly increasing from [lo] on, below the
    largest 32-bit number. *)
Definition wf_point (lo : Z) (p : point R) : Prop :=
  length (p_idx p) = length (p_val p) /\ StronglySorted Z.lt (p_idx p) /\
  Forall (fun i => lo <= i /\ i < two32 - 1) (p_idx p).

(** A well-formed linear model: at least one classifier, all weight vectors have the dimension of
    the model, one gradient per classifier. *)
Definition wf_core (c : core (R:=R)) : Prop :=
  (1 <= c_dim c)%nat /\ c_ws c <> [] /\ Forall (fun w => length w = c_dim c) (c_ws c) /\
  length (c_g c) = length (c_ws c).

(** The counters and settings of the model. *)
Definition same_counters (c c' : core (R:=R)) : Prop :=
  c_iter c' = c_iter c /\ c_data c' = c_data c /\ c_err c' = c_err c /\ c_upd c' = c_upd c.

(** An algorithm whose own code (growth, preparation, update) leaves the counters to the
    framework; otherwise arbitrary. *)
Definition keeps_counters {E} (a : alg (R:=R) E) : Prop :=
  (forall d c e c' e', a_grow a d c e = Some (c', e') -> same_counters c c') /\
  (forall p c e c' e', a_prep a p c e = Some (c', e') -> same_counters c c') /\
  (forall p l c e c' e', a_update a p l c e = Some (c', e') -> same_counters c c').

(** The predictions made during training: the k-th row has the true label and the label returned
    for the k-th example by the model trained on the examples before it. *)
Definition row_of {E} (a : alg (R:=R) E) pre (data : list (point R * R)) (c : core) (e : E)
  (k : nat) (y lab : Z) : Prop :=
  exists ck ek p rnd x ps c' e',
    train N a pre (firstn k data) c e = Some (ck, ek) /\ nth_error data k = Some (p, rnd) /\
    pre p = Some x /\ p_label x = y /\ iterate N a x rnd ck ek = Some (lab, ps, c', e').

(** Number of rows whose prediction is wrong. *)
Definition mistakes (rows : list (Z * Z)) : Z :=
  Z.of_nat (length (filter (fun r => negb (snd r =? fst r)) rows)).
(** w' differs from w at most at the bias and at the features of the example. *)
Definition local (idx : list Z) (w w' : list R) : Prop :=
  length w' = length w /\
  forall i, i <> O -> ~ In (Z.of_nat i) idx -> nth_error w' i = nth_error w i.

(** A label is a class of the model (binary models accept every label: it is calibrated). *)
Definition label_ok (n : nat) (lab : Z) : Prop := n = 1%nat \/ 0 <= lab < Z.of_nat n.
(** The loss fits the number of classifiers (Model checks the type of the loss). *)
Definition loss_ok (n : nat) (k : loss_kind) : Prop :=
  (n = 1%nat -> loss_is_binary k = true) /\ (n <> 1%nat -> loss_is_multi k = true).

(** The example without the features whose index is not below n. *)
Definition restrict (n : nat) (p : point R) : point R :=
  let l := filter (fun q => fst q <? Z.of_nat n) (feats p) in
  mkpt (p_label p) (map fst l) (map snd l).

(** Position m holds the first of the largest elements of l. *)
Definition first_max (l : list R) (m : nat) : Prop :=
  exists b, nth_error l m = Some b /\
  (forall j v, nth_error l j = Some v -> n_lt N b v = false) /\
  (forall j v, (j < m)%nat -> nth_error l j = Some v -> n_lt N v b = true).
End S.
