(** What a user gives to a session. *)
From Verif Require Import M_Base M_Num M_Expr M_Loss M_Online M_Algs S_Online.

Section S.
Context {R : Type}.

(** An example accepted by a model with n classifiers: its preprocessed form is well formed, with
    indexes from [lo] on, and its label is a class of the model. *)
Definition accepts (lo : Z) (n : nat) (pre : point R -> option (point R)) (p : point R) : Prop :=
  exists x, pre p = Some x /\ wf_point lo x /\ label_ok n (p_label x).
(** All examples of a use are accepted. *)
Definition use_ok (lo : Z) (n : nat) pre (u : use (R:=R)) : Prop :=
  match u with
  | UTrain bs => Forall (Forall (fun d => accepts lo n pre (fst d))) bs
  | UTest data => Forall (accepts lo n pre) data
  | UReset => True
  end.
End S.

Section S2.
Context {R : Type}.
Variable N : num R.

(** A model that was just constructed: n classifiers, only the (zero) bias, any settings. *)
Definition fresh (n : nat) (c : core (R:=R)) : Prop :=
  (1 <= n)%nat /\ c_ws c = repeat [zero N] n /\ c_dim c = 1%nat /\ length (c_g c) = n /\
  c_updated c = false.

(** The smallest feature index a model can be given: the second-order feature-selection models
    subtract one from it. *)
Definition lo_of (k : kind (R:=R)) : Z :=
  match k with KSOFS _ _ | KAdaFOBOS_OFS _ _ | KAdaRDA_OFS _ _ => 1 | _ => 0 end.
(** The number of features a model may keep, for the feature-selection models. *)
Definition budget_of (k : kind (R:=R)) : option nat :=
  match k with
  | KPET _ _ B | KFOFS _ B | KSOFS _ B | KAdaFOBOS_OFS _ B | KAdaRDA_OFS _ B => Some B
  | _ => None
  end.
(** The models whose training step leaves features outside of the example alone; the others rescale
    or truncate the whole vector (ALMA2, FOFS) or give up features (feature selection). *)
Definition local_kind (k : kind (R:=R)) : bool :=
  match k with
  | KALMA2 _ _ _ | KPET _ _ _ | KFOFS _ _ | KSOFS _ _ | KAdaFOBOS_OFS _ _ | KAdaRDA_OFS _ _ => false
  | _ => true
  end.
(** The models that predict with the weights as they are, without regularising them first. *)
Definition direct_kind (k : kind (R:=R)) : bool :=
  match k with
  | KSTG _ _ _ _ _ | KFOBOS_L1 _ _ _ _ | KRDA _ | KRDA_L1 _ _ _ | KERDA_L1 _ _ _ _ | KSOP _
  | KAdaFOBOS_L1 _ _ _ | KAdaRDA_L1 _ _ _ => false
  | _ => true
  end.
(** The weight vectors ws', after an example with the features idx, against ws before it: features
    not in the example keep their weight, or have weight zero if they are new. *)
Definition step_local (idx : list Z) (ws ws' : list (list R)) : Prop :=
  length ws' = length ws /\
  forall j w w' i v, nth_error ws j = Some w -> nth_error ws' j = Some w' ->
    i <> O -> ~ In (Z.of_nat i) idx -> nth_error w' i = Some v ->
    nth_error w i = Some v \/ (length w <= i)%nat /\ v = zero N.
(** The grown weight vectors: the old weights followed by zeros up to the dimension d. *)
Definition padded (d : nat) (ws ws' : list (list R)) : Prop :=
  length ws' = length ws /\
  forall j w w', nth_error ws j = Some w -> nth_error ws' j = Some w' ->
    w' = w ++ repeat (zero N) (Nat.max d (length w) - length w).
(** One set of at most B features outside of which every class has weight zero. *)
Definition within_budget (B : nat) (c : core (R:=R)) : Prop :=
  exists fs : list nat, (length fs <= B)%nat /\
  forall w i v, In w (c_ws c) -> i <> O -> ~ In i fs -> nth_error w i = Some v -> v = zero N.
End S2.
