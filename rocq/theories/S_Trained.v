(** What a user does from a new model to a stored one. *)
From Verif Require Import M_Base M_Num M_Expr M_Loss M_Online M_Algs M_Text S_Text S_Online S_Session M_Save S_Save.

Section S.
Context {R : Type}.
Variable N : num R.
Variable pr : R -> printed.
Variable strtof : Z -> Z -> option R.

(** Settings with which a model of kind k can be saved and loaded: SetParameter accepts them, and they
    print and read back as they are. *)
Record storable (p : Z) (nk : norm_kind) (k : kind (R:=R)) (c : core (R:=R)) : Prop := {
  st_loss : loss_allowed k (c_loss c) = true;
  st_params : params_ok N k;
  st_reals : Forall (exact pr strtof) (reals_of N k);
  st_b0 : exact pr strtof (c_b0 c) /\ n_le N (zero N) (c_b0 c) = true;
  st_eta : keeps_eta k = true -> exact pr strtof (c_eta c) /\ n_le N (zero N) (c_eta c) = true;
  st_active : n_le N (one N) (c_active c) = true -> exact pr strtof (c_active c) /\ n_lt N (zero N) (c_active c) = true;
  st_cost : forall m, c_cost c = Some m -> exact pr strtof m /\ n_lt N (zero N) m = true /\ length (c_ws c) = 1%nat;
  st_bias : match k with KCW _ _ b | KECCW _ _ b => b = n_lt N (zero N) (c_b0 c) | _ => True end;
  st_alma : match k with KALMA2 _ _ s => nk = NormL2 /\ s = n_sqrt N (n_int N (p - 1)) /\ is_i32 p | _ => True end
}.

(** The number of training examples of a session. *)
Definition examples (us : list (use (R:=R))) : Z :=
  fold_right (fun u z => match u with UTrain bs => Z.of_nat (length (concat bs)) | _ => 0 end + z) 0 us.
(** The feature indexes of the training examples are below M. *)
Definition narrow (pre : point R -> option (point R)) (M : Z) (u : use (R:=R)) : Prop :=
  match u with UTrain bs => Forall (Forall (fun d => forall x, pre (fst d) = Some x -> x_dim x <= M)) bs | _ => True end.
(** Space for the bias, the selected features and the features of the examples. *)
Definition width_ok (k : kind (R:=R)) (M : Z) : Prop :=
  match budget_of k with Some B => Z.of_nat B + 1 <= M | None => 1 <= M end /\ M <= 2147483647.
(** ALMA2's counter of updates; it starts with 1. *)
Definition counter (k : kind (R:=R)) : state_of k -> Z :=
  match k return state_of k -> Z with KALMA2 _ _ _ => fun i => i | _ => fun _ => 1 end.
(** The models without the lazy regularizer (whose times are not saved). *)
Definition not_lazy (k : kind (R:=R)) : bool :=
  match k with KFOBOS_L1 _ _ _ _ | KAdaFOBOS_L1 _ _ _ => false | _ => true end.
End S.
