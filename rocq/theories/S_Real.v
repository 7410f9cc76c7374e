(** Mathematical sums and vectors over the reals, used to state what the numeric code computes in
    exact arithmetic. *)
From Verif Require Import M_Base S_Expr.
From Coq Require Import Reals.
Local Open Scope R_scope.

(** f 0 + ... + f (n-1). *)
Fixpoint rsum (n : nat) (f : nat -> R) : R :=
  match n with O => 0 | S m => rsum m f + f m end.

(** The value of a sparse vector at position i, 0 where it has none. *)
Definition xv (x : list (Z * R)) (i : nat) : R :=
  match lookup x i with Some v => v | None => 0 end.

(** The element of a dense vector. *)
Definition dv (l : list R) (i : nat) : R := nth i l 0.

(** Every index of a sparse vector is below n. *)
Definition below (n : nat) (x : list (Z * R)) : Prop :=
  Forall (fun i => (i < Z.of_nat n)%Z) (map fst x).
