(** What the losses and the pre-processing are meant to do, over the reals. *)
From Coq Require Import Reals.
From Verif Require Import M_Base.
Local Open Scope R_scope.

(** Soft thresholding: shrink the magnitude by t, but not below zero. *)
Definition soft (w t : R) : R :=
  if Rle_dec 0 w then Rmax 0 (w - t) else - Rmax 0 (- w - t).

(** The sum of a list. *)
Definition lsum (l : list R) : R := fold_right Rplus 0 l.

(** m is the best-scored class other than l, the first one on ties. *)
Definition best_other (ps : list R) (l m : nat) : Prop :=
  m <> l /\ exists b, nth_error ps m = Some b /\
  (forall j v, j <> l -> nth_error ps j = Some v -> v <= b) /\
  (forall j v, j <> l -> (j < m)%nat -> nth_error ps j = Some v -> v < b).

(** The gradient that moves class m down and class l up by the same amount a. *)
Definition opposes (n : nat) (l m : nat) (a : R) (g : list R) : Prop :=
  length g = n /\ forall i, (i < n)%nat ->
  nth_error g i = Some (if Nat.eqb i m then a else if Nat.eqb i l then - a else 0).

(** The gradient that moves class l up by b and spreads a over the other classes scored at least
    as high as it. *)
Definition spreads (ps : list R) (l : nat) (own a b : R) (g : list R) : Prop :=
  length g = length ps /\ forall i v, nth_error ps i = Some v ->
  nth_error g i = Some (if Nat.eqb i l then - b else if Rle_dec own v then a else 0).

(** The number of classes other than l scored at least as high as l. *)
Definition rivals (ps : list R) (own : R) : nat :=
  length (filter (fun v => if Rle_dec own v then true else false) ps) - 1.
