(** What the data tools are for, independent of their code. *)
From Verif Require Import M_Base.
From Coq Require Import Sorted.

Section S.
Context {V : Type}.
(** All features and all labels of a data set. *)
Definition all_idx (ps : list (point V)) : list Z := concat (map p_idx ps).
Definition all_labels (ps : list (point V)) : list Z := map p_label ps.
(** Number of occurrences. *)
Definition occurrences (y : Z) (l : list Z) : Z := Z.of_nat (count_occ Z.eq_dec l y).
(** A record with increasing feature indexes, one value each, below the largest index value. *)
Definition sorted_point (p : point V) : Prop :=
  StronglySorted Z.lt (p_idx p) /\ Forall (fun i => 0 <= i < 4294967295) (p_idx p) /\
  length (p_idx p) = length (p_val p).
(** The pieces of a list cut into k folds of s elements: fold i has the elements from i s on. *)
Definition cut (s k : nat) (l : list (point V)) (fs : list (list (point V))) : Prop :=
  length fs = k /\ forall i, (i < k)%nat -> nth_error fs i = Some (firstn s (skipn (i * s) l)).
End S.
(** The sum of the second components. *)
Definition total (m : list (Z * Z)) : Z := fold_right (fun kn t => snd kn + t) 0 m.
Section S2.
Context {V : Type}.
(** q is p with each value replaced by [one] if it is above the threshold, [minus_one] otherwise. *)
Definition binarized (above : V -> bool) (one minus_one : V) (p q : point V) : Prop :=
  p_label q = p_label p /\ p_idx q = p_idx p /\
  Forall2 (fun v w => (above v = true /\ w = one) \/ (above v = false /\ w = minus_one)) (p_val p) (p_val q).
(** d is one more than the largest feature index (0 without features). *)
Definition dimension_of (d : Z) (ps : list (point V)) : Prop :=
  (forall i, In i (all_idx ps) -> i < d) /\ (all_idx ps <> [] -> In (d - 1) (all_idx ps)) /\
  (all_idx ps = [] -> d = 0).
End S2.
