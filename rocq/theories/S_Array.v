(** What reading an in-memory matrix should give. *)
From Coq Require Import Permutation Sorted.
From Verif Require Import M_Base.

Section S.
Context {D V : Type}.
Variables (nonzero : D -> bool) (to_real : D -> V) (to_label : D -> option Z).

(** The label of row i: 0 without labels. *)
Definition row_label (y : option (list D)) (i : nat) (l : Z) : Prop :=
  match y with None => l = 0 | Some ys => exists v, nth_error ys i = Some v /\ to_label v = Some l end.

(** The features of a dense row: column j becomes feature j + 1, zeros are left out. *)
Definition dense_feats (row : list D) : list (Z * V) :=
  map (fun jv => (Z.of_nat (fst jv) + 1, to_real (snd jv)))
    (filter (fun jv => nonzero (snd jv)) (combine (seq 0 (length row)) row)).
(** A matrix with the given rows lies at x with the given distance in bytes between rows. *)
Definition laid_out (rows : list (list D)) (cols : nat) (stride : Z) (x : Z -> option D) : Prop :=
  Forall (fun r => length r = cols) rows /\
  forall i j r v, nth_error rows i = Some r -> nth_error r j = Some v ->
    x (Z.of_nat i * stride + 8 * Z.of_nat j) = Some v.

(** The arrays of a sparse matrix with the given rows of (column, value). *)
Definition csr_arrays (base : Z) (rows : list (list (Z * D))) (indices indptr : list Z) (feats : list D) : Prop :=
  indices = map fst (concat rows) /\ feats = map snd (concat rows) /\
  length indptr = S (length rows) /\
  forall i, (i <= length rows)%nat -> nth_error indptr i = Some (base + Z.of_nat (length (concat (firstn i rows)))).
(** The example for a sparse row: its features in increasing order. *)
Definition sparse_example (row : list (Z * D)) (p : point V) : Prop :=
  let fs := map (fun e => (fst e + 1, to_real (snd e))) row in
  length (p_idx p) = length (p_val p) /\ StronglySorted Z.le (p_idx p) /\
  Permutation (combine (p_idx p) (p_val p)) fs /\
  (StronglySorted Z.lt (map fst row) -> combine (p_idx p) (p_val p) = fs).
End S.
