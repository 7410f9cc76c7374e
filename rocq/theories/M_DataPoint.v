(** Model of src/sol/pario/data_point.cc: sortedness test, in-place quicksort on the two
    parallel arrays, Sort, Clear, AddNewFeat. *)
From Verif Require Import M_Base.

Section Sort.
Context {V : Type}.

(** DataPoint::IsSorted, data_point.cc:43-49: strictly increasing indexes. *)
Fixpoint is_sorted_from (prev : Z) (l : list Z) : bool :=
  match l with
  | [] => true
  | x :: r => if x <=? prev then false else is_sorted_from x r
  end.
Definition is_sorted (l : list Z) : bool :=
  match l with [] => true | x :: r => is_sorted_from x r end.

(** data_point.cc:59-61: scan from the right while temp < a[j].  Fuel exhaustion and an
    out-of-range read are [None]. *)
Fixpoint scan_right (fuel : nat) (a : list Z) (temp : Z) (i j : nat) : option nat :=
  match fuel with
  | O => None
  | S f =>
    if (i <? j)%nat then
      do x <- rd a j;
      if temp <? x then scan_right f a temp i (j - 1) else Some j
    else Some j
  end.

(** data_point.cc:68-70: scan from the left while a[i] < temp. *)
Fixpoint scan_left (fuel : nat) (a : list Z) (temp : Z) (i j : nat) : option nat :=
  match fuel with
  | O => None
  | S f =>
    if (i <? j)%nat then
      do x <- rd a i;
      if x <? temp then scan_left f a temp (i + 1) j else Some i
    else Some i
  end.

(** data_point.cc:58-76: the partition loop. *)
Fixpoint part_loop (fuel : nat) (a : list Z) (b : list V) (temp : Z) (i j : nat)
  : option (list Z * list V * nat * nat) :=
  match fuel with
  | O => None
  | S f =>
    if (i <? j)%nat then
      do j1 <- scan_right fuel a temp i j;
      do (a1, b1, i1) <-
        (if (i <? j1)%nat then
           do x <- rd a j1; do a1 <- wr a i x;
           do y <- rd b j1; do b1 <- wr b i y;
           Some (a1, b1, (i + 1)%nat)
         else Some (a, b, i));
      do i2 <- scan_left fuel a1 temp i1 j1;
      do (a2, b2, j2) <-
        (if (i2 <? j1)%nat then
           do x <- rd a1 i2; do a2 <- wr a1 j1 x;
           do y <- rd b1 i2; do b2 <- wr b1 j1 y;
           Some (a2, b2, (j1 - 1)%nat)
         else Some (a1, b1, j1));
      part_loop f a2 b2 temp i2 j2
    else Some (a, b, i, j)
  end.

(** QuickSort, data_point.cc:51-86.  Recursion depth is not bounded by the code (the C++ call
    stack is not modelled). *)
Fixpoint quick_sort (fuel : nat) (a : list Z) (b : list V) (low high : nat)
  : option (list Z * list V) :=
  match fuel with
  | O => None
  | S f =>
    do temp <- rd a low;
    do temp_ind <- rd b low;
    do (a1, b1, i, j) <- part_loop (S (length a)) a b temp low high;
    do a2 <- wr a1 i temp;
    do b2 <- wr b1 i temp_ind;
    do (a3, b3) <- (if (low <? i)%nat then quick_sort f a2 b2 low (i - 1) else Some (a2, b2));
    if (i <? high)%nat then quick_sort f a3 b3 (j + 1) high else Some (a3, b3)
  end.

(** DataPoint::Sort, data_point.cc:88-93. *)
Definition dp_sort (p : point V) : option (point V) :=
  if is_sorted (p_idx p) then Some p
  else
    do (i, v) <- quick_sort (length (p_idx p)) (p_idx p) (p_val p) 0 (length (p_idx p) - 1);
    Some (mkpt (p_label p) i v).

(** DataPoint::Clear, data_point.cc:38-41. *)
Definition dp_clear : point V := mkpt 0 [] [].

(** DataPoint::AddNewFeat, data_point.cc:34-36 (SVector::push_back, sparse_vector.h:106-111). *)
Definition dp_add (p : point V) (i : Z) (v : V) : point V :=
  mkpt (p_label p) (p_idx p ++ [i]) (p_val p ++ [v]).

(** SVector::dim, sparse_vector.h:124-127: last index + 1 in uint32 arithmetic. *)
Definition sv_dim (idx : list Z) : Z :=
  match rev idx with [] => 0 | x :: _ => u32 (x + 1) end.
End Sort.
