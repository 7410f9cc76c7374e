(** The data tools: src/sol/tools.cc.  Their input is the sequence of mini-batches that DataIter::Next
    delivers (M_Iter); their output the sequence of points given to the writer, which M_Binary and
    M_Text turn into files.  Messages on the terminal are not modelled.  Counters of type size_t are
    unbounded here unless stated. *)
From Verif Require Import M_Base M_DataPoint M_Num.
From Coq Require Import SpecFloat.

(** The loops "while (true) { mb = iter.Next(mb); ... for (i < mb->size()) ... }" over all examples,
    e.g. tools.cc:37-75.  [None]: undefined behaviour in the body. *)
Fixpoint each {A S} (f : A -> S -> option S) (l : list A) (s : S) : option S :=
  match l with
  | [] => Some s
  | x :: r => do s' <- f x s; each f r s'
  end.

Section Tools.
Context {V : Type}.

(** DataPoint::dim, data_point.h:59 through SVector::dim, sparse_vector.h:124-127. *)
Definition dp_dim (p : point V) : Z := sv_dim (p_idx p).

(* ------------------------------------------------------------------ analyze *)

(** std::map<int, size_t>: a list sorted by key.  tools.cc:34, 63-68: add one to the entry, or create
    it with one. *)
Fixpoint class_add (label : Z) (m : list (Z * Z)) : list (Z * Z) :=
  match m with
  | [] => [(label, 1)]
  | (k, n) :: r =>
    if label <? k then (label, 1) :: m
    else if label =? k then (k, n + 1) :: r
    else (k, n) :: class_add label r
  end.

(** The variables of analyze, tools.cc:30-34. *)
Record counts := mkcounts {
  data_num : Z; feat_num : Z; feat_dim : Z; feat_flags : list Z; classes : list (Z * Z)
}.
Definition counts0 : counts := mkcounts 0 0 0 [] [].

(** tools.cc:58-60: feat_flags[dp.index(i)] = 1. *)
Fixpoint set_flags (idx : list Z) (fl : list Z) : option (list Z) :=
  match idx with
  | [] => Some fl
  | i :: r => do fl' <- wr fl (Z.to_nat i) 1; set_flags r fl'
  end.

(** One example, tools.cc:43-68. *)
Definition analyze_point (p : point V) (s : counts) : option counts :=
  let d := Z.max (feat_dim s) (dp_dim p) in
  let fl := feat_flags s ++ repeat 0 (Z.to_nat d - length (feat_flags s)) in
  do fl' <- set_flags (p_idx p) fl;
  Some (mkcounts (data_num s) (feat_num s + Z.of_nat (length (p_idx p))) d fl'
          (class_add (p_label p) (classes s))).
(** One batch, tools.cc:40-69. *)
Definition analyze_batch (b : list (point V)) (s : counts) : option counts :=
  each analyze_point b
    (mkcounts (data_num s + Z.of_nat (length b)) (feat_num s) (feat_dim s) (feat_flags s) (classes s)).

(** The numbers written to the report, tools.cc:78-97 (the sparsity percentage, a double, is left
    out). *)
Record report := mkreport {
  r_data : Z; r_feats : Z; r_dim : Z; r_used : Z; r_class_num : Z; r_classes : list (Z * Z)
}.
Definition analyze (batches : list (list (point V))) : option report :=
  do s <- each analyze_batch batches counts0;
  Some (mkreport (data_num s) (feat_num s) (u64 (feat_dim s - 1))
          (Z.of_nat (length (filter (fun c => c =? 1) (feat_flags s))))
          (Z.of_nat (length (classes s))) (classes s)).

(* ------------------------------------------------------------------ convert *)

(** tools.cc:152-159: the value of a feature under binarisation; [above] is "> binaryize_thresh". *)
Definition binarize (above : V -> bool) (one minus_one : V) (p : point V) : point V :=
  mkpt (p_label p) (p_idx p) (map (fun v => if above v then one else minus_one) (p_val p)).

(** The feature dimension found by convert, shuffle and split, tools.cc:124-133, 204, 242. *)
Definition max_dim (batches : list (list (point V))) : Z :=
  fold_left (fun d p => Z.max d (dp_dim p)) (concat batches) 0.

(** convert, tools.cc:101-169: status, the dimension given to SetExtraInfo (csv only), the points
    written.  [to_csv] is the test dst_type == "csv" (121).  The second pass over the source
    (139) delivers the same batches again. *)
Definition convert (to_csv : bool) (bin : option ((V -> bool) * V * V)) (batches : list (list (point V)))
  : status * option Z * list (point V) :=
  let out := match bin with
             | None => concat batches
             | Some (above, o, m) => map (binarize above o m) (concat batches)
             end in
  if to_csv then
    let d := max_dim batches in
    if d =? 0 then (Status_Invalid_Format, Some d, []) else (Status_OK, Some d, out)
  else (Status_OK, None, out).

(* ------------------------------------------------------------------ shuffle *)

(** Applying a permutation of positions: the data_list after std::shuffle (tools.cc:212, 253), whose
    outcome is a parameter. *)
Fixpoint reorder (perm : list nat) (l : list (point V)) : option (list (point V)) :=
  match perm with
  | [] => Some []
  | i :: r => do x <- rd l i; do y <- reorder r l; Some (x :: y)
  end.
(** shuffle, tools.cc:171-221: the dimension given to SetExtraInfo and the points written. *)
Definition shuffle (perm : list nat) (batches : list (list (point V))) : option (Z * list (point V)) :=
  do l <- reorder perm (concat batches);
  Some (max_dim batches, l).

(* -------------------------------------------------------------------- split *)

(** ceil of a float and its conversion to size_t; [None]: not representable (undefined). *)
Definition f32_ceil (x : f32) : option Z :=
  match x with
  | S754_zero _ => Some 0
  | S754_finite s m e =>
    let v := if s then Zneg m else Zpos m in
    Some (if 0 <=? e then v * 2 ^ e else - ((- v) / 2 ^ (- e)))
  | _ => None
  end.
Definition to_size (z : Z) : option Z := if (0 <=? z) && (z <? two64) then Some z else None.
(** size_t(ceil(data_list.size() / float(fold_num))), tools.cc:256: both operands are converted to
    float. *)
Definition fold_size (n fold_num : Z) : option Z :=
  do c <- f32_ceil (SFdiv f32_prec f32_emax (f32_int n) (f32_int fold_num));
  to_size c.

(** for (; data_idx < end_idx && data_idx < data_num; ++data_idx), tools.cc:276-279: the points from
    data_idx on and what remains. *)
Fixpoint write_fold (end_idx data_idx : Z) (rest : list (point V)) : list (point V) * Z * list (point V) :=
  match rest with
  | [] => ([], data_idx, [])
  | p :: r =>
    if data_idx <? end_idx
    then let '(w, i, r') := write_fold end_idx (data_idx + 1) r in (p :: w, i, r')
    else ([], data_idx, rest)
  end.
(** The loop over the folds, tools.cc:260-283. *)
Fixpoint write_folds (folds : nat) (size data_idx end_idx : Z) (rest : list (point V))
  : list (list (point V)) :=
  match folds with
  | O => []
  | S f =>
    let '(w, i, r) := write_fold end_idx data_idx rest in
    w :: write_folds f size i (u64 (end_idx + size)) r
  end.
(** split, tools.cc:223-285, with writers that can be created and opened; [perm] is the outcome of
    std::shuffle if shuffling was asked for.  No file is written for an empty data set (248). *)
Definition split (fold_num : Z) (perm : option (list nat)) (batches : list (list (point V)))
  : option (Z * list (list (point V))) :=
  match concat batches with
  | [] => Some (0, [])
  | l0 =>
    do l <- (match perm with None => Some l0 | Some pm => reorder pm l0 end);
    do size <- fold_size (Z.of_nat (length l)) fold_num;
    Some (max_dim batches, write_folds (Z.to_nat fold_num) size 0 size l)
  end.
End Tools.
