(** Readers of in-memory matrices: src/sol/pario/numpy_reader.cc, csr_matrix_reader.cc. *)
From Verif Require Import M_Base M_DataPoint.

(** Result of an int operation; [None]: signed overflow, undefined. *)
Definition int_ok (z : Z) : option Z :=
  if (-2147483648 <=? z) && (z <? 2147483648) then Some z else None.

Section Readers.
(** [D] doubles, [V] real_t.  [nonzero v] is "*ptr != 0"; [to_real] the cast to real_t; [to_label]
    the conversion label_t(double), undefined ([None]) outside the range of int. *)
Context {D V : Type}.
Variable nonzero : D -> bool.
Variable to_real : D -> V.
Variable to_label : D -> option Z.

(** if (Y_ != nullptr) set_label(label_t(Y_[x_idx_])), numpy_reader.cc:80-82,
    csr_matrix_reader.cc:84-86; after Clear the label is 0. *)
Definition read_label (y : option (list D)) (x_idx : Z) : option Z :=
  match y with
  | None => Some 0
  | Some ys => do v <- rd ys (Z.to_nat x_idx); to_label v
  end.

(** NumpyReader's fields, numpy_reader.h:47-54: X_ as the doubles found at byte offsets from it. *)
Record numpy := mknumpy {
  np_x : Z -> option D; np_y : option (list D);
  np_n : Z; np_cols : Z; np_stride : Z; np_idx : Z
}.
(** NumpyReader::Open (numpy_reader.cc:20-26) after the path has been parsed, and Rewind (28). *)
Definition numpy_rewind (r : numpy) : numpy :=
  mknumpy (np_x r) (np_y r) (np_n r) (np_cols r) (np_stride r) 0.
(** The loop over the columns, numpy_reader.cc:86-90. *)
Fixpoint numpy_cols (k : nat) (x : Z -> option D) (j off : Z) (p : point V) : option (point V) :=
  match k with
  | O => Some p
  | S k' =>
    do v <- x off;
    numpy_cols k' x (j + 1) (off + 8) (if nonzero v then dp_add p (j + 1) (to_real v) else p)
  end.
(** NumpyReader::Next, numpy_reader.cc:74-93. *)
Definition numpy_next (r : numpy) (dst : point V) : option (status * point V * numpy) :=
  if np_idx r =? np_n r
  then Some (if 0 <? np_n r then Status_EndOfFile else Status_IO_Error, dst, r)
  else
    do l <- read_label (np_y r) (np_idx r);
    do off <- int_ok (np_idx r * np_stride r);
    do p <- numpy_cols (Z.to_nat (np_cols r)) (np_x r) 0 off (mkpt l [] []);
    Some (Status_OK, p, mknumpy (np_x r) (np_y r) (np_n r) (np_cols r) (np_stride r) (np_idx r + 1)).

(** CsrMatrixReader's fields, csr_matrix_reader.h:47-55. *)
Record csr := mkcsr {
  cs_indices : list Z; cs_indptr : list Z; cs_feats : list D; cs_y : option (list D);
  cs_n : Z; cs_idx : Z
}.
(** CsrMatrixReader::Open (21-27) after parsing, and Rewind (29). *)
Definition csr_rewind (r : csr) : csr :=
  mkcsr (cs_indices r) (cs_indptr r) (cs_feats r) (cs_y r) (cs_n r) 0.
(** The loop over the entries of a row, csr_matrix_reader.cc:94-96. *)
Fixpoint csr_feats (k : nat) (indices : list Z) (feats : list D) (at_ : Z) (p : point V) : option (point V) :=
  match k with
  | O => Some p
  | S k' =>
    do i <- (if at_ <? 0 then None else rd indices (Z.to_nat at_));
    do v <- rd feats (Z.to_nat at_);
    do i1 <- int_ok (i + 1);
    csr_feats k' indices feats (at_ + 1) (dp_add p (u32 i1) (to_real v))
  end.
(** CsrMatrixReader::Next, csr_matrix_reader.cc:77-100. *)
Definition csr_next (r : csr) (dst : point V) : option (status * point V * csr) :=
  if cs_idx r =? cs_n r
  then Some (if 0 <? cs_n r then Status_EndOfFile else Status_IO_Error, dst, r)
  else
    do l <- read_label (cs_y r) (cs_idx r);
    do b <- rd (cs_indptr r) (Z.to_nat (cs_idx r + 1));
    do a <- rd (cs_indptr r) (Z.to_nat (cs_idx r));
    do z <- rd (cs_indptr r) 0;
    do num <- int_ok (b - a);
    do off <- int_ok (a - z);
    do p <- csr_feats (Z.to_nat num) (cs_indices r) (cs_feats r) off (mkpt l [] []);
    do q <- dp_sort p;
    Some (Status_OK, q, mkcsr (cs_indices r) (cs_indptr r) (cs_feats r) (cs_y r) (cs_n r) (cs_idx r + 1)).
End Readers.

(** A caller that reads k examples one after the other (data_read_task.cc:38-44), stopping at the
    first status other than OK. *)
Fixpoint read_k {R V} (next : R -> point V -> option (status * point V * R)) (k : nat) (r : R) (dst : point V)
  : option (list (point V) * status * R) :=
  match k with
  | O => Some ([], Status_OK, r)
  | S k' =>
    do (st, p, r') <- next r dst;
    match st with
    | Status_OK => do (ps, st', r'') <- read_k next k' r' p; Some (p :: ps, st', r'')
    | _ => Some ([], st, r')
    end
  end.
