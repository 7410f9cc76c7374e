(** The expression templates of include/sol/math: operators, lazy expressions, assignment of an
    expression to a dense vector, inner products and reductions. *)
From Verif Require Import M_Base M_Num.

Section Ops.
Context {R : Type}.
Variable N : num R.

(** Constants 0 and 1 of the element type, e.g. matrix_expression.h:142. *)
Definition zero : R := n_int N 0.
Definition one : R := n_int N 1.

(** op::max / op::min, operator.h:50-62, also std::max(a, b) = (a < b) ? b : a and
    std::min(a, b) = (b < a) ? b : a as used by the losses and by pa.cc:44. *)
Definition std_max (a b : R) : R := if n_lt N a b then b else a.
Definition std_min (a b : R) : R := if n_lt N b a then b else a.

(** op::trunc, operator.h:100-108. *)
Definition op_trunc (a b : R) : R :=
  if n_le N zero a then (if n_lt N b a then n_sub N a b else zero)
  else (if n_lt N b (n_opp N a) then n_add N a b else zero).

(** op::left, operator.h:111-116 (slice, expression.h:335-341 and vector.h:125-132). *)
Definition op_left (a b : R) : R := a.

(** op::abs, op::square, operator.h:143-155. *)
Definition op_abs (a : R) : R := if n_lt N zero a then a else n_opp N a.
Definition op_square (a : R) : R := n_mul N a a.
End Ops.

(** Types of expressions, expression.h:21-28: the type of a binary expression is the bitwise or
    of the operand types (kValue 0, kDense 1, kSparse 3); sparse with sparse does not compile
    (expression.h:210-212). *)
Inductive etype : Set := TValue | TDense | TSparse.

(** Expressions: ScalarExp (expression.h:86-97), Matrix/Vector (matrix.h:19-20), SVector
    (sparse_vector.h:20-21, its indexes and values zipped), BinaryMapExp (expression.h:117-206),
    UnaryMapExp (expression.h:386-405).  Simplified: an operand vector is a value, so an
    assignment whose right side mentions its own target reads the old elements; the code reads
    element i only when writing element i, hence this differs only for a sparse vector that
    repeats an index. *)
Inductive exp (R : Type) : Type :=
| EScalar (v : R)
| EDense (l : list R)
| ESparse (xs : list (Z * R))
| EBin (op : R -> R -> R) (a b : exp R)
| EUn (op : R -> R) (a : exp R).
Arguments EScalar {R}. Arguments EDense {R}. Arguments ESparse {R}. Arguments EBin {R}. Arguments EUn {R}.

Section Eval.
Context {R : Type}.

(** expression.h:208-222: result type; [None] = does not compile. *)
Fixpoint typ (e : exp R) : option etype :=
  match e with
  | EScalar _ => Some TValue
  | EDense _ => Some TDense
  | ESparse _ => Some TSparse
  | EBin _ a b =>
    do ta <- typ a; do tb <- typ b;
    match ta, tb with
    | TSparse, TSparse => None
    | TSparse, _ | _, TSparse => Some TSparse
    | TDense, _ | _, TDense => Some TDense
    | TValue, TValue => Some TValue
    end
  | EUn _ a => typ a
  end.

(** operator[], expression.h:92,136-138,398 and matrix.h:175-177.  [None]: out of range, or used
    on a sparse expression. *)
Fixpoint at_ (e : exp R) (i : nat) : option R :=
  match e with
  | EScalar v => Some v
  | EDense l => rd l i
  | ESparse _ => None
  | EBin op a b => do x <- at_ a i; do y <- at_ b i; Some (op x y)
  | EUn op a => do x <- at_ a i; Some (op x)
  end.

(** index(idx) and value(idx) of a sparse expression for all idx, expression.h:173-177,199-203,
    400-402; the value is computed on demand and may be out of range ([None] inside). *)
Fixpoint sparse_items (e : exp R) : option (list (Z * option R)) :=
  match e with
  | EScalar _ | EDense _ => None
  | ESparse xs => Some (map (fun '(i, v) => (i, Some v)) xs)
  | EBin op a b =>
    do ta <- typ a;
    match ta with
    | TSparse =>
      do xs <- sparse_items a;
      Some (map (fun '(i, v) => (i, do x <- v; do y <- at_ b (Z.to_nat i); Some (op x y))) xs)
    | _ =>
      do xs <- sparse_items b;
      Some (map (fun '(i, v) => (i, do x <- at_ a (Z.to_nat i); do y <- v; Some (op x y))) xs)
    end
  | EUn op a =>
    do xs <- sparse_items a;
    Some (map (fun '(i, v) => (i, do x <- v; Some (op x))) xs)
  end.

(** shape(), expression.h:96,140-153,404 and matrix.h:149: number of elements of a dense or value
    expression (0 for a value); [None] = exception. *)
Fixpoint dsize (e : exp R) : option nat :=
  match e with
  | EScalar _ => Some O
  | EDense l => Some (length l)
  | ESparse xs => Some (length xs)
  | EBin _ a b =>
    do s1 <- dsize a; do s2 <- dsize b;
    if (s1 =? 0)%nat then Some s2
    else if (s2 =? 0)%nat then Some s1
    else if (s1 =? s2)%nat then Some s1 else None
  | EUn _ a => dsize a
  end.

(** The trimming loop "while (sz > 0 && index(sz - 1) >= dsz) --sz",
    matrix_expression.h:159 and 173, on the reversed list. *)
Fixpoint drop_ge {A} (dsz : nat) (l : list (Z * A)) : list (Z * A) :=
  match l with
  | (i, v) :: r => if Z.of_nat dsz <=? i then drop_ge dsz r else l
  | [] => []
  end.
Definition trim_tail {A} (dsz : nat) (l : list (Z * A)) : list (Z * A) :=
  rev (drop_ge dsz (rev l)).

(** matrix_expression.h:161-163: for each kept item, apply OP to the addressed element. *)
Fixpoint sparse_loop (op : R -> R -> R) (l : list R) (xs : list (Z * option R))
  : option (list R) :=
  match xs with
  | [] => Some l
  | (i, ov) :: r =>
    do v <- ov;
    do old <- rd l (Z.to_nat i);
    do l' <- wr l (Z.to_nat i) (op old v);
    sparse_loop op l' r
  end.

(** matrix_expression.h:113-115: for each element of a dense target. *)
Fixpoint dense_loop (op : R -> R -> R) (e : exp R) (idx : nat) (l : list R) : option (list R) :=
  match l with
  | [] => Some []
  | x :: r => do v <- at_ e idx; do r' <- dense_loop op e (S idx) r; Some (op x v :: r')
  end.

(** CalcExp on a dense target: matrix_expression.h:99-116 (dense or value right side) and
    150-164 (sparse right side).  [op old v] is the new element for op::assign, plusto, minusto,
    multo, divto (operator.h:64-97). *)
Definition calc (op : R -> R -> R) (l : list R) (e : exp R) : option (list R) :=
  do t <- typ e;
  match t with
  | TSparse =>
    do xs <- sparse_items e;
    sparse_loop op l (trim_tail (length l) xs)
  | _ =>
    do s1 <- dsize e;
    if negb (s1 =? 0)%nat && negb (length l =? s1)%nat then None
    else dense_loop op e 0 l
  end.

(** CalcExp on a sparse target with a value, matrix_expression.h:183-193. *)
Definition calc_sparse_value (op : R -> R -> R) (vals : list R) (v : R) : list R :=
  map (fun x => op x v) vals.
End Eval.

Section Red.
Context {R : Type}.
Variable N : num R.

(** dot with a sparse right operand, matrix_expression.h:166-180; loop 174-178. *)
Fixpoint dot_loop (op : R -> R -> R) (e : exp R) (val : R) (xs : list (Z * option R)) : option R :=
  match xs with
  | [] => Some val
  | (i, ov) :: r =>
    do x <- at_ e (Z.to_nat i);
    do v <- ov;
    dot_loop op e (n_add N val (op x v)) r
  end.
Definition dot_sparse (op : R -> R -> R) (lhs rhs : exp R) : option R :=
  do sz <- dsize lhs;
  do xs <- sparse_items rhs;
  dot_loop op lhs (zero N) (trim_tail sz xs).

(** expr::dotmul, expression.h:363-368. *)
Definition dotmul (l : list R) (rhs : exp R) : option R :=
  dot_sparse (n_mul N) (EDense l) rhs.

(** reduce<op::plus> over a dense expression, matrix_expression.h:137-147, and over a sparse one,
    195-206. *)
Fixpoint reduce_dense (e : exp R) (idx : nat) (n : nat) (val : R) : option R :=
  match n with
  | O => Some val
  | S m => do v <- at_ e idx; reduce_dense e (S idx) m (n_add N val v)
  end.
Fixpoint reduce_sparse (xs : list (Z * option R)) (val : R) : option R :=
  match xs with
  | [] => Some val
  | (_, ov) :: r => do v <- ov; reduce_sparse r (n_add N val v)
  end.
Definition reduce_plus (e : exp R) : option R :=
  do t <- typ e;
  match t with
  | TSparse => do xs <- sparse_items e; reduce_sparse xs (zero N)
  | _ => do n <- dsize e; reduce_dense e 0 n (zero N)
  end.

(** Norm1 and Norm2 (the sum of absolute values and the sum of squares),
    matrix_expression.h:208-216. *)
Definition norm1 (e : exp R) : option R := reduce_plus (EUn (op_abs N) e).
Definition norm2 (e : exp R) : option R := reduce_plus (EUn (op_square N) e).
End Red.
