(** What the expression templates are meant to compute: the scalar value of an expression at one
    position, stated without loops, types or shapes. *)
From Verif Require Import M_Base M_Num M_Expr.
From Coq Require Import Sorted.

Section S.
Context {R : Type}.
Variable dflt : R.

(** Value of a sparse vector at position i, if it has one there. *)
Fixpoint lookup (x : list (Z * R)) (i : nat) : option R :=
  match x with
  | [] => None
  | (j, v) :: r => if j =? Z.of_nat i then Some v else lookup r i
  end.

(** Scalar value of an expression at position i, when the sparse operand has the value v there. *)
Fixpoint den (e : exp R) (i : nat) (v : R) : R :=
  match e with
  | EScalar s => s
  | EDense l => nth i l dflt
  | ESparse _ => v
  | EBin op a b => op (den a i v) (den b i v)
  | EUn op a => op (den a i v)
  end.

(** All sparse operands of an expression are x. *)
Fixpoint over (x : list (Z * R)) (e : exp R) : Prop :=
  match e with
  | EScalar _ | EDense _ => True
  | ESparse y => y = x
  | EBin _ a b => over x a /\ over x b
  | EUn _ a => over x a
  end.

(** Every dense operand has size n (exactly), or at least n. *)
Fixpoint dense_eq (n : nat) (e : exp R) : Prop :=
  match e with
  | EDense l => length l = n
  | EScalar _ | ESparse _ => True
  | EBin _ a b => dense_eq n a /\ dense_eq n b
  | EUn _ a => dense_eq n a
  end.
Fixpoint dense_ge (n : nat) (e : exp R) : Prop :=
  match e with
  | EDense l => (n <= length l)%nat
  | EScalar _ | ESparse _ => True
  | EBin _ a b => dense_ge n a /\ dense_ge n b
  | EUn _ a => dense_ge n a
  end.

(** A dense operand of the expression. *)
Fixpoint uses (e : exp R) (v : list R) : Prop :=
  match e with
  | EDense l => l = v
  | EScalar _ | ESparse _ => False
  | EBin _ a b => uses a v \/ uses b v
  | EUn _ a => uses a v
  end.

(** A sparse vector with strictly increasing, non-negative indexes. *)
Definition sorted_ix (x : list (Z * R)) : Prop :=
  StronglySorted Z.lt (map fst x) /\ Forall (fun i => 0 <= i) (map fst x).

(** Element-wise map with position. *)
Fixpoint imap (k : nat) (f : nat -> R -> R) (l : list R) : list R :=
  match l with [] => [] | a :: r => f k a :: imap (S k) f r end.

(** Change of the elements at the positions of a sparse vector only. *)
Definition smap (f : nat -> R -> R -> R) (x : list (Z * R)) (l : list R) : list R :=
  imap 0 (fun i a => match lookup x i with Some v => f i a v | None => a end) l.
End S.
