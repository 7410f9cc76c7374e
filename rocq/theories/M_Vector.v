(** Model of the growable array: include/sol/math/vector.h, matrix.h (capacity, element access)
    and matrix_storage.h.  Simplified: the reference-counted sharing of storage between copies is
    not modelled (a vector is a value), and elements passed by reference are copied first. *)
From Verif Require Import M_Base.

Section Vec.
Context {A : Type} (zero : A).   (* the all-zero bit pattern, matrix_storage.h:32 *)

(** storage_ (its length is the capacity) and the size kept in shape_.  matrix.h:185-188,
    matrix_storage.h:52-56. *)
Record vec : Type := mkvec { v_store : list A; v_size : nat }.

(** A vector right after init().  matrix.h:88-97. *)
Definition vec_empty : vec := mkvec [] 0.

(** MatrixStorage::resize, matrix_storage.h:29-39: never shrinks, copies, zero-fills. *)
Definition storage_resize (n : nat) (s : list A) : list A :=
  if (length s <? n)%nat then s ++ repeat zero (n - length s) else s.

(** The allocation loop, vector.h:59-62 (do-while), in size_t arithmetic.  Fuel exhaustion is
    [None]. *)
Fixpoint grow (fuel : nat) (alloc new_size : Z) : option Z :=
  match fuel with
  | O => None
  | S f =>
    let a' := u64 (alloc + (if alloc <? 1073741824 then alloc else 1073741824) + 3) in
    if a' <? new_size then grow f a' new_size else Some a'
  end.

(** Vector::resize, vector.h:54-68. *)
Definition vec_resize (n : nat) (v : vec) : option vec :=
  if (length (v_store v) <? n)%nat then
    do a <- grow (S n) (Z.of_nat (length (v_store v))) (Z.of_nat n);
    Some (mkvec (storage_resize (Z.to_nat a) (v_store v)) n)
  else Some (mkvec (v_store v) n).

(** operator[] as a write, matrix.h:174: no bounds check against the size; beyond the capacity
    it is undefined. *)
Definition vec_set (i : nat) (x : A) (v : vec) : option vec :=
  do s <- wr (v_store v) i x; Some (mkvec s (v_size v)).

(** operator[] as a read, matrix.h:175-177. *)
Definition vec_get (i : nat) (v : vec) : option A := rd (v_store v) i.

(** Vector::push_back, vector.h:74-77. *)
Definition vec_push (x : A) (v : vec) : option vec :=
  do v1 <- vec_resize (S (v_size v)) v; vec_set (v_size v1 - 1) x v1.

(** Vector::pop_back, vector.h:80-86; the boolean reports the exception. *)
Definition vec_pop (v : vec) : option (vec * bool) :=
  if (v_size v =? 0)%nat then Some (v, true)
  else do v1 <- vec_resize (v_size v - 1) v; Some (v1, false).

(** Matrix::reserve, matrix.h:116-119. *)
Definition vec_reserve (n : nat) (v : vec) : vec :=
  mkvec (storage_resize n (v_store v)) (v_size v).

(** Vector::slice_op with start and the default end, vector.h:91-96.  start > size makes the
    iterator run past the end: [None]. *)
Definition vec_slice_op (f : A -> A) (start : nat) (v : vec) : option vec :=
  if (v_size v <? start)%nat then None
  else if (length (v_store v) <? v_size v)%nat then None
  else Some (mkvec (firstn start (v_store v)
                    ++ map f (firstn (v_size v - start) (skipn start (v_store v)))
                    ++ skipn (v_size v) (v_store v)) (v_size v)).

(** Elements visible through begin()/end(), vector.h:111-117. *)
Definition vec_contents (v : vec) : list A := firstn (v_size v) (v_store v).

(** Operations of a history (public mutators of the class, vector.h:54-103, matrix.h:116). *)
Inductive vop : Type :=
| VResize (n : nat) | VPush (x : A) | VPop | VClear | VReserve (n : nat)
| VSet (i : nat) (x : A) | VSlice (f : A -> A) (start : nat).

(** One operation; [None] is undefined behaviour or non-termination.  vector.h:54-103. *)
Definition vec_step (v : vec) (o : vop) : option vec :=
  match o with
  | VResize n => vec_resize n v
  | VPush x => vec_push x v
  | VPop => do (v1, _) <- vec_pop v; Some v1
  | VClear => vec_resize 0 v
  | VReserve n => Some (vec_reserve n v)
  | VSet i x => vec_set i x v
  | VSlice f st => vec_slice_op f st v
  end.

Fixpoint vec_run (ops : list vop) (v : vec) : option vec :=
  match ops with
  | [] => Some v
  | o :: r => do v1 <- vec_step v o; vec_run r v1
  end.
End Vec.
Arguments vec : clear implicits. Arguments mkvec {A}. Arguments vop : clear implicits.
