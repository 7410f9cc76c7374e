(** Model of the shared storage behind Vector, SVector and DataPoint: include/sol/math/matrix.h:23-112
    and vector.h:17-50 (Vector), sparse_vector.h:20-84 (SVector), data_point.h:22-90 and
    src/sol/pario/data_point.cc:16-41 (DataPoint).

    Handles are the pointer members.  storage_, shape_ and count_ of a Vector always change together, so
    one handle stands for the three; likewise indexes_, values_ and count_ of an SVector.  A null pointer is
    [None].  Memory that was deleted is [None] in its heap; addresses are not used again.  The counters are
    integers without bound (int in the code: C60_transparent says that they are the number of handles, so
    an overflow takes 2^31 handles).  One type of elements stands for index_t and float.  std::memcpy of a
    block onto itself, and of no elements from a null pointer, is taken as doing nothing. *)
From Verif Require Import M_Base M_Vector.

(** A heap of counted blocks. *)
Definition heap (X : Type) : Type := list (option (Z * X)).

Section Heap.
Context {X : Type}.
(** Dereferencing a handle; [None]: outside of the heap, or deleted. *)
Definition hget (b : nat) (m : heap X) : option (Z * X) :=
  match nth_error m b with Some (Some x) => Some x | _ => None end.
(** new ...; *count_ = 1.  matrix.h:88-97, sparse_vector.h:58-65. *)
Definition alloc (x : X) (m : heap X) : heap X * nat := (m ++ [Some (1, x)], length m).
(** ++( *count_).  matrix.h:51,77, sparse_vector.h:33,50. *)
Definition incr (h : option nat) (m : heap X) : option (heap X) :=
  match h with
  | None => Some m
  | Some b => do (c, x) <- hget b m; Some (upd b (Some (c + 1, x)) m)
  end.
(** release, matrix.h:99-108, sparse_vector.h:67-76; the contents of the block are returned if it is
    deleted. *)
Definition release (h : option nat) (m : heap X) : option (heap X * option X) :=
  match h with
  | None => Some (m, None)
  | Some b =>
    do (c, x) <- hget b m;
    if c - 1 =? 0 then Some (upd b None m, Some x) else Some (upd b (Some (c - 1, x)) m, None)
  end.
End Heap.

Section Share.
Context {A : Type} (zero : A).

(** The objects of a program: Vector variables, and DataPoint variables (with label_); [None] is a
    variable that is not constructed.  Blocks of vectors, and of sparse vectors with their two Vectors
    ( *indexes_, *values_). *)
Record st : Type := mkst {
  vb : heap (vec A); sb : heap (option nat * option nat);
  ve : list (option (option nat)); se : list (option (option nat * Z))
}.
(** A Vector: a variable, or indexes() and values() of a point (data_point.h:60-73). *)
Inductive place : Type := Var (v : nat) | Idx (s : nat) | Val (s : nat).

(** Reading a variable. *)
Definition vvar (v : nat) (t : st) : option (option nat) := match nth_error (ve t) v with Some (Some h) => Some h | _ => None end.
Definition svar (s : nat) (t : st) : option (option nat * Z) := match nth_error (se t) s with Some (Some h) => Some h | _ => None end.
(** The sparse block of a point: dereferences data_.indexes_ (sparse_vector.h:133-141). *)
Definition sblock (s : nat) (t : st) : option (nat * Z * (option nat * option nat)) :=
  do (h, _) <- svar s t;
  match h with None => None | Some b => do (c, f) <- hget b (sb t); Some (b, c, f) end.
(** The handle of a Vector ... *)
Definition geth (p : place) (t : st) : option (option nat) :=
  match p with
  | Var v => vvar v t
  | Idx s => do (_, _, f) <- sblock s t; Some (fst f)
  | Val s => do (_, _, f) <- sblock s t; Some (snd f)
  end.
(** ... and its assignment. *)
Definition seth (p : place) (h : option nat) (t : st) : option st :=
  match p with
  | Var v => do _ <- vvar v t; Some (mkst (vb t) (sb t) (upd v (Some h) (ve t)) (se t))
  | Idx s => do (b, c, f) <- sblock s t; Some (mkst (vb t) (upd b (Some (c, (h, snd f))) (sb t)) (ve t) (se t))
  | Val s => do (b, c, f) <- sblock s t; Some (mkst (vb t) (upd b (Some (c, (fst f, h))) (sb t)) (ve t) (se t))
  end.
Definition with_vb (m : heap (vec A)) (t : st) : st := mkst m (sb t) (ve t) (se t).
Definition with_sb (m : heap (option nat * option nat)) (t : st) : st := mkst (vb t) m (ve t) (se t).
Definition with_ve (l : list (option (option nat))) (t : st) : st := mkst (vb t) (sb t) l (se t).
Definition with_se (l : list (option (option nat * Z))) (t : st) : st := mkst (vb t) (sb t) (ve t) l.

(** Matrix::init, matrix.h:88-97: the block, allocated if there is none. *)
Definition init_v (p : place) (t : st) : option (st * nat) :=
  do h <- geth p t;
  match h with
  | Some b => Some (t, b)
  | None => let (m, b) := alloc vec_empty (vb t) in do t1 <- seth p (Some b) (with_vb m t); Some (t1, b)
  end.
(** Matrix::operator=, matrix.h:72-81. *)
Definition assign_v (p q : place) (t : st) : option st :=
  do hp <- geth p t; do hq <- geth q t;
  if (match hp, hq with Some a, Some b => Nat.eqb a b | None, None => true | _, _ => false end) then Some t
  else do (m, _) <- release hp (vb t);
       do t1 <- seth p hq (with_vb m t);
       do m1 <- incr hq (vb t1); Some (with_vb m1 t1).
(** An operation on the contents of a block. *)
Definition mutate (b : nat) (o : vop A) (t : st) : option st :=
  do (c, x) <- hget b (vb t); do x1 <- vec_step zero x o; Some (with_vb (upd b (Some (c, x1)) (vb t)) t).
(** The operations that call init (vector.h:54-66,74-77,89, matrix.h:116-119); pop_back asks size() first
    (vector.h:80-86); the others dereference storage_. *)
Definition mut_v (p : place) (o : vop A) (t : st) : option st :=
  match o with
  | VResize _ | VPush _ | VClear | VReserve _ => do (t1, b) <- init_v p t; mutate b o t1
  | VPop => do h <- geth p t; match h with None => Some t | Some b => mutate b o t end
  | VSet _ _ | VSlice _ _ => do h <- geth p t; match h with None => None | Some b => mutate b o t end
  end.
(** Vector::size, vector.h:106-109. *)
Definition size_v (p : place) (t : st) : option nat :=
  do h <- geth p t;
  match h with None => Some O | Some b => do (_, x) <- hget b (vb t); Some (v_size x) end.
(** operator[], matrix.h:174-177. *)
Definition get_v (p : place) (i : nat) (t : st) : option A :=
  do h <- geth p t;
  match h with None => None | Some b => do (_, x) <- hget b (vb t); vec_get i x end.
(** memcpy(dst, src, n * size), data_point.cc:20-23. *)
Definition copy_n (dst src : place) (n : nat) (t : st) : option st :=
  do hd <- geth dst t; do hs <- geth src t;
  match hd, hs with
  | Some d, Some s =>
    do (cd, xd) <- hget d (vb t); do (_, xs) <- hget s (vb t);
    if (n <=? length (v_store xs))%nat && (n <=? length (v_store xd))%nat then
      Some (with_vb (upd d (Some (cd, mkvec (firstn n (v_store xs) ++ skipn n (v_store xd)) (v_size xd))) (vb t)) t)
    else None
  | _, _ => None
  end.

(** SVector::init, sparse_vector.h:58-65. *)
Definition init_s (s : nat) (t : st) : option st :=
  do (h, l) <- svar s t;
  match h with
  | Some _ => Some t
  | None => let (m, b) := alloc (None, None) (sb t) in Some (with_se (upd s (Some (Some b, l)) (se t)) (with_sb m t))
  end.
(** SVector::release, sparse_vector.h:67-76: the destructors of *indexes_ and *values_ run. *)
Definition release_s (h : option nat) (t : st) : option st :=
  do (m, x) <- release h (sb t);
  match x with
  | None => Some (with_sb m t)
  | Some (i, v) =>
    do (m1, _) <- release i (vb t); do (m2, _) <- release v m1;
    Some (with_vb m2 (with_sb m t))
  end.
(** SVector::resize and reserve, sparse_vector.h:84-99. *)
Definition resize_s (s n : nat) (t : st) : option st :=
  do t1 <- init_s s t; do t2 <- mut_v (Idx s) (VResize n) t1; mut_v (Val s) (VResize n) t2.
Definition reserve_s (s n : nat) (t : st) : option st :=
  do t1 <- init_s s t; do t2 <- mut_v (Idx s) (VReserve n) t1; mut_v (Val s) (VReserve n) t2.
(** SVector::size, sparse_vector.h:119-121. *)
Definition size_s (s : nat) (t : st) : option nat :=
  do (h, _) <- svar s t; match h with None => Some O | Some _ => size_v (Val s) t end.

(** The operations of a program.  Vectors: default constructor, copy constructor, destructor, operator=,
    the mutators, operator[], size.  Points: the same (the compiler's copies: data_, then label_), set_label,
    AddNewFeat, Resize, Reserve, Clear, Clone(dst), size, label. *)
Inductive sop : Type :=
| VNew (v : nat) | VCopy (v : nat) (p : place) | VDrop (v : nat) | VAssign (p q : place) | VMut (p : place) (o : vop A)
| VGet (p : place) (i : nat) | VSize (p : place)
| PNew (s : nat) | PCopy (s r : nat) | PDrop (s : nat) | PAssign (s r : nat) | PLabel (s : nat) (l : Z)
| PAdd (s : nat) (i x : A) | PResize (s n : nat) | PReserve (s n : nat) | PClear (s : nat) | PClone (s dst : nat)
| PSize (s : nat) | PGetLabel (s : nat).
(** What an operation returns. *)
Inductive obs : Type := Nothing | Elem (a : A) | Number (n : nat) | Label (l : Z).

(** A variable that can be constructed. *)
Definition free_v (v : nat) (t : st) : option unit := match nth_error (ve t) v with Some None => Some tt | _ => None end.
Definition free_s (s : nat) (t : st) : option unit := match nth_error (se t) s with Some None => Some tt | _ => None end.

(** vector.h:17-50, matrix.h:24-81 and data_point.cc:16-41 with sparse_vector.h:23-55,101-112. *)
Definition sstep (o : sop) (t : st) : option (st * obs) :=
  match o with
  | VNew v => do _ <- free_v v t; Some (with_ve (upd v (Some None) (ve t)) t, Nothing)
  | VCopy v p =>
    do _ <- free_v v t; do h <- geth p t; do m <- incr h (vb t);
    Some (with_ve (upd v (Some h) (ve t)) (with_vb m t), Nothing)
  | VDrop v => do h <- vvar v t; do (m, _) <- release h (vb t); Some (with_ve (upd v None (ve t)) (with_vb m t), Nothing)
  | VAssign p q => do t1 <- assign_v p q t; Some (t1, Nothing)
  | VMut p o => do t1 <- mut_v p o t; Some (t1, Nothing)
  | VGet p i => do a <- get_v p i t; Some (t, Elem a)
  | VSize p => do n <- size_v p t; Some (t, Number n)
  | PNew s => do _ <- free_s s t; Some (with_se (upd s (Some (None, 0)) (se t)) t, Nothing)
  | PCopy s r =>
    do _ <- free_s s t; do (h, l) <- svar r t; do m <- incr h (sb t);
    Some (with_se (upd s (Some (h, l)) (se t)) (with_sb m t), Nothing)
  | PDrop s => do (h, _) <- svar s t; do t1 <- release_s h t; Some (with_se (upd s None (se t)) t1, Nothing)
  | PAssign s r =>
    do (hs, _) <- svar s t; do (hr, l) <- svar r t;
    if (match hs, hr with Some a, Some b => Nat.eqb a b | None, None => true | _, _ => false end)
    then Some (with_se (upd s (Some (hs, l)) (se t)) t, Nothing)
    else do t1 <- release_s hs t; do m <- incr hr (sb t1);
         Some (with_se (upd s (Some (hr, l)) (se t)) (with_sb m t1), Nothing)
  | PLabel s l => do (h, _) <- svar s t; Some (with_se (upd s (Some (h, l)) (se t)) t, Nothing)
  | PAdd s i x =>
    do n <- size_s s t; do t1 <- resize_s s (S n) t;
    do t2 <- mut_v (Idx s) (VSet n i) t1; do t3 <- mut_v (Val s) (VSet n x) t2; Some (t3, Nothing)
  | PResize s n => do t1 <- resize_s s n t; Some (t1, Nothing)
  | PReserve s n => do t1 <- reserve_s s n t; Some (t1, Nothing)
  | PClear s =>
    do t1 <- resize_s s O t; do (h, _) <- svar s t1; Some (with_se (upd s (Some (h, 0)) (se t1)) t1, Nothing)
  | PClone s d =>
    do (_, l) <- svar s t; do (hd, _) <- svar d t;
    let t0 := with_se (upd d (Some (hd, l)) (se t)) t in
    do n0 <- size_s s t0; do t1 <- reserve_s d n0 t0;
    do n1 <- size_s s t1; do t2 <- resize_s d n1 t1;
    do n2 <- size_s s t2; do t3 <- copy_n (Idx d) (Idx s) n2 t2;
    do n3 <- size_s s t3; do t4 <- copy_n (Val d) (Val s) n3 t3; Some (t4, Nothing)
  | PSize s => do n <- size_s s t; Some (t, Number n)
  | PGetLabel s => do (_, l) <- svar s t; Some (t, Label l)
  end.
Fixpoint srun (os : list sop) (t : st) : option (st * list obs) :=
  match os with
  | [] => Some (t, [])
  | o :: r => do (t1, a) <- sstep o t; do (t2, l) <- srun r t1; Some (t2, a :: l)
  end.
(** No block, no variable constructed. *)
Definition start (nv ns : nat) : st := mkst [] [] (repeat None nv) (repeat None ns).
End Share.
Arguments st : clear implicits. Arguments sop : clear implicits. Arguments obs : clear implicits.
