(** Specification of the top-K heap: bookkeeping, heap order, best K. *)
From Verif Require Import M_Base M_Heap.
Local Open Scope nat_scope.

(** Bookkeeping: there are K slots and N ids; slot tables are mutually inverse. *)
Definition heap_wf (h : heap) : Prop :=
  length (h_id2pos h) = h_N h /\ length (h_pos2id h) = h_K h /\ 1 <= h_K h /\
  (forall pos, pos < h_K h -> exists id, nth_error (h_pos2id h) pos = Some id /\
     nth_error (h_id2pos h) id = Some pos) /\
  (forall id pos, nth_error (h_id2pos h) id = Some pos -> pos < h_K h ->
     nth_error (h_pos2id h) pos = Some id).

(** The set of kept ids. *)
Definition kept (h : heap) (id : nat) : Prop := In id (h_pos2id h).

Section Spec.
Context {V : Type}.
Variable cmp : V -> V -> bool.

(** [cmp] is a strict weak order ("strictly smaller" without NaN). *)
Definition strict_weak : Prop :=
  (forall a b, cmp a b = true -> cmp b a = false) /\
  (forall a b c, cmp a b = false -> cmp b c = false -> cmp a c = false).

(** [le_id values a b]: the score of b is not strictly before the score of a. *)
Definition le_id (values : list V) (a b : nat) : Prop :=
  forall x y, nth_error values a = Some x -> nth_error values b = Some y -> cmp y x = false.

(** Heap order: no slot is strictly before its parent slot. *)
Definition heap_order (values : list V) (h : heap) : Prop :=
  forall c a b, 1 <= c < h_K h ->
    nth_error (h_pos2id h) ((c - 1) / 2) = Some a -> nth_error (h_pos2id h) c = Some b ->
    le_id values a b.

(** Best K: no dropped id is strictly better than a kept one ("better" = later in the order). *)
Definition best_k (values : list V) (h : heap) : Prop :=
  forall k o, kept h k -> o < h_N h -> ~ kept h o -> le_id values o k.
End Spec.

(** Operations, with the score array that is current when each happens. *)
Inductive heap_op (V : Type) :=
| HAdjust (values : list V) (s : nat)
| HBuild (values : list V)
| HUpdate (values : list V) (idx : nat)
| HSetN (N : nat).
Arguments HAdjust {V}. Arguments HBuild {V}. Arguments HUpdate {V}. Arguments HSetN {V}.

(** Preconditions of an operation in terms of N and K only. *)
Definition hop_ok {V} (N K : nat) (o : heap_op V) : Prop :=
  match o with
  | HAdjust values s => N <= length values /\ s < K
  | HBuild values => N <= length values
  | HUpdate values idx => N <= length values /\ idx < N
  | HSetN N' => N <= N'
  end.
Definition hop_N {V} (N : nat) (o : heap_op V) : nat :=
  match o with HSetN N' => N' | _ => N end.
Definition hop_run {V} (cmp : V -> V -> bool) (h : heap) (o : heap_op V) : option heap :=
  match o with
  | HAdjust values s => adjust_heap cmp values h s (h_K h - 1)
  | HBuild values => build_heap cmp values h
  | HUpdate values idx => do (h', _) <- update_heap cmp values h idx; Some h'
  | HSetN N => heap_set_N h N
  end.
Fixpoint hops_run {V} (cmp : V -> V -> bool) (h : heap) (ops : list (heap_op V)) : option heap :=
  match ops with
  | [] => Some h
  | o :: r => do h' <- hop_run cmp h o; hops_run cmp h' r
  end.
Fixpoint hops_ok {V} (N K : nat) (ops : list (heap_op V)) : Prop :=
  match ops with
  | [] => True
  | o :: r => hop_ok N K o /\ hops_ok (hop_N N o) K r
  end.
Fixpoint hops_N {V} (N : nat) (ops : list (heap_op V)) : nat :=
  match ops with [] => N | o :: r => hops_N (hop_N N o) r end.

(** Offering each id of a list in turn. *)
Fixpoint offer_all {V} (cmp : V -> V -> bool) (values : list V) (h : heap) (ids : list nat)
  : option heap :=
  match ids with
  | [] => Some h
  | i :: r => do (h', _) <- update_heap cmp values h i; offer_all cmp values h' r
  end.
