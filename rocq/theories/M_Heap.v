(** Model of the indexed top-K heap, include/sol/util/heap.h.
    Positions and feature ids are [nat]; the C++ code uses 32-bit unsigned integers, so the model is
    faithful for K <= 2^31 (2*pos+1 does not wrap) and N < 2^32.  [None] is an out-of-range access.
    The score array is passed to each operation, because other code changes it in between
    (values_ is a pointer to it).  HeapSort (heap.h:152-166) is not modelled: it refers to members
    that do not exist (this->K as a value, HeapAdjust) and is never instantiated. *)
From Verif Require Import M_Base.
Local Open Scope nat_scope.

(** heap.h:89-99: N_, K_, id2pos_map_, pos2id_map_. *)
Record heap := mkheap { h_N : nat; h_K : nat; h_id2pos : list nat; h_pos2id : list nat }.

(** Heap(), heap.h:26. *)
Definition heap_empty : heap := mkheap 0 0 [] [].

Section Heap.
Context {V : Type}.
(** comparator::map: smaller for MinHeap, larger for MaxHeap, heap.h:241-242. *)
Variable cmp : V -> V -> bool.

(** value_by_pos, heap.h:76-78. *)
Definition value_by_pos (values : list V) (pos2id : list nat) (pos : nat) : option V :=
  do id <- rd pos2id pos; rd values id.

(** The sift-down loop, heap.h:197-209; returns the tables and the final parent position. *)
Fixpoint adjust_loop (fuel : nat) (values : list V) (id2pos pos2id : list nat) (tgt_val : V)
  (parent_pos m : nat) : option (list nat * list nat * nat) :=
  match fuel with
  | O => None
  | S f =>
    let child_pos := 2 * parent_pos + 1 in
    if child_pos <=? m then
      do child_pos <-
        (if child_pos <? m then
           do a <- value_by_pos values pos2id (child_pos + 1);
           do b <- value_by_pos values pos2id child_pos;
           Some (if cmp a b then child_pos + 1 else child_pos)
         else Some child_pos);
      do cv <- value_by_pos values pos2id child_pos;
      if negb (cmp cv tgt_val) then Some (id2pos, pos2id, parent_pos)
      else
        do child_id <- rd pos2id child_pos;
        do pos2id' <- wr pos2id parent_pos child_id;
        do id2pos' <- wr id2pos child_id parent_pos;
        adjust_loop f values id2pos' pos2id' tgt_val child_pos m
    else Some (id2pos, pos2id, parent_pos)
  end.

(** AdjustHeap, heap.h:190-214. *)
Definition adjust_heap (values : list V) (h : heap) (s m : nat) : option heap :=
  do tgt_id <- rd (h_pos2id h) s;
  do tgt_val <- rd values tgt_id;
  do (i2p, p2i, parent_pos) <-
    adjust_loop (S m) values (h_id2pos h) (h_pos2id h) tgt_val s m;
  do p2i' <- wr p2i parent_pos tgt_id;
  do i2p' <- wr i2p tgt_id parent_pos;
  Some (mkheap (h_N h) (h_K h) i2p' p2i').

(** BuildHeap, heap.h:144-150: i runs from (K-1)/2 down to 0.  K = 0 wraps around and reads out of
    range. *)
Fixpoint build_loop (values : list V) (i : nat) (h : heap) : option heap :=
  do h' <- adjust_heap values h i (h_K h - 1);
  match i with O => Some h' | S j => build_loop values j h' end.
Definition build_heap (values : list V) (h : heap) : option heap :=
  match h_K h with
  | O => None
  | S k => build_loop values (k / 2) h
  end.

(** Init(N, K, values), heap.h:99-117. *)
Definition heap_init (N K : nat) (values : list V) : option heap :=
  build_heap values (mkheap N K (seq 0 N) (seq 0 K)).

(** The second loop of Init(N, K, indexes, values), heap.h:136-138. *)
Fixpoint set_positions (i : nat) (ids : list nat) (id2pos : list nat) : option (list nat) :=
  match ids with
  | [] => Some id2pos
  | id :: r => do t <- wr id2pos id i; set_positions (S i) r t
  end.
(** Init(N, K, indexes, values), heap.h:119-142; [indexes] must hold at least K entries. *)
Definition heap_init_idx (N K : nat) (indexes : list nat) (values : list V) : option heap :=
  if K <=? length indexes then
    do t <- set_positions 0 (firstn K indexes) (repeat K N);
    build_heap values (mkheap N K t (firstn K indexes))
  else None.

(** UpdateHeap, heap.h:168-188: the result is invalid_index ([None] inside) when idx is already in
    the heap, else the id left outside. *)
Definition update_heap (values : list V) (h : heap) (idx : nat) : option (heap * option nat) :=
  do cur_pos <- rd (h_id2pos h) idx;
  if cur_pos <? h_K h then Some (h, None)
  else
    do cur_val <- rd values idx;
    do thresh <- value_by_pos values (h_pos2id h) 0;
    if cmp thresh cur_val then
      do ret_id <- rd (h_pos2id h) 0;
      do t1 <- wr (h_id2pos h) ret_id (h_K h);
      do t2 <- wr t1 idx 0;
      do p2 <- wr (h_pos2id h) 0 idx;
      do h' <- adjust_heap values (mkheap (h_N h) (h_K h) t2 p2) 0 (h_K h - 1);
      Some (h', Some ret_id)
    else Some (h, Some idx).

(** isTopK, heap.h:72-74. *)
Definition is_topk (h : heap) (idx : nat) : option bool :=
  do p <- rd (h_id2pos h) idx; Some (p <? h_K h).
End Heap.

(** set_N, heap.h:225-239; [None] also stands for the exception thrown when N decreases. *)
Definition heap_set_N (h : heap) (N : nat) : option heap :=
  match h_K h with
  | O => Some h
  | _ =>
    if N <? h_N h then None
    else Some (mkheap N (h_K h)
                 (firstn (h_N h) (h_id2pos h) ++ seq (h_N h) (N - h_N h)) (h_pos2id h))
  end.
