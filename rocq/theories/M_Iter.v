(** The data iterator with its reader threads: src/sol/pario/data_iter.cc, data_read_task.cc,
    include/sol/pario/mini_batch.h, include/sol/util/thread_task.h.  The two queues between the threads are
    those of M_Queue, statement by statement; the code between two queue operations only touches data of
    one thread, except size() in the destructor.  A mini-batch is a number, its points are in a heap.
    Simplified: a data source is the list of examples a pass over it yields and whether the pass ends with
    an error instead of the end of the file (M_Text and M_Binary say what the readers yield); the caller
    always gives the last mini-batch back ("mb = iter.Next(mb)", as everywhere in /repo); size() is read
    atomically. *)
From Verif Require Import M_Base M_Queue.

Section Iter.
Context {P : Type}.

(** MiniBatch*: nullptr or a mini-batch. *)
Definition ptr := option nat.
(** elem == nullptr, block_queue.h:150. *)
Definition is_null (p : ptr) : bool := match p with None => true | Some _ => false end.
Notation queues := (machine (A:=ptr)).

(** Where a reader thread is in DataReadTask::run, data_read_task.cc:30-58: not started; the loop test,
    33; inside factory.Dequeue(), 34; before and inside factory.Enqueue(nullptr), 36; the inner loop,
    40-53; before and inside buf.Enqueue(mini_batch), 54; before and inside buf.Enqueue(nullptr), 56-57;
    returned. *)
Inductive rpc := RNone | RLoop | RGet | RNull0 | RNull | RFill (id : nat) | RPut0 (id : nat) | RPut | RFin0 | RFin | RDone.
(** A DataReadTask: its source, pass_num_, what is left of the current pass, status == Status_OK,
    data_read_task.h:41-44. *)
Record reader := mkreader { r_pts : list P; r_bad : bool; r_pass : Z; r_left : list P; r_ok : bool; r_pc : rpc }.
(** DataIter::AddReader for a source that can be opened, data_iter.cc:65-78. *)
Definition new_reader (pts : list P) (bad : bool) (pass : Z) : reader := mkreader pts bad pass pts true RNone.
(** Assignments in run(), data_read_task.cc:30-58. *)
Definition set_pc (r : reader) (pc : rpc) : reader := mkreader (r_pts r) (r_bad r) (r_pass r) (r_left r) (r_ok r) pc.

(** Where the calling thread is: in the constructor, data_iter.cc:20, 21, 24; outside; in Next: inside
    factory.Enqueue(prev_batch), 82, before and inside buf.Dequeue(), 86, before and inside
    buf.Enqueue(nullptr), 93; in the destructor: the loop test, 31, inside factory.Dequeue(), 32, before
    and inside factory.Enqueue(mb), 37, the loop test, 41, inside buf.Dequeue(), 42, join of reader j,
    54-56, the loop test, 59, inside factory.Dequeue(), 60; after the destructor. *)
Inductive mpc :=
| CNew (i : nat) | CPut (i : nat) | CSig
| MIdle
| NPut | NTake | NGet | NSend | NEnd
| KSize | KGet | KSend0 | KSend | KLoop | KGet2 | KJoin (j : nat) | KSize2 | KGet3 | KDone.

(** DataIter, data_iter.h:53-61: the two queues with the threads inside them (0 is the caller, i+1 the
    i-th reader), the points of every mini-batch ([None]: deleted), the caller's place,
    running_reader_idx_, readers_, and the mini-batch the caller holds. *)
Record iter := mkiter {
  i_fac : queues; i_buf : queues; i_heap : list (option (list P)); i_main : mpc; i_idx : Z; i_readers : list reader;
  i_held : ptr
}.
(** Setters, no code. *)
Definition set_fac (s : iter) m := mkiter m (i_buf s) (i_heap s) (i_main s) (i_idx s) (i_readers s) (i_held s).
Definition set_buf (s : iter) m := mkiter (i_fac s) m (i_heap s) (i_main s) (i_idx s) (i_readers s) (i_held s).
Definition set_heap (s : iter) h := mkiter (i_fac s) (i_buf s) h (i_main s) (i_idx s) (i_readers s) (i_held s).
Definition set_main (s : iter) c := mkiter (i_fac s) (i_buf s) (i_heap s) c (i_idx s) (i_readers s) (i_held s).
Definition set_idx (s : iter) i := mkiter (i_fac s) (i_buf s) (i_heap s) (i_main s) i (i_readers s) (i_held s).
Definition set_readers (s : iter) l := mkiter (i_fac s) (i_buf s) (i_heap s) (i_main s) (i_idx s) l (i_held s).
Definition set_held (s : iter) p := mkiter (i_fac s) (i_buf s) (i_heap s) (i_main s) (i_idx s) (i_readers s) p.

(** What Next returns, for observation: the points of the mini-batch, or nullptr. *)
Definition output := option (list P).

(** Thread [t] makes a call on a queue (Enqueue or Dequeue of block_queue.h). *)
Definition issue (t : nat) (o : qop) (m : queues) : option queues := do (m', _) <- mnext is_null (Call t o) m; Some m'.
(** Thread [t] goes on inside a call, block_queue.h:88-131; the value if the call returns. *)
Fixpoint returned (vs : list (event (A:=ptr))) : option (list ptr) :=
  match vs with
  | [] => None
  | EvReturn _ r :: _ => Some r
  | _ :: l => returned l
  end.
Definition proceed (t w : nat) (m : queues) : option (queues * option (list ptr)) :=
  do (m', vs) <- mnext is_null (Step t w) m; Some (m', returned vs).
(** The points of a mini-batch; [None] when it was deleted.  mini_batch.h:33-45. *)
Definition points (s : iter) (id : nat) : option (list P) := do c <- rd (i_heap s) id; c.
(** DeletePointer, include/sol/util/util.h; nothing for nullptr; [None]: deleted twice. *)
Definition delete (s : iter) (p : ptr) : option iter :=
  match p with
  | None => Some s
  | Some id => do _ <- points s id; do h <- wr (i_heap s) id None; Some (set_heap s h)
  end.
(** ThreadTask::Start, thread_task.h:20-24. *)
Definition start_reader (s : iter) (j : nat) : option iter :=
  do r <- rd (i_readers s) j;
  match r_pc r with
  | RNone => do l <- wr (i_readers s) j (set_pc r RLoop); Some (set_readers s l)
  | _ => Some s
  end.
(** static_cast<int>(readers_.size()), data_iter.cc:40, 89. *)
Definition count (s : iter) : Z := Z.of_nat (length (i_readers s)).

(** One step of reader [j]. *)
Definition reader_step (bs j w : nat) (s : iter) : option iter :=
  do r <- rd (i_readers s) j;
  let t := S j in
  let put s r := do l <- wr (i_readers s) j r; Some (set_readers s l) in
  match r_pc r with
  | RNone | RDone => None
  | RLoop => (* 33 *)
    if r_ok r && (0 <? r_pass r) then do m <- issue t ODequeue (i_fac s); put (set_fac s m) (set_pc r RGet)
    else put s (set_pc r RFin0)
  | RGet => (* 34-39 *)
    do (m, o) <- proceed t w (i_fac s);
    match o with
    | None => Some (set_fac s m)
    | Some [None] => put (set_fac s m) (set_pc r RNull0)
    | Some [Some id] => do _ <- points s id; do h <- wr (i_heap s) id (Some []); put (set_heap (set_fac s m) h) (set_pc r (RFill id))
    | Some _ => None
    end
  | RNull0 => do m <- issue t (OEnqueue None) (i_fac s); put (set_fac s m) (set_pc r RNull)
  | RNull =>
    do (m, o) <- proceed t w (i_fac s);
    match o with
    | None => Some (set_fac s m)
    | Some _ => put (set_fac s m) (set_pc r RFin0)
    end
  | RFill id => (* 40-53, one example per step *)
    do c <- points s id;
    if (length c <? bs)%nat && r_ok r then
      match r_left r with
      | x :: l => do h <- wr (i_heap s) id (Some (c ++ [x]));
                  put (set_heap s h) (mkreader (r_pts r) (r_bad r) (r_pass r) l (r_ok r) (RFill id))
      | [] =>
        if r_bad r then put s (mkreader (r_pts r) (r_bad r) (r_pass r) [] false (RPut0 id))
        else put s (mkreader (r_pts r) (r_bad r) (r_pass r - 1) (r_pts r) (r_ok r) (RPut0 id))
      end
    else put s (set_pc r (RPut0 id))
  | RPut0 id => do m <- issue t (OEnqueue (Some id)) (i_buf s); put (set_buf s m) (set_pc r RPut)
  | RPut =>
    do (m, o) <- proceed t w (i_buf s);
    match o with
    | None => Some (set_buf s m)
    | Some _ => put (set_buf s m) (set_pc r RLoop)
    end
  | RFin0 => do m <- issue t (OEnqueue None) (i_buf s); put (set_buf s m) (set_pc r RFin)
  | RFin =>
    do (m, o) <- proceed t w (i_buf s);
    match o with
    | None => Some (set_buf s m)
    | Some _ => put (set_buf s m) (set_pc r RDone)
    end
  end.

(** One step of the calling thread; [n] is batch_num. *)
Definition main_step (n w : nat) (s : iter) : option (iter * list output) :=
  let quiet (o : option iter) := do s <- o; Some (s, []) in
  let on_fac (k : iter -> list ptr -> option (iter * list output)) :=
    do (m, o) <- proceed 0 w (i_fac s);
    match o with None => Some (set_fac s m, []) | Some r => k (set_fac s m) r end in
  let on_buf (k : iter -> list ptr -> option (iter * list output)) :=
    do (m, o) <- proceed 0 w (i_buf s);
    match o with None => Some (set_buf s m, []) | Some r => k (set_buf s m) r end in
  match i_main s with
  | CNew i =>
    if (i <? n)%nat then
      quiet (do m <- issue 0 (OEnqueue (Some i)) (i_fac s); Some (set_main (set_heap (set_fac s m) (i_heap s ++ [Some []])) (CPut i)))
    else quiet (do m <- issue 0 (OEnqueue None) (i_buf s); Some (set_main (set_buf s m) CSig))
  | CPut i => on_fac (fun s _ => Some (set_main s (CNew (S i)), []))
  | CSig => on_buf (fun s _ => Some (set_main s MIdle, []))
  | MIdle => None
  | NPut => on_fac (fun s _ => Some (set_main s NTake, []))
  | NTake => quiet (do m <- issue 0 ODequeue (i_buf s); Some (set_main (set_buf s m) NGet))
  | NGet => on_buf (fun s r =>
    match r with
    | [None] =>
      if i_idx s + 1 <? count s then
        quiet (do s <- start_reader s (Z.to_nat (i_idx s + 1)); Some (set_main (set_idx s (i_idx s + 1)) NTake))
      else Some (set_main s NSend, [])
    | [Some id] => do c <- points s id; Some (set_main (set_held s (Some id)) MIdle, [Some c])
    | _ => None
    end)
  | NSend => quiet (do m <- issue 0 (OEnqueue None) (i_buf s); Some (set_main (set_buf s m) NEnd))
  | NEnd => on_buf (fun s _ => Some (set_main s MIdle, [None]))
  | KSize =>
    if 0 <? q_num (m_queue (i_fac s)) then quiet (do m <- issue 0 ODequeue (i_fac s); Some (set_main (set_fac s m) KGet))
    else Some (set_main s KSend0, [])
  | KGet => on_fac (fun s r => match r with [p] => quiet (do s <- delete s p; Some (set_main s KSize)) | _ => None end)
  | KSend0 => quiet (do m <- issue 0 (OEnqueue None) (i_fac s); Some (set_main (set_fac s m) KSend))
  | KSend => on_fac (fun s _ => Some (set_main s KLoop, []))
  | KLoop =>
    if i_idx s <? count s then quiet (do m <- issue 0 ODequeue (i_buf s); Some (set_main (set_buf s m) KGet2))
    else Some (set_main s (KJoin 0), [])
  | KGet2 => on_buf (fun s r =>
    match r with
    | [None] =>
      let s := set_main (set_idx s (i_idx s + 1)) KLoop in
      if i_idx s <? count s then quiet (start_reader s (Z.to_nat (i_idx s))) else Some (s, [])
    | [Some id] => quiet (do s <- delete s (Some id); Some (set_main s KLoop))
    | _ => None
    end)
  | KJoin j =>
    match nth_error (i_readers s) j with
    | None => Some (set_main s KSize2, [])
    | Some r => match r_pc r with RNone | RDone => Some (set_main s (KJoin (S j)), []) | _ => None end
    end
  | KSize2 =>
    if 0 <? q_num (m_queue (i_fac s)) then quiet (do m <- issue 0 ODequeue (i_fac s); Some (set_main (set_fac s m) KGet3))
    else Some (set_main s KDone, [])
  | KGet3 => on_fac (fun s r => match r with [p] => quiet (do s <- delete s p; Some (set_main s KSize2)) | _ => None end)
  | KDone => None
  end.

(** What can happen: a step of the caller or of a reader, a spurious wake-up in the factory or the buffer,
    and, while the caller is outside, a call of Next (data_iter.cc:80-84, giving back the mini-batch it
    holds), of AddReader, or of the destructor.  [w] chooses whom a notify wakes. *)
Inductive iact := AMain (w : nat) | ARead (j w : nat) | ASpurF (t : nat) | ASpurB (t : nat)
| ANext | AAdd (pts : list P) (bad : bool) (pass : Z) | ADestroy.

(** [k] is the number of threads the state has room for: AddReader is possible k-1 times. *)
Definition inext (n bs k : nat) (a : iact) (s : iter) : option (iter * list output) :=
  match a with
  | AMain w => main_step n w s
  | ARead j w => do s <- reader_step bs j w s; Some (s, [])
  | ASpurF t => do (m, _) <- mnext is_null (Spurious t) (i_fac s); Some (set_fac s m, [])
  | ASpurB t => do (m, _) <- mnext is_null (Spurious t) (i_buf s); Some (set_buf s m, [])
  | ANext =>
    match i_main s with
    | MIdle =>
      match i_held s with
      | Some id => do m <- issue 0 (OEnqueue (Some id)) (i_fac s); Some (set_main (set_held (set_fac s m) None) NPut, [])
      | None => Some (set_main s NTake, [])
      end
    | _ => None
    end
  | AAdd pts bad pass =>
    match i_main s with
    | MIdle => if (S (length (i_readers s)) <? k)%nat then Some (set_readers s (i_readers s ++ [new_reader pts bad pass]), []) else None
    | _ => None
    end
  | ADestroy => match i_main s with MIdle => Some (set_main s KSize, []) | _ => None end
  end.
Fixpoint irun (n bs k : nat) (l : list iact) (s : iter) : option (iter * list output) :=
  match l with
  | [] => Some (s, [])
  | a :: r => do (s1, o1) <- inext n bs k a s; do (s2, o2) <- irun n bs k r s1; Some (s2, (o1 ++ o2)%list)
  end.
(** Before the constructor, data_iter.cc:16-19: the queues are new, running_reader_idx_ is set to -1 at
    the end (25; nobody reads it before).  [junkf], [junkb]: what new T[queue_size] contains. *)
Definition istart (junkf junkb : list ptr) (k : nat) : iter := mkiter (start junkf k) (start junkb k) [] (CNew 0) (-1) [] None.
End Iter.
