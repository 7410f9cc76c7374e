(** The blocking queue, include/sol/util/block_queue.h, statement by statement, with its mutex
    (include/sol/util/mutex.h) and its two condition variables (include/sol/util/monitor.h).
    Mutex and condition variable behave as C++ and POSIX specify: one owner at a time; wait releases the
    mutex and blocks in one step, is woken by notify, notify_all or for no reason, and then takes the
    mutex again.  Simplified: the statements between lock and unlock that only touch local variables are
    merged with their neighbours; a call returns in the same step as it unlocks. *)
From Verif Require Import M_Base.

Section Queue.
Context {A : Type}.
(** elem == nullptr, block_queue.h:150. *)
Variable null : A -> bool.

(** Members of BlockQueue, block_queue.h:171-178: elems_, elem_num_, head_, tail_, queue_size_, lock_ (the
    thread that owns it), and the threads blocked in nonfull_.wait() and nonempty_.wait(). *)
Record queue := mkq {
  q_elems : list A; q_num : Z; q_head : nat; q_tail : nat; q_size : nat;
  q_lock : option nat; q_wfull : list nat; q_wempty : list nat
}.
(** BlockQueue(queue_size), block_queue.h:62-72; [junk] is what new T[queue_size] contains. *)
Definition new_queue (junk : list A) : queue := mkq junk 0 0 0 (length junk) None [] [].

(** Assignments to the members, block_queue.h:90-161. *)
Definition set_lock (q : queue) (l : option nat) : queue :=
  mkq (q_elems q) (q_num q) (q_head q) (q_tail q) (q_size q) l (q_wfull q) (q_wempty q).
Definition set_wfull (q : queue) (w : list nat) : queue :=
  mkq (q_elems q) (q_num q) (q_head q) (q_tail q) (q_size q) (q_lock q) w (q_wempty q).
Definition set_wempty (q : queue) (w : list nat) : queue :=
  mkq (q_elems q) (q_num q) (q_head q) (q_tail q) (q_size q) (q_lock q) (q_wfull q) w.
Definition set_elems (q : queue) (e : list A) : queue :=
  mkq e (q_num q) (q_head q) (q_tail q) (q_size q) (q_lock q) (q_wfull q) (q_wempty q).
Definition set_num (q : queue) (n : Z) : queue :=
  mkq (q_elems q) n (q_head q) (q_tail q) (q_size q) (q_lock q) (q_wfull q) (q_wempty q).
Definition set_head (q : queue) (h : nat) : queue :=
  mkq (q_elems q) (q_num q) h (q_tail q) (q_size q) (q_lock q) (q_wfull q) (q_wempty q).
Definition set_tail (q : queue) (t : nat) : queue :=
  mkq (q_elems q) (q_num q) (q_head q) t (q_size q) (q_lock q) (q_wfull q) (q_wempty q).

(** Where a thread is inside a call.  E: Enqueue(elem), block_queue.h:88-98; B: Enqueue(elem_list, num),
    104-117; D: Dequeue(), 120-131; V: Dequeue(elem_list, num, force), 140-164.  The arguments are the
    local variables: the items still to be put, the items already taken (elem_list[0..i-1]). *)
Inductive qpc :=
| ELock (x : A) | ETest (x : A) | EWait (x : A) | EStore (x : A) | ETail | ENum | ENotify | EUnlock
| BLock (xs : list A) | BTest (xs : list A) | BNotify (xs : list A) | BPark (xs : list A) | BWait (xs : list A)
| BStore (x : A) (xs : list A) | BTail (xs : list A) | BNum (xs : list A) | BNotifyAll | BUnlock
| DLock | DTest | DWait | DRead | DHead (x : A) | DNum (x : A) | DNotify (x : A) | DUnlock (x : A)
| VLock (n : nat) (f : bool) | VTest (n : nat) (f : bool) | VWait (n : nat) (f : bool)
| VLoop (n : nat) (f : bool) (l : list A) | VNotify (n : nat) (f : bool) (l : list A) | VPark (n : nat) (f : bool) (l : list A)
| VForced (n : nat) (f : bool) (l : list A) | VRead (n : nat) (f : bool) (l : list A)
| VHead (n : nat) (f : bool) (l : list A) | VNum (n : nat) (f : bool) (l : list A)
| VNotifyAll (n : nat) (f : bool) (l : list A) | VUnlock (n : nat) (f : bool) (l : list A).

(** What a step does to the stored sequence, for observation only. *)
Inductive effect := Put (x : A) | Take (x : A).
(** A step: the thread is elsewhere in the call, or the call returns. *)
Inductive outcome := Goes (pc : qpc) | Returns (r : list A).

(** lock_.lock(), mutex.h:33: only possible while nobody owns the mutex. *)
Definition acquire (t : nat) (q : queue) : option queue :=
  match q_lock q with None => Some (set_lock q (Some t)) | Some _ => None end.
(** Being woken up in wait(), monitor.h:33-37: no longer blocked, and the mutex is free. *)
Definition wake (t : nat) (blocked : list nat) (q : queue) : option queue :=
  if existsb (Nat.eqb t) blocked then None else acquire t q.
(** nonempty_.notify(), monitor.h:38: wakes the [w]-th blocked thread, if any is blocked. *)
Definition notify_one (w : nat) (blocked : list nat) : option (list nat) :=
  match blocked with
  | [] => Some []
  | _ => if (w <? length blocked)%nat then Some (firstn w blocked ++ skipn (S w) blocked) else None
  end.

(** elems_[tail_] = elem, block_queue.h:93, 111; el = elems_[head_], 125, 156; tail_ and head_ advance,
    94, 112, 126, 157.  [None]: outside the array, or queue_size_ = 0. *)
Definition store (x : A) (q : queue) : option queue := do e <- wr (q_elems q) (q_tail q) x; Some (set_elems q e).
Definition fetch (q : queue) : option A := rd (q_elems q) (q_head q).
Definition next_pos (q : queue) (i : nat) : option nat :=
  match q_size q with O => None | S _ => Some ((i + 1) mod q_size q)%nat end.

(** One statement of thread [t] at [pc]; [w] chooses the thread to wake.  [None]: the thread cannot move
    (or the code is undefined there). *)
Definition full (q : queue) : bool := q_num q =? Z.of_nat (q_size q).
Definition qnext (t w : nat) (q : queue) (pc : qpc) : option (queue * outcome * list effect) :=
  let go q pc := Some (q, Goes pc, []) in
  match pc with
  (* Enqueue(elem) *)
  | ELock x => do q <- acquire t q; go q (ETest x)
  | ETest x => if full q then go (set_lock (set_wfull q (t :: q_wfull q)) None) (EWait x) else go q (EStore x)
  | EWait x => do q <- wake t (q_wfull q) q; go q (ETest x)
  | EStore x => do q <- store x q; Some (q, Goes ETail, [Put x])
  | ETail => do i <- next_pos q (q_tail q); go (set_tail q i) ENum
  | ENum => go (set_num q (q_num q + 1)) ENotify
  | ENotify => do l <- notify_one w (q_wempty q); go (set_wempty q l) EUnlock
  | EUnlock => Some (set_lock q None, Returns [], [])
  (* Enqueue(elem_list, num) *)
  | BLock xs => do q <- acquire t q; go q (BTest xs)
  | BTest xs =>
    match xs with
    | [] => go q BNotifyAll
    | x :: r => if full q then go q (BNotify xs) else go q (BStore x r)
    end
  | BNotify xs => go (set_wempty q []) (BPark xs)
  | BPark xs => go (set_lock (set_wfull q (t :: q_wfull q)) None) (BWait xs)
  | BWait xs => do q <- wake t (q_wfull q) q; go q (BTest xs)
  | BStore x xs => do q <- store x q; Some (q, Goes (BTail xs), [Put x])
  | BTail xs => do i <- next_pos q (q_tail q); go (set_tail q i) (BNum xs)
  | BNum xs => go (set_num q (q_num q + 1)) (BTest xs)
  | BNotifyAll => go (set_wempty q []) BUnlock
  | BUnlock => Some (set_lock q None, Returns [], [])
  (* Dequeue() *)
  | DLock => do q <- acquire t q; go q DTest
  | DTest => if q_num q =? 0 then go (set_lock (set_wempty q (t :: q_wempty q)) None) DWait else go q DRead
  | DWait => do q <- wake t (q_wempty q) q; go q DTest
  | DRead => do x <- fetch q; Some (q, Goes (DHead x), [Take x])
  | DHead x => do i <- next_pos q (q_head q); go (set_head q i) (DNum x)
  | DNum x => go (set_num q (q_num q - 1)) (DNotify x)
  | DNotify x => go (set_wfull q []) (DUnlock x)
  | DUnlock x => Some (set_lock q None, Returns [x], [])
  (* Dequeue(elem_list, num, force) *)
  | VLock n f => do q <- acquire t q; go q (VTest n f)
  | VTest n f =>
    if q_num q =? 0 then go (set_lock (set_wempty q (t :: q_wempty q)) None) (VWait n f) else go q (VLoop n f [])
  | VWait n f => do q <- wake t (q_wempty q) q; go q (VTest n f)
  | VLoop n f l =>
    if (length l <? n)%nat then
      if q_num q =? 0 then
        match rev l with
        | x :: _ => if f && negb (null x) then go q (VNotify n f l) else go q (VNotifyAll n f l)
        | [] => go q (VNotifyAll n f l)
        end
      else go q (VRead n f l)
    else go q (VNotifyAll n f l)
  | VNotify n f l => go (set_wfull q []) (VPark n f l)
  | VPark n f l => go (set_lock (set_wempty q (t :: q_wempty q)) None) (VForced n f l)
  | VForced n f l => do q <- wake t (q_wempty q) q; go q (VRead n f l)
  | VRead n f l => do x <- fetch q; Some (q, Goes (VHead n f (l ++ [x])), [Take x])
  | VHead n f l => do i <- next_pos q (q_head q); go (set_head q i) (VNum n f l)
  | VNum n f l => go (set_num q (q_num q - 1)) (VLoop n f l)
  | VNotifyAll n f l => go (set_wfull q []) (VUnlock n f l)
  | VUnlock n f l => Some (set_lock q None, Returns l, [])
  end.

(** A spurious wake-up of thread [t]. *)
Definition spurious (t : nat) (q : queue) : queue :=
  set_wfull (set_wempty q (remove Nat.eq_dec t (q_wempty q))) (remove Nat.eq_dec t (q_wfull q)).

(* ------------------------------------------------------- any number of threads *)
(** The calls a thread can make. *)
Inductive qop := OEnqueue (x : A) | OEnqueues (xs : list A) | ODequeue | ODequeues (n : nat) (force : bool).
Definition entry (o : qop) : qpc :=
  match o with
  | OEnqueue x => ELock x | OEnqueues xs => BLock xs | ODequeue => DLock | ODequeues n f => VLock n f
  end.

(** The queue and its threads, each between two calls or inside one.  The threads are arbitrary: any
    thread may make any call at any time. *)
Record machine := mkmach { m_queue : queue; m_threads : list (option qpc) }.
Inductive action := Call (t : nat) (o : qop) | Step (t w : nat) | Spurious (t : nat).
Inductive event := EvCall (t : nat) (o : qop) | EvEffect (t : nat) (f : effect) | EvReturn (t : nat) (r : list A).

Definition mnext (a : action) (m : machine) : option (machine * list event) :=
  match a with
  | Call t o =>
    match nth_error (m_threads m) t with
    | Some None => do l <- wr (m_threads m) t (Some (entry o)); Some (mkmach (m_queue m) l, [EvCall t o])
    | _ => None
    end
  | Step t w =>
    match nth_error (m_threads m) t with
    | Some (Some pc) =>
      do (q, o, fs) <- qnext t w (m_queue m) pc;
      match o with
      | Goes pc' => do l <- wr (m_threads m) t (Some pc'); Some (mkmach q l, map (EvEffect t) fs)
      | Returns r => do l <- wr (m_threads m) t None; Some (mkmach q l, map (EvEffect t) fs ++ [EvReturn t r])
      end
    | _ => None
    end
  | Spurious t => Some (mkmach (spurious t (m_queue m)) (m_threads m), [])
  end.
Fixpoint mrun (l : list action) (m : machine) : option (machine * list event) :=
  match l with
  | [] => Some (m, [])
  | a :: r => do (m1, e1) <- mnext a m; do (m2, e2) <- mrun r m1; Some (m2, (e1 ++ e2)%list)
  end.
(** A new queue and [k] threads that have not called anything yet. *)
Definition start (junk : list A) (k : nat) : machine := mkmach (new_queue junk) (repeat None k).
End Queue.
