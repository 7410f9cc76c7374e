(** Properties C12 and C13: the blocking queue. *)
From Verif Require Import M_Base M_Queue S_Queue P_Queue P_Queue2.

Lemma run_from_start (A : Type) (null : A -> bool) junk k acts m vs : junk <> [] -> Forall unforced acts ->
  mrun null acts (start junk k) = Some (m, vs) ->
  q_size (m_queue m) = length junk /\
  exists c, minv m c /\ fifo (length junk) (effects vs) c /\ thread_ok m vs /\ batches_ok m (effects vs) c.
Proof.
  intros J U E. assert (J' : (0 < length junk)%nat) by (destruct junk; [congruence|cbn; lia]).
  destruct (mrun_all null acts (start junk k) [] m vs [] U (minv_start junk k J') (fifo_nil _) (thread_start junk k)) as (Sz & c & I & F & T & B).
  - intros t pc Ht. apply nth_error_In, repeat_spec in Ht. discriminate.
  - exact E.
  - split; [exact Sz|]. exists c. auto.
Qed.

(** C12: for every capacity, every number of threads, every schedule and every spurious wake-up, the queue
    is a bounded first-in first-out queue: what was put is what was taken, in the same order, followed by
    what is stored, which never exceeds the capacity.  size() between two critical sections is the number
    stored.  Each thread's calls have exactly the effects of the operation, between call and return, and
    Dequeue returns what it took. *)
Theorem C12_fifo : forall (A : Type) (null : A -> bool) junk k acts m vs, junk <> [] -> Forall unforced acts ->
  mrun null acts (start junk k) = Some (m, vs) ->
  exists c, fifo (length junk) (effects vs) c /\ puts (effects vs) = takes (effects vs) ++ c /\ (length c <= length junk)%nat /\
    (q_lock (m_queue m) = None -> q_num (m_queue m) = Z.of_nat (length c)) /\
    forall t, idle t vs \/ exists o fs, inside t o fs vs.
Proof.
  intros A null junk k acts m vs J U E. destruct (run_from_start A null junk k acts m vs J U E) as (_ & c & I & F & T & _).
  exists c. destruct (fifo_order null _ _ _ F) as (P1 & P2). split; [exact F|]. split; [exact P1|].
  split; [exact P2|]. split; [apply (minv_size m c I)|]. intros t. specialize (T t). destruct (nth_error (m_threads m) t) as [[pc|]|]; [right|left; exact T|left; exact T].
  destruct T as (o & fs & T & _). eauto.
Qed.
Print Assumptions C12_fifo.

(** C12: two threads are never both about to change the stored sequence. *)
Theorem C12_exclusive : forall (A : Type) (null : A -> bool) junk k acts m vs t u wt wu mt mu et eu, junk <> [] -> Forall unforced acts ->
  mrun null acts (start junk k) = Some (m, vs) ->
  mnext null (Step t wt) m = Some (mt, et) -> effects et <> [] -> mnext null (Step u wu) m = Some (mu, eu) -> effects eu <> [] -> t = u.
Proof.
  intros A null junk k acts m vs t u wt wu mt mu et eu J U E St Et Su Eu.
  destruct (run_from_start A null junk k acts m vs J U E) as (_ & c & I & _).
  assert (H : forall t w m' es, mnext null (Step t w) m = Some (m', es) -> effects es <> [] -> exists pc, nth_error (m_threads m) t = Some (Some pc) /\ holds pc = true).
  { clear. intros t w m' es S N. cbn [mnext] in S. destruct (nth_error (m_threads m) t) as [[pc|]|]; try discriminate. exists pc. split; [reflexivity|].
    destruct (holds pc) eqn:Hp; [reflexivity|]. exfalso. apply N. clear N.
    destruct pc; try discriminate Hp; cbn [qnext] in S; unfold wake in S;
      repeat match type of S with
      | bind (bind (if ?b then _ else _) _) _ = _ => destruct b; [discriminate|]
      | bind (bind ?a _) _ = _ => destruct a; [|discriminate]; cbn [bind] in S
      | bind ?a _ = _ => destruct a; [|discriminate]; cbn [bind] in S
      end; inversion S; reflexivity. }
  destruct (H _ _ _ _ St Et) as (p & P1 & P2). destruct (H _ _ _ _ Su Eu) as (p' & P3 & P4).
  exact (minv_mutex m c t u p p' I P1 P3 P2 P4).
Qed.
Print Assumptions C12_exclusive.

(** C12: no wake-up is lost.  When no thread can go on, then no thread is inside a call, or the queue is
    empty and all threads inside a call are taking, or the queue is full and all of them are putting: nobody
    waits for something that is already there. *)
Theorem C12_no_lost_wakeup : forall (A : Type) (null : A -> bool) junk k acts m vs, junk <> [] -> Forall unforced acts -> Forall useful acts ->
  mrun null acts (start junk k) = Some (m, vs) ->
  (exists t w m' es, mnext null (Step t w) m = Some (m', es)) \/
  (forall t o fs, ~ inside t o fs vs) \/
  (fifo (length junk) (effects vs) [] /\ forall t o fs, inside t o fs vs -> removes o) \/
  (exists c, fifo (length junk) (effects vs) c /\ length c = length junk /\ forall t o fs, inside t o fs vs -> adds o).
Proof.
  intros A null junk k acts m vs J U V E. destruct (run_from_start A null junk k acts m vs J U E) as (Sz & c & I & F & T & _).
  assert (J' : (0 < length junk)%nat) by (destruct junk; [congruence|cbn; lia]).
  pose proof (mrun_winv null acts _ [] m vs U V (minv_start junk k J') (winv_start junk k) E) as Wi.
  destruct (can_step_or null m) as [St|St]; [left; exact St|right].
  assert (At : forall t o fs, inside t o fs vs -> exists pc, nth_error (m_threads m) t = Some (Some pc) /\ progress o fs pc).
  { intros t o fs H. specialize (T t). destruct (nth_error (m_threads m) t) as [[pc|]|].
    - destruct T as (o' & fs' & T & P). destruct (proj2 (inside_unique t vs) _ _ _ _ H T) as (-> & ->). eauto.
    - destruct (proj1 (inside_unique t vs) T _ _ H).
    - destruct (proj1 (inside_unique t vs) T _ _ H). }
  destruct (stuck_kind null m c I Wi St) as [N|[(-> & N)|(L & N)]].
  - left. intros t o fs H. destruct (At t o fs H) as (pc & P & _). exact (N _ _ P).
  - right; left. split; [exact F|]. intros t o fs H. destruct (At t o fs H) as (pc & P & Q). specialize (N _ _ P).
    destruct pc; try discriminate; destruct Q as (-> & _); exact Logic.I.
  - right; right. exists c. split; [exact F|]. split; [congruence|]. intros t o fs H. destruct (At t o fs H) as (pc & P & Q). specialize (N _ _ P).
    destruct pc; try discriminate; [destruct Q as (-> & _)|destruct Q as (ys & -> & _)]; exact Logic.I.
Qed.
Print Assumptions C12_no_lost_wakeup.

(** Three threads over a queue of two: thread 0 puts 1 and 2 in one call and then 3, thread 1 takes one
    item, thread 2 takes a batch of up to five; thread 0 blocks on the full queue, thread 1 is woken for no
    reason, all calls return. *)
Definition steps (t n : nat) : list (action (A:=nat)) := repeat (Step t 0) n.
Definition busy : list (action (A:=nat)) :=
  [Call 1 ODequeue] ++ steps 1 2 ++ [Spurious 1] ++ steps 1 2 ++ [Call 0 (OEnqueues [1; 2]%nat)] ++ steps 0 12 ++
  [Call 0 (OEnqueue 3%nat)] ++ steps 0 2 ++ steps 1 7 ++ steps 0 7 ++ [Call 2 (ODequeues 5 false)] ++ steps 2 13.
Example C12_witness : Forall unforced busy /\ Forall useful busy /\
  match mrun (fun _ => false) busy (start [0; 0]%nat 3) with
  | Some (m, vs) => effects vs = [Put 1; Put 2; Take 1; Put 3; Take 2; Take 3]%nat /\ m_threads m = [None; None; None] /\
      (forall t, In (EvReturn t [1]%nat) vs -> t = 1%nat) /\ In (EvReturn 2 [2; 3]%nat) vs
  | None => False
  end.
Proof.
  split; [repeat constructor|]. split; [repeat constructor|]. vm_compute. repeat split.
  - intros t H. repeat (destruct H as [H|H]; [congruence|]). contradiction.
  - tauto.
Qed.
(** A stuck state: two consumers block on the empty queue, nobody else is there. *)
Example C12_stuck_witness : let acts := [Call 0 ODequeue; Call 1 ODequeue] ++ steps 0 2 ++ steps 1 2 in
  match mrun (fun _ => false) acts (start [0; 0]%nat 2) with
  | Some (m, vs) => m_threads m = [Some DWait; Some DWait] /\ q_wempty (m_queue m) = [1; 0]%nat /\
      mnext (fun _ => false) (Step 0 0) m = None /\ mnext (fun _ => false) (Step 1 0) m = None
  | None => False
  end.
Proof. vm_compute. auto. Qed.

(** C12: a batch Dequeue of no item can swallow a wake-up: thread 1 is woken for the item, takes none and
    wakes nobody, and thread 0 waits although an item is stored. *)
Theorem C12_no_items_refuted : exists acts, Forall unforced acts /\
  match mrun (fun _ => false) acts (start [0; 0]%nat 3) with
  | Some (m, vs) => (forall t w, mnext (fun _ => false) (Step t w) m = None) /\ q_num (m_queue m) = 1 /\
      nth_error (m_threads m) 0 = Some (Some DWait)
  | None => False
  end.
Proof.
  exists ([Call 1 (ODequeues 0 false); Call 0 ODequeue] ++ steps 0 2 ++ steps 1 2 ++ [Call 2 (OEnqueue 7%nat)] ++ steps 2 7 ++ steps 1 5).
  split; [repeat constructor|]. vm_compute. split; [|split; reflexivity]. intros [|[|[|[|t]]]] w; reflexivity.
Qed.
Print Assumptions C12_no_items_refuted.

(** C13: a batch Dequeue without force returns the oldest items, in order, as many as it asked for or all
    that were stored, and at least one if it asked for any; it takes them in one go. *)
Theorem C13_batch : forall (A : Type) (null : A -> bool) junk k acts m vs t w m' n fs r, junk <> [] -> Forall unforced acts ->
  mrun null acts (start junk k) = Some (m, vs) -> inside t (ODequeues n false) fs vs ->
  mnext null (Step t w) m = Some (m', [EvReturn t r]) ->
  exists fs0 c0, effects vs = fs0 ++ map Take r /\ fifo (length junk) fs0 c0 /\ r = firstn n c0 /\ (n <> O -> r <> []).
Proof.
  intros A null junk k acts m vs t w m' n fs r J U E In St. destruct (run_from_start A null junk k acts m vs J U E) as (Sz & c & I & F & T & B).
  specialize (T t). cbn [mnext] in St. destruct (nth_error (m_threads m) t) as [[pc|]|] eqn:Ht; try discriminate.
  destruct T as (o & fs' & T & P). destruct (proj2 (inside_unique t vs) _ _ _ _ In T) as (<- & <-).
  destruct (qnext null t w (m_queue m) pc) as [[[q' [pc'|r']] es]|] eqn:Q; try discriminate; cbn [bind] in St;
    (destruct (wr (m_threads m) t _) as [l'|]; [|discriminate]); cbn [bind] in St; inversion St as [[S1 S2]]; clear St.
  - destruct es; discriminate.
  - destruct es as [|e es]; [|discriminate]. inversion S2; subst r'. clear S2. pose proof P as P0.
    destruct pc; cbn [qnext] in Q; cbn [progress] in P; try (destruct P as (? & ? & _)); try (destruct P as (? & _)); try discriminate;
    repeat match type of Q with
    | bind ?a _ = _ => destruct a; [|discriminate]; cbn [bind] in Q
    | (if ?b then _ else _) = _ => destruct b
    | match ?l with [] => _ | _ :: _ => _ end = _ => destruct l
    end; try discriminate.
    inversion Q; subst. cbn [progress] in P0. destruct P0 as (P1 & P2 & P3 & P4). inversion P1; subst.
    specialize (B t _ Ht eq_refl). cbn [batch_ok] in B. destruct B as (fs0 & B1 & B2 & B3). rewrite Sz in B2.
    exists fs0, (r ++ c). split; [exact B1|]. split; [exact B2|]. split; [|exact P4].
    destruct B3 as [B3|B3]; [rewrite <- B3, firstn_app, firstn_all, Nat.sub_diag; cbn; now rewrite app_nil_r|].
    subst c. rewrite app_nil_r. now rewrite firstn_all2.
Qed.
Print Assumptions C13_batch.

(** The batch call in the example above is such a call: five items asked for, two stored, both taken. *)
Example C13_witness :
  match mrun (fun _ => false) (removelast busy) (start [0; 0]%nat 3) with
  | Some (m, vs) => nth_error (m_threads m) 2 = Some (Some (VUnlock 5 false [2; 3]%nat)) /\
      option_map snd (mnext (fun _ => false) (Step 2 0) m) = Some [EvReturn 2 [2; 3]%nat] /\
      effects vs = [Put 1; Put 2; Take 1; Put 3]%nat ++ map Take [2; 3]%nat
  | None => False
  end.
Proof. vm_compute. auto. Qed.

(** C13 fails for the forced batch Dequeue.  First: one item is stored, thread 0 asks for two with force,
    takes one and waits; a spurious wake-up makes it read an item that nobody put, and the number stored
    becomes negative. *)
Theorem C13_forced_spurious_refuted : exists acts,
  match mrun (fun _ => false) acts (start [100; 101; 102]%nat 2) with
  | Some (m, vs) => q_lock (m_queue m) = None /\ q_num (m_queue m) = -1 /\ In (EvReturn 0 [7; 101]%nat) vs /\ puts (effects vs) = [7]%nat
  | None => False
  end.
Proof.
  exists ([Call 1 (OEnqueue 7%nat)] ++ steps 1 7 ++ [Call 0 (ODequeues 2 true)] ++ steps 0 9 ++ [Spurious 0] ++ steps 0 7).
  vm_compute. tauto.
Qed.
Print Assumptions C13_forced_spurious_refuted.

(** Second, without any spurious wake-up: thread 1 puts another item, which wakes thread 0, but thread 2
    takes it before thread 0 runs. *)
Theorem C13_forced_stolen_refuted : exists acts, (forall t, ~ In (Spurious t) acts) /\
  match mrun (fun _ => false) acts (start [100; 101; 102]%nat 3) with
  | Some (m, vs) => q_lock (m_queue m) = None /\ q_num (m_queue m) = -1 /\ In (EvReturn 0 [7; 102]%nat) vs /\ puts (effects vs) = [7; 8]%nat /\
      In (EvReturn 2 [8]%nat) vs
  | None => False
  end.
Proof.
  exists ([Call 1 (OEnqueue 7%nat)] ++ steps 1 7 ++ [Call 0 (ODequeues 2 true)] ++ steps 0 9 ++
          [Call 1 (OEnqueue 8%nat)] ++ steps 1 7 ++ [Call 2 ODequeue] ++ steps 2 7 ++ steps 0 7).
  split; [intros t; vm_compute; intuition discriminate|]. vm_compute. tauto.
Qed.
Print Assumptions C13_forced_stolen_refuted.
