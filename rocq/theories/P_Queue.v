(** Proofs about the blocking queue. *)
From Verif Require Import M_Base M_Queue S_Queue.

Lemma mod_inj s h i j : (0 < s)%nat -> (i <= j)%nat -> (j - i < s)%nat -> ((h + i) mod s = (h + j) mod s)%nat -> i = j.
Proof.
  intros Hs Hij Hd E. pose proof (Nat.div_mod (h + i) s ltac:(lia)) as D1. pose proof (Nat.div_mod (h + j) s ltac:(lia)) as D2.
  rewrite E in D1. set (a := ((h + i) / s)%nat) in *. set (b := ((h + j) / s)%nat) in *.
  assert (s * b = s * a + (j - i))%nat by lia. destruct (Nat.eq_dec i j); [assumption|].
  assert (a < b)%nat by nia. nia.
Qed.
Lemma wr_total {A} (l : list A) i x : (i < length l)%nat -> exists l', wr l i x = Some l'.
Proof.
  revert i. induction l as [|y l IH]; intros i H; cbn in *; [lia|]. destruct i; [eauto|].
  destruct (IH i) as (l' & ->); [lia|]. cbn. eauto.
Qed.
Lemma wr_spec {A} (l : list A) i x l' : wr l i x = Some l' ->
  (i < length l)%nat /\ length l' = length l /\ nth_error l' i = Some x /\ forall j, j <> i -> nth_error l' j = nth_error l j.
Proof.
  revert i l'. induction l as [|y l IH]; intros i l' H; cbn in *; [discriminate|]. destruct i.
  - inversion H; subst. repeat split; cbn; try lia. intros [|j] Hj; [lia|reflexivity].
  - destruct (wr l i x) as [r|] eqn:E; [|discriminate]. inversion H; subst. destruct (IH _ _ E) as (A1 & A2 & A3 & A4).
    cbn. repeat split; try lia; auto. intros [|j] Hj; [reflexivity|]. apply A4. lia.
Qed.

Section P.
Context {A : Type}.
Variable null : A -> bool.
Notation queue := (queue (A:=A)). Notation qpc := (qpc (A:=A)).

(** Points at which the thread owns the mutex. *)
Definition holds (pc : qpc) : bool :=
  match pc with
  | ELock _ | EWait _ | BLock _ | BWait _ | DLock | DWait | VLock _ _ | VWait _ _ | VForced _ _ _ => false
  | _ => true
  end.
(** Points that can be reached without a forced batch Dequeue. *)
Definition unf (pc : qpc) : Prop :=
  match pc with
  | VLock _ f | VTest _ f | VWait _ f | VLoop _ f _ | VRead _ f _ | VHead _ f _ | VNum _ f _ | VNotifyAll _ f _ | VUnlock _ f _ => f = false
  | VNotify _ _ _ | VPark _ _ _ | VForced _ _ _ => False
  | _ => True
  end.
(** How far elem_num_, head_ and tail_ are behind the stored sequence in the middle of a call. *)
Definition lag_num (pc : qpc) : Z :=
  match pc with ETail | ENum | BTail _ | BNum _ => 1 | DHead _ | DNum _ | VHead _ _ _ | VNum _ _ _ => -1 | _ => 0 end.
Definition lag_head (pc : qpc) : nat := match pc with DHead _ | VHead _ _ _ => 1 | _ => 0 end.
Definition lag_tail (pc : qpc) : nat := match pc with ETail | BTail _ => 1 | _ => 0 end.
(** What the owner knows. *)
Definition knows (q : queue) (pc : qpc) : Prop :=
  match pc with
  | EStore _ | BStore _ _ => q_num q < Z.of_nat (q_size q)
  | DRead | VRead _ _ _ => 0 < q_num q
  | VLoop _ _ l => l = [] -> 0 < q_num q
  | VHead _ _ l | VNum _ _ l => l <> []
  | _ => True
  end.

Record ring (q : queue) (dn : Z) (dh dt : nat) (c : list A) : Prop := {
  r_size : (0 < q_size q)%nat;
  r_len : length (q_elems q) = q_size q;
  r_head : (q_head q < q_size q)%nat;
  r_tail : (q_tail q < q_size q)%nat;
  r_num : q_num q + dn = Z.of_nat (length c);
  r_cap : (length c <= q_size q)%nat;
  r_end : ((q_tail q + dt) mod q_size q = (q_head q + dh + length c) mod q_size q)%nat;
  r_elems : forall i x, nth_error c i = Some x -> nth_error (q_elems q) ((q_head q + dh + i) mod q_size q)%nat = Some x
}.
Definition ring_at (q : queue) (pc : qpc) (c : list A) : Prop :=
  ring q (lag_num pc) (lag_head pc) (lag_tail pc) c /\ knows q pc.

(** The queue between the steps: the owner, if any, is at pc. *)
Definition qinv (q : queue) (h : option (nat * qpc)) (c : list A) : Prop :=
  match h with
  | None => q_lock q = None /\ ring q 0 0 0 c
  | Some (t, pc) => q_lock q = Some t /\ holds pc = true /\ ring_at q pc c
  end.

Lemma ring_new junk : (0 < length junk)%nat -> ring (new_queue (A:=A) junk) 0 0 0 [].
Proof.
  intros H. constructor; cbn; try lia; try now rewrite !Nat.mod_0_l by lia. now intros [|i] x.
Qed.
Lemma next_pos_eq q i : (0 < q_size q)%nat -> next_pos (A:=A) q i = Some ((i + 1) mod q_size q)%nat.
Proof. unfold next_pos. destruct (q_size q); [lia|reflexivity]. Qed.
Lemma store_ok q x c : ring q 0 0 0 c -> q_num q < Z.of_nat (q_size q) ->
  exists q', store x q = Some q' /\ ring q' 1 0 1 (c ++ [x]) /\ q_lock q' = q_lock q /\ q_size q' = q_size q /\
    q_wfull q' = q_wfull q /\ q_wempty q' = q_wempty q.
Proof.
  intros [Sz L H T Nm C En El] K. unfold store. destruct (wr_total (q_elems q) (q_tail q) x) as (e & E); [lia|]. rewrite E. cbn.
  eexists. split; [reflexivity|]. split; [|auto]. destruct (wr_spec _ _ _ _ E) as (W1 & W2 & W3 & W4).
  assert (Et : q_tail q = ((q_head q + length c) mod q_size q)%nat).
  { rewrite !Nat.add_0_r in En. rewrite Nat.mod_small in En by lia. exact En. }
  constructor; cbn; rewrite ?app_length; cbn [length]; try lia.
  - rewrite Et at 1. rewrite Nat.add_mod_idemp_l by lia. f_equal. lia.
  - intros i y Hi. destruct (Nat.eq_dec i (length c)) as [->|Ne].
    + rewrite nth_error_app2, Nat.sub_diag in Hi by lia. cbn in Hi. inversion Hi; subst y. rewrite Nat.add_0_r, <- Et. exact W3.
    + assert (i < length c)%nat.
      { assert (i < length (c ++ [x]))%nat by (apply nth_error_Some; congruence). rewrite app_length in H0. cbn in H0. lia. }
      rewrite nth_error_app1 in Hi by lia. rewrite W4; [now apply El|]. intros Q. rewrite Et, Nat.add_0_r in Q.
      apply mod_inj in Q; lia.
Qed.
Lemma fetch_ok q x c : ring q 0 0 0 (x :: c) -> fetch q = Some x /\ ring q (-1) 1 0 c.
Proof.
  intros [Sz L H T Nm C En El]. split.
  - specialize (El O x eq_refl). rewrite !Nat.add_0_r, Nat.mod_small in El by lia. exact El.
  - cbn [length] in *. constructor; try lia.
    + rewrite En. f_equal. lia.
    + intros i y Hi. specialize (El (S i) y Hi). rewrite <- El. f_equal. f_equal. lia.
Qed.

(** Steps keep the invariant and act on the stored sequence like a bounded queue.  [q_lock] and the
    invariant after the step are those of the new place. *)
Definition at_pc (t : nat) (pc : qpc) : option (nat * qpc) := if holds pc then Some (t, pc) else None.
Lemma at_pc_lock t pc q c : qinv q (at_pc t pc) c -> holds pc = true -> q_lock q = Some t.
Proof. unfold at_pc. intros H E. rewrite E in H. apply H. Qed.

Lemma fifo_puts (cap : nat) fs c x : fifo (A:=A) cap fs c -> (length c < cap)%nat -> fifo cap (fs ++ [Put x]) (c ++ [x]).
Proof. now constructor. Qed.

Ltac ring_same := match goal with R : ring _ _ _ _ _ |- ring _ _ _ _ _ =>
  destruct R as [R1 R2 R3 R4 R5 R6 R7 R8]; constructor; cbn in *; auto; try lia end.
Lemma ring_lock q a b d c l : ring q a b d c -> ring (set_lock q l) a b d c.
Proof. intros R. ring_same. Qed.
Lemma ring_wfull q a b d c l : ring q a b d c -> ring (set_wfull q l) a b d c.
Proof. intros R. ring_same. Qed.
Lemma ring_wempty q a b d c l : ring q a b d c -> ring (set_wempty q l) a b d c.
Proof. intros R. ring_same. Qed.
Lemma ring_tail q c : ring q 1 0 1 c -> ring (set_tail q ((q_tail q + 1) mod q_size q)%nat) 1 0 0 c.
Proof.
  intros [Sz L H T Nm C En El]. constructor; cbn; auto.
  - apply Nat.mod_upper_bound. lia.
  - rewrite Nat.add_0_r, Nat.mod_mod by lia. exact En.
Qed.
Lemma ring_head q c : ring q (-1) 1 0 c -> ring (set_head q ((q_head q + 1) mod q_size q)%nat) (-1) 0 0 c.
Proof.
  intros [Sz L H T Nm C En El]. constructor; cbn; auto.
  - apply Nat.mod_upper_bound. lia.
  - rewrite En, Nat.add_0_r, (Nat.add_mod_idemp_l (q_head q + 1)) by lia. reflexivity.
  - intros i x Hi. rewrite Nat.add_0_r, (Nat.add_mod_idemp_l (q_head q + 1)) by lia. now apply El.
Qed.
Lemma ring_num q a c : ring q a 0 0 c -> ring (set_num q (q_num q + a)) 0 0 0 c.
Proof. intros R. ring_same. Qed.

Definition apply_eff (f : effect (A:=A)) (c : list A) : list A := match f with Put x => c ++ [x] | Take _ => tl c end.
Definition eff_ok (cap : nat) (f : effect (A:=A)) (c : list A) : Prop :=
  match f with Put _ => (length c < cap)%nat | Take x => hd_error c = Some x end.
Lemma acquire_inv t (q q1 : queue) : acquire t q = Some q1 -> q_lock q = None /\ q1 = set_lock q (Some t).
Proof. unfold acquire. destruct (q_lock q); [discriminate|]. intros H. now inversion H. Qed.
Lemma wake_inv t l (q q1 : queue) : wake t l q = Some q1 -> q_lock q = None /\ q1 = set_lock q (Some t).
Proof. unfold wake. destruct (existsb _ l); [discriminate|apply acquire_inv]. Qed.
(** At most one effect per step. *)
Lemma qnext_ok t w q pc c q' o fs : unf pc -> qinv q (at_pc t pc) c -> qnext null t w q pc = Some (q', o, fs) ->
  q_size q' = q_size q /\
  exists c', match fs with [] => c' = c | [f] => eff_ok (q_size q) f c /\ c' = apply_eff f c | _ => False end /\
    match o with Goes pc' => unf pc' /\ qinv q' (at_pc t pc') c' | Returns r => qinv q' None c' end.
Proof.
  intros U Iv E.
  destruct pc; cbn [qnext] in E; cbn [unf] in U; try contradiction; unfold at_pc, qinv in Iv; cbn [holds] in Iv;
    try (destruct Iv as (Lk & _ & Rg & Kn)); try (destruct Iv as (Lk & Rg));
    cbn [lag_num lag_head lag_tail] in Rg; try (cbn [knows] in Kn);
  (try match type of E with bind (acquire t q) _ = _ =>
    destruct (acquire t q) as [q1|] eqn:Q; [|discriminate]; cbn [bind] in E; inversion E; subst; clear E;
    destruct (acquire_inv _ _ _ Q) as (_ & ->); split; [reflexivity|]; exists c; split; [reflexivity|]; split; [first [exact U|exact I|reflexivity]|];
    unfold at_pc, qinv; cbn [holds]; split; [reflexivity|]; split; [reflexivity|]; split; [now apply ring_lock|exact I] end);
  (try match type of E with bind (wake t ?l q) _ = _ =>
    destruct (wake t l q) as [q1|] eqn:Q; [|discriminate]; cbn [bind] in E; inversion E; subst; clear E;
    destruct (wake_inv _ _ _ _ Q) as (_ & ->); split; [reflexivity|]; exists c; split; [reflexivity|]; split; [first [exact U|exact I|reflexivity]|];
    unfold at_pc, qinv; cbn [holds]; split; [reflexivity|]; split; [reflexivity|]; split; [now apply ring_lock|exact I] end);
  (try match type of E with bind (store ?x q) _ = _ =>
    destruct (store_ok q x c Rg Kn) as (q1 & Q & R1 & L1 & S1 & _); rewrite Q in E; cbn [bind] in E; inversion E; subst; clear E;
    split; [exact S1|]; exists (c ++ [x]); split; [split; [cbn; destruct Rg; lia|reflexivity]|]; split; [exact I|];
    unfold at_pc, qinv; cbn [holds]; split; [rewrite L1; exact Lk|]; split; [reflexivity|]; split; [exact R1|first [exact I|cbn; intros ZZ; now apply app_eq_nil in ZZ]] end);
  (try match type of E with bind (fetch q) _ = _ =>
    destruct c as [|x c]; [destruct Rg; cbn in *; lia|]; destruct (fetch_ok q x c Rg) as (Q & R1); rewrite Q in E; cbn [bind] in E; inversion E; subst; clear E;
    split; [reflexivity|]; exists c; split; [split; reflexivity|]; split; [first [exact I|exact U|reflexivity]|];
    unfold at_pc, qinv; cbn [holds]; split; [exact Lk|]; split; [reflexivity|]; split; [exact R1|first [exact I|cbn; intros ZZ; now apply app_eq_nil in ZZ]] end);
  (try match type of E with bind (next_pos q _) _ = _ =>
    rewrite next_pos_eq in E by (destruct Rg; assumption); cbn [bind] in E; inversion E; subst; clear E;
    split; [reflexivity|]; exists c; split; [reflexivity|]; split; [first [exact I|exact U|reflexivity]|];
    unfold at_pc, qinv; cbn [holds]; split; [exact Lk|]; split; [reflexivity|]; split; [first [now apply ring_tail|now apply ring_head]|first [exact I|exact Kn]] end);
  (try match type of E with bind (notify_one w _) _ = _ =>
    destruct (notify_one w (q_wempty q)); [|discriminate]; cbn [bind] in E end);
  (try match type of E with (if full q then _ else _) = _ => destruct (full q) eqn:Fu end);
  (try match type of E with match ?l with [] => _ | _ :: _ => _ end = _ => destruct l as [|x0 xs0] end);
  (try match type of E with (if full q then _ else _) = _ => destruct (full q) eqn:Fu end);
  (try match type of E with (if (_ <? _)%nat then _ else _) = _ => destruct (length l <? n)%nat end);
  (try match type of E with (if (q_num q =? 0) then _ else _) = _ => destruct (Z.eqb_spec (q_num q) 0) as [Em|Em] end);
  (try match type of E with match rev ?l with [] => _ | _ :: _ => _ end = _ => destruct (rev l) as [|x0 xs0] end);
  (try (cbn [unf] in U; subst f; cbn [andb] in E));
  (inversion E; subst; clear E; split; [reflexivity|]; exists c; split; [reflexivity|]; try (split; [first [exact I|exact U|reflexivity]|]);
    unfold at_pc, qinv; cbn [holds q_lock set_lock set_num set_wfull set_wempty]);
  (unfold ring_at; repeat match goal with |- _ /\ _ => split end; try exact I; try reflexivity; try exact Lk;
    cbn [lag_num lag_head lag_tail knows]; try assumption);
  (try (apply ring_lock); try (apply ring_wfull); try (apply ring_wempty); try assumption);
  (try (now apply (ring_num q 1)); try (now apply (ring_num q (-1))));
  (try (unfold full in Fu; destruct Rg; cbn in *; lia)); (try (destruct Rg; lia)); (try (cbn [knows] in Kn; intros ZZ; first [contradiction | subst; destruct Rg; cbn in *; lia])).
Qed.

(* ------------------------------------------------------------------ many threads *)
Lemma eff_fifo cap f fs c : fifo (A:=A) cap fs c -> eff_ok cap f c -> fifo cap (fs ++ [f]) (apply_eff f c).
Proof.
  destruct f as [x|x]; cbn; intros Hf Ho; [now constructor|]. destruct c as [|y c]; [discriminate|]. inversion Ho; subst. now constructor.
Qed.

(** The state of the queue and all threads. *)
Record minv (m : machine (A:=A)) (c : list A) : Prop := {
  v_unf : forall t pc, nth_error (m_threads m) t = Some (Some pc) -> unf pc;
  v_lock : forall t pc, nth_error (m_threads m) t = Some (Some pc) -> holds pc = true -> q_lock (m_queue m) = Some t;
  v_queue : match q_lock (m_queue m) with
            | None => qinv (m_queue m) None c
            | Some t => exists pc, nth_error (m_threads m) t = Some (Some pc) /\ qinv (m_queue m) (Some (t, pc)) c
            end
}.
Lemma minv_at m c t pc : minv m c -> nth_error (m_threads m) t = Some (Some pc) ->
  (holds pc = false -> q_lock (m_queue m) = None) -> qinv (m_queue m) (at_pc t pc) c.
Proof.
  intros [U L Q] H F. unfold at_pc. destruct (holds pc) eqn:E.
  - rewrite (L _ _ H E) in Q. destruct Q as (pc' & H' & Q). congruence.
  - now rewrite (F eq_refl) in Q.
Qed.
(** A step from outside the mutex needs it free. *)
Lemma needs_free t w q pc r : qnext null t w q pc = Some r -> holds pc = false -> q_lock q = None.
Proof.
  destruct pc; cbn; try discriminate; intros H _;
    match type of H with bind ?a _ = _ => destruct a as [q1|] eqn:Q; [|discriminate] end;
    first [apply acquire_inv in Q | apply wake_inv in Q]; tauto.
Qed.

Lemma mnext_ok a m c m' vs cap : unforced a -> q_size (m_queue m) = cap -> minv m c -> mnext null a m = Some (m', vs) ->
  q_size (m_queue m') = cap /\ exists c', minv m' c' /\
    match effects vs with [] => c' = c | [f] => eff_ok cap f c /\ c' = apply_eff f c | _ => False end.
Proof.
  intros Uf Sz I E. destruct a as [t o|t w|t]; cbn [mnext] in E.
  - destruct (nth_error (m_threads m) t) as [[pc|]|] eqn:Ht; try discriminate.
    destruct (wr (m_threads m) t (Some (entry o))) as [l|] eqn:W; [|discriminate]. cbn [bind] in E. inversion E; subst; clear E.
    split; [reflexivity|]. exists c. split; [|reflexivity]. apply wr_spec in W as (W1 & W2 & W3 & W4). destruct I as [U L Q]. constructor; cbn [m_queue m_threads].
    + intros u pc Hu. destruct (Nat.eq_dec u t) as [->|Ne]; [|rewrite W4 in Hu by assumption; now apply (U u)].
      rewrite W3 in Hu. inversion Hu; subst. destruct o as [| | |n []]; cbn in *; auto; contradiction.
    + intros u pc Hu. destruct (Nat.eq_dec u t) as [->|Ne]; [|rewrite W4 in Hu by assumption; now apply (L u)].
      rewrite W3 in Hu. inversion Hu; subst. destruct o; discriminate.
    + destruct (q_lock (m_queue m)) as [u|]; [|exact Q]. destruct Q as (pc & Hu & Q). exists pc. split; [|exact Q].
      rewrite W4; [assumption|]. intros ->. congruence.
  - destruct (nth_error (m_threads m) t) as [[pc|]|] eqn:Ht; try discriminate.
    destruct (qnext null t w (m_queue m) pc) as [[[q' o] fs]|] eqn:Qn; [|discriminate]. cbn [bind] in E.
    pose proof (minv_at m c t pc I Ht (needs_free _ _ _ _ _ Qn)) as Qi.
    destruct (qnext_ok t w _ pc c q' o fs (v_unf m c I _ _ Ht) Qi Qn) as (Sz' & c' & Fs & Po).
    assert (Fe : effects (map (EvEffect t) fs) = fs) by (clear; unfold effects; induction fs; cbn in *; congruence).
    assert (Fe2 : forall r, effects (map (EvEffect t) fs ++ [EvReturn t r]) = fs).
    { intros r. unfold effects. rewrite map_app, concat_app. cbn. rewrite app_nil_r. exact Fe. }
    assert (Lo : forall u pc', nth_error (m_threads m) u = Some (Some pc') -> u <> t -> holds pc' = true -> False).
    { intros u pc' Hu Ne Hh. pose proof (v_lock m c I _ _ Hu Hh) as Lu. destruct (holds pc) eqn:Hp.
      - pose proof (v_lock m c I _ _ Ht Hp). congruence.
      - pose proof (needs_free _ _ _ _ _ Qn Hp). congruence. }
    destruct o as [pc'|r].
    + destruct (wr (m_threads m) t (Some pc')) as [l|] eqn:W; [|discriminate]. cbn [bind] in E. inversion E; subst; clear E.
      rewrite Fe. split; [assumption|]. exists c'. split; [|exact Fs]. apply wr_spec in W as (W1 & W2 & W3 & W4).
      destruct Po as (Up & Po). constructor; cbn [m_queue m_threads].
      * intros u pc1 Hu. destruct (Nat.eq_dec u t) as [->|Ne]; [rewrite W3 in Hu; now inversion Hu; subst|].
        rewrite W4 in Hu by assumption. now apply (v_unf m c I u).
      * intros u pc1 Hu Hh. destruct (Nat.eq_dec u t) as [->|Ne].
        -- rewrite W3 in Hu. inversion Hu; subst. now apply (at_pc_lock t pc1 q' c').
        -- rewrite W4 in Hu by assumption. exfalso. eapply Lo; eauto.
      * unfold at_pc in Po. destruct (holds pc') eqn:Hp.
        -- pose proof (proj1 Po) as Lk. rewrite Lk. exists pc'. auto.
        -- pose proof (proj1 Po) as Lk. rewrite Lk. exact Po.
    + destruct (wr (m_threads m) t None) as [l|] eqn:W; [|discriminate]. cbn [bind] in E. inversion E; subst; clear E.
      rewrite Fe2. split; [assumption|]. exists c'. split; [|exact Fs]. apply wr_spec in W as (W1 & W2 & W3 & W4).
      constructor; cbn [m_queue m_threads].
      * intros u pc1 Hu. destruct (Nat.eq_dec u t) as [->|Ne]; [congruence|]. rewrite W4 in Hu by assumption. now apply (v_unf m c I u).
      * intros u pc1 Hu Hh. destruct (Nat.eq_dec u t) as [->|Ne]; [congruence|]. rewrite W4 in Hu by assumption. exfalso. eapply Lo; eauto.
      * pose proof (proj1 Po) as Lk. rewrite Lk. exact Po.
  - inversion E; subst; clear E. split; [reflexivity|]. exists c. split; [|reflexivity]. destruct I as [U L Q]. constructor; cbn [m_queue m_threads]; auto.
    unfold spurious. cbn [q_lock set_wfull set_wempty]. destruct (q_lock (m_queue m)) as [u|] eqn:Lk.
    + destruct Q as (pc & Hu & Q). exists pc. split; [exact Hu|]. destruct Q as (Q1 & Q2 & Q3 & Q4). split; [exact Q1|]. split; [exact Q2|].
      split; [now apply ring_wfull, ring_wempty|]. destruct pc; cbn in *; assumption.
    + destruct Q as (Q1 & Q2). split; [exact Q1|]. now apply ring_wfull, ring_wempty.
Qed.

Lemma minv_start junk k : (0 < length junk)%nat -> minv (start (A:=A) junk k) [].
Proof.
  intros H. unfold start. constructor; cbn [m_threads m_queue].
  - intros t pc Ht. apply nth_error_In, repeat_spec in Ht. discriminate.
  - intros t pc Ht. apply nth_error_In, repeat_spec in Ht. discriminate.
  - cbn. split; [reflexivity|]. now apply ring_new.
Qed.

Lemma effects_app a b : effects (A:=A) (a ++ b) = effects a ++ effects b.
Proof. unfold effects. now rewrite map_app, concat_app. Qed.

Lemma mrun_ok l : forall m c m' vs cap fs, Forall unforced l -> q_size (m_queue m) = cap -> minv m c -> fifo cap fs c ->
  mrun null l m = Some (m', vs) -> q_size (m_queue m') = cap /\ exists c', minv m' c' /\ fifo cap (fs ++ effects vs) c'.
Proof.
  induction l as [|a l IH]; cbn [mrun]; intros m c m' vs cap fs U Sz I F E.
  - inversion E; subst. split; [reflexivity|]. exists c. split; [exact I|]. cbn. now rewrite app_nil_r.
  - inversion U as [|? ? U1 U2]; subst. destruct (mnext null a m) as [[m1 e1]|] eqn:E1; [|discriminate]. cbn [bind] in E.
    destruct (mrun null l m1) as [[m2 e2]|] eqn:E2; [|discriminate]. cbn [bind] in E. inversion E; subst; clear E.
    destruct (mnext_ok a m c m1 e1 _ U1 eq_refl I E1) as (Sz & c1 & I1 & Fs).
    rewrite effects_app, app_assoc. eapply IH; [exact U2|exact Sz|exact I1| |exact E2].
    destruct (effects e1) as [|f [|f2 r]]; [|destruct Fs as (Fo & ->)|contradiction].
    + subst c1. now rewrite app_nil_r.
    + now apply eff_fifo.
Qed.

(** Consequences of the order. *)
Lemma fifo_order cap fs c : fifo (A:=A) cap fs c -> puts fs = takes fs ++ c /\ (length c <= cap)%nat.
Proof.
  unfold puts, takes. induction 1 as [|fs c x Hf [IH Hc] Hl|fs c x Hf [IH Hc]]; cbn; [split; [reflexivity|lia]|..];
    rewrite !map_app, !concat_app; cbn; rewrite ?app_nil_r.
  - rewrite app_length. cbn. split; [|lia]. rewrite IH. now rewrite app_assoc.
  - cbn in Hc. split; [|lia]. rewrite IH, <- app_assoc. reflexivity.
Qed.
(** When nobody owns the mutex, elem_num_ is the number of stored items. *)
Lemma minv_size m c : minv m c -> q_lock (m_queue m) = None -> q_num (m_queue m) = Z.of_nat (length c).
Proof. intros [_ _ Q] L. rewrite L in Q. destruct Q as (_ & Q). destruct Q. lia. Qed.

(* --------------------------------------------------------------- call by call *)
(** What a thread has done so far in a call, from where it is. *)
Definition progress (o : qop (A:=A)) (fs : list (effect (A:=A))) (pc : qpc) : Prop :=
  match pc with
  | ELock x | ETest x | EWait x | EStore x => o = OEnqueue x /\ fs = []
  | ETail | ENum | ENotify | EUnlock => exists x, o = OEnqueue x /\ fs = [Put x]
  | BLock xs | BTest xs | BNotify xs | BPark xs | BWait xs | BTail xs | BNum xs =>
    exists ys, o = OEnqueues (ys ++ xs) /\ fs = map Put ys
  | BStore x xs => exists ys, o = OEnqueues (ys ++ x :: xs) /\ fs = map Put ys
  | BNotifyAll | BUnlock => exists ys, o = OEnqueues ys /\ fs = map Put ys
  | DLock | DTest | DWait | DRead => o = ODequeue /\ fs = []
  | DHead x | DNum x | DNotify x | DUnlock x => o = ODequeue /\ fs = [Take x]
  | VLock n f | VTest n f | VWait n f => o = ODequeues n f /\ fs = []
  | VLoop n f l => o = ODequeues n f /\ fs = map Take l /\ (length l <= n)%nat
  | VNotify n f l | VPark n f l | VForced n f l | VRead n f l => o = ODequeues n f /\ fs = map Take l /\ (length l < n)%nat
  | VHead n f l | VNum n f l => o = ODequeues n f /\ fs = map Take l /\ (length l <= n)%nat
  | VNotifyAll n f l | VUnlock n f l => o = ODequeues n f /\ fs = map Take l /\ (length l <= n)%nat /\ (n <> O -> l <> [])
  end.
Lemma qnext_progress t w q pc q' r es o fs : unf pc -> (holds pc = true -> knows q pc) -> progress o fs pc -> qnext null t w q pc = Some (q', r, es) ->
  match r with Goes pc' => progress o (fs ++ es) pc' | Returns l => done o (fs ++ es) l end.
Proof.
  intros U K P E. destruct pc; cbn [qnext] in E; cbn [progress] in P; cbn [holds knows] in K; try specialize (K eq_refl); cbn [unf] in U; try contradiction;
    repeat match type of E with
    | bind ?a _ = _ => destruct a eqn:?; [|discriminate]; cbn [bind] in E
    | (if ?b then _ else _) = _ => destruct b eqn:?
    | match ?l with [] => _ | _ :: _ => _ end = _ => destruct l eqn:?
    end; inversion E; subst; clear E; rewrite ?app_nil_r; cbn [progress done].
  all: repeat match goal with H : exists _, _ |- _ => destruct H | H : _ /\ _ |- _ => destruct H end; subst; cbn [done map app length] in *; eauto 10.
  all: try solve [repeat split; auto; lia].
  all: try (rewrite app_nil_r in *; eauto).
  all: try (eexists; split; [reflexivity|]; now rewrite map_app).
  all: try (split; [reflexivity|]; rewrite map_app, ?app_length; cbn; split; [reflexivity|lia]).
  all: try (eexists (_ ++ [_]); rewrite <- app_assoc; cbn; split; [reflexivity|]; now rewrite map_app).
  all: try (exists n, f; repeat split; auto; apply Nat.ltb_lt in Heqb; lia).
  all: split; [reflexivity|]; split; [reflexivity|]; split; [assumption|]; intros Hn ->; cbn in *;
    try specialize (K eq_refl); try discriminate; try lia.
  all: destruct n; [congruence|discriminate].
Qed.

(** The threads alternate calls and returns. *)
Definition thread_ok (m : machine (A:=A)) (vs : list (event (A:=A))) : Prop :=
  forall t, match nth_error (m_threads m) t with
            | Some (Some pc) => exists o fs, inside t o fs vs /\ progress o fs pc
            | _ => idle t vs
            end.
Lemma other_events t u fs : u <> t -> Forall (other (A:=A) t) (map (EvEffect u) fs).
Proof. intros H. induction fs; constructor; auto. Qed.
Lemma idle_others t l vs : idle (A:=A) t l -> Forall (other t) vs -> idle t (l ++ vs).
Proof.
  intros H F. revert l H. induction F as [|v vs Hv _ IH]; intros l H; [now rewrite app_nil_r|].
  change (v :: vs) with ([v] ++ vs). rewrite app_assoc. apply IH. now constructor.
Qed.
Lemma inside_others t o fs l vs : inside (A:=A) t o fs l -> Forall (other t) vs -> inside t o fs (l ++ vs).
Proof.
  intros H F. revert l H. induction F as [|v vs Hv _ IH]; intros l H; [now rewrite app_nil_r|].
  change (v :: vs) with ([v] ++ vs). rewrite app_assoc. apply IH. now constructor.
Qed.
Lemma inside_effects t o fs l es : inside (A:=A) t o fs l -> inside t o (fs ++ es) (l ++ map (EvEffect t) es).
Proof.
  revert fs l. induction es as [|f es IH]; intros fs l H; [now rewrite !app_nil_r|].
  cbn [map]. change (f :: es) with ([f] ++ es). change (EvEffect t f :: map (EvEffect t) es) with ([EvEffect t f] ++ map (EvEffect t) es).
  rewrite !app_assoc. apply IH. now constructor.
Qed.

Lemma mnext_threads a m c m' vs l : minv m c -> thread_ok m l -> mnext null a m = Some (m', vs) -> thread_ok m' (l ++ vs).
Proof.
  intros I T E. destruct a as [t o|t w|t]; cbn [mnext] in E.
  - destruct (nth_error (m_threads m) t) as [[pc|]|] eqn:Ht; try discriminate.
    destruct (wr (m_threads m) t (Some (entry o))) as [th|] eqn:W; [|discriminate]. cbn [bind] in E. inversion E; subst; clear E.
    apply wr_spec in W as (W1 & W2 & W3 & W4). intros u. cbn [m_threads]. specialize (T u). destruct (Nat.eq_dec u t) as [->|Ne].
    + rewrite W3. rewrite Ht in T. exists o, []. split; [now constructor|]. destruct o; cbn; auto; now exists [].
    + rewrite W4 by assumption. assert (F : Forall (other u) [EvCall t o]) by (repeat constructor; cbn; congruence).
      destruct (nth_error (m_threads m) u) as [[pc|]|]; try now apply idle_others.
      destruct T as (o' & fs & T1 & T2). exists o', fs. split; [now apply inside_others|exact T2].
  - destruct (nth_error (m_threads m) t) as [[pc|]|] eqn:Ht; try discriminate.
    destruct (qnext null t w (m_queue m) pc) as [[[q' r] fs]|] eqn:Qn; [|discriminate]. cbn [bind] in E.
    pose proof (minv_at m c t pc I Ht (needs_free _ _ _ _ _ Qn)) as Qi.
    pose proof (T t) as Tt. rewrite Ht in Tt. destruct Tt as (o & ds & T1 & T2).
    assert (K : holds pc = true -> knows (m_queue m) pc).
    { intros H. unfold at_pc in Qi. rewrite H in Qi. apply Qi. }
    pose proof (qnext_progress t w _ pc q' r fs o ds (v_unf m c I _ _ Ht) K T2 Qn) as Pr.
    assert (Oth : forall th vs', (forall u, u <> t -> nth_error th u = nth_error (m_threads m) u) -> forall u, u <> t -> Forall (other u) vs' ->
      match nth_error th u with Some (Some pc) => exists o fs, inside u o fs (l ++ vs') /\ progress o fs pc | _ => idle u (l ++ vs') end).
    { intros th vs' W u Ne F. rewrite W by exact Ne. specialize (T u). destruct (nth_error (m_threads m) u) as [[pc1|]|]; try now apply idle_others.
      destruct T as (o' & fs' & I1 & I2). exists o', fs'. split; [now apply inside_others|exact I2]. }
    destruct r as [pc'|r].
    + destruct (wr (m_threads m) t (Some pc')) as [th|] eqn:W; [|discriminate]. cbn [bind] in E. inversion E; subst; clear E.
      apply wr_spec in W as (W1 & W2 & W3 & W4). intros u. cbn [m_threads]. destruct (Nat.eq_dec u t) as [->|Ne].
      * rewrite W3. exists o, (ds ++ fs). split; [now apply inside_effects|exact Pr].
      * apply Oth; auto. apply other_events; congruence.
    + destruct (wr (m_threads m) t None) as [th|] eqn:W; [|discriminate]. cbn [bind] in E. inversion E; subst; clear E.
      apply wr_spec in W as (W1 & W2 & W3 & W4). intros u. cbn [m_threads]. destruct (Nat.eq_dec u t) as [->|Ne].
      * rewrite W3, app_assoc. eapply idle_return; [eapply inside_effects; exact T1|exact Pr].
      * apply Oth; auto. apply Forall_app. split; [apply other_events; congruence|]. repeat constructor. cbn. congruence.
  - inversion E; subst. now rewrite app_nil_r.
Qed.
Lemma thread_start junk k : thread_ok (start (A:=A) junk k) [].
Proof.
  intros t. destruct (nth_error (m_threads (start junk k)) t) as [[pc|]|] eqn:E; try constructor.
  apply nth_error_In, repeat_spec in E. discriminate.
Qed.
(** The mutex excludes. *)
Lemma minv_mutex m c t u pc pc' : minv m c -> nth_error (m_threads m) t = Some (Some pc) -> nth_error (m_threads m) u = Some (Some pc') ->
  holds pc = true -> holds pc' = true -> t = u.
Proof. intros I A1 A2 B1 B2. pose proof (v_lock m c I _ _ A1 B1). pose proof (v_lock m c I _ _ A2 B2). congruence. Qed.

(** A batch Dequeue takes its items in one go, the oldest ones, and as many as it asked for or all. *)
Definition batch_ok (cap : nat) (fs : list (effect (A:=A))) (c : list A) (pc : qpc) : Prop :=
  match pc with
  | VLoop n f l | VRead n f l | VHead n f l | VNum n f l => exists fs0, fs = fs0 ++ map Take l /\ fifo cap fs0 (l ++ c)
  | VNotifyAll n f l | VUnlock n f l => exists fs0, fs = fs0 ++ map Take l /\ fifo cap fs0 (l ++ c) /\ (length l = n \/ c = [])
  | _ => True
  end.
Lemma qnext_batch t w q pc c q' pc' es fs c' o ds :
  unf pc -> qinv q (at_pc t pc) c -> fifo (q_size q) fs c -> progress o ds pc ->
  batch_ok (q_size q) fs c pc -> qnext null t w q pc = Some (q', Goes pc', es) ->
  match es with [] => c' = c | [f] => eff_ok (q_size q) f c /\ c' = apply_eff f c | _ => False end ->
  batch_ok (q_size q) (fs ++ es) c' pc'.
Proof.
  intros U Q F P B E C.
  destruct pc; cbn [qnext] in E; cbn [unf] in U; try contradiction;
    unfold at_pc, qinv in Q; cbn [holds] in Q; cbn [batch_ok progress] in *;
    repeat match type of E with
    | bind ?a _ = _ => destruct a eqn:?; [|discriminate]; cbn [bind] in E
    | (if ?b then _ else _) = _ => destruct b eqn:?
    | match ?l with [] => _ | _ :: _ => _ end = _ => destruct l eqn:?
    end; inversion E; subst; clear E; cbn [batch_ok]; rewrite ?app_nil_r; try exact I; try discriminate; auto.
  all: try subst c'.
  all: try (exists fs; rewrite app_nil_r; split; [reflexivity|exact F]).
  all: try (destruct B as (fs0 & B1 & B2); exists fs0).
  all: try (split; [exact B1|]).
  all: try exact B2.
  all: try (split; [exact B2|]).
  all: try (destruct Q as (_ & _ & Rg & _); destruct Rg; cbn in *; right; destruct c; [reflexivity|cbn in *; lia]).
  all: try (left; destruct P as (_ & _ & P); apply Nat.ltb_ge in Heqb; lia).
  all: destruct C as (C & ->); destruct c as [|y c]; [discriminate|]; cbn in C; inversion C; subst; cbn [apply_eff tl];
    rewrite map_app, <- !app_assoc in *; cbn; split; [reflexivity|exact B2].
Qed.
Definition batches_ok (m : machine (A:=A)) (fs : list (effect (A:=A))) (c : list A) : Prop :=
  forall t pc, nth_error (m_threads m) t = Some (Some pc) -> holds pc = true -> batch_ok (q_size (m_queue m)) fs c pc.
Lemma mnext_batches a m c m' vs c' l fs : unforced a -> minv m c -> fifo (q_size (m_queue m)) fs c -> thread_ok m l -> batches_ok m fs c ->
  mnext null a m = Some (m', vs) ->
  match effects vs with [] => c' = c | [f] => eff_ok (q_size (m_queue m)) f c /\ c' = apply_eff f c | _ => False end ->
  batches_ok m' (fs ++ effects vs) c'.
Proof.
  intros Uf I F T B E C. destruct a as [t o|t w|t]; cbn [mnext] in E.
  - destruct (nth_error (m_threads m) t) as [[pc|]|] eqn:Ht; try discriminate.
    destruct (wr (m_threads m) t (Some (entry o))) as [th|] eqn:W; [|discriminate]. cbn [bind] in E. inversion E; subst; clear E.
    apply wr_spec in W as (W1 & W2 & W3 & W4). cbn in C. subst c'. intros u pc Hu Hh. cbn [m_threads m_queue] in *.
    rewrite app_nil_r. destruct (Nat.eq_dec u t) as [->|Ne].
    + rewrite W3 in Hu. inversion Hu; subst. destruct o; discriminate.
    + rewrite W4 in Hu by assumption. now apply (B u).
  - destruct (nth_error (m_threads m) t) as [[pc|]|] eqn:Ht; try discriminate.
    destruct (qnext null t w (m_queue m) pc) as [[[q' r] es]|] eqn:Qn; [|discriminate]. cbn [bind] in E.
    pose proof (minv_at m c t pc I Ht (needs_free _ _ _ _ _ Qn)) as Qi.
    pose proof (T t) as Tt. rewrite Ht in Tt. destruct Tt as (o & ds & T1 & T2).
    destruct (qnext_ok t w _ pc c q' r es (v_unf m c I _ _ Ht) Qi Qn) as (Sz' & _).
    assert (Lo : forall u pc', nth_error (m_threads m) u = Some (Some pc') -> u <> t -> holds pc' = true -> False).
    { intros u pc' Hu Ne Hh. pose proof (v_lock m c I _ _ Hu Hh) as Lu. destruct (holds pc) eqn:Hp.
      - pose proof (v_lock m c I _ _ Ht Hp). congruence.
      - pose proof (needs_free _ _ _ _ _ Qn Hp). congruence. }
    assert (Fe : effects (map (EvEffect t) es) = es) by (clear; unfold effects; induction es; cbn in *; congruence).
    destruct r as [pc'|r].
    + destruct (wr (m_threads m) t (Some pc')) as [th|] eqn:W; [|discriminate]. cbn [bind] in E. inversion E; subst; clear E.
      apply wr_spec in W as (W1 & W2 & W3 & W4). rewrite Fe in *. intros u pc1 Hu Hh. cbn [m_threads m_queue] in *. destruct (Nat.eq_dec u t) as [->|Ne].
      * rewrite W3 in Hu. inversion Hu; subst. rewrite Sz'. eapply qnext_batch; eauto; [apply (v_unf m c I _ _ Ht)|].
        destruct (holds pc) eqn:Hp; [now apply (B t)|destruct pc; cbn in *; try discriminate; exact Logic.I].
      * rewrite W4 in Hu by assumption. exfalso. eapply Lo; eauto.
    + destruct (wr (m_threads m) t None) as [th|] eqn:W; [|discriminate]. cbn [bind] in E. inversion E; subst; clear E.
      apply wr_spec in W as (W1 & W2 & W3 & W4). intros u pc1 Hu Hh. cbn [m_threads m_queue] in *. destruct (Nat.eq_dec u t) as [->|Ne]; [congruence|].
      rewrite W4 in Hu by assumption. exfalso. eapply Lo; eauto.
  - inversion E; subst. cbn in C. subst c'. intros u pc Hu Hh. cbn [effects map concat]. rewrite app_nil_r. now apply (B u).
Qed.
Lemma mrun_all l : forall m c m' vs l0, Forall unforced l -> minv m c -> fifo (q_size (m_queue m)) (effects l0) c -> thread_ok m l0 -> batches_ok m (effects l0) c ->
  mrun null l m = Some (m', vs) ->
  q_size (m_queue m') = q_size (m_queue m) /\
  exists c', minv m' c' /\ fifo (q_size (m_queue m)) (effects (l0 ++ vs)) c' /\ thread_ok m' (l0 ++ vs) /\ batches_ok m' (effects (l0 ++ vs)) c'.
Proof.
  induction l as [|a l IH]; cbn [mrun]; intros m c m' vs l0 U I F T B E.
  - inversion E; subst. rewrite app_nil_r. split; [reflexivity|]. exists c. auto.
  - inversion U as [|? ? U1 U2]; subst. destruct (mnext null a m) as [[m1 e1]|] eqn:E1; [|discriminate]. cbn [bind] in E.
    destruct (mrun null l m1) as [[m2 e2]|] eqn:E2; [|discriminate]. cbn [bind] in E. inversion E; subst; clear E.
    destruct (mnext_ok a m c m1 e1 _ U1 eq_refl I E1) as (Sz & c1 & I1 & Fs). rewrite app_assoc.
    pose proof (mnext_threads a m c m1 e1 l0 I T E1) as T1.
    pose proof (mnext_batches a m c m1 e1 c1 l0 (effects l0) U1 I F T B E1 Fs) as B1. rewrite <- effects_app in B1.
    rewrite <- Sz. eapply IH; [exact U2|exact I1| |exact T1|exact B1|exact E2].
    rewrite Sz, effects_app. destruct (effects e1) as [|f [|f2 r]]; [|destruct Fs as (Fo & ->)|contradiction].
    + subst c1. now rewrite app_nil_r.
    + now apply eff_fifo.
Qed.
Lemma mrun_app l1 : forall l2 m m2 vs, mrun null (l1 ++ l2) m = Some (m2, vs) ->
  exists m1 v1 v2, mrun null l1 m = Some (m1, v1) /\ mrun null l2 m1 = Some (m2, v2) /\ vs = v1 ++ v2.
Proof.
  induction l1 as [|a l1 IH]; cbn [app mrun]; intros l2 m m2 vs E; [exists m, [], vs; auto|].
  destruct (mnext null a m) as [[m1 e1]|] eqn:E1; [|discriminate]. cbn [bind] in *.
  destruct (mrun null (l1 ++ l2) m1) as [[m3 e3]|] eqn:E3; [|discriminate]. cbn [bind] in E. inversion E; subst; clear E.
  destruct (IH _ _ _ _ E3) as (m4 & v1 & v2 & A1 & A2 & ->). exists m4, (e1 ++ v1), v2. rewrite A1. cbn. rewrite app_assoc. auto.
Qed.
End P.
