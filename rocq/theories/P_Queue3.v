(** Proofs about the blocking queue, part 3: the queue as its callers see it. *)
From Verif Require Import M_Base M_Queue S_Queue P_Queue P_Queue2.

(* ---------------------------------------------------------------- sums over lists *)
Fixpoint ssum {A} (f : A -> nat) (l : list A) : nat := match l with [] => O | x :: r => (f x + ssum f r)%nat end.
Lemma ssum_wr {A} (f : A -> nat) l : forall i x l' y, nth_error l i = Some y -> wr l i x = Some l' -> (ssum f l' + f y = ssum f l + f x)%nat.
Proof.
  induction l as [|z l IH]; intros [|i] x l' y H W; cbn in *; try discriminate.
  - inversion H; inversion W; subst. cbn. lia.
  - destruct (wr l i x) as [r|] eqn:E; [|discriminate]. cbn in W. inversion W; subst. cbn. specialize (IH i x r y H E). lia.
Qed.
Lemma ssum_app {A} (f : A -> nat) l r : ssum f (l ++ r) = (ssum f l + ssum f r)%nat.
Proof. induction l; cbn; lia. Qed.
Lemma ssum_in {A} (f : A -> nat) l x : In x l -> (f x <= ssum f l)%nat.
Proof. induction l as [|y l IH]; cbn; [tauto|]. intros [->|H]; [lia|]. specialize (IH H). lia. Qed.
Lemma ssum_nth {A} (f : A -> nat) l i x : nth_error l i = Some x -> (f x <= ssum f l)%nat.
Proof. intros H. apply ssum_in. now apply nth_error_In in H. Qed.
Lemma ssum_two {A} (f : A -> nat) l : forall i j x y, i <> j -> nth_error l i = Some x -> nth_error l j = Some y -> (f x + f y <= ssum f l)%nat.
Proof.
  induction l as [|z l IH]; intros [|i] [|j] x y N Hi Hj; cbn in *; try discriminate; try congruence.
  - inversion Hi; subst. pose proof (ssum_nth f l j y Hj). lia.
  - inversion Hj; subst. pose proof (ssum_nth f l i x Hi). lia.
  - assert (i <> j) by congruence. specialize (IH i j x y H Hi Hj). lia.
Qed.
Lemma ssum_zero {A} (f : A -> nat) l : (forall x, In x l -> f x = O) -> ssum f l = O.
Proof. induction l as [|y l IH]; cbn; intros H; [reflexivity|]. rewrite (H y) by now left. apply IH. auto. Qed.
Lemma ssum_ext {A} (f g : A -> nat) l : (forall x, In x l -> f x = g x) -> ssum f l = ssum g l.
Proof. induction l as [|y l IH]; cbn; intros H; [reflexivity|]. rewrite (H y) by now left. rewrite IH; auto. Qed.
Lemma ssum_le {A} (f g : A -> nat) l : (forall x, In x l -> (f x <= g x)%nat) -> (ssum f l <= ssum g l)%nat.
Proof. induction l as [|y l IH]; cbn; intros H; [lia|]. pose proof (H y ltac:(now left)). specialize (IH ltac:(auto)). lia. Qed.

Section P.
Context {A : Type}.
Variable null : A -> bool.
Notation queue := (queue (A:=A)). Notation qpc := (qpc (A:=A)).

(** A thread inside Enqueue(x) before and after it put x, inside Dequeue() before and after it took x. *)
Inductive aop := AEnq (x : A) | AEnqd | ADeq | ADeqd (x : A).
Definition absq (pc : qpc) : option aop :=
  match pc with
  | ELock x | ETest x | EWait x | EStore x => Some (AEnq x)
  | ETail | ENum | ENotify | EUnlock => Some AEnqd
  | DLock | DTest | DWait | DRead => Some ADeq
  | DHead x | DNum x | DNotify x | DUnlock x => Some (ADeqd x)
  | _ => None
  end.
Definition only_single (m : machine (A:=A)) : Prop := forall t pc, nth_error (m_threads m) t = Some (Some pc) -> absq pc <> None.
(** The operation thread [t] is in. *)
Definition top (m : machine (A:=A)) (t : nat) : option aop :=
  match nth_error (m_threads m) t with Some (Some pc) => absq pc | _ => None end.

(** Everything known about a queue used for single operations. *)
Record okq (m : machine (A:=A)) (cap k : nat) (c : list A) : Prop := {
  k_minv : minv m c; k_winv : winv m; k_single : only_single m;
  k_size : q_size (m_queue m) = cap; k_threads : length (m_threads m) = k
}.

Lemma okq_start junk k : (0 < length junk)%nat -> okq (start junk k) (length junk) k [].
Proof.
  intros J. constructor; [now apply minv_start|apply winv_start| |reflexivity|apply repeat_length].
  intros t pc Ht. apply nth_error_In, repeat_spec in Ht. discriminate.
Qed.
Lemma okq_cap m cap k c : okq m cap k c -> (0 < cap)%nat /\ (length c <= cap)%nat.
Proof.
  intros [I _ _ S _]. pose proof (v_queue m c I) as Q. destruct (q_lock (m_queue m)).
  - destruct Q as (pc & _ & _ & _ & R & _). destruct R. lia.
  - destruct Q as (_ & R). destruct R. lia.
Qed.

Definition single_op (o : qop (A:=A)) : option aop := match o with OEnqueue x => Some (AEnq x) | ODequeue => Some ADeq | _ => None end.
Lemma okq_call m cap k c t o m' vs : okq m cap k c -> single_op o <> None -> mnext null (Call t o) m = Some (m', vs) ->
  okq m' cap k c /\ top m t = None /\ top m' t = single_op o /\ (forall u, u <> t -> top m' u = top m u) /\
  nth_error (m_threads m) t = Some None /\ wr (m_threads m) t (Some (entry o)) = Some (m_threads m') /\ m_queue m' = m_queue m.
Proof.
  intros [I Wi Si Sz Th] So E.
  assert (Uf : unforced (Call t o)) by (destruct o; try exact Logic.I; cbn in So; congruence).
  assert (Us : useful (Call t o)) by (destruct o; try exact Logic.I; cbn in So; congruence).
  destruct (mnext_ok null _ m c m' vs cap Uf Sz I E) as (Sz' & c' & I' & Ec).
  pose proof (mnext_winv null _ m c m' vs Uf Us I Wi E) as Wi'.
  cbn [mnext] in E. destruct (nth_error (m_threads m) t) as [[pc|]|] eqn:Ht; try discriminate.
  destruct (wr (m_threads m) t (Some (entry o))) as [l|] eqn:W; [|discriminate]. cbn [bind] in E. inversion E; subst m' vs; clear E.
  cbn in Ec. subst c'. destruct (wr_spec _ _ _ _ W) as (W1 & W2 & W3 & W4).
  assert (Ab : absq (entry o) = single_op o) by (destruct o; reflexivity).
  assert (Tp : forall u, u <> t -> top (mkmach (m_queue m) l) u = top m u) by (intros u Hu; unfold top; cbn [m_threads]; now rewrite W4).
  split; [|split; [unfold top; now rewrite Ht|split; [|split; [exact Tp|auto]]]].
  - constructor; auto; [|cbn [m_threads]; congruence]. intros u pc Hu. cbn [m_threads] in Hu. destruct (Nat.eq_dec u t) as [->|Ne].
    + rewrite W3 in Hu. inversion Hu; subst. now rewrite Ab.
    + rewrite W4 in Hu by assumption. eauto.
  - unfold top. cbn [m_threads]. rewrite W3. exact Ab.
Qed.
Lemma okq_can_call m cap k c t o : okq m cap k c -> (t < k)%nat -> nth_error (m_threads m) t = Some None -> exists m' vs, mnext null (Call t o) m = Some (m', vs).
Proof.
  intros O Ht H. cbn [mnext]. rewrite H. destruct (wr_total (m_threads m) t (Some (entry o))) as (l & ->); [rewrite (k_threads _ _ _ _ O); exact Ht|]. cbn. eauto.
Qed.

(** One step of a thread inside a call, as the callers see it. *)
Inductive seen (c : list A) (cap : nat) : aop -> list A -> option aop -> option (list A) -> Prop :=
| seen_quiet a : seen c cap a c (Some a) None
| seen_put x : (length c < cap)%nat -> seen c cap (AEnq x) (c ++ [x]) (Some AEnqd) None
| seen_take x c' : c = x :: c' -> seen c cap ADeq c' (Some (ADeqd x)) None
| seen_enqd : seen c cap AEnqd c None (Some [])
| seen_deqd x : seen c cap (ADeqd x) c None (Some [x]).

Lemma okq_step m cap k c t w m' vs : okq m cap k c -> mnext null (Step t w) m = Some (m', vs) ->
  exists a c' a' r fs, top m t = Some a /\ okq m' cap k c' /\ top m' t = a' /\ (forall u, u <> t -> top m' u = top m u) /\
    (exists pc th, nth_error (m_threads m) t = Some (Some pc) /\ absq pc = Some a /\ wr (m_threads m) t th = Some (m_threads m') /\ match th with Some p => absq p | None => None end = a' /\
       (th = None <-> r <> None)) /\
    seen c cap a c' a' r /\ vs = map (EvEffect t) fs ++ match r with Some x => [EvReturn t x] | None => [] end.
Proof.
  intros [I Wi Si Sz Th] E.
  destruct (mnext_ok null (Step t w) m c m' vs cap Logic.I Sz I E) as (Sz' & c' & I' & Ec).
  pose proof (mnext_winv null (Step t w) m c m' vs Logic.I Logic.I I Wi E) as Wi'.
  cbn [mnext] in E. destruct (nth_error (m_threads m) t) as [[pc|]|] eqn:Ht; try discriminate.
  destruct (qnext null t w (m_queue m) pc) as [[[q' o] fs]|] eqn:Qn; [|discriminate]. cbn [bind] in E.
  pose proof (Si t pc Ht) as Sp. destruct (absq pc) as [a|] eqn:Ap; [|congruence].
  set (th := match o with Goes p => Some p | Returns _ => None end).
  set (r := match o with Goes _ => None | Returns r => Some r end).
  assert (exists l, wr (m_threads m) t th = Some l /\ m' = mkmach q' l /\ vs = map (EvEffect t) fs ++ match r with Some x => [EvReturn t x] | None => [] end) as (l & W & -> & Ev).
  { subst th r. destruct o; destruct (wr (m_threads m) t _) as [l|]; try discriminate; cbn [bind] in E; inversion E; subst; eexists; repeat split; try reflexivity. now rewrite app_nil_r. }
  clear E. destruct (wr_spec _ _ _ _ W) as (W1 & W2 & W3 & W4).
  set (a' := match th with Some p => absq p | None => None end).
  assert (Ef : effects vs = fs).
  { rewrite Ev, effects_app. replace (effects (map (EvEffect t) fs)) with fs; [destruct r; cbn; now rewrite app_nil_r|].
    clear. unfold effects. induction fs as [|f fs IH]; cbn; [reflexivity|]. now rewrite <- IH. }
  rewrite Ef in Ec.
  assert (Sn : seen c cap a c' a' r /\ match th with Some p => absq p <> None | None => True end).
  { clear - Qn Ap Ec. subst a' th r. destruct pc; cbn [absq] in Ap; try discriminate; inversion Ap; subst; clear Ap; cbn [qnext] in Qn; unfold store in Qn;
    repeat match type of Qn with
      | bind (bind ?a _) _ = _ => destruct a eqn:?; [|discriminate]; cbn [bind] in Qn
      | bind ?a _ = _ => destruct a eqn:?; [|discriminate]; cbn [bind] in Qn
      | (if ?b then _ else _) = _ => destruct b eqn:?
      end; inversion Qn; subst; cbn [absq]; (split; [|try discriminate; exact Logic.I]); try (subst c'; constructor); cbn in Ec.
    - destruct Ec as (Hl & ->). now constructor.
    - destruct Ec as (Hl & ->). destruct c as [|y c]; [discriminate|]. cbn in *. inversion Hl; subst. now constructor. }
  destruct Sn as (Sn & Np). exists a, c', a', r, fs.
  split; [unfold top; now rewrite Ht|]. split; [constructor; auto; [|cbn [m_threads]; congruence]|].
  - intros u p Hu. cbn [m_threads] in Hu. destruct (Nat.eq_dec u t) as [->|Ne].
    + rewrite W3 in Hu. inversion Hu as [Hu']. rewrite Hu' in Np. exact Np.
    + rewrite W4 in Hu by assumption. eauto.
  - split; [unfold top; cbn [m_threads]; now rewrite W3|]. split; [intros u Hu; unfold top; cbn [m_threads]; now rewrite W4|].
    split; [|split; [exact Sn|exact Ev]]. exists pc, th. repeat split; auto; subst th r; destruct o; congruence.
Qed.
Lemma okq_spurious m cap k c t m' vs : okq m cap k c -> mnext null (Spurious t) m = Some (m', vs) ->
  okq m' cap k c /\ m_threads m' = m_threads m /\ vs = [] /\ q_num (m_queue m') = q_num (m_queue m).
Proof.
  intros [I Wi Si Sz Th] E.
  destruct (mnext_ok null (Spurious t) m c m' vs cap Logic.I Sz I E) as (Sz' & c' & I' & Ec).
  pose proof (mnext_winv null (Spurious t) m c m' vs Logic.I Logic.I I Wi E) as Wi'.
  cbn [mnext] in E. inversion E; subst; clear E. cbn in Ec. subst c'. split; [constructor; auto|auto].
Qed.

(** elem_num_ read without the mutex. *)
Lemma okq_num m cap k c : okq m cap k c -> (forall t x, top m t = Some (AEnq x) -> False) -> (forall t, top m t = Some AEnqd -> False) -> Z.of_nat (length c) <= q_num (m_queue m).
Proof.
  intros [I _ Si _ _] N1 N2. pose proof (v_queue m c I) as Q. destruct (q_lock (m_queue m)) as [t|] eqn:L.
  - destruct Q as (pc & H & _ & _ & R & _). destruct R as [_ _ _ _ R _ _ _]. pose proof (Si t pc H) as Sp.
    specialize (N1 t). specialize (N2 t). unfold top in *. rewrite H in *.
    destruct pc; cbn in *; try congruence; try lia; exfalso; eauto.
  - destruct Q as (_ & R). destruct R. lia.
Qed.
Lemma okq_num_idle m cap k c : okq m cap k c -> (forall t, top m t = None) -> q_num (m_queue m) = Z.of_nat (length c).
Proof.
  intros [I _ Si _ _] N. apply (minv_size m c I). destruct (q_lock (m_queue m)) as [t|] eqn:L; [|reflexivity].
  pose proof (v_queue m c I) as Q. rewrite L in Q. destruct Q as (pc & H & _). specialize (N t). unfold top in N. rewrite H in N.
  now apply Si in H.
Qed.

(** A thread inside a call when no thread of the queue can go on. *)
Lemma okq_stuck m cap k c t a : okq m cap k c -> (forall t w, mnext null (Step t w) m = None) -> top m t = Some a ->
  (a = ADeq /\ c = []) \/ (length c = cap /\ exists x, a = AEnq x).
Proof.
  intros [I Wi Si Sz Th] St H. unfold top in H. destruct (nth_error (m_threads m) t) as [[pc|]|] eqn:E; try discriminate.
  destruct (stuck_kind null m c I Wi) as [N|[(Ec & N)|(Ec & N)]].
  - clear t a pc H E. intros t pc H. specialize (St t O). cbn [mnext] in St. rewrite H in St. destruct (qnext null t 0 (m_queue m) pc) as [[[q o] fs]|]; [|reflexivity].
    cbn [bind] in St. assert (L : (t < length (m_threads m))%nat) by (apply nth_error_Some; congruence).
    destruct o as [p|r]; [destruct (wr_total (m_threads m) t (Some p) L) as (l & El)|destruct (wr_total (m_threads m) t None L) as (l & El)]; rewrite El in St; discriminate.
  - destruct (N t pc E).
  - left. specialize (N t pc E). destruct pc; try discriminate; inversion H; auto.
  - right. specialize (N t pc E). split; [congruence|]. destruct pc; try discriminate; inversion H; eauto.
Qed.

(* ------------------------------------------------------------------------ counting *)
(** The weight of what is stored and of what threads have in their hands inside a call. *)
Definition aw (g : A -> nat) (a : option aop) : nat := match a with Some (AEnq x) | Some (ADeqd x) => g x | _ => O end.
Definition thw (g : A -> nat) (th : option qpc) : nat := match th with Some pc => aw g (absq pc) | None => O end.
Definition weight (g : A -> nat) (m : machine (A:=A)) (c : list A) : nat := (ssum g c + ssum (thw g) (m_threads m))%nat.
Lemma weight_call g m cap k c t o m' vs : okq m cap k c -> single_op o <> None -> mnext null (Call t o) m = Some (m', vs) ->
  weight g m' c = (weight g m c + match o with OEnqueue x => g x | _ => O end)%nat.
Proof.
  intros O So E. destruct (okq_call _ _ _ _ _ _ _ _ O So E) as (_ & _ & _ & _ & N & W & _).
  unfold weight. pose proof (ssum_wr (thw g) _ _ _ _ _ N W) as Q. destruct o; cbn in *; try congruence; lia.
Qed.
Lemma weight_step g m cap k c t w m' vs a c' a' r fs : okq m cap k c -> mnext null (Step t w) m = Some (m', vs) ->
  top m t = Some a ->
  (exists pc th, nth_error (m_threads m) t = Some (Some pc) /\ absq pc = Some a /\ wr (m_threads m) t th = Some (m_threads m') /\ match th with Some p => absq p | None => None end = a' /\
       (th = None <-> r <> None)) ->
  seen c cap a c' a' r -> vs = map (EvEffect t) fs ++ match r with Some x => [EvReturn t x] | None => [] end ->
  (weight g m' c' + match r with Some l => ssum g l | None => O end = weight g m c)%nat.
Proof.
  intros O E T (pc & th & N & Ap & W & Ath & _) S _. pose proof (ssum_wr (thw g) _ _ _ _ _ N W) as Q.
  assert (Q1 : thw g th = aw g a') by (rewrite <- Ath; destruct th; reflexivity). cbn [thw] in Q. rewrite Ap, Q1 in Q. unfold weight.
  destruct S; cbn [aw ssum] in *; rewrite ?ssum_app; subst; cbn [ssum] in *; lia.
Qed.
Lemma weight_spurious g m cap k c t m' vs : okq m cap k c -> mnext null (Spurious t) m = Some (m', vs) -> weight g m' c = weight g m c.
Proof. intros O E. destruct (okq_spurious _ _ _ _ _ _ _ O E) as (_ & Th & _). unfold weight. now rewrite Th. Qed.
Lemma weight_in g m c x : In x c -> (g x <= weight g m c)%nat.
Proof. intros H. pose proof (ssum_in g c x H). unfold weight. lia. Qed.
Lemma weight_top g m c t a : top m t = Some a -> (aw g (Some a) <= weight g m c)%nat.
Proof.
  unfold top. destruct (nth_error (m_threads m) t) as [[pc|]|] eqn:E; try discriminate. intros H.
  pose proof (ssum_nth (thw g) _ _ _ E) as Q. cbn [thw] in Q. rewrite H in Q. unfold weight. lia.
Qed.

(* -------------------------------------------------------------------- termination *)
(** An upper bound for the number of steps the threads inside calls can still make, if nobody is woken
    for no reason. *)
Definition rank1 (T : nat) (q : queue) (t : nat) (th : option qpc) : nat :=
  let W := (2 * T + 2)%nat in
  match th with
  | None => 0
  | Some pc =>
    match pc with
    | ELock _ | DLock => W + 9
    | EWait _ => if existsb (Nat.eqb t) (q_wfull q) then W + 6 else W + 8
    | DWait => if existsb (Nat.eqb t) (q_wempty q) then W + 6 else W + 8
    | ETest _ | DTest => W + 7
    | EStore _ | DRead => W + 5
    | ETail | DHead _ => W + 4
    | ENum | DNum _ => W + 3
    | ENotify | DNotify _ => W + 2
    | EUnlock | DUnlock _ => 1
    | _ => 0
    end
  end%nat.
Fixpoint rank_from (T : nat) (q : queue) (t : nat) (l : list (option qpc)) : nat :=
  match l with [] => O | th :: r => (rank1 T q t th + rank_from T q (S t) r)%nat end.
Definition rank (m : machine (A:=A)) : nat := rank_from (length (m_threads m)) (m_queue m) 0 (m_threads m).

Lemma rank_from_le T d q q' l : forall t l', length l' = length l ->
  (forall i a b, nth_error l i = Some a -> nth_error l' i = Some b -> (rank1 T q' (t + i) b <= rank1 T q (t + i) a + d)%nat) ->
  (rank_from T q' t l' <= rank_from T q t l + d * length l)%nat.
Proof.
  induction l as [|a l IH]; intros t [|b l'] L H; try discriminate; cbn [rank_from length] in *; [lia|].
  pose proof (H O a b eq_refl eq_refl) as H0. rewrite Nat.add_0_r in H0.
  assert (rank_from T q' (S t) l' <= rank_from T q (S t) l + d * length l)%nat; [|lia].
  apply IH; [lia|]. intros i x y Hx Hy. specialize (H (S i) x y Hx Hy). now rewrite Nat.add_succ_r in H.
Qed.
Lemma rank_from_one T d q q' l : forall t i l' a b, length l' = length l -> nth_error l i = Some a -> nth_error l' i = Some b ->
  (forall j x y, j <> i -> nth_error l j = Some x -> nth_error l' j = Some y -> (rank1 T q' (t + j) y <= rank1 T q (t + j) x + d)%nat) ->
  (rank_from T q' t l' + rank1 T q (t + i) a <= rank_from T q t l + rank1 T q' (t + i) b + d * (length l - 1))%nat.
Proof.
  induction l as [|c l IH]; intros t [|i] [|e l'] a b L Ha Hb H; try discriminate; cbn [rank_from nth_error length] in *.
  - inversion Ha; inversion Hb; subst. rewrite !Nat.add_0_r.
    assert (rank_from T q' (S t) l' <= rank_from T q (S t) l + d * length l)%nat; [|replace (S (length l) - 1)%nat with (length l) by lia; lia].
    apply rank_from_le; [lia|]. intros j x y Hx Hy. specialize (H (S j) x y ltac:(lia) Hx Hy). now rewrite Nat.add_succ_r in H.
  - assert (Ll : (0 < length l)%nat) by (destruct l; [destruct i; discriminate|cbn; lia]).
    assert (Q : (rank_from T q' (S t) l' + rank1 T q (S t + i) a <= rank_from T q (S t) l + rank1 T q' (S t + i) b + d * (length l - 1))%nat).
    { apply IH; auto. intros j x y Hj Hx Hy. specialize (H (S j) x y ltac:(lia) Hx Hy). now rewrite Nat.add_succ_r in H. }
    pose proof (H O c e ltac:(lia) eq_refl eq_refl) as H0. rewrite Nat.add_0_r in H0. rewrite !Nat.add_succ_r. cbn [Nat.add] in Q. nia.
Qed.
Lemma rank_step m cap k c t w m' vs : okq m cap k c -> mnext null (Step t w) m = Some (m', vs) -> (rank m' < rank m)%nat.
Proof.
  intros [I Wi Si Sz Th] E. cbn [mnext] in E. destruct (nth_error (m_threads m) t) as [[pc|]|] eqn:Ht; try discriminate.
  destruct (qnext null t w (m_queue m) pc) as [[[q' o] fs]|] eqn:Qn; [|discriminate]. cbn [bind] in E.
  set (th := match o with Goes p => Some p | Returns _ => None end).
  assert (exists l, wr (m_threads m) t th = Some l /\ m' = mkmach q' l) as (l & W & ->).
  { subst th. destruct o; destruct (wr (m_threads m) t _) as [l|]; try discriminate; cbn [bind] in E; inversion E; subst; eauto. }
  destruct (wr_spec _ _ _ _ W) as (W1 & W2 & W3 & W4). set (T := length (m_threads m)) in *.
  assert (D : exists d, (forall j x, j <> t -> (rank1 T q' j x <= rank1 T (m_queue m) j x + d)%nat) /\
             (rank1 T q' t th + d * (T - 1) < rank1 T (m_queue m) t (Some pc))%nat).
  { pose proof (Si t pc Ht) as Sp. subst th. clear - Qn Sp W1.
    destruct pc; cbn [absq] in Sp; try congruence; clear Sp; cbn [qnext] in Qn; unfold store, wake, acquire in Qn;
    repeat match type of Qn with
      | bind (if ?b then _ else _) _ = _ => destruct b eqn:?; [discriminate|]
      | bind (match ?b with Some _ => _ | None => _ end) _ = _ => destruct b eqn:?; [discriminate|]; cbn [bind] in Qn
      | bind (bind ?a _) _ = _ => destruct a eqn:?; [|discriminate]; cbn [bind] in Qn
      | bind (Some ?a) _ = _ => cbn [bind] in Qn
      | bind ?a _ = _ => destruct a eqn:?; [|discriminate]; cbn [bind] in Qn
      | (if ?b then _ else _) = _ => destruct b eqn:?
      end; inversion Qn; subst; cbn [rank1];
      first
      [ exists O; split; [intros j z Hj; rewrite Nat.add_0_r; destruct z as [p|]; [destruct p|]; cbn; try lia;
          (destruct (Nat.eqb_spec j t); [congruence|cbn; lia])
        | cbn; repeat match goal with H : existsb _ _ = _ |- _ => rewrite H end; rewrite ?Nat.eqb_refl; cbn; lia ]
      | exists 2%nat; split; [intros j z Hj; destruct z as [p|]; [destruct p|]; cbn;
          repeat match goal with |- context [if ?b then _ else _] => destruct b end; lia
        | cbn; repeat match goal with H : existsb _ _ = _ |- _ => rewrite H end; lia ] ]. }
  destruct D as (d & D1 & D2). unfold rank. cbn [m_threads m_queue]. rewrite W2. fold T.
  assert (Q : (rank_from T q' 0 l + rank1 T (m_queue m) (0 + t) (Some pc) <= rank_from T (m_queue m) 0 (m_threads m) + rank1 T q' (0 + t) th + d * (T - 1))%nat).
  { apply rank_from_one; auto. intros j x y Hj Hx Hy. rewrite W4 in Hy by assumption. assert (x = y) by congruence. subst y. apply D1. exact Hj. }
  cbn [Nat.add] in Q. lia.
Qed.
Lemma rank_call m cap k c t o m' vs : okq m cap k c -> single_op o <> None -> mnext null (Call t o) m = Some (m', vs) ->
  (rank m' <= rank m + (2 * k + 11))%nat.
Proof.
  intros O So E. destruct (okq_call _ _ _ _ _ _ _ _ O So E) as (O' & _ & _ & _ & N & W & Q). unfold rank. rewrite Q.
  rewrite (k_threads _ _ _ _ O), (k_threads _ _ _ _ O'). destruct (wr_spec _ _ _ _ W) as (W1 & W2 & W3 & W4).
  assert (R : (rank_from k (m_queue m) 0 (m_threads m') + rank1 k (m_queue m) (0 + t) None <= rank_from k (m_queue m) 0 (m_threads m) + rank1 k (m_queue m) (0 + t) (Some (entry o)) + 0 * (length (m_threads m) - 1))%nat).
  { apply rank_from_one; auto. intros j x y Hj Hx Hy. rewrite W4 in Hy by assumption. assert (x = y) by congruence. subst y. lia. }
  destruct o; cbn in *; try congruence; lia.
Qed.
Lemma rank_spurious m cap k c t m' vs : okq m cap k c -> mnext null (Spurious t) m = Some (m', vs) -> (rank m' <= rank m + 2 * k)%nat.
Proof.
  intros O E. destruct (okq_spurious _ _ _ _ _ _ _ O E) as (O' & Th & _). cbn [mnext] in E. inversion E; subst m'. unfold rank. cbn [m_threads m_queue].
  pose proof (k_threads _ _ _ _ O) as <-. apply rank_from_le; [reflexivity|]. intros i a b Ha Hb. assert (a = b) by congruence. subst b.
  destruct a as [p|]; [destruct p|]; cbn [rank1]; try lia; repeat match goal with |- context [if ?b then _ else _] => destruct b end; lia.
Qed.
End P.
