(** Proofs about the blocking queue, part 2: no wake-up is lost. *)
From Verif Require Import M_Base M_Queue S_Queue P_Queue.

Section P.
Context {A : Type}.
Variable null : A -> bool.
Notation queue := (queue (A:=A)). Notation qpc := (qpc (A:=A)).

(** Blocked in nonempty_.wait() / nonfull_.wait(). *)
Definition on_empty (pc : qpc) : bool := match pc with DWait | VWait _ _ => true | _ => false end.
Definition on_full (pc : qpc) : bool := match pc with EWait _ | BWait _ => true | _ => false end.
(** Number of consumers that were woken and have not run yet. *)
Definition awake1 (q : queue) (t : nat) (th : option qpc) : nat :=
  match th with Some pc => if on_empty pc && negb (existsb (Nat.eqb t) (q_wempty q)) then 1 else 0 | None => 0 end.
Fixpoint awake_from (q : queue) (t : nat) (l : list (option qpc)) : nat :=
  match l with [] => O | th :: r => (awake1 q t th + awake_from q (S t) r)%nat end.
Definition awake (m : machine (A:=A)) : nat := awake_from (m_queue m) 0 (m_threads m).

(** The owner of the mutex will wake everybody waiting for room / for items. *)
Definition wakes_full (pc : qpc) : bool :=
  match pc with DNotify _ | VLoop _ _ _ | VRead _ _ _ | VHead _ _ _ | VNum _ _ _ | VNotifyAll _ _ _ => true | _ => false end.
Definition wakes_empty (pc : qpc) : bool :=
  match pc with BTest _ | BNotify _ | BStore _ _ | BTail _ | BNum _ | BNotifyAll => true | _ => false end.
(** The owner will wake one consumer, or is a consumer itself. *)
Definition slack (pc : qpc) : nat :=
  match pc with
  | ENotify | DTest | DRead | DHead _ | DNum _ | VTest _ _ => 1
  | VLoop _ _ l | VRead _ _ l => match l with [] => 1 | _ => 0 end
  | VHead _ _ l | VNum _ _ l => if (length l =? 1)%nat then 1 else 0
  | _ => 0
  end.
Definition owner (m : machine (A:=A)) : option qpc :=
  match q_lock (m_queue m) with
  | Some t => match nth_error (m_threads m) t with Some o => o | None => None end
  | None => None
  end.
Definition oslack (o : option qpc) : nat := match o with Some pc => slack pc | None => 0 end.
Definition owill (f : qpc -> bool) (o : option qpc) : bool := match o with Some pc => f pc | None => false end.
(** Batch Dequeue calls for at least one item. *)
Definition posn (pc : qpc) : Prop :=
  match pc with
  | VLock n _ | VTest n _ | VWait n _ | VLoop n _ _ | VNotify n _ _ | VPark n _ _ | VForced n _ _ | VRead n _ _
  | VHead n _ _ | VNum n _ _ | VNotifyAll n _ _ | VUnlock n _ _ => n <> O
  | _ => True
  end.
(** More that the owner knows. *)
Definition knows2 (q : queue) (pc : qpc) : Prop :=
  match pc with
  | BNotify _ | BPark _ => full q = true
  | _ => True
  end /\ match pc with BPark _ | BUnlock => q_wempty q = [] | VNotifyAll n f l | VUnlock n f l => l <> [] | _ => True end.

Record winv (m : machine (A:=A)) : Prop := {
  w_nodup : NoDup (q_wempty (m_queue m));
  w_empty : forall t, In t (q_wempty (m_queue m)) -> exists pc, nth_error (m_threads m) t = Some (Some pc) /\ on_empty pc = true;
  w_pos : forall t pc, nth_error (m_threads m) t = Some (Some pc) -> posn pc;
  w_knows : forall t pc, nth_error (m_threads m) t = Some (Some pc) -> holds pc = true -> knows2 (m_queue m) pc;
  w_items : q_wempty (m_queue m) <> [] -> owill wakes_empty (owner m) = true \/
            q_num (m_queue m) <= Z.of_nat (awake m + oslack (owner m));
  w_full : q_wfull (m_queue m) <> [] -> owill wakes_full (owner m) = true \/ full (m_queue m) = true
}.

Lemma awake_from_eq q q' l : forall t l', length l' = length l ->
  (forall i a b, nth_error l i = Some a -> nth_error l' i = Some b -> awake1 q' (t + i) b = awake1 q (t + i) a) ->
  awake_from q' t l' = awake_from q t l.
Proof.
  induction l as [|a l IH]; intros t [|b l'] L H; try discriminate; [reflexivity|]. cbn [awake_from].
  rewrite <- (Nat.add_0_r t) at 1 3. rewrite (H O a b eq_refl eq_refl), Nat.add_0_r. f_equal. apply IH; [now inversion L|].
  intros i x y Hx Hy. specialize (H (S i) x y Hx Hy). now rewrite Nat.add_succ_r in H.
Qed.
(** Changing one thread. *)
Lemma awake_from_one q q' l : forall t i l' a b, length l' = length l -> nth_error l i = Some a -> nth_error l' i = Some b ->
  (forall j x y, j <> i -> nth_error l j = Some x -> nth_error l' j = Some y -> awake1 q' (t + j) y = awake1 q (t + j) x) ->
  (awake_from q' t l' + awake1 q (t + i) a = awake_from q t l + awake1 q' (t + i) b)%nat.
Proof.
  induction l as [|c l IH]; intros t [|i] [|d l'] a b L Ha Hb H; try discriminate; cbn [awake_from nth_error] in *.
  - inversion Ha; inversion Hb; subst. rewrite !Nat.add_0_r. rewrite (awake_from_eq q q' l (S t) l'); [lia|now inversion L|].
    intros j x y Hx Hy. specialize (H (S j) x y ltac:(lia) Hx Hy). now rewrite Nat.add_succ_r in H.
  - specialize (IH (S t) i l' a b ltac:(now inversion L) Ha Hb). rewrite !Nat.add_succ_r in *. cbn [Nat.add] in *.
    pose proof (H O c d ltac:(lia) eq_refl eq_refl) as H0. rewrite Nat.add_0_r in H0.
    enough (awake_from q' (S t) l' + awake1 q (S (t + i)) a = awake_from q (S t) l + awake1 q' (S (t + i)) b)%nat by lia.
    apply IH. intros j x y Hj Hx Hy. specialize (H (S j) x y ltac:(lia) Hx Hy). now rewrite Nat.add_succ_r in H.
Qed.

Lemma existsb_in t l : existsb (Nat.eqb t) l = true <-> In t l.
Proof.
  rewrite existsb_exists. split; [intros (x & H & E); apply Nat.eqb_eq in E; congruence|intros H; exists t; split; [exact H|apply Nat.eqb_refl]].
Qed.
Definition oholds (th : option qpc) : bool := match th with Some pc => holds pc | None => false end.
Definition mine (pc : qpc) : option qpc := if holds pc then Some pc else None.

Lemma awake_step (m : machine (A:=A)) t pc th' q' l' : nth_error (m_threads m) t = Some (Some pc) -> wr (m_threads m) t th' = Some l' ->
  (forall u, u <> t -> In u (q_wempty q') <-> In u (q_wempty (m_queue m))) ->
  (awake (mkmach q' l') + awake1 (m_queue m) t (Some pc) = awake m + awake1 q' t th')%nat.
Proof.
  intros H W E. apply wr_spec in W as (W1 & W2 & W3 & W4). unfold awake. cbn [m_queue m_threads].
  apply (awake_from_one (m_queue m) q' (m_threads m) 0 t l' (Some pc) th'); auto.
  intros j x y Hj Hx Hy. rewrite W4 in Hy by assumption. assert (x = y) by congruence. subst y. destruct x as [pc1|]; [|reflexivity].
  cbn [awake1]. replace (existsb (Nat.eqb (0 + j)) (q_wempty q')) with (existsb (Nat.eqb (0 + j)) (q_wempty (m_queue m))); [reflexivity|].
  cbn [Nat.add]. apply Bool.eq_iff_eq_true. rewrite !existsb_in. symmetry. now apply E.
Qed.
Lemma owner_before m c t pc : minv m c -> nth_error (m_threads m) t = Some (Some pc) ->
  (holds pc = false -> q_lock (m_queue m) = None) -> owner m = mine pc.
Proof.
  intros I H F. unfold owner, mine. destruct (holds pc) eqn:Hp.
  - rewrite (v_lock m c I _ _ H Hp), H. reflexivity.
  - now rewrite (F eq_refl).
Qed.
Lemma owner_after (m : machine (A:=A)) t th' q' l' : wr (m_threads m) t th' = Some l' -> q_lock q' = (if oholds th' then Some t else None) ->
  owner (mkmach q' l') = if oholds th' then th' else None.
Proof.
  intros W L. apply wr_spec in W as (_ & _ & W3 & _). unfold owner. cbn [m_queue m_threads]. rewrite L.
  destruct (oholds th'); [now rewrite W3|reflexivity].
Qed.

Lemma wstep m c t pc th' q' l' : minv m c -> winv m -> nth_error (m_threads m) t = Some (Some pc) -> wr (m_threads m) t th' = Some l' ->
  (holds pc = false -> q_lock (m_queue m) = None) -> q_lock q' = (if oholds th' then Some t else None) ->
  (on_empty pc = true -> ~ In t (q_wempty (m_queue m))) ->
  (q_wempty q' = q_wempty (m_queue m) \/ q_wempty q' = [] \/
   (q_wempty q' = t :: q_wempty (m_queue m) /\ match th' with Some p => on_empty p = true | None => False end)) ->
  (match th' with Some p => posn p /\ (holds p = true -> knows2 q' p) | None => True end) ->
  (q_wempty q' <> [] -> (q_wempty (m_queue m) <> [] -> owill wakes_empty (mine pc) = true \/ q_num (m_queue m) <= Z.of_nat (awake m + oslack (mine pc))) ->
     owill wakes_empty (if oholds th' then th' else None) = true \/
     q_num q' + Z.of_nat (awake1 (m_queue m) t (Some pc)) <= Z.of_nat (awake m + awake1 q' t th' + oslack (if oholds th' then th' else None))) ->
  (q_wfull q' <> [] -> (q_wfull (m_queue m) <> [] -> owill wakes_full (mine pc) = true \/ full (m_queue m) = true) ->
     owill wakes_full (if oholds th' then th' else None) = true \/ full q' = true) ->
  winv (mkmach q' l').
Proof.
  intros I Wi H W F L Ne Em Pk It Fu. pose proof (owner_before m c t pc I H F) as Ob. pose proof (owner_after m t th' q' l' W L) as Oa.
  pose proof (wr_spec _ _ _ _ W) as (W1 & W2 & W3 & W4).
  assert (Nt : ~ In t (q_wempty (m_queue m))).
  { intros Hi. destruct (w_empty m Wi t Hi) as (p & Hp & Hp'). rewrite H in Hp. inversion Hp; subst. now apply Ne. }
  assert (Eo : q_wempty q' <> [] -> forall u, u <> t -> In u (q_wempty q') <-> In u (q_wempty (m_queue m))).
  { intros Nn u Hu. destruct Em as [Em|[Em|(Em & _)]]; rewrite Em in *; [tauto|congruence|]. split; [intros [Q|Q]; [congruence|exact Q]|now right]. }
  constructor; cbn [m_queue m_threads].
  - destruct Em as [->|[->|(-> & _)]]; [apply Wi|constructor|constructor; [exact Nt|apply Wi]].
  - intros u Hu. destruct (Nat.eq_dec u t) as [->|Hn].
    + destruct Em as [Em|[Em|(Em & P)]]; rewrite Em in Hu; [contradiction|contradiction|].
      destruct th' as [p|]; [|contradiction]. exists p. split; [exact W3|exact P].
    + rewrite W4 by assumption. apply (w_empty m Wi). apply Eo; auto. intros Q. rewrite Q in Hu. contradiction.
  - intros u p Hu. destruct (Nat.eq_dec u t) as [->|Hn]; [rewrite W3 in Hu; inversion Hu; subst; apply Pk|].
    rewrite W4 in Hu by assumption. now apply (w_pos m Wi u).
  - intros u p Hu Hh. destruct (Nat.eq_dec u t) as [->|Hn]; [rewrite W3 in Hu; inversion Hu; subst; now apply Pk|].
    rewrite W4 in Hu by assumption. exfalso. pose proof (v_lock m c I _ _ Hu Hh) as Lu. destruct (holds pc) eqn:Hp.
    + pose proof (v_lock m c I _ _ H Hp). congruence.
    + rewrite (F eq_refl) in Lu. discriminate.
  - intros Nn. rewrite Oa. specialize (It Nn). rewrite <- Ob in It. specialize (It (w_items m Wi)).
    destruct It as [It|It]; [now left|right]. pose proof (awake_step m t pc th' q' l' H W (Eo Nn)). lia.
  - intros Nn. rewrite Oa. apply Fu; [exact Nn|]. rewrite <- Ob. apply (w_full m Wi).
Qed.
(** The mutex stays with the owner, or passes as the places say. *)
Lemma qinv_lock t th' (q : queue) c : match th' with Some p => qinv q (at_pc t p) c | None => qinv q None c end -> q_lock q = (if oholds th' then Some t else None).
Proof. destruct th' as [p|]; cbn [oholds]; [|intros H; apply H]. unfold at_pc. destruct (holds p); intros H; apply H. Qed.

Lemma notify_one_spec w l l' : notify_one w l = Some l' ->
  (l = [] /\ l' = []) \/ exists a u b, l = a ++ u :: b /\ l' = a ++ b.
Proof.
  unfold notify_one. destruct l as [|x r]; [intros E; inversion E; auto|]. set (l := x :: r).
  destruct (Nat.ltb_spec w (length l)) as [Hw|]; [|discriminate]. intros E. inversion E; subst l'. right.
  destruct (nth_error l w) as [u|] eqn:N; [|apply nth_error_None in N; lia].
  exists (firstn w l), u, (skipn (S w) l). split; [|reflexivity]. apply nth_error_split in N as (a & b & -> & <-).
  rewrite firstn_app, Nat.sub_diag, firstn_all, skipn_app, skipn_all2 by lia.
  replace (S (length a) - length a)%nat with 1%nat by lia. cbn. now rewrite app_nil_r.
Qed.

(** Waking one thread. *)
Lemma awake_wake m u l' : In u (q_wempty (m_queue m)) -> (forall v, In v l' <-> In v (q_wempty (m_queue m)) /\ v <> u) ->
  (exists pc, nth_error (m_threads m) u = Some (Some pc) /\ on_empty pc = true) ->
  awake (mkmach (set_wempty (m_queue m) l') (m_threads m)) = S (awake m).
Proof.
  intros Hi Hl (pc & Hp & Ho). unfold awake. cbn [m_queue m_threads].
  assert (Q := awake_from_one (m_queue m) (set_wempty (m_queue m) l') (m_threads m) 0 u (m_threads m) (Some pc) (Some pc) eq_refl Hp Hp).
  cbn [awake1 Nat.add] in Q. rewrite Ho in Q. cbn [q_wempty set_wempty] in Q.
  replace (existsb (Nat.eqb u) (q_wempty (m_queue m))) with true in Q by (symmetry; now apply existsb_in).
  replace (existsb (Nat.eqb u) l') with false in Q.
  2:{ symmetry. apply not_true_is_false. rewrite existsb_in, Hl. tauto. }
  cbn [negb andb] in Q. enough (awake_from (set_wempty (m_queue m) l') 0 (m_threads m) + 0 = awake_from (m_queue m) 0 (m_threads m) + 1)%nat by lia.
  apply Q. intros j x y Hj Hx Hy. assert (x = y) by congruence. subst y. destruct x as [p|]; [|reflexivity]. cbn [awake1 q_wempty set_wempty].
  replace (existsb (Nat.eqb j) l') with (existsb (Nat.eqb j) (q_wempty (m_queue m))); [reflexivity|].
  apply Bool.eq_iff_eq_true. rewrite !existsb_in, Hl. intuition.
Qed.


Lemma wempty_lock (m : machine (A:=A)) c t pc : minv m c -> nth_error (m_threads m) t = Some (Some pc) -> holds pc = true ->
  qinv (m_queue m) (Some (t, pc)) c.
Proof. intros I H Hp. pose proof (minv_at m c t pc I H) as Q. unfold at_pc in Q. rewrite Hp in Q. apply Q. discriminate. Qed.

Lemma awake_from_le (q q' : queue) l : forall t, (forall i a, (awake1 q i a <= awake1 q' i a)%nat) -> (awake_from q t l <= awake_from q' t l)%nat.
Proof.
  induction l as [|a l IH]; intros t H; cbn [awake_from]; [lia|]. specialize (IH (S t) H). specialize (H t a). lia.
Qed.
Lemma NoDup_remove_nat t l : NoDup l -> NoDup (remove Nat.eq_dec t l).
Proof.
  induction 1 as [|x l N _ IH]; cbn; [constructor|]. destruct (Nat.eq_dec t x); [exact IH|]. constructor; [|exact IH].
  intros H. apply in_remove in H. tauto.
Qed.

Ltac wit := intros; cbn in *; unfold knows2, full in *; cbn in *;
  repeat match goal with
  | H : _ && _ = true |- _ => apply andb_prop in H as (? & ?)
  | H : (_ =? _) = true |- _ => apply Z.eqb_eq in H
  | H : (_ =? _) = false |- _ => apply Z.eqb_neq in H
  | H : (_ <? _)%nat = true |- _ => apply Nat.ltb_lt in H
  | H : (_ <? _)%nat = false |- _ => apply Nat.ltb_ge in H
  | H : _ /\ _ |- _ => destruct H
  | H : rev ?l = [] |- _ => assert (l = []) by (rewrite <- (rev_involutive l), H; reflexivity); subst l; clear H; cbn in *
  | H : rev ?l = _ :: _ |- _ => assert (l <> []) by (intros ->; discriminate); clear H
  | H : ?P -> _, K : ?P |- _ => match type of P with Prop => specialize (H K) end
  | H : true = true -> _ |- _ => specialize (H eq_refl)
  | H : [] = [] -> _ |- _ => specialize (H eq_refl)
  | H : false = true -> _ |- _ => clear H
  | R : ring _ _ _ _ _ |- _ => destruct R as [? ? ? ? ? ? ? ?]
  | H : ?x <> ?x |- _ => congruence
  | H : _ \/ _ |- _ => destruct H; try discriminate
  end;
  rewrite ?app_length in *; cbn [length Nat.add Nat.sub] in *.

Lemma mnext_winv a m c m' vs : unforced a -> useful a -> minv m c -> winv m -> mnext null a m = Some (m', vs) -> winv m'.
Proof.
  intros Uf Us I Wi E. destruct a as [t o|t w|t]; cbn [mnext] in E.
  - destruct (nth_error (m_threads m) t) as [[pc|]|] eqn:Ht; try discriminate.
    destruct (wr (m_threads m) t (Some (entry o))) as [th|] eqn:W; [|discriminate]. cbn [bind] in E. inversion E; subst; clear E.
    pose proof (wr_spec _ _ _ _ W) as (W1 & W2 & W3 & W4).
    assert (Ho : holds (entry o) = false) by (destruct o; reflexivity).
    assert (He : on_empty (entry o) = false) by (destruct o; reflexivity).
    assert (Ow : owner (mkmach (m_queue m) th) = owner m).
    { unfold owner. cbn [m_queue m_threads]. destruct (q_lock (m_queue m)) as [u|] eqn:L; [|reflexivity].
      destruct (Nat.eq_dec u t) as [->|Ne]; [|now rewrite W4]. pose proof (v_queue m c I) as Q. rewrite L in Q. destruct Q as (p & Hp & _). congruence. }
    assert (Aw : awake (mkmach (m_queue m) th) = awake m).
    { unfold awake. cbn [m_queue m_threads]. apply awake_from_eq; [exact W2|]. intros j x y Hx Hy. cbn [Nat.add]. destruct (Nat.eq_dec j t) as [->|Ne].
      - rewrite W3 in Hy. inversion Hy; subst y. rewrite Ht in Hx. inversion Hx; subst x. cbn [awake1]. now rewrite He.
      - rewrite W4 in Hy by assumption. congruence. }
    constructor; cbn [m_queue m_threads]; rewrite ?Ow, ?Aw; try apply Wi.
    + intros u Hu. destruct (w_empty m Wi u Hu) as (p & Hp & Hq). exists p. split; [|exact Hq]. rewrite W4; [exact Hp|]. intros ->. congruence.
    + intros u p Hu. destruct (Nat.eq_dec u t) as [->|Ne].
      * rewrite W3 in Hu. inversion Hu; subst. destruct o as [| | |[|n] f]; cbn in *; auto; try lia.
      * rewrite W4 in Hu by assumption. now apply (w_pos m Wi u).
    + intros u p Hu Hh. destruct (Nat.eq_dec u t) as [->|Ne]; [rewrite W3 in Hu; inversion Hu; subst; congruence|].
      rewrite W4 in Hu by assumption. now apply (w_knows m Wi u).
  - destruct (nth_error (m_threads m) t) as [[pc|]|] eqn:Ht; try discriminate.
    destruct (qnext null t w (m_queue m) pc) as [[[q' o] fs]|] eqn:Qn; [|discriminate]. cbn [bind] in E.
    pose proof (needs_free null _ _ _ _ _ Qn) as Nf.
    pose proof (minv_at m c t pc I Ht Nf) as Qi.
    destruct (qnext_ok null t w _ pc c q' o fs (v_unf m c I _ _ Ht) Qi Qn) as (Sz' & c' & Fs & Po).
    set (th' := match o with Goes pc' => Some pc' | Returns _ => None end).
    assert (exists l', wr (m_threads m) t th' = Some l' /\ m' = mkmach q' l') as (l' & W & ->).
    { destruct o as [pc'|r]; subst th'; destruct (wr (m_threads m) t _) as [l'|]; try discriminate; cbn [bind] in E; inversion E; eauto. }
    assert (Lk : q_lock q' = if oholds th' then Some t else None).
    { apply (qinv_lock t th' q' c'). subst th'. destruct o; apply Po. }
    assert (Ps : posn pc) by apply (w_pos m Wi _ _ Ht).
    assert (Kn : holds pc = true -> knows2 (m_queue m) pc) by apply (w_knows m Wi _ _ Ht).
    assert (Ri : holds pc = true -> ring_at (m_queue m) pc c) by (intros Hp; apply (wempty_lock m c t pc I Ht Hp)).
    assert (Nt : on_empty pc = true -> ~ In t (q_wempty (m_queue m))).
    { intros He Hi. destruct pc; try discriminate; cbn [qnext] in Qn; unfold wake in Qn;
        apply existsb_in in Hi; rewrite Hi in Qn; discriminate. }
    pose proof (v_unf m c I _ _ Ht) as Un. clear E Fs Po Sz'.
    destruct (match pc with ENotify => true | _ => false end) eqn:Is.
    + destruct pc; try discriminate. clear Is. cbn [qnext] in Qn. destruct (notify_one w (q_wempty (m_queue m))) as [l|] eqn:No; [|discriminate].
      cbn [bind] in Qn. inversion Qn; subst q' o fs. subst th'. clear Qn.
      destruct (notify_one_spec _ _ _ No) as [(W0 & ->)|(xa & u & xb & W0 & ->)].
      * apply (wstep m c t _ _ _ _ I Wi Ht W Nf Lk Nt); [right; left; reflexivity|split; [exact Logic.I|intros _; split; exact Logic.I]|..].
        -- intros Nn. cbn in Nn. congruence.
        -- cbn [mine holds owill wakes_full oholds]. intros Nn Ho. cbn in Nn. specialize (Ho Nn). exact Ho.
      * set (m1 := mkmach (set_wempty (m_queue m) (xa ++ xb)) (m_threads m)).
        assert (Nd := w_nodup m Wi). rewrite W0 in Nd. pose proof (NoDup_remove _ _ _ Nd) as (Nd1 & Nd2).
        assert (Hin : forall v, In v (xa ++ xb) <-> In v (q_wempty (m_queue m)) /\ v <> u).
        { intros v. rewrite W0, !in_app_iff. cbn. rewrite in_app_iff in Nd2. intuition (subst; tauto). }
        assert (Hu : In u (q_wempty (m_queue m))) by (rewrite W0; apply in_elt).
        pose proof (awake_wake m u (xa ++ xb) Hu Hin (w_empty m Wi u Hu)) as Aw. fold m1 in Aw.
        assert (Ob : owner m = mine ENotify) by (now apply (owner_before m c t)).
        assert (Ob1 : owner m1 = owner m) by reflexivity.
        assert (I1 : minv m1 c).
        { destruct I as [U L Q]. constructor; [exact U|exact L|]. cbn [m1 m_queue q_lock set_wempty]. destruct (q_lock (m_queue m)).
          - destruct Q as (p & Hp & Q1 & Q2 & Q3 & Q4). exists p. split; [exact Hp|]. split; [exact Q1|]. split; [exact Q2|].
            split; [now apply ring_wempty|]. destruct p; exact Q4.
          - destruct Q as (Q1 & Q2). split; [exact Q1|now apply ring_wempty]. }
        assert (Wi1 : winv m1).
        { constructor.
          - exact Nd1.
          - intros v Hv. apply (w_empty m Wi). now apply Hin.
          - exact (w_pos m Wi).
          - intros v p Hv Hp. cbn [m1 m_threads] in Hv. pose proof (v_lock m c I _ _ Hv Hp). pose proof (v_lock m c I _ _ Ht eq_refl). assert (v = t) by congruence. subst v.
            rewrite Ht in Hv. inversion Hv; subst p. split; exact Logic.I.
          - intros _. right. rewrite Ob1, Aw. destruct (w_items m Wi) as [Q|Q].
            + rewrite W0. destruct xa; discriminate.
            + rewrite Ob in Q. discriminate.
            + cbn [m1 m_queue q_num set_wempty]. lia.
          - exact (w_full m Wi). }
        apply (wstep m1 c t ENotify (Some EUnlock) _ _ I1 Wi1 Ht W Nf Lk); [discriminate|left; reflexivity|split; [exact Logic.I|intros _; split; exact Logic.I]|..].
        -- intros _ _. right. rewrite Aw. cbn [mine holds oholds oslack slack awake1 on_empty andb].
           destruct (w_items m Wi) as [Q|Q]; [rewrite W0; destruct xa; discriminate|rewrite Ob in Q; discriminate|].
           rewrite Ob in Q. cbn in Q. cbn [q_num set_wempty]. lia.
        -- cbn [mine holds owill wakes_full oholds]. intros Nn Ho. cbn in Nn. specialize (Ho Nn). exact Ho.
    + destruct pc; try discriminate; cbn [unf] in Un; try contradiction; clear Is; cbn [qnext] in Qn; unfold store in Qn;
      repeat match type of Qn with
      | bind (acquire _ _) _ = _ => destruct (acquire t (m_queue m)) as [q1|] eqn:Qa; [|discriminate]; apply acquire_inv in Qa as (_ & ->); cbn [bind] in Qn
      | bind (wake _ ?l _) _ = _ => destruct (wake t l (m_queue m)) as [q1|] eqn:Qa; [|discriminate]; apply wake_inv in Qa as (_ & ->); cbn [bind] in Qn
      | bind (bind ?a _) _ = _ => destruct a eqn:?; [|discriminate]; cbn [bind] in Qn
      | bind ?a _ = _ => destruct a eqn:?; [|discriminate]; cbn [bind] in Qn
      | (if ?b then _ else _) = _ => destruct b eqn:?
      | match ?l with [] => _ | _ :: _ => _ end = _ => destruct l eqn:?
      end; inversion Qn; subst; clear Qn; subst th';
      cbn [holds] in Kn, Ri, Nf; first [specialize (Kn eq_refl); specialize (Ri eq_refl); destruct Ri as (Rg & K1) | clear Kn Ri]; cbn [posn] in Ps;
      (apply (wstep m c t _ _ _ _ I Wi Ht W Nf Lk Nt);
       [ first [left; reflexivity | right; left; reflexivity | right; right; split; reflexivity]
       | try exact Logic.I; try (split; [exact Ps || exact Logic.I|]; cbn [holds]; intros Hh; try discriminate Hh; unfold knows2 in *; cbn; auto; try tauto)
       | cbn [mine holds owill wakes_empty oholds oslack slack]; intros Nn Ho; try (left; reflexivity)
       | cbn [mine holds owill wakes_full oholds]; intros Nn Ho; try (left; reflexivity); try (right; assumption) ]).
      all: try (wit; first [left; lia | right; lia | right; apply Z.eqb_eq; lia | idtac]).
      all: try (match goal with |- context [existsb (Nat.eqb ?a) ?b] => destruct (existsb (Nat.eqb a) b) eqn:Ex; [apply existsb_in in Ex; contradiction|cbn; right; lia] end).
      all: try (match goal with l : list A |- _ => destruct l; cbn in *; wit; try (split; [exact Logic.I|]; congruence); try lia; right; lia end).
      1: { split; [exact Logic.I|]. intros ->. destruct n; [congruence|discriminate]. }
      1: { destruct l as [|y l]; [destruct n; [congruence|discriminate]|]. wit. right. lia. }
      destruct l as [|y [|z l]]; [congruence|..]; wit; right; try lia.
  - inversion E; subst; clear E. cbn [m_queue m_threads]. 
    assert (Aw : (awake m <= awake (mkmach (spurious t (m_queue m)) (m_threads m)))%nat).
    { unfold awake. cbn [m_queue m_threads]. apply awake_from_le. intros i a. destruct a as [p|]; [|apply le_n]. cbn [awake1].
      destruct (existsb (Nat.eqb i) (q_wempty (spurious t (m_queue m)))) eqn:E1; [|destruct (on_empty p), (existsb (Nat.eqb i) (q_wempty (m_queue m))); repeat constructor].
      apply existsb_in in E1. cbn in E1. apply in_remove in E1 as (E1 & _). apply existsb_in in E1. rewrite E1. lia. }
    constructor; cbn [m_queue m_threads].
    + cbn. apply NoDup_remove_nat. apply Wi.
    + intros u Hu. cbn in Hu. apply in_remove in Hu as (Hu & _). now apply (w_empty m Wi).
    + apply Wi.
    + intros u p Hu Hp. destruct (w_knows m Wi u p Hu Hp) as (K1 & K2). split.
      * destruct p; try exact Logic.I; exact K1.
      * destruct p; try exact Logic.I; cbn [spurious q_wempty set_wempty set_wfull]; try rewrite K2; try exact K2; reflexivity.
    + intros Nn. change (owner (mkmach (spurious t (m_queue m)) (m_threads m))) with (owner m).
      destruct (w_items m Wi) as [Q|Q]; [|now left|right; cbn [spurious q_num set_wempty set_wfull]; lia].
      intros Q. apply Nn. cbn. now rewrite Q.
    + intros Nn. change (owner (mkmach (spurious t (m_queue m)) (m_threads m))) with (owner m).
      change (full (spurious t (m_queue m))) with (full (m_queue m)). apply (w_full m Wi). intros Q. apply Nn. cbn. now rewrite Q.
Qed.

Lemma winv_start junk k : winv (start (A:=A) junk k).
Proof.
  unfold start. constructor; cbn [m_threads m_queue new_queue q_wempty q_wfull]; try congruence; try apply NoDup_nil; try contradiction.
  - intros t pc Ht. apply nth_error_In, repeat_spec in Ht. discriminate.
  - intros t pc Ht. apply nth_error_In, repeat_spec in Ht. discriminate.
Qed.
Lemma mrun_winv l : forall m c m' vs, Forall unforced l -> Forall useful l -> minv m c -> winv m -> mrun null l m = Some (m', vs) -> winv m'.
Proof.
  induction l as [|a l IH]; cbn [mrun]; intros m c m' vs U V I Wi E; [now inversion E; subst|].
  inversion U as [|? ? U1 U2]; inversion V as [|? ? V1 V2]; subst.
  destruct (mnext null a m) as [[m1 e1]|] eqn:E1; [|discriminate]. cbn [bind] in E.
  destruct (mrun null l m1) as [[m2 e2]|] eqn:E2; [|discriminate]. cbn [bind] in E. inversion E; subst; clear E.
  destruct (mnext_ok null a m c m1 e1 _ U1 eq_refl I E1) as (_ & c1 & I1 & _).
  apply (IH m1 c1 _ _ U2 V2 I1 (mnext_winv _ _ _ _ _ U1 V1 I Wi E1) E2).
Qed.

(** The owner of the mutex can always go on. *)
Lemma qnext_total t q pc c : unf pc -> holds pc = true -> ring_at q pc c -> exists r, qnext null t 0 q pc = Some r.
Proof.
  intros U H (R & K). destruct pc; try discriminate H; cbn [unf] in U; try contradiction; cbn [qnext]; cbn [lag_num lag_head lag_tail knows] in *;
    try (eexists; reflexivity);
    try (rewrite (next_pos_eq q) by (destruct R; assumption); eexists; reflexivity).
  - destruct (full q); eexists; reflexivity.
  - destruct (store_ok null q x c R K) as (q' & -> & _). eexists; reflexivity.
  - unfold notify_one. destruct (q_wempty q); [|cbn]; eexists; reflexivity.
  - destruct xs; [|destruct (full q)]; eexists; reflexivity.
  - destruct (store_ok null q x c R K) as (q' & -> & _). eexists; reflexivity.
  - destruct (q_num q =? 0); eexists; reflexivity.
  - destruct c as [|x c]; [destruct R; cbn in *; lia|]. destruct (fetch_ok null q x c R) as (-> & _). eexists; reflexivity.
  - destruct (q_num q =? 0); eexists; reflexivity.
  - destruct (length l <? n)%nat; [|eexists; reflexivity]. destruct (q_num q =? 0); [|eexists; reflexivity].
    destruct (rev l); [eexists; reflexivity|]. destruct (f && negb (null a)); eexists; reflexivity.
  - destruct c as [|x c]; [destruct R; cbn in *; lia|]. destruct (fetch_ok null q x c R) as (-> & _). eexists; reflexivity.
Qed.

Lemma awake_none (q : queue) l : forall t, (forall i pc, nth_error l i = Some (Some pc) -> on_empty pc = true -> In (t + i)%nat (q_wempty q)) ->
  awake_from q t l = O.
Proof.
  induction l as [|a l IH]; intros t H; cbn [awake_from]; [reflexivity|]. rewrite IH.
  - destruct a as [p|]; [|reflexivity]. cbn [awake1]. destruct (on_empty p) eqn:Op; [|reflexivity].
    specialize (H O p eq_refl Op). rewrite Nat.add_0_r in H. apply existsb_in in H. now rewrite H.
  - intros i p Hi Ho. specialize (H (S i) p Hi Ho). now rewrite Nat.add_succ_r in H.
Qed.

(** A thread that can go on. *)
Definition can_step (m : machine (A:=A)) : Prop := exists t w m' vs, mnext null (Step t w) m = Some (m', vs).
Lemma step_at m t pc r : nth_error (m_threads m) t = Some (Some pc) -> qnext null t 0 (m_queue m) pc = Some r -> can_step m.
Proof.
  intros H Q. exists t, O. cbn [mnext]. rewrite H, Q. cbn [bind]. destruct r as [[q' o] fs].
  assert (L : (t < length (m_threads m))%nat) by (apply nth_error_Some; congruence).
  destruct o as [pc'|rr].
  - destruct (wr_total (m_threads m) t (Some pc') L) as (l' & ->). cbn. eauto.
  - destruct (wr_total (m_threads m) t None L) as (l' & ->). cbn. eauto.
Qed.
Lemma can_step_or (m : machine (A:=A)) : can_step m \/ forall t pc, nth_error (m_threads m) t = Some (Some pc) -> qnext null t 0 (m_queue m) pc = None.
Proof.
  enough (H : forall l t0, (forall i, nth_error l i = nth_error (m_threads m) (t0 + i)) ->
    can_step m \/ forall i pc, nth_error l i = Some (Some pc) -> qnext null (t0 + i) 0 (m_queue m) pc = None).
  { apply (H (m_threads m) O). reflexivity. }
  induction l as [|a l IH]; intros t0 H.
  - right. intros [|i] pc E; discriminate.
  - destruct (IH (S t0)) as [S|N]; [|now left|].
    + intros i. specialize (H (S i)). rewrite Nat.add_succ_r in H. exact H.
    + destruct (match a with Some pc => qnext null t0 0 (m_queue m) pc | None => None end) as [r|] eqn:E.
      * left. destruct a as [pc|]; [|discriminate]. apply (step_at m t0 pc r); [|exact E]. specialize (H O). rewrite Nat.add_0_r in H. now symmetry.
      * right. intros [|i] pc Hi.
        -- rewrite Nat.add_0_r. inversion Hi; subst a. exact E.
        -- rewrite Nat.add_succ_r. exact (N i pc Hi).
Qed.
Lemma stuck_kind m c : minv m c -> winv m -> (forall t pc, nth_error (m_threads m) t = Some (Some pc) -> qnext null t 0 (m_queue m) pc = None) ->
  (forall t pc, nth_error (m_threads m) t <> Some (Some pc)) \/
  (c = [] /\ forall t pc, nth_error (m_threads m) t = Some (Some pc) -> on_empty pc = true) \/
  (length c = q_size (m_queue m) /\ forall t pc, nth_error (m_threads m) t = Some (Some pc) -> on_full pc = true).
Proof.
  intros I Wi St. pose proof (v_queue m c I) as Q. destruct (q_lock (m_queue m)) as [o|] eqn:L.
  - destruct Q as (pc & H & _ & Hh & R). exfalso. destruct (qnext_total o (m_queue m) pc c (v_unf m c I _ _ H) Hh R) as (r & E).
    rewrite (St o pc H) in E. discriminate.
  - destruct Q as (_ & R).
    assert (T : forall t pc, nth_error (m_threads m) t = Some (Some pc) ->
              (on_empty pc = true /\ In t (q_wempty (m_queue m))) \/ (on_full pc = true /\ In t (q_wfull (m_queue m)))).
    { intros t pc H. pose proof (v_unf m c I _ _ H) as U. destruct (holds pc) eqn:Hh.
      { pose proof (v_lock m c I _ _ H Hh). congruence. }
      pose proof (St t pc H) as N.
      destruct pc; try discriminate Hh; cbn [unf] in U; try contradiction; cbn [qnext] in N; unfold wake, acquire in N; rewrite L in N; try discriminate N;
        match type of N with context [existsb (Nat.eqb t) ?l] => destruct (existsb (Nat.eqb t) l) eqn:Ex end; try discriminate N; apply existsb_in in Ex; cbn; auto. }
    assert (Ow : owner m = None) by (unfold owner; now rewrite L).
    assert (Aw : awake m = O).
    { apply awake_none. intros i pc H Ho. destruct (T i pc H) as [(_ & Hi)|(Hf & _)]; [exact Hi|]. destruct pc; discriminate. }
    assert (Ze : q_wempty (m_queue m) <> [] -> c = []).
    { intros Ne. destruct (w_items m Wi Ne) as [Q|Q]; rewrite Ow in Q; [discriminate|]. rewrite Aw in Q. cbn in Q. destruct R. destruct c; [reflexivity|cbn in *; lia]. }
    assert (Fu : q_wfull (m_queue m) <> [] -> length c = q_size (m_queue m)).
    { intros Ne. destruct (w_full m Wi Ne) as [Q|Q]; [rewrite Ow in Q; discriminate|]. unfold full in Q. apply Z.eqb_eq in Q. destruct R. lia. }
    destruct (q_wempty (m_queue m)) as [|u r] eqn:We.
    + destruct (q_wfull (m_queue m)) as [|v s] eqn:Wf.
      * left. intros t pc H. destruct (T t pc H) as [(_ & [])|(_ & [])].
      * right; right. split; [apply Fu; discriminate|]. intros t pc H. destruct (T t pc H) as [(_ & [])|(Hf & _)]. exact Hf.
    + right; left. assert (Ec : c = []) by (apply Ze; discriminate). split; [exact Ec|]. intros t pc H.
      destruct (T t pc H) as [(Ho & _)|(_ & Hi)]; [exact Ho|]. exfalso. destruct (q_wfull (m_queue m)) as [|v s]; [contradiction|].
      assert (length c = q_size (m_queue m)) by (apply Fu; discriminate). subst c. destruct R. cbn in *. lia.
Qed.

(** The events of a thread determine the call it is in. *)
Lemma inside_unique t l : (idle (A:=A) t l -> forall o fs, inside t o fs l -> False) /\
  forall o fs o' fs', inside (A:=A) t o fs l -> inside t o' fs' l -> o = o' /\ fs = fs'.
Proof.
  induction l as [|v l [IH1 IH2]] using rev_ind.
  - split; [intros _ o fs H|intros o fs o' fs' H]; inversion H; destruct l; discriminate.
  - split.
    + intros Hi o fs Ho. inversion Hi as [E|l1 v1 H1 H2 E|l1 o1 fs1 r1 H1 H2 E]; [destruct l; discriminate|..];
        apply app_inj_tail in E as (-> & E); try subst v1;
        inversion Ho as [l2 o2 K1 E1 E2 K2|l2 v2 o2 fs2 K1 K2 E1 E2 K3|l2 o2 fs2 f2 K1 E1 E2 K2]; apply app_inj_tail in K2 as (-> & K2) || apply app_inj_tail in K3 as (-> & K3); subst; cbn in *; eauto; try congruence.
    + intros o fs o' fs' H H'.
      inversion H as [l2 o2 K1 E1 E2 K2|l2 v2 o2 fs2 K1 K2 E1 E2 K3|l2 o2 fs2 f2 K1 E1 E2 K2]; apply app_inj_tail in K2 as (-> & K2) || apply app_inj_tail in K3 as (-> & K3); subst;
      inversion H' as [l3 o3 L1 F1 F2 L2|l3 v3 o3 fs3 L1 L2 F1 F2 L3|l3 o3 fs3 f3 L1 F1 F2 L2]; apply app_inj_tail in L2 as (-> & L2) || apply app_inj_tail in L3 as (-> & L3); subst; cbn in *; try congruence; eauto.
      * inversion L2; auto.
      * destruct (IH2 _ _ _ _ K1 L1) as (-> & ->). inversion L2; auto.
Qed.
End P.
