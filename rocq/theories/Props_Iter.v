(** Properties C14 to C17: the data iterator. *)
From Verif Require Import M_Base M_Queue S_Queue P_Queue P_Queue2 P_Queue3 M_Iter S_Iter P_Iter P_Iter2 P_Iter3 P_Iter4 P_Iter5.

Section Props.
Context {P : Type}.
Notation iter := (iter (P:=P)). Notation iact := (iact (P:=P)). Notation output := (output (P:=P)).

(** A new iterator with [n] mini-batches of at most [bs] examples, and room for [k] threads, after the
    actions [l]: its state and what Next returned. *)
Definition history (n bs k : nat) (l : list iact) (s : iter) (outs : list output) : Prop :=
  (0 < n)%nat /\ (0 < bs)%nat /\ (0 < k)%nat /\
  exists junkf junkb, length junkf = n /\ length junkb = n /\ irun n bs k l (istart junkf junkb k) = Some (s, outs).
(** Nobody can do anything, except by the caller's choice or by a spurious wake-up. *)
Definition stopped (n bs k : nat) (s : iter) : Prop := forall b, internal b = true -> inext n bs k b s = None.

Lemma history_inv n bs k l s outs : history n bs k l s outs ->
  (0 < n)%nat /\ (0 < bs)%nat /\ exists a, abs n k s a /\ inv n bs a /\ dinv bs outs (portions bs l) a.
Proof.
  intros (N & B & K & j1 & j2 & L1 & L2 & E). split; [assumption|]. split; [assumption|].
  exact (run_inv n bs k l B _ _ [] [] _ _ (abs_start n k _ _ L1 L2 N K) (inv_init n bs N) (dinv_init bs) E).
Qed.

(* ---------------------------------------------------------------------- the specification is what it says *)
(** Mini-batches of one pass: together they are the pass; all are full but the last, which is not. *)
Theorem C14_cut : forall bs (l : list P), (0 < bs)%nat ->
  exists full last, cut bs [] l = full ++ [last] /\ concat full ++ last = l /\ Forall (fun c : list P => length c = bs) full /\ (length (last : list P) < bs)%nat.
Proof.
  intros bs l B. assert (G : forall l c : list P, (length c < bs)%nat -> exists full last, cut bs c l = full ++ [last] /\ concat full ++ last = c ++ l /\ Forall (fun c : list P => length c = bs) full /\ (length (last : list P) < bs)%nat).
  { clear l. induction l as [|x l IH]; intros c L; cbn [cut].
    - exists [], c. rewrite app_nil_r. auto.
    - rewrite app_length. cbn [length]. destruct (Nat.ltb_spec (length c + 1) bs) as [H|H].
      + destruct (IH (c ++ [x])) as (f & la & E1 & E2 & E3 & E4); [rewrite app_length; cbn; lia|]. exists f, la. rewrite <- app_assoc in E2. auto.
      + destruct (IH []) as (f & la & E1 & E2 & E3 & E4); [cbn; lia|]. exists ((c ++ [x]) :: f), la. rewrite E1. cbn [app concat] in *. rewrite <- app_assoc, E2, <- app_assoc. cbn [app].
        repeat split; auto. constructor; [rewrite app_length; cbn; lia|assumption]. }
  exact (G l [] B).
Qed.
Theorem C14_parts : forall bs (x : source (P:=P)), (0 < bs)%nat -> concat (parts bs x) = examples x.
Proof.
  intros bs [[pts bad] pass] B. unfold parts, examples. destruct (pass <=? 0); [reflexivity|]. destruct (C14_cut bs pts B) as (f & la & E1 & E2 & _).
  assert (C : concat (cut bs [] pts) = pts) by (rewrite E1, concat_app; cbn [concat]; now rewrite app_nil_r).
  destruct bad; [assumption|]. induction (Z.to_nat pass) as [|m IH]; [reflexivity|]. cbn [repeat concat]. rewrite concat_app, C, IH. reflexivity.
Qed.
Lemma portions_wanted bs (l : list iact) : (0 < bs)%nat -> concat (portions bs l) = wanted l.
Proof.
  intros B. unfold portions, wanted. induction (sources l) as [|x r IH]; [reflexivity|]. cbn [map concat]. rewrite concat_app, C14_parts, IH by assumption. reflexivity.
Qed.
Lemma delivered_batches (o : list output) : delivered o = concat (batches o).
Proof. unfold delivered, batches. induction o as [|[c|] o IH]; cbn [map concat]; [reflexivity|rewrite IH, concat_app; cbn [concat]; now rewrite app_nil_r|exact IH]. Qed.

(* ---------------------------------------------------------------------- C14 *)
(** C14: for every schedule, with spurious wake-ups, whatever the caller does: the mini-batches returned so
    far are the first ones of the wanted sequence; so their examples are the first of the sources in the
    order of AddReader. *)
Theorem C14_in_order : forall n bs k l s outs, history n bs k l s outs ->
  (exists t, batches outs ++ t = portions bs l) /\ (exists t, delivered outs ++ t = wanted l) /\ forall c, In (Some c) outs -> (length c <= bs)%nat.
Proof.
  intros n bs k l s outs H. destruct (history_inv _ _ _ _ _ _ H) as (_ & B & a & A & I & D). destruct (d_prefix _ _ _ _ D) as [t E].
  split; [eauto|]. split; [exists (concat t); rewrite delivered_batches, <- concat_app, E; now apply portions_wanted|apply (d_size _ _ _ _ D)].
Qed.
(** C14: when Next returns null, everything was returned. *)
Theorem C14_complete : forall n bs k l s outs act s' o, history n bs k l s outs -> inext n bs k act s = Some (s', o) -> In None o ->
  o = [None] /\ batches outs = portions bs l /\ delivered outs = wanted l.
Proof.
  intros n bs k l s outs act s' o H E Hn. destruct (history_inv _ _ _ _ _ _ H) as (_ & B & a & A & I & D).
  destruct (sim_next _ _ _ _ _ _ _ _ A E) as (a1 & A1 & [(_ & -> & _)|(lb & St & _)]); [destruct Hn|].
  destruct (null_all _ _ _ _ _ _ _ _ _ I St D Hn) as [Q ->]. split; [reflexivity|]. split; [assumption|]. rewrite delivered_batches, Q. now apply portions_wanted.
Qed.
(** C14: after that it returns null again and again, until another source is added. *)
Theorem C14_end_stays : forall n bs k l s outs act s1 o r s2 o2, history n bs k l s outs -> inext n bs k act s = Some (s1, o) -> In None o ->
  irun n bs k r s1 = Some (s2, o2) -> sources r = [] -> forall c, In c o2 -> c = None.
Proof.
  intros n bs k l s outs act s1 o r s2 o2 H E Hn Er Sr. destruct (history_inv _ _ _ _ _ _ H) as (_ & B & a & A & I & D).
  destruct (sim_next _ _ _ _ _ _ _ _ A E) as (a1 & A1 & [(_ & -> & _)|(lb & St & _)]); [destruct Hn|].
  pose proof (over_end _ _ _ _ _ _ _ I St Hn) as Ov. apply (inv_step _ _ _ _ _ _ _ I) in St. clear - A1 St Ov Er Sr. rename St into I1. revert s1 a1 o2 A1 I1 Ov Er. induction r as [|b r IH]; intros s1 a1 o2 A1 I1 Ov Er c Hc; cbn [irun] in Er.
  - inversion Er; subst. destruct Hc.
  - destruct (inext n bs k b s1) as [[s3 o3]|] eqn:E3; [|discriminate]. cbn [bind] in Er. destruct (irun n bs k r s3) as [[s4 o4]|] eqn:E4; [|discriminate]. cbn [bind] in Er. inversion Er; subst s4 o2; clear Er.
    unfold sources in Sr. cbn [map concat] in Sr. apply app_eq_nil in Sr. destruct Sr as [Sb Sr].
    destruct (sim_next _ _ _ _ _ _ _ _ A1 E3) as (a3 & A3 & [(-> & -> & _)|(lb & St & _ & _ & L)]).
    + exact (IH Sr _ _ _ A3 I1 Ov E4 _ Hc).
    + destruct (over_step _ _ _ _ _ _ _ I1 Ov St) as [Ov3 On]; [destruct lb; auto; destruct L as [_ ->]; assumption|].
      apply in_app_or in Hc. destruct Hc as [Hc|Hc]; [auto|]. exact (IH Sr _ _ _ A3 (inv_step _ _ _ _ _ _ _ I1 St) Ov3 E4 _ Hc).
Qed.
(** C14: the examples in the mini-batch the caller holds do not change under its hands. *)
Theorem C14_held : forall n bs k l s outs id, history n bs k l s outs -> i_held s = Some id ->
  exists o c, outs = o ++ [Some c] /\ points s id = Some c.
Proof.
  intros n bs k l s outs id H E. destruct (history_inv _ _ _ _ _ _ H) as (_ & B & a & A & I & D). rewrite (b_held _ _ _ _ A) in E.
  destruct (d_held _ _ _ _ D _ E) as (o & c & -> & Hc). exists o, c. split; [reflexivity|]. unfold points, rd. rewrite (b_heap _ _ _ _ A), Hc. reflexivity.
Qed.

(* ---------------------------------------------------------------------- C15 *)
(** C15: neither the constructor nor Next can be blocked for ever: when no thread can go on, the caller is
    outside, or in the destructor. *)
Theorem C15_no_deadlock : forall n bs k l s outs, history n bs k l s outs -> stopped n bs k s -> i_main s = MIdle \/ i_main s = KDone \/ i_main s = KGet.
Proof.
  intros n bs k l s outs H St. destruct (history_inv _ _ _ _ _ _ H) as (N & B & a & A & I & D). rewrite (b_main _ _ _ _ A).
  destruct (no_deadlock n bs k _ N I (stuck_abs _ _ _ _ _ A I St)) as [E|[E|[E _]]]; auto.
Qed.
(** C15: between two calls only a bounded number of steps is possible, for every schedule.  A spurious
    wake-up can cause a bounded number more. *)
Theorem C15_terminates : forall n bs k l s outs, history n bs k l s outs ->
  exists bound, forall r s' o, irun n bs k r s = Some (s', o) -> existsb callers r = false -> (length r <= bound + (2 * k + 1) * length (filter spurious r))%nat.
Proof.
  intros n bs k l s outs H. destruct (history_inv _ _ _ _ _ _ H) as (N & B & a & A & I & D). exists (fuel n k s a). intros r s' o E C.
  assert (C' : forallb (fun x => negb (callers x)) r = true). { clear - C. induction r as [|x r IH]; [reflexivity|]. cbn [existsb forallb] in *. apply orb_false_iff in C. destruct C as [-> C]. cbn. auto. }
  destruct (run_ends _ _ _ _ B _ _ _ _ A I C' E) as (a' & _ & _ & F). unfold wakes in F. lia.
Qed.
(** C15: at most as many mini-batches as wanted are returned, so that after so many calls Next returns null. *)
Theorem C15_calls : forall n bs k l s outs, history n bs k l s outs -> (length (filter (fun o => match o with Some _ => true | None => false end) outs) <= length (portions bs l))%nat.
Proof.
  intros n bs k l s outs H. destruct (C14_in_order _ _ _ _ _ _ H) as [[t E] _]. rewrite <- E, app_length.
  assert (length (filter (fun o => match o with Some _ => true | None => false end) outs) = length (batches outs)) as ->; [|lia].
  clear. induction outs as [|[c|] outs IH]; unfold batches in *; cbn; [reflexivity|now f_equal|exact IH].
Qed.

(* ---------------------------------------------------------------------- C16 *)
(** No call of Next in the sequence. *)
Definition no_next (l : list iact) : Prop := forall a, In a l -> a <> ANext.
Lemma reader_main bs j w (s s' : iter) : reader_step bs j w s = Some s' -> i_main s' = i_main s.
Proof.
  unfold reader_step. destruct (rd (i_readers s) j) as [r|]; [|discriminate]. cbn [bind]. intros E.
  destruct (r_pc r); try discriminate;
  repeat match type of E with
  | bind ?x _ = _ => let Q := fresh in destruct x as [?|] eqn:Q; [|discriminate]; cbn [bind] in E; clear Q
  | (let (_, _) := ?x in _) = _ => destruct x
  | (if ?x then _ else _) = _ => destruct x
  | match ?x with _ => _ end = _ => destruct x; try discriminate
  end; inversion E; reflexivity.
Qed.
Lemma idle_next n bs k act (s s1 : iter) o1 : i_main s = MIdle -> act <> ANext -> inext n bs k act s = Some (s1, o1) -> i_main s1 = MIdle \/ i_main s1 = KSize.
Proof.
  intros M Na E. destruct act; cbn [inext] in E; try congruence.
  - unfold main_step in E. rewrite M in E. discriminate.
  - destruct (reader_step bs j w s) as [s2|] eqn:R; [|discriminate]. cbn [bind] in E. inversion E; subst. left. rewrite <- M. eapply reader_main; eauto.
  - destruct (mnext is_null _ _) as [[mm vv]|]; [|discriminate]. cbn [bind] in E. inversion E; subst. auto.
  - destruct (mnext is_null _ _) as [[mm vv]|]; [|discriminate]. cbn [bind] in E. inversion E; subst. auto.
  - rewrite M in E. destruct (_ <? _)%nat; inversion E; subst. auto.
  - rewrite M in E. inversion E; subst. auto.
Qed.
Lemma out_stays n bs k r : forall (s : iter) a s' o, abs n k s a -> inv n bs a -> ~ normal (a_main a) -> irun n bs k r s = Some (s', o) -> i_main s' <> MIdle.
Proof.
  induction r as [|b r IH]; intros s a s' o A I Nm E; cbn [irun] in E.
  - inversion E; subst. rewrite (b_main _ _ _ _ A). intros Q. rewrite Q in Nm. apply Nm. exact Logic.I.
  - destruct (inext n bs k b s) as [[s1 o1]|] eqn:E1; [|discriminate]. cbn [bind] in E. destruct (irun n bs k r s1) as [[s2 o2]|] eqn:E2; [|discriminate]. cbn [bind] in E. inversion E; subst s2 o; clear E.
    destruct (sim_next _ _ _ _ _ _ _ _ A E1) as (a1 & A1 & [(-> & -> & _)|(lb & St & _ & _ & L)]); [exact (IH _ _ _ _ A1 I Nm E2)|].
    pose proof (inv_step _ _ _ _ _ _ _ I St) as I1. refine (IH _ _ _ _ A1 I1 _ E2). clear - St Nm. destruct St as [l a a' outs M|]; [|exact Nm]. inversion M; subst; cbn [a_main] in *; auto; exfalso; apply Nm; exact Logic.I.
Qed.
Lemma quiet_run n bs k r : forall (s : iter) a s' o, abs n k s a -> inv n bs a -> quiet a -> i_main s = MIdle -> i_main s' = MIdle -> no_next r -> irun n bs k r s = Some (s', o) ->
  exists a', abs n k s' a' /\ inv n bs a' /\ quiet a'.
Proof.
  induction r as [|b r IH]; intros s a s' o A I Q M M' Nn E; cbn [irun] in E.
  - inversion E; subst. eauto.
  - destruct (inext n bs k b s) as [[s1 o1]|] eqn:E1; [|discriminate]. cbn [bind] in E. destruct (irun n bs k r s1) as [[s2 o2]|] eqn:E2; [|discriminate]. cbn [bind] in E. inversion E; subst s2 o; clear E.
    assert (Nr : no_next r) by (intros c Hc; apply Nn; now right).
    pose proof (idle_next _ _ _ _ _ _ _ M (Nn b (or_introl eq_refl)) E1) as M1.
    assert (G : exists a1, abs n k s1 a1 /\ inv n bs a1 /\ quiet a1).
    { destruct (sim_next _ _ _ _ _ _ _ _ A E1) as (a1 & A1 & [(-> & -> & _)|(lb & St & _)]); [eauto|]. exists a1. split; [assumption|]. split; [exact (inv_step _ _ _ _ _ _ _ I St)|].
      refine (quiet_idle _ _ _ _ _ _ _ I _ Q St). rewrite <- (b_main _ _ _ _ A). exact M. }
    destruct G as (a1 & A1 & I1 & Q1). destruct M1 as [M1|M1]; [exact (IH _ _ _ _ A1 I1 Q1 M1 M' Nr E2)|].
    exfalso. refine (out_stays _ _ _ _ _ _ _ _ A1 I1 _ E2 M'). rewrite <- (b_main _ _ _ _ A1), M1. intros [].
Qed.
Lemma calm_run n bs k r : forall (s : iter) a s' o, abs n k s a -> inv n bs a -> calm a -> irun n bs k r s = Some (s', o) ->
  exists a', abs n k s' a' /\ inv n bs a' /\ calm a'.
Proof.
  induction r as [|b r IH]; intros s a s' o A I C E; cbn [irun] in E; [inversion E; subst; eauto|].
  destruct (inext n bs k b s) as [[s1 o1]|] eqn:E1; [|discriminate]. cbn [bind] in E. destruct (irun n bs k r s1) as [[s2 o2]|] eqn:E2; [|discriminate]. cbn [bind] in E. inversion E; subst s2 o; clear E.
  destruct (sim_next _ _ _ _ _ _ _ _ A E1) as (a1 & A1 & [(-> & -> & _)|(lb & St & _)]); [exact (IH _ _ _ _ A1 I C E2)|].
  exact (IH _ _ _ _ A1 (inv_step _ _ _ _ _ _ _ I St) (calm_step _ _ _ _ _ _ _ I C St) E2).
Qed.
(** Destroying an iterator none of whose readers works. *)
Lemma quiet_destroy n bs k (s s1 : iter) a o1 : (0 < n)%nat -> (0 < bs)%nat -> abs n k s a -> inv n bs a -> quiet a -> inext n bs k ADestroy s = Some (s1, o1) ->
  exists bound, forall q s2 o2, irun n bs k q s1 = Some (s2, o2) ->
    (stopped n bs k s2 -> i_main s2 = KDone) /\ (existsb callers q = false -> length q <= bound + (2 * k + 1) * length (filter spurious q))%nat.
Proof.
  intros N B A I Q E. assert (M : i_main s = MIdle) by (cbn [inext] in E; destruct (i_main s); try discriminate; reflexivity).
  destruct (sim_next _ _ _ _ _ _ _ _ A E) as (a1 & A1 & [(_ & _ & C & _)|(lb & St & _)]); [discriminate|].
  pose proof (inv_step _ _ _ _ _ _ _ I St) as I1. assert (Em : a_main a = MIdle) by (rewrite <- (b_main _ _ _ _ A); exact M). pose proof (quiet_idle _ _ _ _ _ _ _ I Em Q St) as Q1.
  assert (C : calm a1). { unfold calm. rewrite <- (b_main _ _ _ _ A1). cbn [inext] in E. rewrite M in E. inversion E; subst s1. cbn [i_main set_main]. exact Q1. }
  exists (fuel n k s1 a1). intros q s2 o2 Eq. split.
  - intros Sp. destruct (calm_run _ _ _ _ _ _ _ _ A1 I1 C Eq) as (a2 & A2 & I2 & C2). rewrite (b_main _ _ _ _ A2).
    destruct (no_deadlock n bs k _ N I2 (stuck_abs _ _ _ _ _ A2 I2 Sp)) as [Z|[Z|(Z & Z1 & Z2)]]; unfold calm in C2; rewrite Z in C2; [destruct C2|assumption|]. destruct C2 as [_ C2]. destruct (C2 Z1 Z2).
  - intros Cq. assert (C' : forallb (fun x => negb (callers x)) q = true). { clear - Cq. induction q as [|x r IH]; [reflexivity|]. cbn [existsb forallb] in *. apply orb_false_iff in Cq. destruct Cq as [-> C]. cbn. auto. }
    destruct (run_ends _ _ _ _ B _ _ _ _ A1 I1 C' Eq) as (a' & _ & _ & F). unfold wakes in F. lia.
Qed.

(** C16, what holds: when the iterator is destroyed after Next returned null and was not called again (other
    sources may have been added), the destructor comes to its end for every schedule: it is never blocked,
    and the number of steps is bounded. *)
Theorem C16_after_end : forall n bs k l s outs act s1 o r s2 o2 s3 o3, history n bs k l s outs -> inext n bs k act s = Some (s1, o) -> In None o ->
  irun n bs k r s1 = Some (s2, o2) -> no_next r -> inext n bs k ADestroy s2 = Some (s3, o3) ->
  exists bound, forall q s4 o4, irun n bs k q s3 = Some (s4, o4) ->
    (stopped n bs k s4 -> i_main s4 = KDone) /\ (existsb callers q = false -> length q <= bound + (2 * k + 1) * length (filter spurious q))%nat.
Proof.
  intros n bs k l s outs act s1 o r s2 o2 s3 o3 H E Hn Er Nr Ed. destruct (history_inv _ _ _ _ _ _ H) as (N & B & a & A & I & D).
  destruct (sim_next _ _ _ _ _ _ _ _ A E) as (a1 & A1 & [(_ & -> & _)|(lb & St & _)]); [destruct Hn|].
  destruct (over_end _ _ _ _ _ _ _ I St Hn) as (Q & _). assert (Em : a_main a1 = MIdle).
  { clear - St Hn. destruct St as [l a a' outs M|]; [|destruct Hn]. inversion M; subst; try (destruct Hn; fail); reflexivity. }
  apply (inv_step _ _ _ _ _ _ _ I) in St. rename St into I1.
  assert (M2 : i_main s2 = MIdle) by (cbn [inext] in Ed; destruct (i_main s2); try discriminate; reflexivity).
  destruct (quiet_run _ _ _ _ _ _ _ _ A1 I1 (fun j x Hj => or_introl (Q j x Hj)) ltac:(rewrite (b_main _ _ _ _ A1); exact Em) M2 Nr Er) as (a2 & A2 & I2 & Q2).
  exact (quiet_destroy _ _ _ _ _ _ _ N B A2 I2 Q2 Ed).
Qed.
(** C16, what holds: the same when Next was never called. *)
Theorem C16_unused : forall n bs k l s outs s1 o1, history n bs k l s outs -> no_next l -> inext n bs k ADestroy s = Some (s1, o1) ->
  exists bound, forall q s2 o2, irun n bs k q s1 = Some (s2, o2) ->
    (stopped n bs k s2 -> i_main s2 = KDone) /\ (existsb callers q = false -> length q <= bound + (2 * k + 1) * length (filter spurious q))%nat.
Proof.
  intros n bs k l s outs s1 o1 H Nl Ed. destruct (history_inv _ _ _ _ _ _ H) as (N & B & _). destruct H as (_ & _ & K & j1 & j2 & L1 & L2 & E).
  assert (M2 : i_main s = MIdle) by (cbn [inext] in Ed; destruct (i_main s); try discriminate; reflexivity).
  (* while no Next: the readers are not started *)
  assert (G : forall l s0 a0 s' o, abs n k s0 a0 -> inv n bs a0 -> quiet a0 -> a_main a0 = MIdle \/ ctor (a_main a0) -> no_next l -> i_main s' = MIdle -> irun n bs k l s0 = Some (s', o) -> exists a', abs n k s' a' /\ inv n bs a' /\ quiet a').
  { clear. induction l as [|b r IH]; intros s0 a0 s' o A I Q C Nn M' E; cbn [irun] in E; [inversion E; subst; eauto|].
    destruct C as [M|C]; [refine (quiet_run n bs k (b :: r) _ _ _ _ A I Q _ M' Nn E); rewrite (b_main _ _ _ _ A); exact M|].
    destruct (inext n bs k b s0) as [[s1 o1]|] eqn:E1; [|discriminate]. cbn [bind] in E. destruct (irun n bs k r s1) as [[s2 o2]|] eqn:E2; [|discriminate]. cbn [bind] in E. inversion E; subst s2 o; clear E.
    assert (Nr : no_next r) by (intros c Hc; apply Nn; now right).
    destruct (sim_next _ _ _ _ _ _ _ _ A E1) as (a1 & A1 & [(-> & -> & _)|(lb & St & _)]); [exact (IH _ _ _ _ A1 I Q (or_intror C) Nr M' E2)|].
    pose proof (inv_step _ _ _ _ _ _ _ I St) as I1.
    assert (X : a_rs a1 = [] /\ (a_main a1 = MIdle \/ ctor (a_main a1))).
    { destruct (v_ctor _ _ _ I C) as [Er _]. destruct St as [l a a' outs M|l j cf cb h m mo i rs hd rr oo cf' cb' h' r' o' rs' Nj R W]; [|cbn [a_rs] in *; subst rs; destruct j; discriminate].
      inversion M; subst; cbn [a_rs a_main ctor] in *; subst; auto; try (destruct C; fail). }
    destruct X as [Er C1]. refine (IH _ _ _ _ A1 I1 _ C1 Nr M' E2). intros j x Hj. rewrite Er in Hj. destruct j; discriminate. }
  destruct (G _ _ _ _ _ (abs_start n k _ _ L1 L2 N K) (inv_init n bs N) ltac:(intros [|j]; discriminate) (or_intror Logic.I) Nl M2 E) as (a2 & A2 & I2 & Q2).
  exact (quiet_destroy _ _ _ _ _ _ _ N B A2 I2 Q2 Ed).
Qed.
(** C16: a blocked destructor is blocked for ever, whatever wakes up. *)
Theorem C16_blocked_forever : forall n bs k l s outs, history n bs k l s outs -> stopped n bs k s -> i_main s = KGet ->
  forall r s' o, irun n bs k r s = Some (s', o) -> i_main s' = KGet.
Proof.
  intros n bs k l s outs H St M r s' o E. destruct (history_inv _ _ _ _ _ _ H) as (N & B & a & A & I & D). pose proof (stuck_abs _ _ _ _ _ A I St) as S.
  rewrite (b_main _ _ _ _ A) in M. destruct (stuck_forever _ _ _ _ _ _ _ _ A I S M E) as [A' _]. rewrite (b_main _ _ _ _ A'). exact M.
Qed.
End Props.
Print Assumptions C14_cut.
Print Assumptions C14_parts.
Print Assumptions C14_in_order.
Print Assumptions C14_complete.
Print Assumptions C14_end_stays.
Print Assumptions C14_held.
Print Assumptions C15_no_deadlock.
Print Assumptions C15_terminates.
Print Assumptions C15_calls.
Print Assumptions C16_after_end.
Print Assumptions C16_unused.
Print Assumptions C16_blocked_forever.


(** C16 is false: after these steps the destructor waits for ever.  Two mini-batches; the caller has got the
    first one and destroys the iterator.  The destructor finds one mini-batch in the pool (24 + 2 + 11 + 19
    + 7 steps for the rest; then two), the reader takes it, and the destructor waits for another one. *)
Definition early : list (iact (P:=nat)) :=
  repeat (AMain 0) 24 ++ [AAdd [1;2;3;4;5;6;7;8;9]%nat false 1; ANext] ++ repeat (AMain 0) 11 ++ repeat (ARead 0 0) 19 ++ repeat (AMain 0) 7 ++
  [ADestroy; AMain 0] ++ repeat (ARead 0 0) 22 ++ repeat (AMain 0) 2.
Theorem C16_refuted : exists s outs, history 2 2 2 early s outs /\ In ADestroy early /\ stopped 2 2 2 s /\ forall r s' o, irun 2 2 2 r s = Some (s', o) -> i_main s' <> KDone.
Proof.
  destruct (irun 2 2 2 early (istart [None; None] [None; None] 2)) as [[s outs]|] eqn:E; [|exfalso; revert E; vm_compute; discriminate].
  assert (H : history 2 2 2 early s outs) by (repeat split; try lia; exists [None; None], [None; None]; auto).
  assert (St : stopped 2 2 2 s /\ i_main s = KGet).
  { vm_compute in E. injection E as <- <-. split; [|reflexivity]. intros [w|[|[|j]] w|t|t| |pts bad pass|] Hb; try discriminate; reflexivity. }
  destruct St as [St M]. exists s, outs. split; [exact H|]. split; [unfold early; do 5 (apply in_or_app; right); left; reflexivity|]. split; [exact St|].
  intros r s' o Er. rewrite (C16_blocked_forever _ _ _ _ _ _ H St M _ _ _ Er). discriminate.
Qed.
Print Assumptions C16_refuted.

(* ---------------------------------------------------------------------- C17 *)
(** C17: a source that fails, anywhere among the others, whatever number of passes was asked for: when Next
    returns null, it has returned all examples of the sources before, those before the error, once, and all
    examples of the sources after it; and nothing else than mini-batches and null. *)
Theorem C17_error_is_silent : forall (P : Type) n bs k (l : list (iact (P:=P))) s outs act s' o before pts pass after, history n bs k l s outs -> inext n bs k act s = Some (s', o) -> In None o ->
  sources l = before ++ [(pts, true, pass)] ++ after -> 0 < pass ->
  delivered outs = concat (map examples before) ++ pts ++ concat (map examples after) /\
  batches outs = concat (map (parts bs) before) ++ cut bs [] pts ++ concat (map (parts bs) after).
Proof.
  intros P n bs k l s outs act s' o before pts pass after H E Hn Sl Ps. destruct (C14_complete _ _ _ _ _ _ _ _ _ H E Hn) as (_ & B & D).
  rewrite B, D. unfold wanted, portions. rewrite Sl, !map_app, !concat_app. cbn [map concat examples parts]. destruct (Z.leb_spec pass 0); [lia|]. rewrite !app_nil_r. auto.
Qed.
Print Assumptions C17_error_is_silent.

(* ---------------------------------------------------------------------- outside the hypotheses *)
(** C15: with no mini-batch at all the constructor never ends: it waits for a place in a queue without places. *)
Theorem C15_no_batches_refuted : exists s, irun 0 1 1 (repeat (AMain 0) 3) (istart (P:=nat) [] [] 1) = Some (s, []) /\ stopped 0 1 1 s /\ i_main s = CSig /\
  forall r s' o, irun 0 1 1 r s = Some (s', o) -> i_main s' = CSig.
Proof.
  destruct (irun 0 1 1 (repeat (AMain 0) 3) (istart (P:=nat) [] [] 1)) as [[s outs]|] eqn:E; [|exfalso; revert E; vm_compute; discriminate].
  vm_compute in E. injection E as <- <-. eexists. split; [reflexivity|]. split; [|split; [reflexivity|]].
  - intros [w|[|j] w|t|t| |pts bad pass|] Hb; try discriminate; reflexivity.
  - match goal with |- forall r s' o, irun _ _ _ r ?s0 = _ -> _ => set (st := s0) end.
    set (st1 := match inext 0 1 1 (ASpurB 0) st with Some (x, _) => x | None => st end).
    set (st2 := match inext 0 1 1 (AMain 0) st1 with Some (x, _) => x | None => st end).
    vm_compute in st1, st2.
    assert (G : forall b s1 s2 o, (s1 = st \/ s1 = st1 \/ s1 = st2) -> inext 0 1 1 b s1 = Some (s2, o) -> s2 = st \/ s2 = st1 \/ s2 = st2).
    { intros b s1 s2 o [->|[->| ->]] Eb; destruct b as [w|j w|t|t| |pts bad pass|]; try discriminate; try (destruct j; discriminate); try (destruct t as [|t]; vm_compute in Eb); try (vm_compute in Eb); try discriminate; injection Eb as <- _; auto. }
    assert (Z : forall r s1 s2 o, (s1 = st \/ s1 = st1 \/ s1 = st2) -> irun 0 1 1 r s1 = Some (s2, o) -> s2 = st \/ s2 = st1 \/ s2 = st2).
    { clear - G. induction r as [|b r IH]; intros s1 s2 o S1 E; cbn [irun] in E; [inversion E; subst; assumption|].
      destruct (inext 0 1 1 b s1) as [[s3 o3]|] eqn:E3; [|discriminate]. cbn [bind] in E. destruct (irun 0 1 1 r s3) as [[s4 o4]|] eqn:E4; [|discriminate]. cbn [bind] in E. inversion E; subst. exact (IH _ _ _ (G _ _ _ _ S1 E3) E4). }
    intros r s' o Er. destruct (Z _ _ _ _ (or_introl eq_refl) Er) as [->|[->| ->]]; reflexivity.
Qed.
Print Assumptions C15_no_batches_refuted.
(** C14: with mini-batches of size zero Next returns empty mini-batches again and again, as often as it is called,
    and never null. *)
Definition zero_start : list (iact (P:=nat)) := repeat (AMain 0) 16 ++ [AAdd [1;2]%nat false 1; ANext] ++ repeat (AMain 0) 11 ++ repeat (ARead 0 0) 20 ++ repeat (AMain 0) 7.
Definition zero_next : list (iact (P:=nat)) := [ANext] ++ repeat (AMain 0) 10 ++ repeat (ARead 0 0) 19 ++ repeat (AMain 0) 7.
Theorem C14_size_zero_refuted : forall m, exists s, irun 1 0 2 (zero_start ++ concat (repeat zero_next m)) (istart [None] [None] 2) = Some (s, repeat (Some []) (S m)).
Proof.
  set (st := match irun 1 0 2 zero_start (istart [None] [None] 2) with Some (x, _) => x | None => istart [None] [None] 2 end). vm_compute in st.
  assert (E1 : irun 1 0 2 zero_start (istart [None] [None] 2) = Some (st, [Some []])) by (vm_compute; reflexivity).
  assert (E2 : irun 1 0 2 zero_next st = Some (st, [Some []])) by (vm_compute; reflexivity).
  assert (Ap : forall l1 l2 (s s1 : iter (P:=nat)) o1, irun 1 0 2 l1 s = Some (s1, o1) -> irun 1 0 2 (l1 ++ l2) s = do (s2, o2) <- irun 1 0 2 l2 s1; Some (s2, o1 ++ o2)).
  { clear. induction l1 as [|b l1 IH]; intros l2 s s1 o1 E; cbn [irun app] in *; [inversion E; subst; destruct (irun 1 0 2 l2 s1) as [[? ?]|]; reflexivity|].
    destruct (inext 1 0 2 b s) as [[s3 o3]|]; [|discriminate]. cbn [bind] in *. destruct (irun 1 0 2 l1 s3) as [[s4 o4]|] eqn:E4; [|discriminate]. cbn [bind] in E. inversion E; subst.
    rewrite (IH l2 _ _ _ E4). destruct (irun 1 0 2 l2 s1) as [[? ?]|]; cbn [bind]; [now rewrite app_assoc|reflexivity]. }
  assert (Em : forall m, irun 1 0 2 (concat (repeat zero_next m)) st = Some (st, repeat (Some []) m)).
  { induction m as [|m IH]; [reflexivity|]. cbn [repeat concat]. rewrite (Ap _ _ _ _ _ E2), IH. reflexivity. }
  intros m. exists st. rewrite (Ap _ _ _ _ _ E1), Em. reflexivity.
Qed.
Print Assumptions C14_size_zero_refuted.

(* ---------------------------------------------------------------------- witnesses *)
(** A schedule: the caller's thread goes on as long as it can, then the first reader that can. *)
Fixpoint greedy (fuel n bs k : nat) (s : iter (P:=nat)) : list (iact (P:=nat)) :=
  match fuel with
  | O => []
  | S fuel =>
    match inext n bs k (AMain 0) s with
    | Some (s1, _) => AMain 0 :: greedy fuel n bs k s1
    | None => match find (fun j => match inext n bs k (ARead j 0) s with Some _ => true | None => false end) (seq 0 k) with
              | Some j => ARead j 0 :: match inext n bs k (ARead j 0) s with Some (s1, _) => greedy fuel n bs k s1 | None => [] end
              | None => []
              end
    end
  end.
(** The caller's calls, each after everybody has come to rest. *)
Fixpoint session (n bs k : nat) (calls : list (iact (P:=nat))) (s : iter (P:=nat)) : list (iact (P:=nat)) :=
  let l := greedy 400 n bs k s in
  match calls with
  | [] => l
  | c :: r => match irun n bs k (l ++ [c]) s with Some (s1, _) => l ++ [c] ++ session n bs k r s1 | None => l end
  end.
Definition three := [AAdd [1;2;3]%nat false 2; AAdd [4;5;6;7]%nat true 3; AAdd [8]%nat false 1].
Definition whole (calls : list (iact (P:=nat))) := session 2 2 5 calls (istart [None; None] [None; None] 5).
Definition outsof (l : list (iact (P:=nat))) := match irun 2 2 5 l (istart [None; None] [None; None] 5) with Some (_, o) => o | None => [] end.
(** The actions before the one that returns null, that one, and those after it. *)
Fixpoint at_null (l : list (iact (P:=nat))) (s : iter (P:=nat)) : list (iact (P:=nat)) * list (iact (P:=nat)) :=
  match l with
  | [] => ([], [])
  | b :: r => match inext 2 2 5 b s with
              | Some (s1, [None]) => ([], l)
              | Some (s1, _) => let '(x, y) := at_null r s1 in (b :: x, y)
              | None => ([], l)
              end
  end.
Definition s0 : iter (P:=nat) := istart [None; None] [None; None] 5.
Definition state_after (l : list (iact (P:=nat))) (s : iter (P:=nat)) : iter (P:=nat) := match irun 2 2 5 l s with Some (x, _) => x | None => s end.
Ltac after l s := let v := eval vm_compute in (state_after l s) in exists v.
Ltac hist := repeat split; try lia; exists [None; None], [None; None]; repeat split; vm_compute; reflexivity.
(** Three sources, the second one with an error, and nine calls of Next: the eight mini-batches, the seventh of
    which is empty, and null. *)
Definition upto := fst (at_null (whole (three ++ repeat ANext 9)) s0).
Example C14_witness : exists s outs s' o, history 2 2 5 upto s outs /\ inext 2 2 5 (AMain 0) s = Some (s', o) /\ In None o /\
  outs = [Some [1;2]; Some [3]; Some [1;2]; Some [3]; Some [4;5]; Some [6;7]; Some []; Some [8]]%nat /\
  delivered outs = [1;2;3;1;2;3;4;5;6;7;8]%nat.
Proof.
  after upto s0. exists [Some [1;2]; Some [3]; Some [1;2]; Some [3]; Some [4;5]; Some [6;7]; Some []; Some [8]]%nat. after (upto ++ [AMain 0]) s0. exists [None].
  split; [hist|]. split; [vm_compute; reflexivity|]. split; [left; reflexivity|]. split; reflexivity.
Qed.
(** More calls after the null: null again. *)
Example C14_witness_end : exists s outs s1 o s2, let rest := skipn 1 (snd (at_null (whole (three ++ repeat ANext 11)) s0)) in
  history 2 2 5 upto s outs /\ inext 2 2 5 (AMain 0) s = Some (s1, o) /\ In None o /\ irun 2 2 5 rest s1 = Some (s2, [None; None]) /\ sources rest = [].
Proof.
  after upto s0. exists [Some [1;2]; Some [3]; Some [1;2]; Some [3]; Some [4;5]; Some [6;7]; Some []; Some [8]]%nat. after (upto ++ [AMain 0]) s0. exists [None].
  after (whole (three ++ repeat ANext 11)) s0. split; [hist|]. split; [vm_compute; reflexivity|]. split; [left; reflexivity|]. split; vm_compute; reflexivity.
Qed.
(** The caller holds the second mini-batch while the reader goes on. *)
Example C14_witness_held : exists s outs id, history 2 2 5 (whole (three ++ repeat ANext 2)) s outs /\ i_held s = Some id /\ outs = [Some [1;2]; Some [3]]%nat.
Proof. after (whole (three ++ repeat ANext 2)) s0. exists [Some [1;2]; Some [3]]%nat. exists 1%nat. split; [hist|]. split; reflexivity. Qed.
Example C14_witness_cut : cut 2 [] [1;2;3;4]%nat = [[1;2]; [3;4]; []]%nat /\ cut 3 [] [1;2;3;4]%nat = [[1;2;3]; [4]]%nat.
Proof. split; reflexivity. Qed.
(** Nobody can do anything, and the caller is outside. *)
Example C15_witness : exists s outs, history 2 2 5 (whole (three ++ repeat ANext 2)) s outs /\ stopped 2 2 5 s /\ i_main s = MIdle.
Proof.
  after (whole (three ++ repeat ANext 2)) s0. exists [Some [1;2]; Some [3]]%nat. split; [hist|]. split; [|reflexivity]. intros [w|[|[|[|[|j]]]] w|t|t| |pts bad pass|] Hb; try discriminate; reflexivity.
Qed.
(** Destroying it after the end, after another source was added; and before the first Next. *)
Example C16_witness_end : exists s outs s1 o s2 s3, history 2 2 5 upto s outs /\ inext 2 2 5 (AMain 0) s = Some (s1, o) /\ In None o /\
  irun 2 2 5 [AAdd [9]%nat false 1] s1 = Some (s2, []) /\ inext 2 2 5 ADestroy s2 = Some (s3, []) /\
  exists s4, irun 2 2 5 (greedy 400 2 2 5 s3) s3 = Some (s4, []) /\ i_main s4 = KDone.
Proof.
  after upto s0. exists [Some [1;2]; Some [3]; Some [1;2]; Some [3]; Some [4;5]; Some [6;7]; Some []; Some [8]]%nat. after (upto ++ [AMain 0]) s0. exists [None].
  after (upto ++ [AMain 0; AAdd [9]%nat false 1]) s0. after (upto ++ [AMain 0; AAdd [9]%nat false 1; ADestroy]) s0.
  split; [hist|]. split; [vm_compute; reflexivity|]. split; [left; reflexivity|]. split; [vm_compute; reflexivity|]. split; [vm_compute; reflexivity|].
  match goal with |- exists _, irun _ _ _ (greedy ?f ?a ?b ?c ?st) _ = _ /\ _ => after (greedy f a b c st) st end. split; vm_compute; reflexivity.
Qed.
Example C16_witness_unused : exists s s1, history 2 2 5 (whole [AAdd [1;2;3]%nat false 2]) s [] /\ inext 2 2 5 ADestroy s = Some (s1, []) /\
  exists s4, irun 2 2 5 (greedy 400 2 2 5 s1) s1 = Some (s4, []) /\ i_main s4 = KDone.
Proof.
  after (whole [AAdd [1;2;3]%nat false 2]) s0. after (whole [AAdd [1;2;3]%nat false 2] ++ [ADestroy]) s0. split; [hist|]. split; [vm_compute; reflexivity|].
  match goal with |- exists _, irun _ _ _ (greedy ?f ?a ?b ?c ?st) _ = _ /\ _ => after (greedy f a b c st) st end. split; vm_compute; reflexivity.
Qed.
Example C17_witness : sources upto = [([1;2;3]%nat, false, 2)] ++ [([4;5;6;7]%nat, true, 3)] ++ [([8]%nat, false, 1)].
Proof. vm_compute. reflexivity. Qed.
