(** Proofs about the data iterator, part 5: calls come to an end. *)
From Verif Require Import M_Base M_Queue S_Queue P_Queue P_Queue2 P_Queue3 M_Iter S_Iter P_Iter P_Iter2 P_Iter3.

Section P.
Context {P : Type}.
Notation reader := (reader (P:=P)). Notation iter := (iter (P:=P)).
Notation op := (aop (A:=ptr)). Notation ast := (ast (P:=P)). Notation rop := (reader * option op)%type.
Notation heap := (list (option (list P))).
Variables n bs k : nat.

(** More than what starting a queue operation costs. *)
Definition costq : nat := (2 * k + 12)%nat.
(** How many fetches a reader can still make. *)
Definition work (r : reader) : nat :=
  if r_ok r && (0 <? r_pass r) then (length (r_left r) + 1 + Z.to_nat (r_pass r - 1) * S (length (r_pts r)))%nat else 0%nat.
Definition rpot (h : heap) (x : rop) : nat :=
  let W := ((2 * costq + 2) * work (fst x))%nat in
  match r_pc (fst x) with
  | RDone | RFin => 0
  | RFin0 | RNull => costq
  | RNull0 => 2 * costq
  | RNone | RLoop => W + costq + 1
  | RGet => W + 1
  | RFill id => W + match pt h id with [] => 1 | _ => 2 * costq + 2 end
  | RPut0 _ => W + 2 * costq + 1
  | RPut => W + costq + 1
  end%nat.
Definition mpot (m : mpc) (c : nat) : nat :=
  match m with
  | CNew i => (n - i) * (2 * costq) + costq
  | CPut i => (n - S i) * (2 * costq) + costq
  | CSig | MIdle | NEnd | KDone => 0
  | NPut | NTake => 2 * costq
  | NGet | NSend => costq
  | KSize => 5 * costq + c + 4
  | KGet => 4 * costq + c + 4
  | KSend0 => 4 * costq + c + 3
  | KSend | KLoop => 2 * costq + c + 3
  | KGet2 => costq + c + 3
  | KJoin j => costq + 2 + (c - j)
  | KSize2 => costq + 1
  | KGet3 => 1
  end%nat.
Definition pot (a : ast) : nat :=
  (ssum (rpot (a_heap a)) (a_rs a) + costq * hs isS 0 (a_heap a) + costq * Z.to_nat (acount (a_rs a) - a_idx a) + costq * nf a + mpot (a_main a) (length (a_rs a)))%nat.

Lemma work_pos r : r_ok r = true -> 0 < r_pass r -> (1 <= work r)%nat.
Proof. intros E L. unfold work. rewrite E. destruct (Z.ltb_spec 0 (r_pass r)); [cbn [andb]; nia|lia]. Qed.
Lemma work_pc r pc : work (set_pc r pc) = work r.
Proof. reflexivity. Qed.
Lemma work_read (pts : list P) bad pass x l pc pc' : 0 < pass -> work (mkreader pts bad pass (x :: l) true pc) = S (work (mkreader pts bad pass l true pc')).
Proof. intros L. unfold work. cbn [r_ok r_pass r_left r_pts]. destruct (Z.ltb_spec 0 pass); [|lia]. cbn [andb length]. lia. Qed.
Lemma work_eof (pts : list P) bad pass pc pc' : 0 < pass -> work (mkreader pts bad pass [] true pc) = S (work (mkreader pts bad (pass - 1) pts true pc')).
Proof.
  intros L. unfold work. cbn [r_ok r_pass r_left r_pts]. destruct (Z.ltb_spec 0 pass); [|lia]. cbn [andb length].
  destruct (Z.ltb_spec 0 (pass - 1)); cbn [andb].
  - replace (Z.to_nat (pass - 1)) with (S (Z.to_nat (pass - 1 - 1))) by lia. cbn [Nat.mul]. lia.
  - replace (Z.to_nat (pass - 1)) with 0%nat by lia. lia.
Qed.
Lemma rpot_wr (h h' : heap) id y x : wr h id y = Some h' -> rtok (one id) x = O -> rpot h' x = rpot h x.
Proof.
  intros W S. unfold rpot. destruct (r_pc (fst x)) eqn:Pc; try reflexivity. rewrite (pt_wr _ _ _ _ _ W); [reflexivity|]. intros ->.
  unfold rtok in S. rewrite Pc in S. cbn [one] in S. rewrite Nat.eqb_refl in S. lia.
Qed.
Lemma rs_pot (h h' : heap) id y rs : wr h id y = Some h' -> ssum (rtok (one id)) rs = O -> ssum (rpot h') rs = ssum (rpot h) rs.
Proof. intros W. induction rs as [|x rs IH]; [reflexivity|]. cbn [ssum]. intros S. rewrite IH by lia. rewrite (rpot_wr _ _ _ _ _ W) by lia. reflexivity. Qed.
Lemma rs_pot_app (h : heap) x (a : ast) : inv n bs a -> ssum (rpot (a_heap a ++ [x])) (a_rs a) = ssum (rpot (a_heap a)) (a_rs a).
Proof.
  intros I. assert (G : forall y, In y (a_rs a) -> rpot (a_heap a ++ [x]) y = rpot (a_heap a) y).
  { intros y Hy. unfold rpot. destruct (r_pc (fst y)) eqn:Pc; try reflexivity. unfold pt. apply In_nth_error in Hy. destruct Hy as [j Hj].
    pose proof (ssum_nth (rtok (one id)) _ _ _ Hj) as R. unfold rtok at 1 in R. rewrite Pc in R. cbn [one] in R. rewrite Nat.eqb_refl in R.
    pose proof (v_tok _ _ _ I (one id) eq_refl) as T. rewrite hs_one in T. cbn [Nat.leb] in T. rewrite Nat.sub_0_r in T. unfold tok in T.
    destruct (nth_error (a_heap a) id) as [c|] eqn:E; [|lia]. rewrite nth_error_app1, E; [reflexivity|]. apply nth_error_Some. congruence. }
  revert G. induction (a_rs a) as [|y l IH]; intros G; cbn [ssum]; [reflexivity|]. rewrite G by now left. rewrite IH; [reflexivity|]. intros; apply G; now right.
Qed.

Lemma del_pot (a : ast) id h' : inv n bs a -> a_mop a = Some (ADeqd (Some id)) -> adelete (a_heap a) (Some id) = Some h' ->
  ssum (rpot h') (a_rs a) = ssum (rpot (a_heap a)) (a_rs a) /\ (hs isS 0 h' + 1 = hs isS 0 (a_heap a))%nat.
Proof.
  intros I E D. apply adelete_wr in D. destruct D as (c & Hc & W). split.
  - apply (rs_pot _ _ _ _ _ W). pose proof (tok_one _ _ _ id I) as T. unfold tok in T. rewrite E in T. cbn [aw one] in T. rewrite Nat.eqb_refl in T. lia.
  - pose proof (hs_wr isS _ 0 _ _ _ _ Hc W) as Q. cbn [isS] in Q. lia.
Qed.
Ltac asimp := cbn [a_cf a_cb a_heap a_main a_mop a_idx a_rs a_held] in *.
Definition goal (l : lbl (P:=P)) (x y : nat) : Prop := match l with LQ => y <= x | LI => y + costq <= x | LL => y < x | LU _ => True end%nat.

(** A reader's own part. *)
Definition rown (h : heap) (cf : list ptr) (x : rop) : nat := (rpot h x + costq * hs isS 0 h + costq * (ssum isN cf + rnf x))%nat.
Lemma rown_step l cf cb h r o cf' cb' h' r' o' : (0 < bs)%nat -> rok (r, o) -> rstep n bs l (cf, cb, h, r, o) (cf', cb', h', r', o') -> goal l (rown h cf (r, o)) (rown h' cf' (r', o')).
Proof.
  intros B Ok R. unfold rok in Ok. cbn [fst snd] in Ok. assert (Qp : (1 <= costq)%nat) by (unfold costq; lia).
  assert (K : r_ok r = true /\ 0 < r_pass r -> (2 * costq + 2 <= (2 * costq + 2) * work r)%nat) by (intros [K1 K2]; pose proof (work_pos r K1 K2); nia).
  inversion R; subst; clear R; unfold goal;
      repeat match goal with H : fac_r (r_pc ?r) = true |- _ => destruct (r_pc r) eqn:?; try discriminate; clear H | H : buf_r (r_pc ?r) = true |- _ => destruct (r_pc r) eqn:?; try discriminate; clear H end;
      try match goal with H : r_pc _ = _ |- _ => rewrite H in Ok end; try (destruct Ok; fail); unfold rown, rpot, rnf; cbn [fst snd set_pc r_pc aw] in *; rewrite ?work_pc;
      repeat match goal with H : r_pc _ = _ |- _ => rewrite H end; rewrite ?ssum_app; cbn [ssum isN] in *; try lia.
  all: repeat match goal with H : apoints _ _ = Some _ |- _ => apply apoints_nth in H end.
  all: try match goal with Hc : nth_error ?h ?id = Some (Some _), W : wr ?h ?id _ = Some ?h' |- _ =>
    let Hh := fresh "Hh" in pose proof (hs_wr isS _ 0 _ _ _ _ Hc W) as Hh; cbn [isS] in Hh; destruct (wr_spec _ _ _ _ W) as (_ & _ & W3 & _); unfold pt; rewrite W3; assert (hs isS 0 h' = hs isS 0 h) as -> by lia end.
  - specialize (K Ok). lia.
  - rewrite (work_read _ _ _ _ _ _ (RFill id)) by apply Ok. destruct (c ++ [x]) eqn:Ec; [destruct c; discriminate|]. destruct (match nth_error h id with Some (Some c0) => c0 | _ => [] end); lia.
  - unfold work at 1. cbn [r_ok andb]. specialize (K Ok). destruct (pt h' id); lia.
  - rewrite (work_eof _ _ _ _ (RPut0 id)) by apply Ok. destruct (pt h' id); lia.
  - match goal with H : nth_error _ _ = Some (Some c), G : _ && _ = false |- _ => unfold pt; rewrite H; destruct Ok as [Ok1 Ok2]; rewrite Ok1, andb_true_r in G; apply Nat.ltb_ge in G; destruct c; cbn [length] in G; lia end.
Qed.

Lemma pot_step l a a' outs : (0 < bs)%nat -> inv n bs a -> astep n bs k l a a' outs -> goal l (pot a) (pot a').
Proof.
  intros B I St. assert (Qp : (1 <= costq)%nat) by (unfold costq; lia).
  pose proof (v_mok _ _ _ I) as Mo. pose proof (v_len _ _ _ I) as Ln. pose proof (v_past _ _ _ I) as Pa. pose proof (v_nf _ _ _ I) as [Nf _]. pose proof (v_idx _ _ _ I) as Ix.
  destruct St as [l a a' outs M|l j cf cb h m mo i rs hd r o cf' cb' h' r' o' rs' Nj R W]; asimp.
  - inversion M; subst; clear M; unfold goal; try exact Logic.I; unfold pot, nf, mnf in *; asimp.
    all: try match goal with H : astart _ _ = Some _ |- _ => destruct (next_reader _ _ _ I ltac:(eassumption)) as (r0 & o0 & N0 & Pc0 & Eo0); asimp; subst o0; pose proof (astart_wr _ _ _ _ _ N0 Pc0 H) as W0; clear H end.
    all: try match goal with |- context [(?h ++ [Some []])] => pose proof (rs_pot_app h (Some []) _ I); pose proof (hs_app isS h [] 0) as Ha; asimp; cbn [isS] in Ha end.
    all: cbn [fac_m mpot aw] in *.
    all: rewrite ?ssum_app; cbn [ssum]; try lia.
    + rewrite H. lia.
    + destruct m; try discriminate; cbn [fac_m]; lia.
    + destruct m; try discriminate; cbn [fac_m]; lia.
    + rewrite H0, Ha. cbn [isN]. replace (n - c)%nat with (S (n - S c)) by lia. lia.
    + pose proof (ssum_wr (rpot h) _ _ _ _ _ N0 W0) as S1. pose proof (ssum_wr rnf _ _ _ _ _ N0 W0) as S2. unfold rpot at 2 4 in S1. unfold rnf at 2 4 in S2. cbn [fst snd set_pc r_pc] in S1, S2. rewrite Pc0 in S1, S2. rewrite work_pc in S1.
      rewrite (cnt_wr _ _ _ _ W0). replace (Z.to_nat (acount rs - i)) with (S (Z.to_nat (acount rs - (i + 1)))) by lia. lia.
    + destruct p as [id|]; [|cbn [isN] in Nf; lia]. destruct (del_pot _ _ _ I eq_refl H) as [D1 D2]. asimp. rewrite D1, <- D2. lia.
    + cbn [isN]. lia.
    + pose proof (ssum_wr (rpot h) _ _ _ _ _ N0 W0) as S1. pose proof (ssum_wr rnf _ _ _ _ _ N0 W0) as S2. unfold rpot at 2 4 in S1. unfold rnf at 2 4 in S2. cbn [fst snd set_pc r_pc] in S1, S2. rewrite Pc0 in S1, S2. rewrite work_pc in S1.
      destruct (wr_spec _ _ _ _ W0) as (_ & Lw & _). rewrite Lw, (cnt_wr _ _ _ _ W0). replace (Z.to_nat (acount rs - i)) with (S (Z.to_nat (acount rs - (i + 1)))) by lia. lia.
    + destruct (Z.ltb_spec i (acount rs)); [|destruct Pa as [[]|]; discriminate]. replace (Z.to_nat (acount rs - i)) with (S (Z.to_nat (acount rs - (i + 1)))) by lia. lia.
    + destruct (del_pot _ _ _ I eq_refl H) as [D1 D2]. asimp. rewrite D1, <- D2. lia.
    + assert (j < length rs)%nat by (apply nth_error_Some; congruence). lia.
    + destruct p as [id|].
      * destruct (del_pot _ _ _ I eq_refl H) as [D1 D2]. asimp. rewrite D1, <- D2. cbn [isN]. lia.
      * inversion H; subst. cbn [isN]. lia.
  - pose proof (v_rok _ _ _ I _ _ Nj) as Ok. unfold rok in Ok. cbn [fst snd] in Ok.
    assert (Ac : acount rs' = acount rs /\ length rs' = length rs). { destruct (wr_spec _ _ _ _ W) as (_ & Lw & _). split; [eapply cnt_wr; eauto|assumption]. }
    destruct Ac as [Ac Al]. pose proof (ssum_wr (rpot h') _ _ _ _ _ Nj W) as S1. pose proof (ssum_wr rnf _ _ _ _ _ Nj W) as S2.
    assert (Fr : forall id y, wr h id y = Some h' -> rtok (one id) (r, o) = 1%nat -> (ssum (rpot h') rs + rpot h (r, o) = ssum (rpot h) rs + rpot h' (r, o))%nat).
    { intros id y Wh Rt. pose proof (tok_one _ _ _ id I) as Tk. unfold tok in Tk. asimp. destruct (wr_split _ _ _ _ _ Nj W) as (l1 & l2 & Ers & _ & _). rewrite Ers, ssum_app in Tk. cbn [ssum] in Tk. rewrite Rt in Tk.
      rewrite Ers, !ssum_app. cbn [ssum]. rewrite (rs_pot _ _ _ _ l1 Wh), (rs_pot _ _ _ _ l2 Wh) by lia. lia. }
    assert (Fr' : (ssum (rpot h') rs + rpot h (r, o) = ssum (rpot h) rs + rpot h' (r, o))%nat).
    { inversion R; subst; try lia.
      - apply (Fr id (Some [])); [assumption|]. unfold rtok. cbn [fst snd aw one]. rewrite Nat.eqb_refl. match goal with H : r_pc _ = _ |- _ => rewrite H end. reflexivity.
      - apply (Fr id (Some (c ++ [x]))); [assumption|]. unfold rtok. cbn [fst snd aw one r_pc]. rewrite Nat.eqb_refl. reflexivity. }
    pose proof (rown_step _ _ _ _ _ _ _ _ _ _ _ B (v_rok _ _ _ I _ _ Nj) R) as G. unfold pot, nf, mnf. asimp. rewrite Ac, Al. unfold rown, goal in *.
    destruct l; lia.
Qed.

(* ------------------------------------------------------------------ for the iterator *)
(** Every thread step uses up something; a spurious wake-up gives back a bounded amount. *)
Definition fuel (s : iter) (a : ast) : nat := (rk s + pot a)%nat.
Definition wakes (l : list (iact (P:=P))) : nat := length (filter spurious l).
Theorem run_ends l : (0 < bs)%nat -> forall (s : iter) a s' outs, abs n k s a -> inv n bs a -> forallb (fun x => negb (callers x)) l = true -> irun n bs k l s = Some (s', outs) ->
  exists a', abs n k s' a' /\ inv n bs a' /\ (length l + fuel s' a' <= fuel s a + (2 * k + 1) * wakes l)%nat.
Proof.
  intros Bs. induction l as [|act l IH]; intros s a s' outs A I C E; cbn [irun forallb length] in *.
  - inversion E; subst. exists a. split; [assumption|split; [assumption|lia]].
  - apply andb_true_iff in C. destruct C as [C1 C2].
    destruct (inext n bs k act s) as [[s1 o1]|] eqn:E1; [|discriminate]. cbn [bind] in E. destruct (irun n bs k l s1) as [[s2 o2]|] eqn:E2; [|discriminate]. cbn [bind] in E. inversion E; subst s2 outs; clear E.
    destruct (sim_next _ _ _ _ _ _ _ _ A E1) as (a1 & A1 & [(-> & -> & C & R)|(lb & St & R & Sp & L)]).
    + destruct (IH _ _ _ _ A1 I C2 E2) as (a' & A' & I' & F). exists a'. split; [assumption|split; [assumption|]]. unfold fuel, wakes in *. cbn [filter]. destruct (spurious act); cbn [length]; lia.
    + pose proof (inv_step _ _ _ _ _ _ _ I St) as I1. pose proof (pot_step _ _ _ _ Bs I St) as G.
      destruct (IH _ _ _ _ A1 I1 C2 E2) as (a' & A' & I' & F). exists a'. split; [assumption|split; [assumption|]]. unfold fuel, wakes in *. cbn [filter]. rewrite Sp.
      destruct lb; cbn [goal rkok] in *; unfold costq in *; try lia; destruct L as [L _]; rewrite L in C1; discriminate.
Qed.

(** After the end. *)
Definition over (a : ast) : Prop :=
  (forall j x, nth_error (a_rs a) j = Some x -> spent x) /\ acount (a_rs a) <= a_idx a + 1 /\ a_held a = None /\
  match a_main a, a_mop a with
  | MIdle, _ | NTake, _ | NGet, Some ADeq => a_cb a = [None]
  | NGet, Some (ADeqd p) => p = None
  | NSend, _ => a_cb a = []
  | NEnd, Some (AEnq _) => a_cb a = []
  | NEnd, Some AEnqd => a_cb a = [None]
  | _, _ => ~ normal (a_main a)
  end.
Lemma over_end (a a' : ast) l outs : inv n bs a -> astep n bs k l a a' outs -> In None outs -> over a'.
Proof.
  intros I St Hn. destruct St as [l a a' outs M|]; [|destruct Hn]. inversion M; subst; try (destruct Hn; fail); [destruct Hn as [Hn|[]]; discriminate|].
  destruct (v_end _ _ _ I ltac:(right; reflexivity)) as (V1 & V2 & V3). asimp. pose proof (v_nb _ _ _ I) as Nb. pose proof (v_past _ _ _ I) as Pa. unfold nb, mnb in Nb. asimp. cbn [aw] in Nb.
  assert (Rn : ssum rnb rs = O) by (apply ssum_zero; intros x Hx; apply In_nth_error in Hx; destruct Hx as [j Hj]; specialize (V2 _ _ Hj); destruct x as [r0 o0]; destruct V2 as [E|[E E']]; cbn [fst snd] in *; unfold rnb; cbn [fst snd]; rewrite E; [reflexivity|subst; reflexivity]).
  unfold over. asimp. split; [assumption|]. split; [assumption|]. split.
  - destruct hd; [|reflexivity]. destruct (v_held _ _ _ I ltac:(discriminate)) as [Q|Q]; [discriminate|]. exfalso. apply Q. exact Logic.I.
  - destruct V3 as [->|E]; [|assumption]. exfalso. cbn [ssum] in Nb. rewrite Rn in Nb. destruct (i <? acount rs); [discriminate|]. destruct Pa as [[]|]. discriminate.
Qed.
Lemma over_step (a a' : ast) l outs : inv n bs a -> over a -> astep n bs k l a a' outs -> match l with LU ls => ls = [] | _ => True end -> over a' /\ (forall c, In c outs -> c = None).
Proof.
  intros I (O1 & O2 & O3 & O4) St Ls. pose proof (v_mok _ _ _ I) as Mo. destruct St as [l a a' outs M|l j cf cb h m mo i rs hd r o cf' cb' h' r' o' rs' Nj R W]; asimp.
  - inversion M; subst; clear M; unfold over; asimp; subst; try discriminate; cbn [normal] in *; try tauto; try (cbn [normal] in *; tauto).
    all: try (repeat split; auto; try (intros ? [] ); tauto).
    + destruct m; try discriminate; cbn [normal] in *; repeat split; auto; try tauto; intros ? [].
    + destruct m; try discriminate; cbn [normal] in *; repeat split; auto; try tauto; try (intros ? []); cbn in Mo; (destruct x; [destruct Mo|]); rewrite O4; reflexivity.
    + destruct m; try discriminate; cbn [normal] in *; repeat split; auto; try tauto; try (intros ? []); destruct Mo.
    + destruct m; try discriminate; cbn [normal] in *; repeat split; auto; try tauto; try (intros ? []). inversion O4. reflexivity.
    + lia.
    + repeat split; auto; [|intros ? []]. apply (v_ctl _ _ _ I). discriminate.
    + repeat split; auto. intros c [<-|[]]. reflexivity.
    + lia.
    + repeat split; auto; try lia; try tauto; intros ? [].
  - destruct (spent_step _ _ _ _ _ _ _ _ _ _ _ _ _ R (O1 _ _ Nj)) as (-> & -> & -> & Sp). split; [|intros ? []]. unfold over. asimp. split; [|split; [|split]]; auto.
    + destruct (wr_spec _ _ _ _ W) as (_ & _ & W3 & W4). intros q x Hq. destruct (Nat.eq_dec q j) as [->|Ne]; [rewrite W3 in Hq; inversion Hq; subst; exact Sp|rewrite W4 in Hq by assumption; eauto].
    + rewrite (cnt_wr _ _ _ _ W). assumption.
Qed.

(** No reader is working. *)
Definition quiet (a : ast) : Prop := forall j x, nth_error (a_rs a) j = Some x -> spent x \/ r_pc (fst x) = RNone.
Lemma none_step l cf cb (h : heap) (r : reader) o cf' cb' h' r' o' : rstep n bs l (cf, cb, h, r, o) (cf', cb', h', r', o') -> rok (r, o) -> r_pc r <> RNone.
Proof. intros R Ok E. unfold rok in Ok. cbn [fst snd] in Ok. rewrite E in Ok. destruct o; [destruct Ok|]. inversion R; subst; cbn [r_pc] in *; congruence. Qed.
Lemma quiet_read l (cf cb : list ptr) h m mo i rs hd j r o cf' cb' h' r' o' rs' : inv n bs (mka cf cb h m mo i rs hd) -> quiet (mka cf cb h m mo i rs hd) -> nth_error rs j = Some (r, o) ->
  rstep n bs l (cf, cb, h, r, o) (cf', cb', h', r', o') -> wr rs j (r', o') = Some rs' -> cf' = cf /\ quiet (mka cf' cb' h' m mo i rs' hd).
Proof.
  intros I Q Nj R W. destruct (Q _ _ Nj) as [Sp|Pc]; [|exfalso; exact (none_step _ _ _ _ _ _ _ _ _ _ _ R (v_rok _ _ _ I _ _ Nj) Pc)].
  destruct (spent_step _ _ _ _ _ _ _ _ _ _ _ _ _ R Sp) as (-> & -> & -> & Sp'). split; [reflexivity|].
  destruct (wr_spec _ _ _ _ W) as (_ & _ & W3 & W4). intros q x Hq. cbn [a_rs] in Hq. destruct (Nat.eq_dec q j) as [->|Ne]; [rewrite W3 in Hq; inversion Hq; subst; auto|rewrite W4 in Hq by assumption; exact (Q _ _ Hq)].
Qed.
Lemma quiet_idle l (a a' : ast) outs : inv n bs a -> a_main a = MIdle -> quiet a -> astep n bs k l a a' outs -> quiet a'.
Proof.
  intros I E Q St. pose proof (v_mok _ _ _ I) as Mo. destruct St as [l a a' outs M|l j cf cb h m mo i rs hd r o cf' cb' h' r' o' rs' Nj R W]; asimp.
  - rewrite E in Mo. inversion M; subst; clear M; asimp; subst; try discriminate; try assumption; try (destruct Mo; fail).
    intros j x Hj. cbn [a_rs] in Hj. apply nth_app_one in Hj. destruct Hj as [Hj|[_ ->]]; [exact (Q _ _ Hj)|]. right. reflexivity.
  - eapply quiet_read; eauto.
Qed.
(** The destructor when no reader works. *)
Definition calm (a : ast) : Prop :=
  match a_main a with
  | KSize => quiet a
  | KGet => quiet a /\ (a_mop a = Some ADeq -> a_cf a <> [])
  | KSend0 | KSend | KLoop | KGet2 | KJoin _ | KSize2 | KGet3 | KDone => True
  | _ => False
  end.
Lemma quiet_fac (a : ast) : quiet a -> forall j r o, nth_error (a_rs a) j = Some (r, o) -> fac_r (r_pc r) = false.
Proof. intros Q j r o Hj. destruct (Q _ _ Hj) as [[E|[E _]]|E]; cbn [fst] in E; rewrite E; reflexivity. Qed.
Lemma calm_step l (a a' : ast) outs : inv n bs a -> calm a -> astep n bs k l a a' outs -> calm a'.
Proof.
  intros I C St. pose proof (v_mok _ _ _ I) as Mo. unfold calm in *. destruct St as [l a a' outs M|l j cf cb h m mo i rs hd r o cf' cb' h' r' o' rs' Nj R W]; asimp.
  - inversion M; subst; clear M; asimp; try exact Logic.I; try (destruct C; fail).
    + destruct m; auto. destruct C as [C _]. split; [exact C|discriminate].
    + destruct m; auto. destruct C as [C _]. split; [exact C|discriminate].
    + destruct m; auto. destruct C as [C _]. split; [exact C|discriminate].
    + destruct m; auto. destruct C as [C _]. split; [exact C|discriminate].
    + split; [exact C|]. intros _. apply H. exact (quiet_fac _ C).
    + destruct C as [C _]. exact C.
  - destruct m; auto.
    + eapply quiet_read; eauto.
    + destruct C as [C1 C2]. destruct (quiet_read _ _ _ _ _ _ _ _ _ _ _ _ _ _ _ _ _ _ I C1 Nj R W) as [-> Q]. auto.
Qed.
End P.
