(** Proofs about the data iterator, part 4: no deadlock. *)
From Verif Require Import M_Base M_Queue S_Queue P_Queue P_Queue2 P_Queue3 M_Iter S_Iter P_Iter P_Iter2.

Section P.
Context {P : Type}.
Notation reader := (reader (P:=P)). Notation iter := (iter (P:=P)).
Notation op := (aop (A:=ptr)). Notation ast := (ast (P:=P)). Notation rop := (reader * option op)%type.
Variables n bs k : nat.

Definition blocked (o : op) (c : list ptr) : Prop := (o = ADeq /\ c = []) \/ (length c = n /\ exists x, o = AEnq x).
Record stuck (a : ast) : Prop := {
  s_main : match a_mop a with
           | Some o => blocked o (if fac_m (a_main a) then a_cf a else a_cb a)
           | None => a_main a = MIdle \/ a_main a = KDone \/ exists j r o, a_main a = KJoin j /\ nth_error (a_rs a) j = Some (r, o) /\ r_pc r <> RNone /\ r_pc r <> RDone
           end;
  s_read : forall j r o, nth_error (a_rs a) j = Some (r, o) ->
           match o with Some p => blocked p (if fac_r (r_pc r) then a_cf a else a_cb a) | None => r_pc r = RNone \/ r_pc r = RDone end
}.
Lemma len_split c : length c = (ssum isN c + ssum isS c)%nat.
Proof. induction c as [|[x|] c IH]; cbn [length ssum isN isS]; lia. Qed.
Lemma ssum_pos {A} (f : A -> nat) l : ssum f l <> O -> exists j x, nth_error l j = Some x /\ f x <> O.
Proof.
  induction l as [|y l IH]; cbn [ssum]; [congruence|]. intros H. destruct (Nat.eq_dec (f y) 0) as [E|E]; [|exists O, y; auto].
  destruct IH as (j & x & Hj & Hx); [lia|]. exists (S j), x. auto.
Qed.

(** What a blocked reader is doing. *)
Lemma blocked_reader (a : ast) j r o : inv n bs a -> stuck a -> nth_error (a_rs a) j = Some (r, o) ->
  (r_pc r = RNone /\ o = None) \/ (r_pc r = RDone /\ o = None) \/ (r_pc r = RGet /\ o = Some ADeq /\ a_cf a = []) \/ (r_pc r = RNull /\ o = Some (AEnq None) /\ length (a_cf a) = n) \/
  ((exists id, r_pc r = RPut /\ o = Some (AEnq (Some id))) /\ length (a_cb a) = n) \/ (r_pc r = RFin /\ o = Some (AEnq None) /\ length (a_cb a) = n).
Proof.
  intros I S Nj. pose proof (s_read a S _ _ _ Nj) as B. pose proof (v_rok _ _ _ I _ _ Nj) as Ok. unfold rok in Ok. cbn [fst snd] in Ok.
  destruct (r_pc r) eqn:Pc; destruct o as [[[q|]| | |[q|]]|]; try (destruct Ok; fail); cbn [fac_r] in B; unfold blocked in B;
    repeat match goal with H : _ \/ _ |- _ => destruct H | H : _ /\ _ |- _ => destruct H | H : exists _, _ |- _ => destruct H end; try discriminate; eauto 15.
Qed.

Theorem no_deadlock (a : ast) : (0 < n)%nat -> inv n bs a -> stuck a ->
  a_main a = MIdle \/ a_main a = KDone \/ (a_main a = KGet /\ a_mop a = Some ADeq /\ a_cf a = []).
Proof.
  intros N I S. pose proof (s_main a S) as Sm. pose proof (v_mok _ _ _ I) as Mo. pose proof (v_past _ _ _ I) as Pa. pose proof (v_nb _ _ _ I) as Nb. pose proof (v_nf _ _ _ I) as [Nf Nf1].
  pose proof (v_tok _ _ _ I isS eq_refl) as Tk. pose proof (hs_len (a_heap a) 0) as Hl. pose proof (v_len _ _ _ I) as Ln. pose proof (v_ctl _ _ _ I) as Ct.
  unfold tok in Tk. pose proof (len_split (a_cf a)) as Lf. pose proof (len_split (a_cb a)) as Lb.
  assert (NF : (fac_m (a_main a) = true -> before (a_main a) -> forall id, a_mop a = Some (AEnq (Some id)) -> length (a_cf a) = n -> length (a_heap a) <= n -> False)%nat).
  { intros _ Bf id Em L Lh. rewrite Em in Tk. cbn [aw isS] in Tk. unfold nf in Nf. destruct (a_main a); cbn in Bf; try tauto; lia. }
  destruct (a_main a) eqn:Em; try (auto; fail); cbn [mok fac_m] in *.
  all: destruct (a_mop a) as [[[q|]| | |[q|]]|] eqn:Eo; try (destruct Mo; fail); cbn [blocked] in Sm; unfold blocked in Sm;
    repeat match goal with H : _ \/ _ |- _ => destruct H | H : _ /\ _ |- _ => destruct H | H : exists _, _ |- _ => destruct H end; try discriminate; auto; try (exfalso; eapply NF; eauto; try exact Logic.I; lia).
  - rewrite Ct in H; [cbn in H; lia|]. unfold mnb. rewrite Em, Eo. discriminate.
  - exfalso. rename H0 into Eb. rewrite Eb in *. cbn [length ssum aw] in *.
    assert (Hd : a_held a = None). { destruct (a_held a) eqn:Eh; [|reflexivity]. exfalso. destruct (v_held _ _ _ I) as [Q|Q]; [congruence|congruence|]. apply Q. rewrite Em. exact Logic.I. }
    assert (Al : hs isS 0 (a_heap a) = n) by (rewrite (v_alive _ _ _ I) by (rewrite Em; exact Logic.I); lia).
    assert (Rt : ssum (rtok isS) (a_rs a) = O).
    { apply ssum_zero. intros [r o] Hx. apply In_nth_error in Hx. destruct Hx as [j Hj].
      destruct (blocked_reader _ _ _ _ I S Hj) as [[E ->]|[[E ->]|[(E & -> & _)|[(E & -> & _)|[((id & E & ->) & L)|(E & -> & _)]]]]]; unfold rtok; cbn [fst snd aw]; rewrite E; try reflexivity.
      rewrite Eb in L. cbn in L. lia. }
    rewrite Hd in Tk.
    assert (Rn : ssum rnb (a_rs a) = O).
    { apply ssum_zero. intros [r o] Hx. apply In_nth_error in Hx. destruct Hx as [j Hj].
      destruct (blocked_reader _ _ _ _ I S Hj) as [[E ->]|[[E ->]|[(E & -> & L)|[(E & -> & _)|[((id & E & ->) & L)|(E & -> & L)]]]]]; unfold rnb; cbn [fst snd aw]; rewrite E; try reflexivity; exfalso.
      - rewrite L in *. cbn in *. lia.
      - apply (v_nonull _ _ _ I) with (j := j) (x := (r, Some (AEnq None))); auto. rewrite Em. exact Logic.I.
      - rewrite Eb in L. cbn in L. lia.
      - rewrite Eb in L. cbn in L. lia. }
    unfold nb, mnb in Nb. rewrite Em, Eo, Rn, Eb in Nb. cbn [ssum aw] in Nb. destruct (_ <? _); [lia|]. cbn in Pa. intuition congruence.
  - rewrite Ct in H; [cbn in H; lia|]. unfold mnb. rewrite Em, Eo. discriminate.
  - exfalso. pose proof (v_clear _ _ _ I) as Cl. rewrite Em in Cl. specialize (Cl Logic.I). unfold nf, mnf in Nf. rewrite Em, Eo in Nf. cbn [fac_m aw isN] in Nf. lia.
  - exfalso. rename H0 into Eb. rewrite Eb in *. cbn [length ssum aw] in *. pose proof (v_clear _ _ _ I) as Cl. rewrite Em in Cl. specialize (Cl Logic.I).
    unfold nb, mnb in Nb. rewrite Em, Eo, Eb in Nb. cbn [ssum aw] in Nb. destruct (a_idx a <? _); [|cbn in Pa; intuition congruence].
    unfold nf, mnf in Nf. rewrite Em in Nf. cbn [fac_m] in Nf.
    destruct (ssum_pos rnb (a_rs a)) as (j & [r o] & Hj & Rj); [lia|].
    assert (Cf : a_cf a <> []).
    { intros Ec. rewrite Ec in Nf. cbn [ssum] in Nf. destruct (ssum_pos rnf (a_rs a)) as (j1 & [r1 o1] & Hj1 & Rj1); [lia|].
      destruct (blocked_reader _ _ _ _ I S Hj1) as [[E ->]|[[E ->]|[(E & -> & L)|[(E & -> & L)|[((id & E & ->) & L)|(E & -> & L)]]]]]; unfold rnf in Rj1; cbn [fst snd aw] in Rj1; rewrite E in Rj1; try congruence.
      rewrite Ec in L. cbn in L. lia. }
    destruct (blocked_reader _ _ _ _ I S Hj) as [[E ->]|[[E ->]|[(E & -> & L)|[(E & -> & L)|[((id & E & ->) & L)|(E & -> & L)]]]]]; unfold rnb in Rj; cbn [fst snd aw] in Rj; rewrite E in Rj; try congruence.
    + pose proof (ssum_nth rnf _ _ _ Hj) as Q. unfold rnf at 1 in Q. cbn [fst snd aw isN] in Q. rewrite E in Q. lia.
    + rewrite Eb in L. cbn in L. lia.
    + rewrite Eb in L. cbn in L. lia.
  - exfalso. inversion H; subst. destruct (Z.ltb_spec (a_idx a) (acount (a_rs a))) as [L|L]; [apply Pa; exact Logic.I|].
    pose proof (proj1 (nth_error_Some (a_rs a) x) ltac:(congruence)) as Lx. unfold acount in L.
    destruct (v_old _ _ _ I _ _ H0 ltac:(lia)) as [E|[E1 E2]]; cbn [fst snd] in *; [congruence|]. subst. destruct (blocked_reader _ _ _ _ I S H0) as [[E ?]|[[E ?]|[(E & ? & _)|[(E & ? & _)|[((id & E & ?) & _)|(E & ? & _)]]]]]; congruence.
  - exfalso. apply (v_get3 _ _ _ I); auto.
Qed.

(* ------------------------------------------ the state of the iterator and what can be done *)
Lemma top_none m cap c t : okq (A:=ptr) m cap k c -> (t < k)%nat -> top m t = None -> nth_error (m_threads m) t = Some None.
Proof.
  intros O L T. unfold top in T. destruct (nth_error (m_threads m) t) as [[pc|]|] eqn:E; [|reflexivity|].
  - now apply (k_single _ _ _ _ O) in E.
  - apply nth_error_None in E. rewrite (k_threads _ _ _ _ O) in E. lia.
Qed.
Lemma issue_go m cap c t o : okq m cap k c -> (t < k)%nat -> top m t = None -> exists m', issue t o m = Some m'.
Proof.
  intros O L T. destruct (okq_can_call is_null m cap k c t o O L (top_none _ _ _ _ O L T)) as (m' & vs & E). unfold issue. rewrite E. cbn. eauto.
Qed.
Lemma alive_tok (a : ast) id : inv n bs a -> (1 <= tok (one id) a)%nat -> exists c, nth_error (a_heap a) id = Some (Some c).
Proof.
  intros I T. rewrite (v_tok _ _ _ I (one id) eq_refl), hs_one in T. cbn [Nat.leb] in T. rewrite Nat.sub_0_r in T. destruct (nth_error _ _) as [[c|]|]; [eauto|lia|lia].
Qed.
Lemma alive_main (a : ast) id : inv n bs a -> a_mop a = Some (ADeqd (Some id)) -> exists c, nth_error (a_heap a) id = Some (Some c).
Proof. intros I E. apply alive_tok; [assumption|]. unfold tok. rewrite E. cbn [aw one]. rewrite Nat.eqb_refl. lia. Qed.
Lemma alive_read (a : ast) id j x : inv n bs a -> nth_error (a_rs a) j = Some x -> rtok (one id) x = 1%nat -> exists c, nth_error (a_heap a) id = Some (Some c).
Proof. intros I E R. apply alive_tok; [assumption|]. pose proof (ssum_nth (rtok (one id)) _ _ _ E). unfold tok. lia. Qed.
Lemma delete_go (s : iter) p : (forall id, p = Some id -> exists c, nth_error (i_heap s) id = Some (Some c)) -> exists s', delete s p = Some s'.
Proof.
  intros H. destruct p as [id|]; cbn [delete]; [|eauto]. destruct (H _ eq_refl) as [c Hc]. unfold points, rd. rewrite Hc. cbn [bind].
  destruct (wr_total (i_heap s) id None) as (h & ->); [apply nth_error_Some; congruence|]. cbn. eauto.
Qed.

Lemma start_go (s : iter) j : (j < length (i_readers s))%nat -> exists s', start_reader s j = Some s'.
Proof.
  intros L. unfold start_reader, rd. destruct (nth_error (i_readers s) j) as [r|] eqn:E; [|apply nth_error_None in E; lia]. cbn [bind].
  destruct (r_pc r); eauto. destruct (wr_total (i_readers s) j (set_pc r RLoop) L) as (l & ->). cbn. eauto.
Qed.
Lemma del_go (s : iter) a p : i_heap s = a_heap a -> inv n bs a -> a_mop a = Some (ADeqd p) -> exists s', delete s p = Some s'.
Proof. intros E I Q. apply delete_go. rewrite E. intros id ->. now apply alive_main. Qed.

(** The calling thread can go on unless it waits. *)
Lemma main_go (s : iter) a w : abs n k s a -> inv n bs a ->
  (fac_m (i_main s) = true -> proceed 0 w (i_fac s) <> None) -> (buf_m (i_main s) = true -> proceed 0 w (i_buf s) <> None) ->
  main_step n w s = None -> i_main s = MIdle \/ i_main s = KDone \/ exists j r o, i_main s = KJoin j /\ nth_error (a_rs a) j = Some (r, o) /\ r_pc r <> RNone /\ r_pc r <> RDone.
Proof.
  intros A I Hf Hb E. pose proof (v_mok _ _ _ I) as Mo. pose proof (b_cnt _ _ _ _ A) as Bc. pose proof (b_heap _ _ _ _ A) as Bh. unfold main_step in E. rewrite (b_main _ _ _ _ A) in *.
  pose proof (b_mf _ _ _ _ A) as Mf. pose proof (b_mb _ _ _ _ A) as Mb. pose proof (v_idx _ _ _ I) as Vi. rewrite <- (b_idx _ _ _ _ A) in Vi.
  assert (Fi : fac_m (a_main a) = false -> forall o, exists m', issue 0 o (i_fac s) = Some m').
  { intros Q o. apply (issue_go _ n (a_cf a)); [apply (b_fac _ _ _ _ A)|lia|]. now rewrite Mf, Q. }
  assert (Bi : buf_m (a_main a) = false -> forall o, exists m', issue 0 o (i_buf s) = Some m').
  { intros Q o. apply (issue_go _ n (a_cb a)); [apply (b_buf _ _ _ _ A)|lia|]. now rewrite Mb, Q. }
  assert (Fp : forall m o, proceed 0 w (i_fac s) = Some (m, Some o) -> (o = [] /\ top (i_fac s) 0 = Some AEnqd) \/ exists x, o = [x] /\ top (i_fac s) 0 = Some (ADeqd x)).
  { intros m o Q. destruct (proceed_ok _ _ _ _ _ _ _ _ (b_fac _ _ _ _ A) Q) as (b & c' & b' & T & _ & _ & _ & Sn & _). inversion Sn; subst; eauto. }
  assert (Bp : forall m o, proceed 0 w (i_buf s) = Some (m, Some o) -> (o = [] /\ top (i_buf s) 0 = Some AEnqd) \/ exists x, o = [x] /\ top (i_buf s) 0 = Some (ADeqd x)).
  { intros m o Q. destruct (proceed_ok _ _ _ _ _ _ _ _ (b_buf _ _ _ _ A) Q) as (b & c' & b' & T & _ & _ & _ & Sn & _). inversion Sn; subst; eauto. }
  destruct (a_main a) eqn:Em; auto; cbn [fac_m buf_m mok] in *.
  all: try (destruct (proceed 0 w (i_fac s)) as [[m [o|]]|] eqn:Pr; cbn [bind] in E; [destruct (Fp _ _ eq_refl) as [[-> T]|(x & -> & T)]; rewrite Mf in T; rewrite T in Mo| |exfalso; apply Hf; auto]; try discriminate; try (destruct Mo; fail)).
  all: try (destruct (proceed 0 w (i_buf s)) as [[m [o|]]|] eqn:Pr; cbn [bind] in E; [destruct (Bp _ _ eq_refl) as [[-> T]|(x & -> & T)]; rewrite Mb in T; rewrite T in Mo| |exfalso; apply Hb; auto]; try discriminate; try (destruct Mo; fail)).
  - exfalso. destruct (Fi eq_refl (OEnqueue (Some i))) as (m & Em1). destruct (Bi eq_refl (OEnqueue None)) as (m' & Em2). rewrite Em1, Em2 in E. destruct (i <? n)%nat; discriminate.
  - exfalso. destruct (Bi eq_refl ODequeue) as (m & Em1). rewrite Em1 in E. discriminate.
  - exfalso. destruct x as [id|].
    + destruct (alive_main a id I T) as (c & Hc). unfold points, rd in E. cbn [i_heap set_buf] in E. rewrite Bh, Hc in E. discriminate.
    + cbn [i_idx set_buf] in E. unfold count in E. destruct (i_idx s + 1 <? _) eqn:L; [|discriminate].
      destruct (start_go (set_buf s m) (Z.to_nat (i_idx s + 1))) as (s' & Es); [cbn [i_readers set_buf] in *; lia|]. rewrite Es in E. discriminate.
  - exfalso. destruct (Bi eq_refl (OEnqueue None)) as (m & Em1). rewrite Em1 in E. discriminate.
  - exfalso. destruct (Fi eq_refl ODequeue) as (m & Em1). rewrite Em1 in E. destruct (0 <? _); discriminate.
  - exfalso. destruct (del_go (set_fac s m) a x Bh I T) as (s' & Es). rewrite Es in E. discriminate.
  - exfalso. destruct (Fi eq_refl (OEnqueue None)) as (m & Em1). rewrite Em1 in E. discriminate.
  - exfalso. destruct (Bi eq_refl ODequeue) as (m & Em1). rewrite Em1 in E. destruct (_ <? _); discriminate.
  - exfalso. destruct x as [id|].
    + destruct (del_go (set_buf s m) a (Some id) Bh I T) as (s' & Es). rewrite Es in E. discriminate.
    + unfold count in E. cbn [i_idx i_readers set_buf set_idx set_main] in E. destruct (i_idx s + 1 <? _) eqn:L; [|discriminate].
      match type of E with context [start_reader ?s1 ?j] => destruct (start_go s1 j) as (s' & Es) end; [cbn [i_readers set_buf set_idx set_main]; lia|]. rewrite Es in E. discriminate.
  - right. right. rewrite (b_rs _ _ _ _ A), nth_error_map in E. destruct (nth_error (a_rs a) j) as [[r o]|] eqn:Nj; [|discriminate]. cbn [option_map fst] in E.
    exists j, r, o. repeat split; auto; intros Q; rewrite Q in E; discriminate.
  - exfalso. destruct (Fi eq_refl ODequeue) as (m & Em1). rewrite Em1 in E. destruct (0 <? _); discriminate.
  - exfalso. destruct (del_go (set_fac s m) a x Bh I T) as (s' & Es). rewrite Es in E. discriminate.
Qed.
Lemma reader_go (s : iter) a j r o w : abs n k s a -> inv n bs a -> nth_error (a_rs a) j = Some (r, o) ->
  (fac_r (r_pc r) = true -> proceed (S j) w (i_fac s) <> None) -> (buf_r (r_pc r) = true -> proceed (S j) w (i_buf s) <> None) ->
  reader_step bs j w s = None -> r_pc r = RNone \/ r_pc r = RDone.
Proof.
  intros A I Nj Hf Hb E. pose proof (v_rok _ _ _ I _ _ Nj) as Ro. pose proof (b_cnt _ _ _ _ A) as Bc. pose proof (b_heap _ _ _ _ A) as Bh. unfold reader_step in E.
  pose proof (b_rf _ _ _ _ A j) as Mf. pose proof (b_rb _ _ _ _ A j) as Mb. rewrite Nj in Mf, Mb.
  assert (Lj : (j < length (a_rs a))%nat) by (apply nth_error_Some; congruence).
  assert (Ri : i_readers s = map fst (a_rs a)) by apply (b_rs _ _ _ _ A).
  assert (Lr : (j < length (i_readers s))%nat) by (rewrite Ri, map_length; lia).
  unfold rd in E. rewrite Ri, nth_error_map, Nj in E. cbn [option_map bind fst] in E. rewrite <- Ri in E.
  assert (Wr : forall x, exists l, wr (i_readers s) j x = Some l) by (intros x; destruct (wr_total (i_readers s) j x Lr) as (l & ->); eauto).
  assert (Fi : fac_r (r_pc r) = false -> forall o, exists m', issue (S j) o (i_fac s) = Some m').
  { intros Q p. apply (issue_go _ n (a_cf a)); [apply (b_fac _ _ _ _ A)|lia|]. now rewrite Mf, Q. }
  assert (Bi : buf_r (r_pc r) = false -> forall o, exists m', issue (S j) o (i_buf s) = Some m').
  { intros Q p. apply (issue_go _ n (a_cb a)); [apply (b_buf _ _ _ _ A)|lia|]. now rewrite Mb, Q. }
  assert (Fp : forall m o, proceed (S j) w (i_fac s) = Some (m, Some o) -> (o = [] /\ top (i_fac s) (S j) = Some AEnqd) \/ exists x, o = [x] /\ top (i_fac s) (S j) = Some (ADeqd x)).
  { intros m p Q. destruct (proceed_ok _ _ _ _ _ _ _ _ (b_fac _ _ _ _ A) Q) as (b & c' & b' & T & _ & _ & _ & Sn & _). inversion Sn; subst; eauto. }
  assert (Al : forall id, rtok (one id) (r, o) = 1%nat -> exists c, nth_error (i_heap s) id = Some (Some c)) by (intros id Q; rewrite Bh; eapply alive_read; eauto).
  assert (Hw : forall id c x, nth_error (i_heap s) id = Some (Some c) -> exists h, wr (i_heap s) id x = Some h).
  { intros id c x Q. destruct (wr_total (i_heap s) id x) as (h & ->); [apply nth_error_Some; congruence|eauto]. }
  unfold rok in Ro. cbn [fst snd] in Ro.
  destruct (r_pc r) eqn:Em; auto; cbn [fac_r buf_r mok] in *; exfalso.
  - destruct (Fi eq_refl ODequeue) as (m & Em1). rewrite Em1 in E. cbn [bind] in E. destruct (_ && _); cbn [i_readers set_fac] in E; match type of E with context [wr _ j ?x] => destruct (Wr x) as (l & El) end; rewrite El in E; discriminate.
  - destruct (proceed (S j) w (i_fac s)) as [[m [p|]]|] eqn:Pr; cbn [bind] in E; [|discriminate|now apply Hf]. destruct (Fp _ _ eq_refl) as [[-> T]|(x & -> & T)]; rewrite Mf in T; clear Mf; subst o; [exact Ro|].
    destruct x as [id|]; cbn [i_readers set_fac] in E.
    + destruct (Al id) as (c & Hc). { unfold rtok. cbn [fst snd aw one]. rewrite Em, Nat.eqb_refl. reflexivity. }
      destruct (Hw _ _ (Some []) Hc) as (h & Eh). unfold points, rd in E. rewrite Hc in E. cbn [bind] in E. rewrite Eh in E. cbn [bind i_readers set_heap set_fac] in E. destruct (Wr (set_pc r (RFill id))) as (l & El). rewrite El in E. discriminate.
    + destruct (Wr (set_pc r RNull0)) as (l & El). rewrite El in E. discriminate.
  - destruct (Fi eq_refl (OEnqueue None)) as (m & Em1). rewrite Em1 in E. cbn [bind i_readers set_fac] in E. destruct (Wr (set_pc r RNull)) as (l & El). rewrite El in E. discriminate.
  - destruct (proceed (S j) w (i_fac s)) as [[m [p|]]|] eqn:Pr; cbn [bind i_readers set_fac] in E; [|discriminate|now apply Hf]. destruct (Wr (set_pc r RFin0)) as (l & El). rewrite El in E. discriminate.
  - destruct o as [[]|]; try (destruct Ro; fail). destruct (Al id) as (c & Hc). { unfold rtok. cbn [fst snd aw one]. rewrite Em, Nat.eqb_refl. reflexivity. }
    unfold points, rd in E. rewrite Hc in E. cbn [bind] in E. destruct (_ && _); [destruct (r_left r) as [|x l0]; [destruct (r_bad r)|destruct (Hw _ _ (Some (c ++ [x])) Hc) as (h & Eh); rewrite Eh in E; cbn [bind i_readers set_heap] in E]|].
    all: match type of E with context [wr _ _ ?x] => destruct (Wr x) as (l & El) end; rewrite El in E; discriminate.
  - destruct (Bi eq_refl (OEnqueue (Some id))) as (m & Em1). rewrite Em1 in E. cbn [bind i_readers set_buf] in E. destruct (Wr (set_pc r RPut)) as (l & El). rewrite El in E. discriminate.
  - destruct (proceed (S j) w (i_buf s)) as [[m [p|]]|] eqn:Pr; cbn [bind i_readers set_buf] in E; [|discriminate|now apply Hb]. destruct (Wr (set_pc r RLoop)) as (l & El). rewrite El in E. discriminate.
  - destruct (Bi eq_refl (OEnqueue None)) as (m & Em1). rewrite Em1 in E. cbn [bind i_readers set_buf] in E. destruct (Wr (set_pc r RFin)) as (l & El). rewrite El in E. discriminate.
  - destruct (proceed (S j) w (i_buf s)) as [[m [p|]]|] eqn:Pr; cbn [bind i_readers set_buf] in E; [|discriminate|now apply Hb]. destruct (Wr (set_pc r RDone)) as (l & El). rewrite El in E. discriminate.
Qed.

(** When nobody can do a step of the implementation, nobody can do a simple step either. *)
Theorem stuck_abs (s : iter) a : abs n k s a -> inv n bs a -> (forall b, internal b = true -> inext n bs k b s = None) -> stuck a.
Proof.
  intros A I St.
  assert (Sm : forall w, main_step n w s = None) by (intros w; exact (St (AMain w) eq_refl)).
  assert (Sr : forall j w, reader_step bs j w s = None).
  { intros j w. specialize (St (ARead j w) eq_refl). cbn [inext] in St. destruct (reader_step bs j w s); [discriminate|reflexivity]. }
  assert (Qs : forall (fac : bool) t w, proceed t w (if fac then i_fac s else i_buf s) = None).
  { intros fac t w. set (m := if fac then i_fac s else i_buf s). destruct (proceed t w m) as [[m' o]|] eqn:Pr; [exfalso|reflexivity].
    assert (Tt : top m t <> None). { destruct fac; [destruct (proceed_ok _ _ _ _ _ _ _ _ (b_fac _ _ _ _ A) Pr) as (b & c' & b' & T & _)|destruct (proceed_ok _ _ _ _ _ _ _ _ (b_buf _ _ _ _ A) Pr) as (b & c' & b' & T & _)]; unfold m; rewrite T; discriminate. }
    assert (Np : proceed t w m <> None) by congruence.
    destruct t as [|j].
    - pose proof (b_mf _ _ _ _ A) as Mf. pose proof (b_mb _ _ _ _ A) as Mb. pose proof (main_go s a w A I) as G. rewrite (b_main _ _ _ _ A) in G.
      assert (Fm : (if fac then fac_m (a_main a) else buf_m (a_main a)) = true).
      { subst m; destruct fac; [rewrite Mf in Tt; destruct (fac_m (a_main a))|rewrite Mb in Tt; destruct (buf_m (a_main a))]; congruence. }
      assert (G1 : fac_m (a_main a) = true -> proceed 0 w (i_fac s) <> None) by (subst m; destruct fac; [intros; assumption|intros Q; destruct (a_main a); discriminate]).
      assert (G2 : buf_m (a_main a) = true -> proceed 0 w (i_buf s) <> None) by (subst m; destruct fac; [intros Q; destruct (a_main a); discriminate|intros; assumption]).
      destruct (G G1 G2 (Sm w)) as [E|[E|(j & r & q & E & _)]]; rewrite E in Fm; destruct fac; discriminate.
    - pose proof (b_rf _ _ _ _ A j) as Mf. pose proof (b_rb _ _ _ _ A j) as Mb. destruct (nth_error (a_rs a) j) as [[r q]|] eqn:Nj; [|subst m; destruct fac; congruence].
      pose proof (reader_go s a j r q w A I Nj) as G.
      assert (Fm : (if fac then fac_r (r_pc r) else buf_r (r_pc r)) = true).
      { subst m; destruct fac; [rewrite Mf in Tt; destruct (fac_r (r_pc r))|rewrite Mb in Tt; destruct (buf_r (r_pc r))]; congruence. }
      assert (G1 : fac_r (r_pc r) = true -> proceed (S j) w (i_fac s) <> None) by (subst m; destruct fac; [intros; assumption|intros Q; destruct (r_pc r); discriminate]).
      assert (G2 : buf_r (r_pc r) = true -> proceed (S j) w (i_buf s) <> None) by (subst m; destruct fac; [intros Q; destruct (r_pc r); discriminate|intros; assumption]).
      destruct (G G1 G2 (Sr j w)) as [E|E]; rewrite E in Fm; destruct fac; discriminate. }
  assert (Qf : forall t w, mnext is_null (Step t w) (i_fac s) = None).
  { intros t w. specialize (Qs true t w). unfold proceed in Qs. destruct (mnext is_null (Step t w) (i_fac s)) as [[? ?]|]; [discriminate|reflexivity]. }
  assert (Qb : forall t w, mnext is_null (Step t w) (i_buf s) = None).
  { intros t w. specialize (Qs false t w). unfold proceed in Qs. destruct (mnext is_null (Step t w) (i_buf s)) as [[? ?]|]; [discriminate|reflexivity]. }
  constructor.
  - pose proof (b_mf _ _ _ _ A) as Mf. pose proof (b_mb _ _ _ _ A) as Mb. pose proof (b_mo _ _ _ _ A) as Mo. destruct (a_mop a) as [o|] eqn:Eo.
    + unfold blocked. destruct (fac_m (a_main a)) eqn:F; [eapply okq_stuck; [apply (b_fac _ _ _ _ A)|exact Qf|exact Mf]|].
      cbn [orb] in Mo. rewrite Mo in Mb. eapply okq_stuck; [apply (b_buf _ _ _ _ A)|exact Qb|exact Mb].
    + rewrite <- (b_main _ _ _ _ A). apply (main_go s a 0 A I); [..|apply Sm]; rewrite (b_main _ _ _ _ A); intros Q; rewrite Q in Mo; try discriminate. rewrite orb_true_r in Mo. discriminate.
  - intros j r o Nj. pose proof (b_rf _ _ _ _ A j) as Mf. pose proof (b_rb _ _ _ _ A j) as Mb. pose proof (b_ro _ _ _ _ A j r o Nj) as Mo. rewrite Nj in Mf, Mb. destruct o as [o|].
    + unfold blocked. destruct (fac_r (r_pc r)) eqn:F; [eapply okq_stuck; [apply (b_fac _ _ _ _ A)|exact Qf|exact Mf]|].
      cbn [orb] in Mo. rewrite Mo in Mb. eapply okq_stuck; [apply (b_buf _ _ _ _ A)|exact Qb|exact Mb].
    + apply (reader_go s a j r None 0 A I Nj); [..|apply Sr]; intros Q; rewrite Q in Mo; try discriminate. rewrite orb_true_r in Mo. discriminate.
Qed.

(** A blocked system stays blocked. *)
Lemma stuck_step l (a a' : ast) outs : inv n bs a -> stuck a -> a_main a = KGet -> ~ astep n bs k l a a' outs.
Proof.
  intros I [Sm Sr] Em St. pose proof (v_mok _ _ _ I) as Mo. destruct St as [l a a' outs M|l j cf cb h m mo i rs hd r o cf' cb' h' r' o' rs' Nj R W]; cbn [a_cf a_cb a_heap a_main a_mop a_idx a_rs a_held] in *.
  - inversion M; subst; cbn [a_cf a_cb a_heap a_main a_mop a_idx a_rs a_held] in *; try discriminate; subst; cbn [fac_m buf_m] in *; try discriminate; try (destruct Mo; fail); destruct Sm as [[S1 S2]|[S1 [y S2]]]; discriminate.
  - specialize (Sr _ _ _ Nj). inversion R; subst; cbn [fst snd r_pc] in *;
      try match goal with H : fac_r (r_pc _) = true |- _ => rewrite H in Sr end;
      try match goal with H : buf_r (r_pc ?r) = true |- _ => assert (Fr : fac_r (r_pc r) = false) by (destruct (r_pc r); try discriminate; reflexivity); rewrite Fr in Sr end;
      unfold blocked in Sr; repeat match goal with H : _ \/ _ |- _ => destruct H | H : _ /\ _ |- _ => destruct H | H : exists _, _ |- _ => destruct H end; try discriminate; try congruence; try lia.
Qed.
Theorem stuck_forever l : forall (s : iter) a s' outs, abs n k s a -> inv n bs a -> stuck a -> a_main a = KGet -> irun n bs k l s = Some (s', outs) -> abs n k s' a /\ outs = [].
Proof.
  induction l as [|act l IH]; intros s a s' outs A I S Em E; cbn [irun] in E; [inversion E; subst; auto|].
  destruct (inext n bs k act s) as [[s1 o1]|] eqn:E1; [|discriminate]. cbn [bind] in E. destruct (irun n bs k l s1) as [[s2 o2]|] eqn:E2; [|discriminate]. cbn [bind] in E. inversion E; subst s2 outs; clear E.
  destruct (sim_next _ _ _ _ _ _ _ _ A E1) as (a1 & A1 & [(-> & -> & _)|(lb & St & _)]); [|exfalso; eapply stuck_step; eauto].
  destruct (IH _ _ _ _ A1 I S Em E2) as [A' ->]. auto.
Qed.
End P.
