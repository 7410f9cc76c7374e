(** Two algorithms in lockstep, in any arithmetic and with active learning, up to a whole session; and
    the dual-averaging algorithms against the learner that remembers its gradients. *)
From Coq Require Import Sorted.
From Verif Require Import M_Base M_Num M_Expr M_Loss M_Online M_Olm M_Algs S_Expr S_Online S_Session S_Dual
  P_DataPoint P_Expr P_Online P_Predict P_Step P_Safe P_SafeOlm P_Session.

Section Sim.
Context {R E E' : Type}.
Variable N : num R.
Variable a : alg (R:=R) E.
Variable a' : alg (R:=R) E'.
Variable good : point R -> Prop.
Variable Rel : core (R:=R) -> E -> list (list R) -> E' -> Prop.
Definition bump (c : core (R:=R)) : core := set_data (set_iter c (c_iter c + 1)) (c_data c + 1).
Hypothesis Hm : forall c e q, a_margin a c e q = None.
Hypothesis Hm' : forall c e q, a_margin a' c e q = None.
Hypothesis Hstable : forall c c2 e ws e', c_ws c2 = c_ws c -> c_dim c2 = c_dim c ->
  c_b0 c2 = c_b0 c -> c_eta c2 = c_eta c -> Rel c e ws e' -> Rel c2 e ws e'.
Hypothesis Hprep : forall p c e ws e' c1 e1 e2 c3 e3, good p -> Rel c e ws e' ->
  a_grow a (Z.to_nat (x_dim p)) c e = Some (c1, e1) -> a_reg_begin a p e1 = Some e2 ->
  a_prep a p (bump c1) e2 = Some (c3, e3) ->
  (Z.to_nat (x_dim p) <= c_dim c3)%nat /\
  exists e1' e2' ws1 ws3 e3',
    a_grow a' (Z.to_nat (x_dim p)) (set_ws c ws) e' = Some (set_ws c1 ws1, e1') /\
    a_reg_begin a' p e1' = Some e2' /\
    a_prep a' p (set_ws (bump c1) ws1) e2' = Some (set_ws c3 ws3, e3') /\
    Rel c3 e3 ws3 e3' /\ predict N (set_ws c3 ws3) p = predict N c3 p.
Hypothesis Hupd : forall p c e ws e' loss u e5, good p -> (Z.to_nat (x_dim p) <= c_dim c)%nat -> Rel c e ws e' ->
  a_update a p loss c e = Some (u, e5) ->
  exists ws5 e5', a_update a' p loss (set_ws c ws) e' = Some (set_ws u ws5, e5') /\ Rel u e5 ws5 e5'.
Hypothesis Hend : forall p c e ws e' e6, Rel c e ws e' -> a_reg_end a p (c_iter c) e = Some e6 ->
  exists e6', a_reg_end a' p (c_iter c) e' = Some e6' /\ Rel c e6 ws e6'.

Lemma learn_sim2 p lab ps c e ws e' c1 e1 : good p -> (Z.to_nat (x_dim p) <= c_dim c)%nat -> Rel c e ws e' ->
  learn N a p lab ps c e = Some (c1, e1) ->
  exists ws1 e1', learn N a' p lab ps (set_ws c ws) e' = Some (set_ws c1 ws1, e1') /\ Rel c1 e1 ws1 e1'.
Proof.
  intros Hg Hd M H. unfold learn in *. cbv zeta in *. rewrite Hm in H. rewrite Hm'.
  set (d := cost_margin_step N c (p_label p)) in *.
  assert (Ed : cost_margin_step N (set_ws c ws) (p_label p) = set_ws d ws)
    by (unfold d, cost_margin_step; cbn [c_cost set_ws]; destruct (c_cost c); reflexivity).
  assert (Md : Rel d e ws e') by (apply Hstable with c; auto; unfold d, cost_margin_step; destruct (c_cost c); reflexivity).
  assert (Dd : c_dim d = c_dim c) by (unfold d, cost_margin_step; destruct (c_cost c); reflexivity).
  rewrite Ed. cbn [c_loss c_g c_margin set_ws] in *.
  destruct (gradient N (c_loss d) None (p_label p) ps lab (c_g d) (c_margin d)) as [r|]; [|discriminate].
  cbn [bind] in *.
  change (set_lres (set_ws d ws) r) with (set_ws (set_lres d r) ws).
  set (k := set_lres d r) in *.
  assert (Mk : Rel k e ws e') by (apply Hstable with d; auto).
  change (wants_update N (set_ws k ws)) with (wants_update N k).
  destruct (wants_update N k lab (p_label p) (l_loss r)).
  - change (set_upd (set_ws k ws) (c_upd (set_ws k ws) + 1)) with (set_ws (set_upd k (c_upd k + 1)) ws).
    set (j := set_upd k (c_upd k + 1)) in *.
    assert (Mj : Rel j e ws e') by (apply Hstable with k; auto).
    destruct (a_update a p (l_loss r) j e) as [(u, e5)|] eqn:Eu; [|discriminate]. cbn [bind] in H.
    assert (Dj : (Z.to_nat (x_dim p) <= c_dim j)%nat) by (change (c_dim j) with (c_dim d); lia).
    destruct (Hupd p j e ws e' (l_loss r) u e5 Hg Dj Mj Eu) as (ws5 & e5' & E1 & M5). rewrite E1. cbn [bind].
    destruct (a_reg_end a p (c_iter u) e5) as [e6|] eqn:E6; [|discriminate]. cbn [bind] in H.
    destruct (Hend p u e5 ws5 e5' e6 M5 E6) as (e6' & E7 & R7). injection H as <- <-.
    exists ws5, e6'. change (c_iter (set_ws u ws5)) with (c_iter u). rewrite E7. auto.
  - cbn [bind] in *. destruct (a_reg_end a p (c_iter k) e) as [e6|] eqn:E6; [|discriminate]. cbn [bind] in H.
    destruct (Hend p k e ws e' e6 Mk E6) as (e6' & E7 & R7). injection H as <- <-.
    exists ws, e6'. change (c_iter (set_ws k ws)) with (c_iter k). rewrite E7. auto.
Qed.

Lemma iterate_sim2 p rnd c e ws e' lab ps c1 e1 : good p -> Rel c e ws e' ->
  iterate N a p rnd c e = Some (lab, ps, c1, e1) ->
  exists ws1 e1', iterate N a' p rnd (set_ws c ws) e' = Some (lab, ps, set_ws c1 ws1, e1') /\
    Rel c1 e1 ws1 e1'.
Proof.
  intros Hg HR H. unfold iterate in *.
  destruct (a_grow a (Z.to_nat (x_dim p)) c e) as [(g, eg)|] eqn:Eg; [|discriminate]. cbn [bind] in H.
  cbv zeta in H.
  destruct (a_reg_begin a p eg) as [e2|] eqn:Eb; [|discriminate]. cbn [bind] in H.
  change (set_data (set_iter g (c_iter g + 1)) (c_data g + 1)) with (bump g) in H.
  destruct (a_prep a p (bump g) e2) as [(c3, e3)|] eqn:Ep; [|discriminate]. cbn [bind] in H.
  destruct (Hprep p c e ws e' g eg e2 c3 e3 Hg HR Eg Eb Ep) as (Hd & e1' & e2' & ws1 & ws3 & e3' & G1 & G2 & G3 & M & Pr).
  rewrite G1. cbn [bind]. cbv zeta. rewrite G2. cbn [bind].
  change (set_data (set_iter (set_ws g ws1) (c_iter (set_ws g ws1) + 1)) (c_data (set_ws g ws1) + 1))
    with (set_ws (bump g) ws1). rewrite G3. cbn [bind]. rewrite Pr.
  destruct (predict N c3 p) as [(lb, pss)|]; [|discriminate]. cbn [bind] in *.
  change (queried N (set_ws c3 ws3)) with (queried N c3).
  destruct (queried N c3 pss lb rnd) as [[]|]; [| |discriminate]; cbn [bind] in *.
  - destruct (learn N a p lb pss c3 e3) as [(c4, e4)|] eqn:El; [|discriminate]. cbn [bind] in H.
    injection H as <- <- <- <-.
    destruct (learn_sim2 p lb pss c3 e3 ws3 e3' c4 e4 Hg Hd M El) as (w4 & e4' & L1 & R1).
    rewrite L1. cbn [bind]. eauto.
  - injection H as <- <- <- <-. exists ws3, e3'. split; [reflexivity|]. eapply Hstable; [..|exact M]; reflexivity.
Qed.

Variable pre : point R -> option (point R).
Definition okp (d : point R * R) : Prop := exists x, pre (fst d) = Some x /\ good x.
Lemma train_point_sim d c e ws e' c1 e1 : okp d -> Rel c e ws e' ->
  train_point N a pre d c e = Some (c1, e1) ->
  exists ws1 e1', train_point N a' pre d (set_ws c ws) e' = Some (set_ws c1 ws1, e1') /\ Rel c1 e1 ws1 e1'.
Proof.
  intros (x & Ex & Hx) HR H. destruct d as (p, rnd). cbn [fst] in Ex. unfold train_point in *. rewrite Ex in *.
  cbn [bind] in *.
  destruct (iterate N a x rnd c e) as [(((lab, ps), c2), e2)|] eqn:E2; [|discriminate]. cbn [bind] in H.
  destruct (iterate_sim2 x rnd c e ws e' lab ps c2 e2 Hx HR E2) as (ws1 & e1' & E1' & HR1). rewrite E1'. cbn [bind].
  injection H as <- <-. exists ws1, e1'. split; [destruct (lab =? p_label x); reflexivity|].
  eapply Hstable; [..|exact HR1]; destruct (lab =? p_label x); reflexivity.
Qed.

(** The state of the training loop. *)
Definition LRel (s : core * E * displayer * list event) (s' : core * E' * displayer * list event) : Prop :=
  let '(c, e, dp, ev) := s in let '(c', e', dp', ev') := s' in
  dp' = dp /\ ev' = ev /\ exists ws, c' = set_ws c ws /\ Rel c e ws e'.
Lemma foldM_sim {A S S'} (P : A -> Prop) (Q : S -> S' -> Prop) (f : A -> S -> option S) (f' : A -> S' -> option S') :
  (forall x s s' t, P x -> Q s s' -> f x s = Some t -> exists t', f' x s' = Some t' /\ Q t t') ->
  forall l s s' t, Forall P l -> Q s s' -> foldM f l s = Some t -> exists t', foldM f' l s' = Some t' /\ Q t t'.
Proof.
  intros Hf. induction l as [|x l IH]; intros s s' t HP HQ H; cbn [foldM] in *.
  - injection H as <-. eauto.
  - inversion HP; subst. destruct (f x s) as [s1|] eqn:E1; [|discriminate]. cbn [bind] in H.
    destruct (Hf x s s' s1) as (t1 & E1' & Q1); auto. rewrite E1'. cbn [bind]. eauto.
Qed.
Lemma train_step_sim d s s' t : okp d -> LRel s s' -> train_step N a pre d s = Some t ->
  exists t', train_step N a' pre d s' = Some t' /\ LRel t t'.
Proof.
  destruct s as (((c, e), dp), ev). destruct s' as (((c', e'), dp'), ev'). intros Hd (-> & -> & ws & -> & HR) H.
  unfold train_step in *. destruct (train_point N a pre d c e) as [(c1, e1)|] eqn:E1; [|discriminate].
  cbn [bind] in H. destruct (train_point_sim d c e ws e' c1 e1 Hd HR E1) as (ws1 & e1' & E1' & HR1).
  rewrite E1'. cbn [bind]. change (c_data (set_ws c1 ws1)) with (c_data c1).
  change (event_of (set_ws c1 ws1)) with (event_of c1).
  destruct (next_show dp <=? c_data c1); injection H as <-; eexists; split; try reflexivity; cbn; eauto 6.
Qed.

Hypothesis Hbegin : forall c e, a_begin a c e = Some (c, e).
Hypothesis Hbegin' : forall c e, a_begin a' c e = Some (c, e).
Lemma train_batches_sim bs ri c e dp ws e' c1 e1 dp1 ev : Forall (Forall okp) bs -> Rel c e ws e' ->
  train_batches N a pre bs ri (c, e, dp) = Some (c1, e1, dp1, ev) ->
  exists ws1 e1', train_batches N a' pre bs ri (set_ws c ws, e', dp) = Some (set_ws c1 ws1, e1', dp1, ev) /\
    Rel c1 e1 ws1 e1' /\ c_updated c1 = true.
Proof.
  intros Hb HR H. unfold train_batches in *.
  assert (B : (if ri then a_begin a c e else Some (c, e)) = Some (c, e)) by (destruct ri; auto).
  assert (B' : (if ri then a_begin a' (set_ws c ws) e' else Some (set_ws c ws, e')) = Some (set_ws c ws, e'))
    by (destruct ri; auto).
  rewrite B in H. rewrite B'. cbn [bind] in *.
  match type of H with context [foldM ?f bs ?s] => destruct (foldM f bs s) as [(((c2, e2), dp2), ev2)|] eqn:EF end;
    [|discriminate]. cbn [bind] in H. injection H as <- <- <- <-.
  destruct (foldM_sim (Forall okp) LRel (fun b st => foldM (train_step N a pre) b st) (fun b st => foldM (train_step N a' pre) b st)) with
    (l := bs) (s := (c, e, dp, @nil event)) (s' := (set_ws c ws, e', dp, @nil event)) (t := (c2, e2, dp2, ev2))
    as ((((c3, e3), dp3), ev3) & E3 & L3); auto.
  { intros x s s' t Hx Hs Ht. eapply (foldM_sim okp LRel); eauto. intros. eapply train_step_sim; eauto. }
  { cbn. eauto 6. }
  rewrite E3. cbn [bind]. destruct L3 as (-> & -> & ws3 & -> & R3). exists ws3, e3. split; [reflexivity|].
  split; [eapply Hstable; [..|exact R3]; reflexivity|reflexivity].
Qed.

(** The state of a session: outside of training the weights are equal. *)
Definition SRel (s : core * E * bool) (s' : core * E' * bool) : Prop :=
  let '(c, e, r) := s in let '(c', e', r') := s' in
  r' = r /\ exists ws, c' = set_ws c ws /\ Rel c e ws e' /\ (c_updated c = false -> ws = c_ws c).
Lemma set_ws_id (c : core (R:=R)) : set_ws c (c_ws c) = c.
Proof. now destruct c. Qed.
Definition oku (u : use (R:=R)) : Prop :=
  match u with UTrain bs => Forall (Forall okp) bs | _ => True end.
Lemma use_step_train u s s' t : no_test u -> oku u -> SRel s s' -> use_step N a pre u s = Some t ->
  exists t', use_step N a' pre u s' = Some t' /\ SRel t t'.
Proof.
  destruct s as ((c, e), r). destruct s' as ((c', e'), r'). intros Hn Hu (-> & ws & -> & HR & Hw) H.
  unfold use_step in *. destruct u as [bs|data|]; [|easy|].
  - destruct (train_batches N a pre bs r (c, e, ExpShow 2 2 1)) as [(((c1, e1), dp1), ev)|] eqn:E1; [|discriminate].
    cbn [bind] in H. injection H as <-.
    destruct (train_batches_sim bs r c e _ ws e' c1 e1 dp1 ev Hu HR E1) as (ws1 & e1' & E1' & R1 & U1).
    rewrite E1'. cbn [bind]. eexists. split; [reflexivity|]. cbn. split; auto. exists ws1. split; auto. split; auto.
    congruence.
  - injection H as <-. eexists. split; [reflexivity|]. cbn. eauto 6.
Qed.
Lemma session_train us s s' t : Forall no_test us -> Forall oku us -> SRel s s' -> session N a pre us s = Some t ->
  exists t', session N a' pre us s' = Some t' /\ SRel t t'.
Proof.
  intros Hn Ho. apply (foldM_sim (fun u => no_test u /\ oku u) SRel).
  - intros u s1 s1' t1 (A & B). now apply use_step_train.
  - rewrite Forall_forall in *. auto.
Qed.
(** A test, where training ends with equal weights. *)
Lemma test_once data c e ws e' rows k c1 e1 : (c_updated c = false -> ws = c_ws c) ->
  (forall c1 e1, a_end a c e = Some (c1, e1) -> exists e1', a_end a' (set_ws c ws) e' = Some (c1, e1')) ->
  test N a pre data c e = Some (rows, k, c1, e1) ->
  exists e1', test N a' pre data (set_ws c ws) e' = Some (rows, k, c1, e1').
Proof.
  intros Hu HE H. unfold test in *. change (c_updated (set_ws c ws)) with (c_updated c).
  destruct (c_updated c).
  - destruct (a_end a c e) as [(c2, e2)|] eqn:E2; [|discriminate]. cbn [bind] in H.
    destruct (HE _ _ eq_refl) as (e1' & E1'). rewrite E1'. cbn [bind].
    destruct (mapM (test_point N pre c2) data); [|discriminate]. cbn [bind] in *. injection H as <- <- <- <-. eauto.
  - rewrite Hu by auto. rewrite set_ws_id. cbn [bind] in *.
    destruct (mapM (test_point N pre c) data); [|discriminate]. cbn [bind] in *. injection H as <- <- <- <-. eauto.
Qed.

Hypothesis Hfin : forall c e ws e' c1 e1, Rel c e ws e' -> a_end a c e = Some (c1, e1) ->
  exists e1', a_end a' (set_ws c ws) e' = Some (c1, e1') /\ Rel c1 e1 (c_ws c1) e1'.
Lemma test_sim data c e ws e' rows k c1 e1 : Rel c e ws e' -> (c_updated c = false -> ws = c_ws c) ->
  test N a pre data c e = Some (rows, k, c1, e1) ->
  exists e1', test N a' pre data (set_ws c ws) e' = Some (rows, k, c1, e1') /\ Rel c1 e1 (c_ws c1) e1'.
Proof.
  intros HR Hu H. unfold test in *. change (c_updated (set_ws c ws)) with (c_updated c).
  destruct (c_updated c).
  - destruct (a_end a c e) as [(c2, e2)|] eqn:E2; [|discriminate]. cbn [bind] in H.
    destruct (Hfin _ _ _ _ _ _ HR E2) as (e1' & E1' & R1). rewrite E1'. cbn [bind].
    destruct (mapM (test_point N pre c2) data); [|discriminate]. cbn [bind] in *. injection H as <- <- <- <-. eauto.
  - rewrite Hu by auto. rewrite Hu in HR by auto. rewrite set_ws_id. cbn [bind] in *.
    destruct (mapM (test_point N pre c) data); [|discriminate]. cbn [bind] in *. injection H as <- <- <- <-. eauto.
Qed.
Lemma use_step_sim u s s' t : oku u -> SRel s s' -> use_step N a pre u s = Some t ->
  exists t', use_step N a' pre u s' = Some t' /\ SRel t t'.
Proof.
  intros Hu HS H. destruct u as [bs|data|]; [eapply use_step_train; eauto; exact I| |eapply use_step_train; eauto; exact I].
  destruct s as ((c, e), r). destruct s' as ((c', e'), r'). destruct HS as (-> & ws & -> & HR & Hw).
  unfold use_step in *.
  - destruct (test N a pre data c e) as [(((rows, k), c1), e1)|] eqn:E1; [|discriminate].
    cbn [bind] in H. injection H as <-.
    destruct (test_sim data c e ws e' rows k c1 e1 HR Hw E1) as (e1' & E1' & R1). rewrite E1'. cbn [bind].
    eexists. split; [reflexivity|]. cbn. split; auto. exists (c_ws c1). rewrite set_ws_id. auto.
Qed.
Lemma session_sim us s s' t : Forall oku us -> SRel s s' -> session N a pre us s = Some t ->
  exists t', session N a' pre us s' = Some t' /\ SRel t t'.
Proof. intros. eapply (foldM_sim oku SRel); eauto. intros. eapply use_step_sim; eauto. Qed.
End Sim.

(** ** A learner whose weights are a function of its history *)
Lemma nth_table {R} (d : R) n m f k i : (k < n)%nat -> (i < m)%nat -> nth i (nth k (table n m f) []) d = f k i.
Proof.
  intros Hk Hi. unfold table. rewrite (nth_indep _ [] (map (f 0%nat) (seq 0 m))) by (rewrite map_length, seq_length; lia).
  rewrite (map_nth (fun k => map (f k) (seq 0 m))), seq_nth by lia. cbn [Nat.add].
  rewrite (nth_indep _ d (f k 0%nat)) by (rewrite map_length, seq_length; lia).
  rewrite map_nth, seq_nth by lia. reflexivity.
Qed.
Lemma table_shape {R} n m (f : nat -> nat -> R) : shape n m (table n m f).
Proof.
  unfold table. split; [now rewrite map_length, seq_length|]. rewrite Forall_forall. intros w H.
  apply in_map_iff in H as (k & <- & _). now rewrite map_length, seq_length.
Qed.
Lemma shape_nth {R} n m (vs : list (list R)) k : shape n m vs -> (k < n)%nat -> length (nth k vs []) = m.
Proof. intros (L & F) Hk. rewrite Forall_forall in F. apply F. apply nth_In. lia. Qed.
Lemma table_eq {R} (d : R) n m vs f : shape n m vs ->
  (forall k i, (k < n)%nat -> (i < m)%nat -> nth i (nth k vs []) d = f k i) -> vs = table n m f.
Proof.
  intros Hs H. pose proof (table_shape n m f) as Ht. pose proof Hs as (L & F). pose proof Ht as (Lt & Ft).
  apply (nth_ext _ _ [] []); [congruence|]. intros k Hk. rewrite L in Hk.
  pose proof (shape_nth _ _ _ k Hs Hk) as L1. pose proof (shape_nth _ _ _ k Ht Hk) as L2.
  apply (nth_ext _ _ d d); [congruence|].
  intros i Hi. rewrite L1 in Hi. rewrite H by auto. now rewrite nth_table.
Qed.

Lemma upd_dim_shape {R} (N : num R) n d c : shape n (c_dim c) (c_ws c) ->
  c_dim (linear_update_dim N d c) = Nat.max (c_dim c) d /\
  shape n (c_dim (linear_update_dim N d c)) (c_ws (linear_update_dim N d c)).
Proof.
  intros Hs. pose proof (shape_grow n (c_dim c) d (zero N) (c_ws c) Hs) as G. unfold linear_update_dim.
  destruct (Nat.ltb_spec (c_dim c) d); cbn [c_dim c_ws set_dim set_ws].
  - replace (Nat.max (c_dim c) d) with d in * by lia. auto.
  - replace (Nat.max (c_dim c) d) with (c_dim c) in * by lia. auto.
Qed.

Definition par {R} (c : core (R:=R)) : R * R := (c_eta c, c_b0 c).
Section Dual.
Context {R E : Type}.
Variable N : num R.
Local Notation zero := (zero N).
Variable a : alg (R:=R) E.
Variable eta1 eta2 : core (R:=R) -> R.
Variable wt1 wt2 : core (R:=R) -> history (R:=R) -> nat -> nat -> R.
Variable fin : list R -> list R.
Variable n : nat.
Variable lo : Z.
Hypothesis Hlo : 0 <= lo.
(** The state of the code stands for the history; it may depend on the weights and the step sizes. *)
Variable St : nat -> list (list R) -> R * R -> E -> history (R:=R) -> Prop.

Definition DRel (c : core (R:=R)) (e : E) (ws : list (list R)) (h : history (R:=R)) : Prop :=
  (1 <= c_dim c)%nat /\ shape n (c_dim c) (c_ws c) /\ shape n (c_dim c) ws /\ St (c_dim c) (c_ws c) (par c) e h.

Hypothesis Hm : forall c e q, a_margin a c e q = None.
Hypothesis Hbegin : forall c e, a_begin a c e = Some (c, e).
Hypothesis Hrb : forall p e, a_reg_begin a p e = Some e.
Hypothesis Hre : forall p t e, a_reg_end a p t e = Some e.
Hypothesis Hgrow : forall d c e h c1 e1, (1 <= c_dim c)%nat -> shape n (c_dim c) (c_ws c) ->
  St (c_dim c) (c_ws c) (par c) e h ->
  a_grow a d c e = Some (c1, e1) -> c1 = linear_update_dim N d c /\ St (c_dim c1) (c_ws c1) (par c1) e1 h.
Hypothesis Hprep : forall p c e h c1 e1, wf_point lo p -> (1 <= c_dim c)%nat -> shape n (c_dim c) (c_ws c) ->
  (Z.to_nat (x_dim p) <= c_dim c)%nat -> St (c_dim c) (c_ws c) (par c) e h ->
  a_prep a p c e = Some (c1, e1) -> e1 = e /\
  exists ws, c1 = set_ws (set_eta c (eta1 c)) ws /\ shape n (c_dim c) ws /\ St (c_dim c) ws (eta1 c, c_b0 c) e h /\
    forall k i, (k < n)%nat -> (i < c_dim c)%nat -> i = 0%nat \/ lookup (feats p) i <> None ->
      nth i (nth k ws []) zero = wt1 (set_eta c (eta1 c)) h k i.
Hypothesis Hupd : forall p loss c e h c1 e1, wf_point lo p -> (1 <= c_dim c)%nat -> shape n (c_dim c) (c_ws c) ->
  (Z.to_nat (x_dim p) <= c_dim c)%nat -> St (c_dim c) (c_ws c) (par c) e h ->
  a_update a p loss c e = Some (c1, e1) ->
  exists ws, c1 = set_ws c ws /\ shape n (c_dim c) ws /\ St (c_dim c) ws (par c) e1 ((feats p, c_g c) :: h).
Hypothesis Hend : forall c e h c1 e1, (1 <= c_dim c)%nat -> shape n (c_dim c) (c_ws c) ->
  St (c_dim c) (c_ws c) (par c) e h -> a_end a c e = Some (c1, e1) -> e1 = e /\
  c1 = set_updated (set_ws (set_eta c (eta2 c)) (map fin (table n (c_dim c) (wt2 (set_eta c (eta2 c)) h)))) false.
Hypothesis Hfin : forall w, length (fin w) = length w.
(** The weights depend on nothing but the settings and counters. *)
Hypothesis Hw1 : forall c ws h k i, eta1 (set_ws c ws) = eta1 c /\ wt1 (set_ws c ws) h k i = wt1 c h k i.
Hypothesis Hw2 : forall c ws h k i, eta2 (set_ws c ws) = eta2 c /\ wt2 (set_ws c ws) h k i = wt2 c h k i.

Let a' := dual N eta1 eta2 wt1 wt2 fin.

Lemma fdot_agree (w w' : list R) x : forall acc, length w = length w' ->
  Forall (fun i => 0 <= i) (map fst x) ->
  (forall i v, In (i, v) x -> nth (Z.to_nat i) w zero = nth (Z.to_nat i) w' zero) ->
  fdot N zero (n_mul N) w (fun _ v => v) x acc = fdot N zero (n_mul N) w' (fun _ v => v) x acc.
Proof.
  unfold fdot. induction x as [|(i, v) x IH]; intros acc L Hx H; [reflexivity|]. inversion Hx; subst.
  cbn [filter fst]. rewrite <- L. assert (IH' := IH). rewrite <- L in IH'.
  destruct (i <? Z.of_nat (length w)); cbn [fold_left].
  - rewrite (H i v) by now left. apply IH'; auto. intros. apply (H _ v0). now right.
  - apply IH'; auto. intros. apply (H _ v0). now right.
Qed.
Lemma predict_agree p c ws : wf_point lo p -> (1 <= c_dim c)%nat -> shape n (c_dim c) (c_ws c) -> shape n (c_dim c) ws ->
  (Z.to_nat (x_dim p) <= c_dim c)%nat ->
  (forall k i, (k < n)%nat -> (i < c_dim c)%nat -> i = 0%nat \/ lookup (feats p) i <> None ->
      nth i (nth k (c_ws c) []) zero = nth i (nth k ws []) zero) ->
  predict N (set_ws c ws) p = predict N c p.
Proof.
  intros Hp Hd Hs1 Hs2 Hx H. unfold predict. cbn [c_ws set_ws].
  assert (E0 : mapM (score N (feats p)) ws = mapM (score N (feats p)) (c_ws c)); [|now rewrite E0].
  assert (S0 : sorted_ix (feats p)) by (eapply feats_sorted; eauto).
  assert (G : forall k, (k < n)%nat -> score N (feats p) (nth k ws []) = score N (feats p) (nth k (c_ws c) [])).
  { intros k Hk. pose proof (shape_nth _ _ _ k Hs1 Hk) as L1. pose proof (shape_nth _ _ _ k Hs2 Hk) as L2.
    rewrite !(score_spec N _ _ zero) by (auto; lia). rewrite (H k 0%nat) by (auto; lia). do 2 f_equal.
    apply fdot_agree; [lia|apply S0|]. intros i v Hi. symmetry.
    assert (Hin : In i (map fst (feats p))) by (apply in_map_iff; exists (i, v); auto).
    assert (0 <= i < Z.of_nat (c_dim c)).
    { pose proof (feats_below lo p (c_dim c) Hlo Hp Hx) as FB. rewrite Forall_forall in FB. specialize (FB i Hin).
      destruct S0 as (_ & S0). rewrite Forall_forall in S0. specialize (S0 i Hin). lia. }
    apply H; auto; [lia|]. right. rewrite lookup_None. rewrite Z2Nat.id by lia. auto. }
  destruct Hs1 as (L1 & _). destruct Hs2 as (L2 & _). clear -G L1 L2. revert G L1 L2.
  generalize (c_ws c) as vs. revert ws. induction n as [|m IH]; intros ws vs G L1 L2.
  - destruct ws, vs; try discriminate. reflexivity.
  - destruct ws as [|w ws], vs as [|v vs]; try discriminate. cbn [mapM].
    pose proof (G 0%nat ltac:(lia)) as G0. cbn [nth] in G0. rewrite G0. rewrite (IH ws vs); auto.
    intros k Hk. apply (G (S k)). lia.
Qed.
Lemma upd_dim_ws d c ws : length ws = length (c_ws c) -> exists ws1,
  linear_update_dim N d (set_ws c ws) = set_ws (linear_update_dim N d c) ws1 /\
  (shape n (c_dim c) ws -> shape n (c_dim (linear_update_dim N d c)) ws1).
Proof.
  intros L. unfold linear_update_dim. cbn [c_dim c_ws set_ws].
  destruct (Nat.ltb_spec (c_dim c) d).
  - eexists. split; [reflexivity|]. cbn [c_dim set_dim]. intros Hs.
    pose proof (shape_grow n (c_dim c) d zero ws Hs) as G. destruct (Nat.ltb_spec (c_dim c) d); [|lia].
    now replace (Nat.max (c_dim c) d) with d in G by lia.
  - exists ws. auto.
Qed.

Lemma map_ext_table m f g : (forall k i, f k i = g k i) -> table (R:=R) n m f = table n m g.
Proof. intros H. unfold table. apply map_ext. intros k. apply map_ext. auto. Qed.

Lemma dual_prep p c e ws h c1 e1 e2 c3 e3 : wf_point lo p -> DRel c e ws h ->
  a_grow a (Z.to_nat (x_dim p)) c e = Some (c1, e1) -> a_reg_begin a p e1 = Some e2 ->
  a_prep a p (bump c1) e2 = Some (c3, e3) ->
  (Z.to_nat (x_dim p) <= c_dim c3)%nat /\
  exists e1' e2' ws1 ws3 e3',
    a_grow a' (Z.to_nat (x_dim p)) (set_ws c ws) h = Some (set_ws c1 ws1, e1') /\
    a_reg_begin a' p e1' = Some e2' /\
    a_prep a' p (set_ws (bump c1) ws1) e2' = Some (set_ws c3 ws3, e3') /\
    DRel c3 e3 ws3 e3' /\ predict N (set_ws c3 ws3) p = predict N c3 p.
Proof.
  intros Hp (Hd & Hs1 & Hs2 & Hst) Eg Eb Ep.
  destruct (Hgrow _ _ _ _ _ _ Hd Hs1 Hst Eg) as (-> & Hst1). rewrite Hrb in Eb. injection Eb as <-.
  destruct (upd_dim_ws (Z.to_nat (x_dim p)) c ws) as (ws1 & E1 & S1). { rewrite (proj1 Hs1). apply Hs2. }
  specialize (S1 Hs2). destruct (upd_dim_shape N n (Z.to_nat (x_dim p)) c Hs1) as (D1 & T1).
  set (c1 := linear_update_dim N (Z.to_nat (x_dim p)) c) in *.
  destruct (Hprep p (bump c1) e1 h c3 e3) as (-> & ws3 & -> & S3 & St3 & A3); auto; try (cbn [bump c_dim set_data set_iter]; lia).
  cbn [bump c_dim set_data set_iter set_ws set_eta] in S3, St3, A3 |- *.
  split; [lia|].
  exists h, h, ws1, (table n (c_dim c1) (wt1 (set_eta (bump c1) (eta1 (bump c1))) h)), h.
  split; [unfold a'; cbn [dual a_grow]; now rewrite E1|]. split; [reflexivity|].
  assert (Ln : length ws1 = n) by apply S1.
  split.
  { unfold a'. cbn [dual a_prep]. unfold clf_num. cbn [bump c_ws c_dim set_ws set_data set_iter set_eta].
    rewrite (proj1 (Hw1 (bump c1) ws1 h 0%nat 0%nat)). rewrite Ln. do 2 f_equal.
    rewrite (map_ext_table (c_dim c1) _ (wt1 (set_eta (bump c1) (eta1 (bump c1))) h)). 
    - reflexivity.
    - intros k i. exact (proj2 (Hw1 (set_eta (bump c1) (eta1 (bump c1))) ws1 h k i)). }
  split.
  - unfold DRel. cbn [bump c_dim c_ws c_eta c_b0 par set_data set_iter set_ws set_eta]. split; [lia|]. split; [auto|].
    split; [apply table_shape|exact St3].
  - cbn [set_ws set_eta]. apply predict_agree; cbn [bump c_dim c_ws set_data set_iter set_ws set_eta]; auto; try lia.
    + apply table_shape.
    + intros k i Hk Hi Hx. rewrite nth_table by auto. rewrite A3; auto.
Qed.
Lemma dual_upd p c e ws h loss u e5 : wf_point lo p -> (Z.to_nat (x_dim p) <= c_dim c)%nat -> DRel c e ws h ->
  a_update a p loss c e = Some (u, e5) ->
  exists ws5 e5', a_update a' p loss (set_ws c ws) h = Some (set_ws u ws5, e5') /\ DRel u e5 ws5 e5'.
Proof.
  intros Hp Hx (Hd & Hs1 & Hs2 & Hst) H.
  destruct (Hupd p loss c e h u e5 Hp Hd Hs1 Hx Hst H) as (ws5 & -> & S5 & St5).
  exists ws, ((feats p, c_g c) :: h). split; [reflexivity|]. split; auto.
Qed.
Lemma dual_end c e ws h c1 e1 : DRel c e ws h -> a_end a c e = Some (c1, e1) ->
  a_end a' (set_ws c ws) h = Some (c1, h).
Proof.
  intros (Hd & Hs1 & Hs2 & Hst) H. destruct (Hend c e h c1 e1 Hd Hs1 Hst H) as (-> & ->).
  unfold a'. cbn [dual a_end]. unfold clf_num. cbn [c_ws c_dim set_ws].
  rewrite (proj1 (Hw2 c ws h 0%nat 0%nat)). rewrite (proj1 Hs2).
  rewrite (map_ext_table (c_dim c) _ (wt2 (set_eta c (eta2 c)) h)); [reflexivity|].
  intros k i. exact (proj2 (Hw2 (set_eta c (eta2 c)) ws h k i)).
Qed.

Lemma drel_stable c c2 e ws e' : c_ws c2 = c_ws c -> c_dim c2 = c_dim c ->
  c_b0 c2 = c_b0 c -> c_eta c2 = c_eta c -> DRel c e ws e' -> DRel c2 e ws e'.
Proof. intros E1 E2 E4 E3. unfold DRel, par. now rewrite E1, E2, E3, E4. Qed.

Lemma dual_iterate p rnd c e ws h lab ps c1 e1 : wf_point lo p -> DRel c e ws h ->
  iterate N a p rnd c e = Some (lab, ps, c1, e1) ->
  exists ws1 h1, iterate N a' p rnd (set_ws c ws) h = Some (lab, ps, set_ws c1 ws1, h1) /\ DRel c1 e1 ws1 h1.
Proof.
  apply iterate_sim2 with (good := wf_point lo); auto.
  - exact drel_stable.
  - intros. eapply dual_prep; eauto.
  - intros. eapply dual_upd; eauto.
  - intros q c0 e0 ws0 e' e6 M H. rewrite Hre in H. injection H as <-. exists e'. auto.
Qed.
Lemma dual_session_train pre us s s' t : Forall no_test us -> Forall (oku (wf_point lo) pre) us -> SRel DRel s s' ->
  session N a pre us s = Some t -> exists t', session N a' pre us s' = Some t' /\ SRel DRel t t'.
Proof.
  apply session_train; auto.
  - exact drel_stable.
  - intros. eapply dual_prep; eauto.
  - intros. eapply dual_upd; eauto.
  - intros p c e ws e' e6 M H. rewrite Hre in H. injection H as <-. exists e'. auto.
Qed.
Lemma dual_test pre data c e ws h rows k c1 e1 : DRel c e ws h -> (c_updated c = false -> ws = c_ws c) ->
  test N a pre data c e = Some (rows, k, c1, e1) ->
  exists h1, test N a' pre data (set_ws c ws) h = Some (rows, k, c1, h1).
Proof.
  intros HR Hu. apply test_once; auto. intros c2 e2 H. exists h. now apply dual_end with e e2.
Qed.

(** When the end of training keeps the state in order. *)
Hypothesis Hend_st : forall c e h c1 e1, (1 <= c_dim c)%nat -> shape n (c_dim c) (c_ws c) ->
  St (c_dim c) (c_ws c) (par c) e h -> a_end a c e = Some (c1, e1) ->
  c_dim c1 = c_dim c /\ St (c_dim c1) (c_ws c1) (par c1) e1 h.
Lemma dual_fin c e ws h c1 e1 : DRel c e ws h -> a_end a c e = Some (c1, e1) ->
  exists h1, a_end a' (set_ws c ws) h = Some (c1, h1) /\ DRel c1 e1 (c_ws c1) h1.
Proof.
  intros HR H. exists h. split; [now apply dual_end with e e1|]. destruct HR as (Hd & Hs1 & Hs2 & Hst).
  destruct (Hend_st c e h c1 e1 Hd Hs1 Hst H) as (D1 & S1).
  destruct (Hend c e h c1 e1 Hd Hs1 Hst H) as (-> & ->).
  unfold DRel. cbn [c_ws c_dim set_updated set_ws set_eta] in *. split; auto.
  assert (Sf : shape n (c_dim c) (map fin (table n (c_dim c) (wt2 (set_eta c (eta2 c)) h)))).
  { pose proof (table_shape n (c_dim c) (wt2 (set_eta c (eta2 c)) h)) as (L & F). split; [now rewrite map_length|].
    rewrite Forall_forall in *. intros w Hin. apply in_map_iff in Hin as (v & <- & Hin). rewrite Hfin. auto. }
  auto.
Qed.
Lemma dual_session pre us s s' t : Forall (oku (wf_point lo) pre) us -> SRel DRel s s' ->
  session N a pre us s = Some t -> exists t', session N a' pre us s' = Some t' /\ SRel DRel t t'.
Proof.
  apply session_sim; auto.
  - exact drel_stable.
  - intros. eapply dual_prep; eauto.
  - intros. eapply dual_upd; eauto.
  - intros p c e ws e' e6 M H. rewrite Hre in H. injection H as <-. exists e'. auto.
  - intros. eapply dual_fin; eauto.
Qed.
End Dual.
