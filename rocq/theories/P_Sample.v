(** Selective sampling and cost-sensitive margins. *)
From Coq Require Import Reals Lra.
From Verif Require Import M_Base M_Num M_Expr M_Loss M_Online M_Olm M_OlmSel M_Algs S_Expr S_Real S_Online S_Session
  S_Loss S_Sample P_DataPoint P_Expr P_Real P_Online P_Predict P_Safe P_Keep P_Loss P_Loss2 P_Idle.
Local Open Scope R_scope.

Lemma rdz_inv {A} (l : list A) i v : rdz l i = Some v -> (0 <= i)%Z /\ nth_error l (Z.to_nat i) = Some v.
Proof. unfold rdz, rd. destruct (Z.ltb_spec i 0); [discriminate|auto]. Qed.

Lemma op_abs_real x : op_abs Rnum x = Rabs x.
Proof.
  unfold op_abs. cbn [n_lt n_opp Rnum]. change (zero Rnum) with 0.
  destruct (Rlt_dec _ _); symmetry; [apply Rabs_right|apply Rabs_left1]; lra.
Qed.

Lemma al_margin_confidence ps lab m : label_of Rnum ps = Some lab ->
  (length ps <> 1%nat -> Forall (fun v => - fmax < v) ps) ->
  al_margin Rnum ps lab = Some m -> confidence ps lab m /\ 0 <= m.
Proof.
  intros Hlab Hps H. destruct ps as [|a [|b ps0]]; [discriminate| |].
  - cbn in H. injection H as <-. cbn [confidence]. rewrite op_abs_real. split; [reflexivity|apply Rabs_pos].
  - set (ps := a :: b :: ps0) in *. specialize (Hps ltac:(cbn; lia)).
    assert (Hl : lab = Z.of_nat (max_element Rnum ps)) by (cbn in Hlab; injection Hlab as <-; reflexivity).
    destruct (first_max_best ps _ (R_first_max ps ltac:(discriminate))) as (own & Ho & Hmax & _).
    assert (Hlt : (max_element Rnum ps < length ps)%nat) by (apply nth_error_Some; congruence).
    destruct (rival_best ps lab lab ltac:(cbn; lia) ltac:(lia) Hps Hlab) as (j & Ej & Hj & Hb).
    pose proof Hb as (Hne & best & Eb & _ & _).
    unfold rival in Ej. rewrite Z.eqb_refl in Ej.
    change (al_margin Rnum ps lab) with (do tmp <- rdz ps lab; do p' <- wrz ps lab (n_opp Rnum (n_fmax Rnum));
      do m <- rd p' (max_element Rnum p'); Some (n_sub Rnum tmp m)) in H.
    dob H G1. dob H E2. cbn [bind] in Ej. injection Ej as Ej. apply Nat2Z.inj in Ej.
    dob H E3. injection H as <-. rewrite Ej in E3. apply rdz_inv in G1 as (_ & G1).
    destruct (wrz_some ps lab (n_opp Rnum (n_fmax Rnum))) as (p' & Q1 & L1 & U1); [lia|].
    rewrite Q1 in E2. injection E2 as <-. rewrite U1 in E3. unfold rd in E3.
    rewrite nth_error_upd in E3 by lia. replace (j =? Z.to_nat lab)%nat with false in E3 by (symmetry; now apply Nat.eqb_neq).
    rewrite Eb in E3. injection E3 as <-.
    split.
    + change (confidence ps lab (r - best)). unfold confidence, ps. exists j, best, r. auto.
    + rewrite Hl, Nat2Z.id in G1. rewrite Ho in G1. injection G1 as ->. specialize (Hmax j best Eb). cbn. lra.
Qed.

Lemma queried_asked c ps lab u q : 0 < c_active c -> label_of Rnum ps = Some lab ->
  (length ps <> 1%nat -> Forall (fun v => - fmax < v) ps) ->
  queried Rnum c ps lab u = Some q ->
  exists m, confidence ps lab m /\ 0 <= m /\ (q = true <-> asked (c_active c) m u).
Proof.
  intros Ha Hlab Hps H. unfold queried in H. cbn [n_lt Rnum] in H. change (zero Rnum) with 0 in H.
  destruct (Rlt_dec 0 (c_active c)); [|easy]. dob H E. injection H as <-.
  destruct (al_margin_confidence ps lab r0 Hlab Hps E) as (Hc & Hm). exists r0. do 2 (split; [assumption|]).
  unfold asked. cbn [n_div n_add Rnum].
  assert (Hd : 0 < c_active c + r0) by lra.
  assert (Eq : c_active c / (c_active c + r0) * (c_active c + r0) = c_active c) by (field; lra).
  destruct (Rlt_dec _ u) as [h|h]; cbn [negb]; split; intros K; try easy.
  - apply (Rmult_lt_compat_r _ _ _ Hd) in h. lra.
  - apply Rnot_lt_le in h. apply (Rmult_le_compat_r (c_active c + r0)) in h; lra.
Qed.

Lemma predict_label (c : core (R:=R)) p lab ps : predict Rnum c p = Some (lab, ps) -> label_of Rnum ps = Some lab.
Proof. intros H. unfold predict in H. dob H E. dob H G1. now injection H as <- <-. Qed.

Lemma sampled k p u c e lab ps c' e' : 0 < c_active c ->
  (length ps <> 1%nat -> Forall (fun v => - fmax < v) ps) ->
  iterate Rnum (alg_of Rnum k) p u c e = Some (lab, ps, c', e') ->
  exists m, confidence ps lab m /\ 0 <= m /\ c_data c' = (c_data c + 1)%Z /\
    (asked (c_active c) m u -> c_iter c' = (c_iter c + 1)%Z) /\
    (~ asked (c_active c) m u -> c_iter c' = c_iter c /\ c_upd c' = c_upd c).
Proof.
  intros Ha Hps H. destruct (alg_keeps Rnum k) as (_ & _ & Ku). unfold iterate in H.
  dob H G1. destruct p0 as (c1, e1). dob H E2. dob H E3. destruct p0 as (c3, e3).
  dob H E4. destruct p0 as (lab4, ps4). dob H E5.
  destruct (grow_keeps Rnum _ _ _ _ _ _ G1) as ((A1 & A2 & A3 & A4) & A5).
  destruct (prep_keeps Rnum _ _ _ _ _ _ E3) as ((B1 & B2 & B3 & B4) & B5). cbn in B1, B2, B3, B4, B5.
  assert (EQ : lab4 = lab /\ ps4 = ps) by (destruct b; [dob H E6; destruct p0|]; injection H; auto). destruct EQ as (-> & ->).
  assert (Hact : c_active c3 = c_active c) by congruence.
  destruct (queried_asked c3 ps lab u b) as (m & M1 & M2 & M3); auto; [now rewrite Hact|eapply predict_label; eauto|].
  rewrite Hact in M3. exists m. do 2 (split; [assumption|]). destruct b.
  - dob H E6. destruct p0 as (c4, e4). injection H as <- <-.
    unfold learn in E6. dob E6 E7. dob E6 E8. destruct p0 as (c5, e5). dob E6 E9. injection E6 as <- <-.
    assert (Hc2 : c_iter (cost_margin_step Rnum c3 (p_label p)) = c_iter c3 /\ c_data (cost_margin_step Rnum c3 (p_label p)) = c_data c3).
    { unfold cost_margin_step. destruct (c_cost c3); split; reflexivity. } destruct Hc2 as (H1 & H2).
    assert (Hd : c_iter c5 = (c_iter c3)%Z /\ c_data c5 = c_data c3).
    { destruct (wants_update Rnum _ lab (p_label p) (l_loss l)).
      - destruct (Ku _ _ _ _ _ _ E8) as (D1 & D2 & _). cbn in D1, D2. split; congruence.
      - injection E8 as <- <-. cbn. split; congruence. }
    destruct Hd as (D1 & D2). split; [lia|]. split; [lia|]. intros K. exfalso. apply K, M3. reflexivity.
  - injection H as <- <-. cbn. split; [lia|]. split.
    + intros K. apply M3 in K. discriminate.
    + intros _. split; lia.
Qed.

(** Cost-sensitive training of a binary model with the hinge loss. *)
Lemma predict_one (c : core (R:=R)) p lab ps w : c_ws c = [w] -> predict Rnum c p = Some (lab, ps) -> exists s, ps = [s].
Proof.
  intros Hw H. unfold predict in H. rewrite Hw in H. cbn [mapM] in H. dob H E. dob E E0. dob H E2. injection H as <- <-.
  cbn [bind] in E. injection E as <-. eauto.
Qed.

Lemma mapM_len1 {A B} (f : A -> option B) l : forall r, mapM f l = Some r -> length r = length l.
Proof. induction l as [|a l IH]; intros r H; cbn in H; [now injection H as <-|]. dob H E. dob H E0. injection H as <-. cbn. f_equal. auto. Qed.
Lemma zip_len {A B} (f : list A -> B -> option (list A)) ws : forall ss r, zip_class f ws ss = Some r -> length r = length ws.
Proof.
  induction ws as [|w ws IH]; intros ss r H; destruct ss; cbn in H; try discriminate; try (injection H as <-; reflexivity).
  dob H E. dob H E0. injection H as <-. cbn. f_equal. eauto.
Qed.
Lemma stg_len k a l b t idx ws : forall last r last', stg_classes Rnum k a l b t idx ws last = Some (r, last') -> length r = length ws.
Proof.
  induction ws as [|w ws IH]; intros last r last' H; cbn [stg_classes] in H; [now injection H as <- _|].
  dob H E. destruct p as (w1, l1). dob H E0. dob H E2. dob H E3. destruct p as (r1, l3). injection H as <- _. cbn. f_equal. eauto.
Qed.
Lemma rda_assign_len (c : core (R:=R)) e f ut c' : rda_assign Rnum c e f ut = Some c' ->
  exists ws, c' = set_ws c ws /\ length ws = length (c_ws c).
Proof. unfold rda_assign. intros H. dob H E. injection H as <-. exists l. split; auto. eapply zip_len; eauto. Qed.
Definition same_settings (c c' : core (R:=R)) : Prop :=
  length (c_ws c') = length (c_ws c) /\ c_loss c' = c_loss c /\ c_cost c' = c_cost c /\ c_lazy c' = c_lazy c /\
  length (c_g c') = length (c_g c).
Lemma prep_shape k p c e c' e' : a_prep (alg_of Rnum k) p c e = Some (c', e') -> same_settings c c'.
Proof.
  destruct k; cbn; intros H; unfold prep_none, stg_prep, fobos_prep, rda_prep, rda_l1_prep, erda_l1_prep, sop_prep,
    ada_fobos_l1_prep, ada_rda_l1_prep in H; cbv zeta in H;
    try (injection H as <- _; repeat split; fail);
    try (destruct e as (e1, e2)); dob H Q0; try (destruct p0 as (p1, p2)); injection H as <- _;
    first
    [ apply rda_assign_len in Q0 as (ws & -> & L); repeat split; exact L
    | repeat split; cbn; first [eapply stg_len; eassumption | eapply mapM_len1; eassumption | eapply zip_len; eassumption] ].
Qed.

Lemma costed k p u c e lab ps c' e' cost : wf_core c -> length (c_ws c) = 1%nat -> c_loss c = LHinge -> c_cost c = Some cost ->
  c_lazy c = false -> ~ 0 < c_active c ->
  (forall c e p, a_margin (alg_of Rnum k) c e p = None) ->
  iterate Rnum (alg_of Rnum k) p u c e = Some (lab, ps, c', e') ->
  exists s, ps = [s] /\
    (s * IZR (p_label p) < class_margin cost (p_label p) -> c_upd c' = (c_upd c + 1)%Z) /\
    (class_margin cost (p_label p) <= s * IZR (p_label p) -> c_upd c' = c_upd c).
Proof.
  intros Hc Hn Hl Hco Hla Ha Hm H.
  destruct (iterate_upd_iff Rnum _ p u c e lab ps c' e' (alg_keeps Rnum k) H)
    as (c3 & e3 & (c1 & e1 & e2 & G1 & G2 & G3) & Pr & q & Hq & _ & Hup).
  apply (grow_core Rnum) in G1 as ->. destruct (prep_shape _ _ _ _ _ _ G3) as (P1 & P2 & P3 & P4 & P5).
  destruct (prep_keeps Rnum _ _ _ _ _ _ G3) as (_ & P6).
  assert (Q : forall d, length (c_ws (linear_update_dim Rnum d c)) = 1%nat /\ c_loss (linear_update_dim Rnum d c) = LHinge /\
    c_cost (linear_update_dim Rnum d c) = Some cost /\ c_lazy (linear_update_dim Rnum d c) = false /\
    c_g (linear_update_dim Rnum d c) = c_g c /\ c_active (linear_update_dim Rnum d c) = c_active c).
  { intros d. unfold linear_update_dim. destruct (_ <? _)%nat; cbn; rewrite ?map_length; auto 10. }
  destruct (Q (Z.to_nat (x_dim p))) as (Q1 & Q2 & Q3 & Q4 & Q5 & Q6). cbn in P1, P2, P3, P4, P5, P6.
  destruct (c_ws c3) as [|w [|w2 ws]] eqn:Ew; cbn in P1; try (exfalso; congruence).
  destruct (predict_one c3 p lab ps w Ew Pr) as (s & ->). exists s. split; [reflexivity|].
  assert (q = true) as ->.
  { unfold queried in Hq. rewrite P6, Q6 in Hq. cbn [n_lt Rnum] in Hq. change (zero Rnum) with 0 in Hq.
    destruct (Rlt_dec 0 (c_active c)); [easy|]. now injection Hq as <-. }
  destruct (Hup eq_refl) as (r & Gr & Eu). cbv zeta in Gr, Eu. rewrite Hm in Gr.
  assert (Ec : cost_margin_step Rnum c3 (p_label p) = set_margin c3 (class_margin cost (p_label p))).
  { unfold cost_margin_step. rewrite P3, Q3. reflexivity. }
  rewrite Ec in *. cbn [c_loss set_margin c_g c_margin] in Gr. rewrite P2, Q2 in Gr.
  destruct Hc as (_ & _ & _ & Lg). rewrite Hn in Lg. rewrite Q5, Lg in P5.
  destruct (c_g c3) as [|g0 gs]; [discriminate|].
  destruct (hinge_gradient _ _ _ _ _ _ _ _ _ Gr) as (E & Em & _). rewrite (Em eq_refl) in E.
  assert (Es : suffers Rnum (set_margin c3 (class_margin cost (p_label p))) p lab (l_loss r) =
               if Rlt_dec 0 (l_loss r) then true else false).
  { unfold suffers. cbn [c_lazy set_margin]. rewrite P4, Q4. cbn [n_lt Rnum]. reflexivity. }
  rewrite Es in Eu. split; intros K.
  - destruct (Rlt_dec 0 (l_loss r)) as [|h]; [exact Eu|]. exfalso. apply h. rewrite E. apply Rlt_le_trans with (2 := Rmax_r _ _). lra.
  - destruct (Rlt_dec 0 (l_loss r)) as [h|]; [|lia]. exfalso. rewrite E, Rmax_left in h; lra.
Qed.

(** CW and ECCW compute the margin themselves: the cost has no effect. *)
Section Ignored.
Context {A : Type}.
Variable N : num A.
Variable a0 : A.
Variable h : core (R:=A) -> list (list A) -> point A -> list A -> option (A * A).
Variable up : point A -> A -> core (R:=A) -> list (list A) -> option (core (R:=A) * list (list A)).
Hypothesis Hh : forall c cost m Ss p, h (with_cost c cost m) Ss p = h c Ss p.
Hypothesis Hup : forall p loss c Ss cost m, up p loss (with_cost c cost m) Ss =
  match up p loss c Ss with Some (c', S') => Some (with_cost c' cost m, S') | None => None end.
Hypothesis Hl : forall p loss c Ss c' S', up p loss c Ss = Some (c', S') -> c_loss c' = c_loss c.
Let a : alg (R:=A) (list (list A)) :=
  mkalg (sigma_grow N a0) begin_none reg_begin_none prep_none (fun c Ss p => Some (h c Ss p)) up reg_end_none end_none.

Lemma cost_learn p lab ps c e cost m c1 e1 : c_loss c = LHinge -> learn N a p lab ps c e = Some (c1, e1) ->
  c_loss c1 = LHinge /\ exists m', learn N a p lab ps (with_cost c cost m) e = Some (with_cost c1 cost m', e1).
Proof.
  intros HL H. unfold learn in *. cbv zeta in *. unfold a in *. cbn [a_margin a_update a_reg_end] in *. unfold reg_end_none in *.
  set (d := cost_margin_step N c (p_label p)) in *.
  assert (Ed : exists m1, d = with_cost c (c_cost c) m1).
  { unfold d, cost_margin_step. destruct (c_cost c) as [x|] eqn:Ec.
    - eexists. unfold with_cost. rewrite <- Ec. reflexivity.
    - exists (c_margin c). rewrite <- Ec. now destruct c. }
  destruct Ed as (m1 & Ed).
  assert (Ed2 : exists m2, cost_margin_step N (with_cost c cost m) (p_label p) = with_cost c cost m2).
  { unfold cost_margin_step. cbn [c_cost with_cost]. destruct cost; eexists; reflexivity. }
  destruct Ed2 as (m2 & ->). rewrite Hh. rewrite Ed, Hh in H. cbn [c_loss c_g c_margin with_cost] in *. rewrite HL in *.
  replace (gradient N LHinge (Some (h c e p)) (p_label p) ps lab (c_g c) m2)
     with (gradient N LHinge (Some (h c e p)) (p_label p) ps lab (c_g c) m1) by reflexivity.
  destruct (gradient N LHinge _ (p_label p) ps lab (c_g c) m1) as [r|]; [|discriminate]. cbn [bind] in *.
  set (x := set_lres (with_cost c (c_cost c) m1) r) in *.
  change (set_lres (with_cost c cost m2) r) with (with_cost x cost (l_margin r)).
  change (wants_update N (with_cost x cost (l_margin r)) lab (p_label p) (l_loss r)) with (wants_update N x lab (p_label p) (l_loss r)).
  destruct (wants_update N x lab (p_label p) (l_loss r)).
  - change (set_upd (with_cost x cost (l_margin r)) (c_upd (with_cost x cost (l_margin r)) + 1))
      with (with_cost (set_upd x (c_upd x + 1)) cost (l_margin r)). rewrite Hup.
    destruct (up p (l_loss r) (set_upd x (c_upd x + 1)) e) as [(c5, e5)|] eqn:Eu; [|discriminate]. cbn [bind] in *.
    injection H as <- <-. split; [rewrite (Hl _ _ _ _ _ _ Eu); exact HL|]. eexists. reflexivity.
  - cbn [bind] in *. injection H as <- <-. split; [exact HL|]. eexists. reflexivity.
Qed.

Lemma cost_iterate p u c e cost m lab ps c1 e1 : c_loss c = LHinge -> iterate N a p u c e = Some (lab, ps, c1, e1) ->
  c_loss c1 = LHinge /\ exists m', iterate N a p u (with_cost c cost m) e = Some (lab, ps, with_cost c1 cost m', e1).
Proof.
  intros HL H. unfold iterate in *. unfold a at 1 2 3 in H. unfold a at 1 2 3.
  cbn [a_grow a_reg_begin a_prep] in *. unfold reg_begin_none, prep_none in *.
  assert (Eg : forall d, sigma_grow N a0 d (with_cost c cost m) e =
     match sigma_grow N a0 d c e with Some (c', e') => Some (with_cost c' cost m, e') | None => None end).
  { intros d. unfold sigma_grow, linear_update_dim. cbn [c_dim with_cost]. destruct (c_dim c <? d)%nat; reflexivity. }
  rewrite Eg. destruct (sigma_grow N a0 (Z.to_nat (x_dim p)) c e) as [(g, eg)|] eqn:Es; [|discriminate]. cbn [bind] in *.
  assert (HLg : c_loss g = LHinge).
  { unfold sigma_grow, linear_update_dim in Es. destruct (c_dim c <? _)%nat; injection Es as <- _; exact HL. }
  set (b := set_data (set_iter g (c_iter g + 1)) (c_data g + 1)) in *.
  change (set_data (set_iter (with_cost g cost m) (c_iter (with_cost g cost m) + 1)) (c_data (with_cost g cost m) + 1))
    with (with_cost b cost m).
  change (predict N (with_cost b cost m) p) with (predict N b p).
  destruct (predict N b p) as [(lb, pss)|]; [|discriminate]. cbn [bind] in *.
  change (queried N (with_cost b cost m) pss lb u) with (queried N b pss lb u).
  destruct (queried N b pss lb u) as [[|]|]; [| |discriminate]; cbn [bind] in *.
  - destruct (learn N a p lb pss b eg) as [(c4, e4)|] eqn:El; [|discriminate]. cbn [bind] in H. injection H as <- <- <- <-.
    destruct (cost_learn p lb pss b eg cost m c4 e4 HLg El) as (HL4 & m' & ->). cbn [bind]. split; [exact HL4|]. eauto.
  - injection H as <- <- <- <-. split; [exact HLg|]. exists m. reflexivity.
Qed.

Lemma cost_train pre data : forall c e cost m c1 e1, c_loss c = LHinge -> train N a pre data c e = Some (c1, e1) ->
  exists m', train N a pre data (with_cost c cost m) e = Some (with_cost c1 cost m', e1).
Proof.
  induction data as [|(p, u) data IH]; intros c e cost m c1 e1 HL H; unfold train in *; cbn [foldM] in *.
  - injection H as <- <-. eauto.
  - unfold train_point at 1 in H. unfold train_point at 1. cbn [fst snd] in *.
    destruct (pre p) as [x|]; [|discriminate]. cbn [bind] in *.
    destruct (iterate N a x u c e) as [(((lab, ps), c2), e2)|] eqn:Ei; [|discriminate]. cbn [bind] in *.
    destruct (cost_iterate x u c e cost m lab ps c2 e2 HL Ei) as (HL2 & m' & ->). cbn [bind].
    destruct (lab =? p_label x)%Z.
    + eapply IH; eauto.
    + change (set_err (with_cost c2 cost m') (c_err (with_cost c2 cost m') + 1)) with (with_cost (set_err c2 (c_err c2 + 1)) cost m').
      eapply IH; eauto.
Qed.
End Ignored.

Lemma cw_up_cost {A} (N : num A) (f : A -> A -> A -> A) (g : A -> A -> A -> A) phi p c Ss cost m loss :
  let step c := let alpha := f phi (c_vt c) loss in let c1 := set_eta c alpha in
    do (ws, Ss') <- each_class2 N (cw_step N (g phi (c_vt c) alpha) (c_eta c1) (bias_eta N c1) (feats p)) (c_g c1) (c_ws c1) Ss;
    Some (set_ws c1 ws, Ss') in
  step (with_cost c cost m) = match step c with Some (c', S') => Some (with_cost c' cost m, S') | None => None end.
Proof.
  cbv zeta. unfold bias_eta. cbn [c_vt c_eta c_b0 c_g c_ws with_cost set_eta].
  destruct (each_class2 _ _ _ _ _) as [(ws, S')|]; reflexivity.
Qed.
Lemma up_loss {A} (N : num A) (step : A -> list A -> list A -> option (list A * list A)) (c : core (R:=A)) (Ss : list (list A)) c' S' alpha :
  (do (ws, Ss') <- each_class2 N step (c_g (set_eta c alpha)) (c_ws (set_eta c alpha)) Ss; Some (set_ws (set_eta c alpha) ws, Ss'))
    = Some (c', S') -> c_loss c' = c_loss c.
Proof. intros H. dob H E. destruct p as (ws, x). injection H as <- <-. reflexivity. Qed.

Lemma cost_cw {A} (N : num A) a0 phi b pre data c e cost m c1 e1 : c_loss c = LHinge ->
  train N (cw N a0 phi b) pre data c e = Some (c1, e1) ->
  exists m', train N (cw N a0 phi b) pre data (with_cost c cost m) e = Some (with_cost c1 cost m', e1).
Proof.
  apply (cost_train N a0 (fun c Ss p g => do v <- variance N (feats p) b g Ss (zero N); Some (n_mul N phi v, v)) (cw_update N phi)).
  - reflexivity.
  - intros. exact (cw_up_cost N (cw_alpha N) (fun phi v alpha => n_mul N (n_mul N (n_int N 2) alpha) phi) phi p c0 Ss cost0 m0 loss).
  - intros p loss c0 Ss c' S'. apply up_loss.
Qed.
Lemma cost_eccw {A} (N : num A) a0 phi b pre data c e cost m c1 e1 : c_loss c = LHinge ->
  train N (eccw N a0 phi b) pre data c e = Some (c1, e1) ->
  exists m', train N (eccw N a0 phi b) pre data (with_cost c cost m) e = Some (with_cost c1 cost m', e1).
Proof.
  apply (cost_train N a0 (fun c Ss p g => do v <- variance N (feats p) b g Ss (zero N); Some (n_mul N phi v, v)) (eccw_update N phi)).
  - reflexivity.
  - intros. exact (cw_up_cost N (eccw_alpha N) (eccw_tmp N) phi p c0 Ss cost0 m0 loss).
  - intros p loss c0 Ss c' S'. apply up_loss.
Qed.
