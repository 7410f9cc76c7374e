(** Cumulative bounds for gradient descent. *)
From Coq Require Import Reals Lra Psatz Sorted.
From Verif Require Import M_Base M_Num M_Expr M_Loss M_Online M_Olm M_OlmSel M_Heap M_Algs S_Expr
  S_Real S_Loss S_Online S_Session S_Learn S_Regret P_DataPoint P_Expr P_Real P_Online P_Predict P_Step P_Safe P_SafeOlm P_SafeSel2
  P_Session P_Session2 P_Inv P_Loss P_Loss2 P_Loss3 P_Conf P_Conf2 P_Perc P_PA P_Keep P_Regret.
Local Open Scope R_scope.
Local Notation exp := Rtrigo_def.exp.

Lemma ogd_pow_rate p t : (1 <= t)%Z -> ogd_pow Rnum p t = Rpower (IZR t) p.
Proof.
  intros Ht. assert (H1 : 0 < IZR t) by (apply IZR_lt; lia). unfold ogd_pow, zero, one. cbn [n_eq n_lit n_int n_sqrt n_pow Rnum].
  destruct (Req_EM_T p 0) as [->|_]; [now rewrite Rpower_O|].
  destruct (Req_EM_T p _) as [->|_].
  { replace (R_of_dec 5 (-1)) with (/ 2); [now rewrite Rpower_sqrt|]. unfold R_of_dec. change (powerRZ 10 (-1)) with (/ (10 * 1)). lra. }
  destruct (Req_EM_T p 1) as [->|_]; [now rewrite Rpower_1|reflexivity].
Qed.
(** Convexity of the logistic loss. *)
Lemma logistic_convex a b : ln (1 + exp (- a)) - / (1 + exp a) * (b - a) <= ln (1 + exp (- b)).
Proof.
  set (q := / (1 + exp a)). set (z := a - b).
  pose proof (exp_pos a) as Ea. pose proof (exp_pos (- a)) as Ea'. pose proof (exp_pos (- b)) as Eb'.
  assert (Hq : 0 < q < 1). { split; [apply Rinv_0_lt_compat; lra|]. unfold q. rewrite <- Rinv_1. apply Rinv_lt_contravar; lra. }
  assert (E : 1 + exp (- b) = (1 + exp (- a)) * ((1 - q) + q * exp z)).
  { unfold q, z. unfold Rminus at 2. rewrite exp_plus. rewrite (exp_Ropp a). field. lra. }
  assert (J : exp (q * z) <= (1 - q) + q * exp z).
  { assert (X1 : exp z = exp (q * z) * exp ((1 - q) * z)) by (rewrite <- exp_plus; f_equal; ring).
    assert (X2 : 1 = exp (q * z) * exp (- (q * z))) by (rewrite <- exp_plus, Rplus_opp_r, exp_0; reflexivity).
    pose proof (exp_pos (q * z)) as P. pose proof (exp_ineq1_le ((1 - q) * z)) as I1. pose proof (exp_ineq1_le (- (q * z))) as I2.
    assert (X3 : exp (q * z) * ((1 - q) * exp (- (q * z)) + q * exp ((1 - q) * z)) = (1 - q) + q * exp z).
    { transitivity ((1 - q) * (exp (q * z) * exp (- (q * z))) + q * (exp (q * z) * exp ((1 - q) * z))); [ring|]. rewrite <- X2, <- X1. ring. }
    rewrite <- X3.
    rewrite <- (Rmult_1_r (exp (q * z))) at 1. apply Rmult_le_compat_l; [lra|].
    assert ((1 - q) * (1 + - (q * z)) <= (1 - q) * exp (- (q * z))) by (apply Rmult_le_compat_l; lra).
    assert (q * (1 + (1 - q) * z) <= q * exp ((1 - q) * z)) by (apply Rmult_le_compat_l; lra). lra. }
  rewrite E, ln_mult; [|lra|pose proof (exp_pos z); nra].
  assert (L : q * z <= ln ((1 - q) + q * exp z)).
  { rewrite <- (ln_exp (q * z)) at 1. destruct J as [J|J]; [left; apply ln_increasing; [apply exp_pos|exact J]|rewrite J; lra]. }
  unfold z in *. lra.
Qed.
Lemma logistic_lower z : - z < ln (1 + exp (- z)).
Proof. rewrite <- (ln_exp (- z)) at 1. apply ln_increasing; [apply exp_pos|]. pose proof (exp_pos (- z)). lra. Qed.

Definition ok_loss (loss : loss_kind) : Prop := loss = LHinge \/ loss = LLogistic.
(** The gradient of the code as a subgradient of the loss. *)
Lemma subgradient loss y s ps pl g0 g m r : ok_loss loss -> (y = 1 \/ y = -1)%Z ->
  gradient Rnum loss None y (s :: ps) pl (g0 :: g) m = Some r ->
  0 <= loss_at loss m y s /\ loss_at loss m y s <= l_loss r + slack loss /\ l_margin r = m /\
  (0 < l_loss r -> exists d, l_grad r = d :: g /\ d * d <= 1 /\
     forall v, loss_at loss m y s <= loss_at loss m y v + d * (s - v) + slack loss).
Proof.
  intros Hk Hy H. assert (Y2 : IZR y * IZR y = 1) by (destruct Hy as [-> | ->]; lra).
  pose proof (none_margin _ _ _ _ _ _ _ H) as Em.
  destruct Hk as [->| ->]; cbn [loss_at slack].
  - destruct (hinge_gradient _ _ _ _ _ _ _ _ _ H) as (El & _ & Eg). rewrite Em in El.
    assert (EH : l_loss r = hinge m (IZR y * s)) by (rewrite El; unfold hinge; f_equal; ring).
    split; [apply hinge_nonneg|]. split; [lra|]. split; [exact Em|]. intros Hp. destruct (Rlt_dec 0 (l_loss r)); [|lra]. exists (- IZR y). split; [exact Eg|]. split; [lra|].
    intros v. rewrite EH in Hp. unfold hinge in *. pose proof (Rmax_r 0 (m - IZR y * v)). unfold Rmax in Hp |- * at 1. destruct (Rle_dec 0 (m - IZR y * s)); lra.
  - destruct (logistic_gradient _ _ _ _ _ _ _ _ _ H) as (El & _).
    assert (L0 : 0 <= ln (1 + exp (- (s * IZR y)))) by (left; apply ln_1p_pos).
    split; [exact L0|]. destruct (logistic_sound (- s * IZR y)) as (A & B & C). rewrite <- El in A, B, C. replace (- s * IZR y) with (- (s * IZR y)) in * by ring.
    split; [pose proof (Rle_abs (ln (1 + exp (- (s * IZR y))) - l_loss r)); rewrite Rabs_minus_sym in C; lra|]. split; [exact Em|]. intros Hp. apply B in Hp.
    pose proof (exp_pos (-100)) as P100.
    cbn [gradient rd nth_error bind wr] in H. inv H. cbn [l_grad]. cbn [n_mul n_opp n_int n_lt n_div n_add n_exp Rnum]. unfold one, zero. cbn [n_int Rnum].
    rewrite opp_IZR. replace (- s * IZR y) with (- (s * IZR y)) by ring. set (z := s * IZR y) in *. destruct (Rlt_dec 100 (- z)) as [Hz|Hz].
    + eexists. split; [reflexivity|]. split; [lra|]. intros v. pose proof (logistic_lower (v * IZR y)).
      clear C El A B. assert (ln (1 + exp (- z)) <= - z + exp (-100)).
      { destruct (logistic_sound (- z)) as (_ & _ & C'). destruct (logistic_of_cases (- z)) as [(_ & E)|[(F & _)|(F & _)]]; [|lra|lra].
        rewrite E, Rabs_minus_sym in C'. pose proof (Rle_abs (ln (1 + exp (- z)) - - z)). lra. }
      unfold z in *. lra.
    + destruct (Rlt_dec (- z) (- (100))); [lra|]. eexists. split; [reflexivity|]. rewrite Ropp_involutive.
      assert (P : 0 < / (1 + exp z) <= 1).
      { pose proof (exp_pos z). split; [apply Rinv_0_lt_compat; lra|]. rewrite <- Rinv_1. apply Rinv_le_contravar; lra. }
      split. { replace (- IZR y / (1 + exp z) * (- IZR y / (1 + exp z))) with (IZR y * IZR y * (/ (1 + exp z) * / (1 + exp z))) by (unfold Rdiv; ring). rewrite Y2. nra. }
      intros v. pose proof (logistic_convex z (v * IZR y)) as Q. unfold Rdiv. unfold z in *.
      replace (- IZR y * / (1 + exp (s * IZR y)) * (s - v)) with (/ (1 + exp (s * IZR y)) * (v * IZR y - s * IZR y)) by ring. lra.
Qed.

Section Descent.
Variables (eta0 pt : R) (loss : loss_kind).
Hypothesis Heta : 0 <= eta0.
Hypothesis Hok : ok_loss loss.
Let k : kind (R:=R) := KOGD eta0 pt.

Lemma loss1 : loss_ok 1 loss.
Proof. split; [|easy]. intros _. destruct Hok as [->| ->]; reflexivity. Qed.
Lemma rate_nonneg t : 0 <= rate eta0 pt t.
Proof. unfold rate. apply Rmult_le_pos; [exact Heta|]. left. apply Rinv_0_lt_compat. unfold Rpower. apply exp_pos. Qed.

(** What a training step does. *)
Lemma ogd_parts x rnd c (e : state_of k) lab ps c' e' : wf_point 0 x -> wf_core c -> length (c_ws c) = 1%nat -> c_loss c = loss ->
  c_active c <= 0 -> c_lazy c = false -> c_cost c = None -> (0 <= c_iter c)%Z ->
  iterate Rnum (alg_of Rnum k) x rnd c e = Some (lab, ps, c', e') ->
  let w := nth 0 (c_ws c) [] in
  exists d r g0, c_margin c' = l_margin r /\ c_iter c' = (c_iter c + 1)%Z /\ (c_dim c' = d /\ 1 <= d /\ c_dim c <= d)%nat /\ below d (feats x) /\ label_of Rnum [lin w (feats x)] = Some lab /\
  gradient Rnum loss None (p_label x) [lin w (feats x)] lab [g0] (c_margin c) = Some r /\
  ((l_loss r <= 0 /\ forall i, nth i (nth 0 (c_ws c') []) 0 = nth i w 0) \/
   (0 < l_loss r /\ forall i, nth i (nth 0 (c_ws c') []) 0 =
     nth i w 0 - rate eta0 pt (c_iter c + 1) * nth 0 (l_grad r) 0 * (xv (feats x) i + (if (i =? 0)%nat then c_b0 c else 0)))).
Proof.
  intros Hx Hc Hn Hl Hact Hlazy Hcost Hit0 Hit w.
  assert (Hs : sound Rnum k 1 loss c e) by (split; [exact Hc|]; split; [exact Hn|]; split; [exact Hl|exact I]).
  destruct (iterate_sound Rnum k 1 loss loss1 x rnd c e lab ps c' e' Hx (or_introl eq_refl) Hs Hit)
    as (ea & eb & c3 & e3 & q & G1 & G2 & S1 & Hd & G3 & F3 & S3 & G4 & Lps & _ & Gq & G6).
  set (d := Z.to_nat (x_dim x)) in *. set (cg := linear_update_dim Rnum d c) in *. cbv zeta in G3.
  set (c2 := set_data (set_iter cg (c_iter cg + 1)) (c_data cg + 1)) in *.
  assert (Hc3 : c3 = c2) by (clear - G3; cbn in G3; injection G3 as <- _; reflexivity). subst c3.
  assert (CG : c_b0 cg = c_b0 c /\ c_active cg = c_active c /\ c_lazy cg = c_lazy c /\ c_iter cg = c_iter c /\ c_cost cg = c_cost c /\ c_margin cg = c_margin c).
  { unfold cg, linear_update_dim. destruct (_ <? _)%nat; cbn; auto 10. }
  destruct CG as (CG1 & CG2 & CG3 & CG4 & CG5 & CG6).
  assert (Hdc : (c_dim c <= c_dim cg)%nat) by (unfold cg, linear_update_dim; destruct (Nat.ltb_spec (c_dim c) d); cbn; lia).
  assert (Wg : forall i, nth i (nth 0 (c_ws cg) []) 0 = nth i w 0).
  { intros i. unfold cg, linear_update_dim. destruct (Nat.ltb_spec (c_dim c) d); cbn; [|reflexivity].
    destruct Hc as (_ & _ & Hw & _). destruct (nth_grows 1 (c_dim c) d 0 (c_ws c) 0 i) as [E|E]; [split; auto|exact E|lia]. }
  assert (Hso : sorted_ix (feats x)) by (eapply feats_sorted; [|exact Hx]; lia).
  assert (Hbel : below (c_dim cg) (feats x)) by (eapply feats_bel; [|exact Hx|exact Hd]; lia).
  destruct (predict_real _ x 0 lab ps ltac:(lia) (proj1 S3) Hx G4) as (Elab & _ & Hps). cbn [c_ws set_data set_iter c_dim c2] in Hps. rewrite (proj1 (proj2 S1)) in Hps.
  destruct G6 as [(-> & _)|(-> & r & e4 & G6)].
  { exfalso. unfold queried in Gq. destruct (n_lt Rnum (zero Rnum) _) eqn:Ea; [|discriminate]. apply Rlt_b in Ea. unfold zero in Ea. cbn in Ea. lra. }
  cbv zeta in G6. destruct G6 as (Gr & Lr & S5 & Up & S' & Re).
  assert (E4 : cost_margin_step Rnum c2 (p_label x) = c2) by (unfold cost_margin_step; change (c_cost c2) with (c_cost cg); now rewrite CG5, Hcost).
  rewrite E4 in *. assert (Hm : a_margin (alg_of Rnum k) c2 e3 x = None) by reflexivity. rewrite Hm in Gr.
  destruct ps as [|s [|? ?]]; try discriminate Lps.
  assert (Es : s = lin w (feats x)).
  { specialize (Hps 0%nat ltac:(lia)). cbn [nth] in Hps. rewrite Hps, (lin_rsum _ _ (c_dim cg) Hso Hbel), (Wg 0%nat). f_equal. apply rsum_ext. intros i _. unfold dv. now rewrite Wg. }
  assert (Lg : length (c_g c2) = 1%nat) by (destruct S3 as ((_ & _ & _ & X) & Y & _); congruence).
  destruct (c_g c2) as [|g0 [|? ?]] eqn:Eg; try discriminate Lg.
  assert (Hm2 : c_margin c2 = c_margin c) by exact CG6.
  assert (Gr' : gradient Rnum loss None (p_label x) [lin w (feats x)] lab [g0] (c_margin c) = Some r) by (rewrite <- Es, <- Hm2; exact Gr).
  assert (Elab' : label_of Rnum [lin w (feats x)] = Some lab) by (rewrite <- Es; exact Elab).
  exists (c_dim cg), r, g0.
  assert (Hd1 : (1 <= c_dim cg)%nat) by apply S1.
  unfold wants_update in Up. cbn [c_lazy set_lres c2 set_data set_iter] in Up. change (c_lazy (set_lres c2 r)) with (c_lazy cg) in Up. rewrite CG3, Hlazy in Up.
  destruct Up as [(Wu & Up & F')|(Wu & -> & ->)].
  - apply Rlt_b in Wu. unfold zero in Wu. cbn in Wu.
    assert (G : grad_steps Rnum (feats x) (set_eta (set_upd (set_lres c2 r) (c_upd (set_lres c2 r) + 1)) (rate eta0 pt (c_iter c + 1))) = Some c').
    { cbn [alg_of k ogd plain a_update] in Up. dob Up Q. apply Some_inj in Up. injection Up as -> _. unfold ogd_update in Q.
      change (c_iter (set_upd (set_lres c2 r) (c_upd (set_lres c2 r) + 1))) with (c_iter cg + 1)%Z in Q. rewrite CG4, ogd_pow_rate in Q by lia. exact Q. }
    destruct (grad_steps_nth x (set_eta (set_upd (set_lres c2 r) (c_upd (set_lres c2 r) + 1)) (rate eta0 pt (c_iter c + 1))) c' (proj1 S5) Hx Hd G) as (ws & -> & L & Hnn).
    split; [reflexivity|]. split; [cbn; now rewrite CG4|]. split; [cbn; auto|]. split; [exact Hbel|]. split; [exact Elab'|]. split; [exact Gr'|]. right. split; [exact Wu|].
    intros i. rewrite <- (Wg i). rewrite <- CG1. apply Hnn. change (0 < length (c_ws cg))%nat. rewrite (proj1 (proj2 S1)). lia.
  - apply Rlt_b_false in Wu. unfold zero in Wu. cbn in Wu.
    split; [reflexivity|]. split; [cbn; now rewrite CG4|]. split; [cbn; auto|]. split; [exact Hbel|]. split; [exact Elab'|]. split; [exact Gr'|]. left. split; [exact Wu|]. intros i. apply Wg.
Qed.

Variables (m b0 : R) (u : list R * R).
Hypothesis Hb0 : 0 <= b0.
(** The weights and the fixed function, with the bias in units of sqrt b0 at place 0. *)
Definition Wv (om : R) (w : list R) (i : nat) : R := if (i =? 0)%nat then om else nth i w 0.
Definition Uv (i : nat) : R := if (i =? 0)%nat then snd u else nth i (fst u) 0.
Definition apart (D : nat) (om : R) (w : list R) : R := rsum D (fun i => (Wv om w i - Uv i) * (Wv om w i - Uv i)).
Lemma lin_Wv om w x D : sorted_ix x -> ~ In 0%Z (map fst x) -> below D x -> (1 <= D)%nat -> nth 0 w 0 = sqrt b0 * om ->
  lin w x = rsum D (fun i => Wv om w i * xt b0 x i).
Proof.
  intros Hs H0 Hb HD Hom. unfold lin. rewrite (inner_rsum _ x D Hs Hb).
  rewrite (rsum_at D 0 (fun i => Wv om w i * xt b0 x i) (fun i => nth i w 0 * xv x i)); [|lia|].
  - unfold Wv, xt. cbn [Nat.eqb]. rewrite (xv_notin x 0) by exact H0. rewrite Hom. ring.
  - intros i Hi Hn. unfold Wv, xt. destruct (Nat.eqb_spec i 0); [easy|reflexivity].
Qed.
Lemma value_Uv x D : sorted_ix x -> ~ In 0%Z (map fst x) -> below D x -> (1 <= D)%nat -> value b0 u x = rsum D (fun i => Uv i * xt b0 x i).
Proof.
  intros Hs H0 Hb HD. unfold value. rewrite (inner_rsum _ x D Hs Hb).
  rewrite (rsum_at D 0 (fun i => Uv i * xt b0 x i) (fun i => nth i (fst u) 0 * xv x i)); [|lia|].
  - unfold Uv, xt. cbn [Nat.eqb]. rewrite (xv_notin x 0) by exact H0. ring.
  - intros i Hi Hn. unfold Uv, xt. destruct (Nat.eqb_spec i 0); [easy|reflexivity].
Qed.
Lemma apart_step D om w w' t x : sorted_ix x -> ~ In 0%Z (map fst x) -> below D x -> (1 <= D)%nat -> nth 0 w 0 = sqrt b0 * om ->
  (forall i, nth i w' 0 = nth i w 0 - t * (xv x i + (if (i =? 0)%nat then b0 else 0))) ->
  nth 0 w' 0 = sqrt b0 * (om - t * sqrt b0) /\
  apart D (om - t * sqrt b0) w' = apart D om w - 2 * t * (lin w x - value b0 u x) + t * t * (sqnorm x + b0).
Proof.
  intros Hs H0 Hb HD Hom Hw'. split.
  { rewrite Hw', Hom. cbn [Nat.eqb]. rewrite (xv_notin x 0) by exact H0. rewrite <- (sqrt_sqrt b0 Hb0) at 2. ring. }
  rewrite (lin_Wv om w x D), (value_Uv x D), <- (sq_xt b0 Hb0 x D) by assumption.
  rewrite <- rsum_minus. replace (2 * t * rsum D (fun i => Wv om w i * xt b0 x i - Uv i * xt b0 x i)) with (rsum D (fun i => 2 * t * (Wv om w i * xt b0 x i - Uv i * xt b0 x i))) by apply rsum_scal.
  rewrite <- (rsum_scal D (t * t)). unfold apart. rewrite <- rsum_minus, <- rsum_plus. apply rsum_ext. intros i _.
  assert (E : Wv (om - t * sqrt b0) w' i = Wv om w i - t * xt b0 x i).
  { unfold Wv, xt. destruct (Nat.eqb_spec i 0) as [->|Hi]; [reflexivity|]. rewrite Hw'. destruct (Nat.eqb_spec i 0); [easy|ring]. }
  rewrite E. ring.
Qed.
Lemma apart_nonneg D om w : 0 <= apart D om w.
Proof. apply rsum_nonneg. intros. apply Rle_0_sqr. Qed.

Lemma floor_le y s : ok_loss loss -> IZR y * s <= 0 -> floor loss m <= loss_at loss m y s.
Proof.
  intros [->| ->] H; cbn [floor loss_at].
  - unfold hinge. eapply Rle_trans; [|apply Rmax_r]. lra.
  - assert (E : 1 <= exp (- (s * IZR y))). { rewrite <- exp_0. destruct (Req_dec (s * IZR y) 0) as [-> |Hn]; [rewrite Ropp_0; lra|]. left. apply exp_increasing. lra. }
    destruct (Req_dec (1 + exp (- (s * IZR y))) 2) as [-> |Hn]; [lra|]. left. apply ln_increasing; lra.
Qed.
(** Linear models that only changed by training under these settings. *)
Definition okd (c : core (R:=R)) : Prop :=
  wf_core c /\ length (c_ws c) = 1%nat /\ c_loss c = loss /\ c_b0 c = b0 /\ c_active c <= 0 /\ c_lazy c = false /\ c_cost c = None /\ c_margin c = m /\ (0 <= c_iter c)%Z.
Lemma descent_round x rnd c e lab ps c' e' om : usable x -> okd c -> nth 0 (nth 0 (c_ws c) []) 0 = sqrt b0 * om ->
  iterate Rnum (alg_of Rnum k) x rnd c e = Some (lab, ps, c', e') ->
  okd c' /\ c_iter c' = (c_iter c + 1)%Z /\ (c_dim c <= c_dim c')%nat /\
  (lab <> p_label x -> floor loss m <= loss_at loss m (p_label x) (lin (nth 0 (c_ws c) []) (feats x))) /\ exists om', nth 0 (nth 0 (c_ws c') []) 0 = sqrt b0 * om' /\
  let eta := rate eta0 pt (c_iter c + 1) in
  forall D, (c_dim c' <= D)%nat -> apart D om' (nth 0 (c_ws c') []) +
    2 * eta * (loss_at loss m (p_label x) (lin (nth 0 (c_ws c) []) (feats x)) - loss_at loss m (p_label x) (value b0 u (feats x)) - slack loss)
    <= apart D om (nth 0 (c_ws c) []) + eta * eta * (sqnorm (feats x) + b0).
Proof.
  intros (Hx & Hx1 & Hy) (Hc & Hn & Hl & Hb & Hact & Hlazy & Hcost & Hm & Hi) Hom Hit.
  destruct (ogd_parts x rnd c e lab ps c' e' Hx Hc Hn Hl Hact Hlazy Hcost Hi Hit) as (d & r & g0 & Em & Ei & (Ed & Hd1 & Hdc) & Hbel & Elab & Gr & St).
  destruct (subgradient _ _ _ _ _ _ _ _ _ Hok Hy Gr) as (S0 & S1 & S2 & S3). rewrite Hm in *.
  assert (Hso : sorted_ix (feats x)) by (eapply feats_sorted; [|exact Hx]; lia).
  assert (H0 : ~ In 0%Z (map fst (feats x))) by (eapply no_zero; eauto).
  assert (V0 : forall v, 0 <= loss_at loss m (p_label x) v).
  { intros v. destruct Hok as [->| ->]; cbn [loss_at]; [apply hinge_nonneg|left; apply ln_1p_pos]. }
  assert (Ok : okd c').
  { assert (Hs : sound Rnum k 1 loss c e) by (split; [exact Hc|]; split; [exact Hn|]; split; [exact Hl|exact I]).
    destruct (iterate_keeps k 1 loss x rnd c e lab ps c' e' loss1 Hx (or_introl eq_refl) Hs Hit) as (P1 & P2 & P3 & P4 & P5 & P6 & P7 & _).
    unfold okd. rewrite P2, P3, P4, P5, P6, P7, Em, Ei. repeat (split; [solve [auto]|]). lia. }
  split; [exact Ok|]. split; [exact Ei|]. split; [lia|]. split.
  { intros Hne. apply floor_le; [exact Hok|]. apply wrong_sign; [exact Hy|congruence]. }
  pose proof (rate_nonneg (c_iter c + 1)) as Hr. set (eta := rate eta0 pt (c_iter c + 1)) in *.
  assert (Hq : 0 <= eta * eta * (sqnorm (feats x) + b0)) by (pose proof (sqnorm_nonneg (feats x)); apply Rmult_le_pos; [apply Rle_0_sqr|lra]).
  set (w := nth 0 (c_ws c) []) in *. set (w' := nth 0 (c_ws c') []) in *. set (s := lin w (feats x)) in *. set (v := value b0 u (feats x)) in *.
  destruct St as [(Sl & St)|(Sl & St)].
  - exists om. split; [rewrite St; exact Hom|]. cbv zeta. intros D HD.
    assert (E : apart D om w' = apart D om w) by (apply rsum_ext; intros i _; unfold Wv; now rewrite St).
    rewrite E. specialize (V0 v).
    assert (0 <= eta * - (loss_at loss m (p_label x) s - loss_at loss m (p_label x) v - slack loss)) by (apply Rmult_le_pos; lra). lra.
  - destruct (S3 Sl) as (dd & Eg & Hdd & Hsub). specialize (Hsub v). rewrite Eg in St. cbn [nth] in St. rewrite Hb in St.
    exists (om - eta * dd * sqrt b0). split.
    { eapply (apart_step d om w w' (eta * dd) (feats x)); eauto. }
    cbv zeta. intros D HD. assert (Hbel' : below D (feats x)) by (apply (below_le d D); [exact Hbel|lia]).
    destruct (apart_step D om w w' (eta * dd) (feats x) Hso H0 Hbel' ltac:(lia) Hom St) as (_ & ->). fold s v.
    set (X := sqnorm (feats x) + b0) in *. assert (HX : 0 <= X) by (unfold X; pose proof (sqnorm_nonneg (feats x)); lra).
    assert (A1 : eta * dd * (eta * dd) * X <= eta * eta * X).
    { replace (eta * dd * (eta * dd) * X) with (eta * eta * X * (dd * dd)) by ring. rewrite <- (Rmult_1_r (eta * eta * X)) at 2. apply Rmult_le_compat_l; lra. }
    assert (A2 : eta * (loss_at loss m (p_label x) s - loss_at loss m (p_label x) v - slack loss) <= eta * (dd * (s - v))) by (apply Rmult_le_compat_l; lra).
    lra.
Qed.

Variable pre : point R -> option (point R).
Lemma descent_rounds ds : forall c e tr c' e' om, okd c -> nth 0 (nth 0 (c_ws c) []) 0 = sqrt b0 * om -> rounds k pre ds c e = Some (tr, c', e') ->
  Forall (fun t => usable (fst t)) tr ->
  okd c' /\ (c_dim c <= c_dim c')%nat /\ floor loss m * IZR (c_err c' - c_err c) <= total (own_loss loss m) tr /\ exists om', nth 0 (nth 0 (c_ws c') []) 0 = sqrt b0 * om' /\
  forall D, (c_dim c' <= D)%nat -> apart D om' (nth 0 (c_ws c') []) +
    timed (fun t a => 2 * rate eta0 pt t * (own_loss loss m a - fixed_loss loss m b0 u a - slack loss)
                      - rate eta0 pt t * rate eta0 pt t * (sqnorm (feats (fst a)) + b0)) (c_iter c + 1) tr <= apart D om (nth 0 (c_ws c) []).
Proof.
  induction ds as [|(p, rnd) ds IH]; intros c e tr c' e' om Hc Hom H Hp; cbn [rounds] in H.
  - injection H as <- <- <-. split; [exact Hc|]. split; [lia|]. split; [rewrite Z.sub_diag, Rmult_0_r; cbn; lra|]. exists om. split; [exact Hom|]. intros D _. cbn. lra.
  - cbn [fst] in H. dob H Ex. rename p0 into x. dob H Et. destruct p0 as (c1, e1). dob H Er. destruct p0 as ((tr1, c2), e2). injection H as <- <- <-.
    unfold train_point in Et. rewrite Ex in Et. cbn [bind] in Et. dob Et Q. destruct p0 as (((lab, ps), c3), e3). injection Et as <- <-.
    inversion Hp as [|? ? P1 P2]; subst. cbn [fst] in P1.
    destruct (descent_round x rnd c e lab ps c3 e3 om P1 Hc Hom Q) as (O3 & I3 & D3 & M3 & om3 & B3 & G3).
    assert (E3 : c_err c3 = c_err c).
    { destruct (iterate_counters Rnum _ _ _ _ _ _ _ _ _ (alg_keeps Rnum k) Q) as (q1 & u1 & D1 & D2 & _). exact D2. }
    set (c4 := if (lab =? p_label x)%Z then c3 else set_err c3 (c_err c3 + 1)) in *.
    assert (C4 : okd c4 /\ c_dim c4 = c_dim c3 /\ c_ws c4 = c_ws c3 /\ c_iter c4 = c_iter c3 /\ c_err c4 = (c_err c + (if (lab =? p_label x)%Z then 0 else 1))%Z).
    { unfold c4. destruct (lab =? p_label x)%Z; (split; [exact O3|split; [reflexivity|split; [reflexivity|split; [reflexivity|cbn; lia]]]]). }
    destruct C4 as (O4 & D4 & W4 & I4 & E4). rewrite <- W4 in B3.
    destruct (IH c4 e3 tr1 c2 e2 om3 O4 B3 Er P2) as (O5 & D5 & M5 & om5 & B5 & G5).
    split; [exact O5|]. split; [lia|]. split.
    { unfold total in *. cbn [fold_right]. unfold own_loss at 1. cbn [fst snd].
      assert (V0 : 0 <= loss_at loss m (p_label x) (lin (nth 0 (c_ws c) []) (feats x))) by (destruct Hok as [->| ->]; cbn [loss_at]; [apply hinge_nonneg|left; apply ln_1p_pos]).
      replace (c_err c2 - c_err c)%Z with (c_err c2 - c_err c4 + (if (lab =? p_label x)%Z then 0 else 1))%Z by lia.
      rewrite plus_IZR, Rmult_plus_distr_l. destruct (Z.eqb_spec lab (p_label x)) as [E|E]; [|specialize (M3 E)]; lra. } exists om5. split; [exact B5|]. intros D HD. specialize (G5 D HD). rewrite W4 in G5. specialize (G3 D ltac:(lia)). cbv zeta in G3.
    cbn [timed]. unfold own_loss at 1, fixed_loss at 1. cbn [fst snd]. rewrite I4, I3 in G5. lra.
Qed.
End Descent.

Lemma fresh_okd loss c : descent_model c -> c_loss c = loss -> okd loss (c_margin c) (c_b0 c) c /\ nth 0 (nth 0 (c_ws c) []) 0 = sqrt (c_b0 c) * 0.
Proof.
  intros ((Hn1 & Hws & Hd & Hg & Hu) & Hb0 & Ha & Hlz & Hc & Hi) Hl. split.
  { unfold okd. split.
    { split; [lia|]. rewrite Hws. split; [discriminate|]. split; [repeat constructor; now rewrite Hd|]. now rewrite Hg. }
    rewrite Hws. repeat (split; [assumption || reflexivity|]). exact Hi. }
  rewrite Hws. cbn. unfold zero. cbn. ring.
Qed.
Lemma apart_fresh u D : apart u D 0 [zero Rnum] <= size2 [u].
Proof.
  unfold apart, size2. cbn [fold_right]. rewrite Rplus_0_r.
  rewrite (rsum_ext _ _ (fun i => Uv u i * Uv u i)).
  2: { intros i _. unfold Wv. destruct i as [|[|i]]; cbn [Nat.eqb nth]; unfold zero; cbn; ring. }
  destruct D as [|D].
  { cbn [rsum]. pose proof (sumsq_nonneg (fst u)). pose proof (Rle_0_sqr (snd u)) as Q. unfold Rsqr in Q. lra. }
  rewrite (rsum_at (S D) 0 (fun i => Uv u i * Uv u i) (fun i => nth i (fst u) 0 * nth i (fst u) 0)); [|lia|].
  - unfold Uv. cbn [Nat.eqb]. pose proof (rsum_sumsq (S D) (fst u)). pose proof (Rle_0_sqr (nth 0 (fst u) 0)) as Q. unfold Rsqr in Q. lra.
  - intros i Hi Hn. unfold Uv. destruct (Nat.eqb_spec i 0); [easy|reflexivity].
Qed.
Lemma timed_le {A} (f g : Z -> A -> R) l : forall t, (forall t a, In a l -> f t a <= g t a) -> timed f t l <= timed g t l.
Proof. induction l as [|a l IH]; intros t H; cbn [timed]; [lra|]. specialize (IH (t + 1)%Z ltac:(intros; apply H; now right)). specialize (H t a ltac:(now left)). lra. Qed.
Lemma timed_minus {A} (f g : Z -> A -> R) l : forall t, timed (fun t a => f t a - g t a) t l = timed f t l - timed g t l.
Proof. induction l as [|a l IH]; intros t; cbn [timed]; [ring|]. rewrite IH. ring. Qed.
Lemma timed_scal {A} (f : Z -> A -> R) b l : forall t, timed (fun t a => b * f t a) t l = b * timed f t l.
Proof. induction l as [|a l IH]; intros t; cbn [timed]; [ring|]. rewrite IH. ring. Qed.
Lemma timed_const {A} (f : A -> R) l : forall t, timed (fun _ a => f a) t l = total f l.
Proof. induction l as [|a l IH]; intros t; cbn [timed]; unfold total in *; cbn [fold_right]; [reflexivity|]. now rewrite IH. Qed.
