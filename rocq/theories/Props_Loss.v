(** Properties C30 and C36 to C39: truncation, losses and pre-processing. *)
From Coq Require Import Reals Lra SpecFloat.
From Verif Require Import M_Base M_Num M_Expr M_Loss M_Online M_Algs S_Expr S_Real S_Online S_Session S_Loss
  P_Expr P_Real P_Online P_Predict P_Loss P_Loss2 P_Loss3 P_Idle Props_Online.
Local Open Scope R_scope.
Local Notation exp := Rtrigo_def.exp.

(** ** C30 *)
Theorem C30_composes : forall w a b, 0 <= a -> 0 <= b ->
  op_trunc Rnum (op_trunc Rnum w a) b = op_trunc Rnum w (a + b).
Proof. intros w a b Ha Hb. rewrite !op_trunc_real. now apply soft_compose. Qed.
Print Assumptions C30_composes.
Theorem C30_magnitude : forall w a, 0 <= a ->
  Rabs (op_trunc Rnum w a) = Rabs w - Rmin (Rabs w) a /\ Rabs (op_trunc Rnum w a) <= Rabs w /\
  0 <= w * op_trunc Rnum w a.
Proof.
  intros w a Ha. rewrite op_trunc_real. pose proof (soft_abs w a Ha) as E. split; [exact E|]. split.
  - rewrite E. unfold Rmin. destruct (Rle_dec _ _); pose proof (Rabs_pos w); lra.
  - now apply soft_sign.
Qed.
Print Assumptions C30_magnitude.
(** The weight -3 truncated by 1 and then by 1 is -1; by 4 it is 0. *)
Example C30_witness : op_trunc Rnum (op_trunc Rnum (-3) 1) 1 = -1 /\ op_trunc Rnum (-3) 4 = 0.
Proof.
  rewrite !op_trunc_real. unfold soft, Rmax. split; repeat destruct (Rle_dec _ _); lra.
Qed.

(** ** C36 *)
(** Hinge: the loss is max(0, margin - score*label), zero exactly if the margin is kept, the gradient
    is then zero and otherwise minus the label, and it is a subgradient of the loss. *)
Theorem C36_hinge : forall y s ps pl g0 g m r,
  gradient Rnum LHinge None y (s :: ps) pl (g0 :: g) m = Some r ->
  l_loss r = Rmax 0 (m - s * IZR y) /\ 0 <= l_loss r /\ (l_loss r = 0 <-> m <= s * IZR y) /\
  exists d, l_grad r = d :: g /\ (l_loss r = 0 -> d = 0) /\ (l_loss r <> 0 -> d = - IZR y) /\
    forall t, l_loss r + d * (t - s) <= Rmax 0 (m - t * IZR y).
Proof.
  intros y s ps pl g0 g m r H. destruct (hinge_gradient _ _ _ _ _ _ _ _ _ H) as (El & Em & Eg).
  rewrite (Em eq_refl) in El. split; [exact El|]. rewrite Eg, El. clear. unfold Rmax.
  destruct (Rle_dec 0 (m - s * IZR y)); repeat split; try lra;
    (eexists; split; [reflexivity|]); repeat split; try (destruct (Rlt_dec _ _); lra);
    intros t; destruct (Rlt_dec _ _), (Rle_dec _ _); try lra; nra.
Qed.
Print Assumptions C36_hinge.
Example C36_hinge_witness : exists r, gradient Rnum LHinge None 1 [/ 2] 1 [0] 1 = Some r /\ l_loss r = / 2 /\ l_grad r = [-1].
Proof.
  cbn [gradient rd nth_error bind wr]. eexists. split; [reflexivity|]. cbn [l_loss l_grad]. unfold hinge_of.
  rewrite std_max_real. cbn [n_lt n_sub n_mul n_int Rnum]. unfold zero. cbn [n_int Rnum]. rewrite Rmax_right by lra. split; [lra|].
  destruct (Rlt_dec _ _); [reflexivity|lra].
Qed.
(** The mistake losses: one for a wrong label, zero otherwise; with two classes the gradient is zero
    when the loss is. *)
Theorem C36_bool : forall (T : Type) (N : num T) k h y ps pl g m r,
  k = LBool \/ k = LMaxBool \/ k = LUniBool -> gradient N k h y ps pl g m = Some r ->
  l_loss r = (if (pl =? y)%Z then zero N else one N) /\
  (k = LBool -> n_lt N (zero N) (l_loss r) = false -> exists g', l_grad r = zero N :: g').
Proof.
  intros T N k h y ps pl g m r Hk H. destruct Hk as [->|[->| ->]]; cbn [gradient] in H.
  - dob H Q1. inv H. cbn [l_loss l_grad]. split; [reflexivity|]. intros _ Hz. rewrite Hz in Q1.
    destruct g; cbn in Q1; [discriminate|]. inv Q1. eauto.
  - split; [|discriminate]. deep H; reflexivity.
  - split; [|discriminate]. deep H; reflexivity.
Qed.
Print Assumptions C36_bool.
Example C36_bool_witness :
  gradient f32num LBool None 1 [F (-1)] (-1) [F 0] (F 1) = Some (mklres (F 1) [F (-1)] (F 1) None).
Proof. vm_compute. reflexivity. Qed.
(** Max-score hinge: the loss is max(0, margin - own score + best other score), zero exactly if the own
    class wins by the margin. *)
Theorem C36_max_hinge : forall label ps plabel g m r,
  length g = length ps -> (2 <= length ps)%nat -> (0 <= label < Z.of_nat (length ps))%Z ->
  Forall (fun v => - fmax < v) ps -> label_of Rnum ps = Some plabel ->
  gradient Rnum LMaxHinge None label ps plabel g m = Some r ->
  exists own b riv, nth_error ps (Z.to_nat label) = Some own /\ best_other ps (Z.to_nat label) b /\
    nth_error ps b = Some riv /\ l_loss r = Rmax 0 (m - own + riv) /\ 0 <= l_loss r /\
    (l_loss r = 0 <-> forall j v, j <> Z.to_nat label -> nth_error ps j = Some v -> m <= own - v).
Proof.
  intros label ps plabel g m r Hg Hn Hl Hps Hlab H.
  assert (Em : l_margin r = m).
  { clear -H. cbn [gradient] in H. deep H; reflexivity. }
  destruct (max_hinge_gradient _ _ _ _ _ _ _ Hg Hn Hl Hps Hlab H) as (b & own & riv & Hb & Ho & Hr & El & _ & _).
  rewrite Em in El. exists own, b, riv. repeat (split; [assumption|]). rewrite El. split; [apply Rmax_l|].
  destruct Hb as (Hbl & b' & Hb' & Hmax & _). assert (b' = riv) by congruence. subst b'. split.
  - intros Hz j v Hj Hv. specialize (Hmax j v Hj Hv). unfold Rmax in Hz. destruct (Rle_dec _ _); lra.
  - intros Hall. specialize (Hall b riv Hbl Hr). unfold Rmax. destruct (Rle_dec _ _); lra.
Qed.
Print Assumptions C36_max_hinge.
(** Logistic: non-negative, positive unless the margin exceeds 100, within exp(-100) of
    ln(1 + exp(-score*label)); the gradient is its derivative. *)
Theorem C36_logistic : forall h y s ps pl g0 g m r,
  gradient Rnum LLogistic h y (s :: ps) pl (g0 :: g) m = Some r ->
  0 <= l_loss r /\ (0 < l_loss r <-> s * IZR y <= 100) /\
  Rabs (l_loss r - ln (1 + exp (- (s * IZR y)))) <= exp (-100) /\
  exists d, l_grad r = d :: g /\
    (Rabs (s * IZR y) <= 100 -> derivable_pt_lim (fun t => ln (1 + exp (- t * IZR y))) s d) /\
    (s * IZR y < -100 -> d = - IZR y) /\ (100 < s * IZR y -> d = 0).
Proof.
  intros h y s ps pl g0 g m r H. destruct (logistic_gradient _ _ _ _ _ _ _ _ _ H) as (El & d & Eg & H1 & H2 & H3).
  destruct (logistic_sound (- s * IZR y)) as (A & B & C). rewrite El.
  replace (- (s * IZR y)) with (- s * IZR y) by lra. split; [exact A|]. split; [rewrite B; split; intros; lra|].
  split; [exact C|]. exists d. split; [exact Eg|]. split; [intros Ha; apply H1|split; intros Ha; [apply H2|apply H3]]; try lra.
  pose proof (Rle_abs (s * IZR y)). pose proof (Rle_abs (- (s * IZR y))). rewrite Rabs_Ropp in *. lra.
Qed.
Print Assumptions C36_logistic.
Example C36_logistic_witness : exists r, gradient Rnum LLogistic None 1 [0] 1 [7] 0 = Some r /\
  l_loss r = ln 2 /\ l_grad r = [- / 2].
Proof.
  cbn [gradient rd nth_error bind wr]. eexists. split; [reflexivity|]. cbn [l_loss l_grad]. cbn [n_opp n_mul n_int Rnum].
  replace (- 0 * IZR 1) with 0 by lra. destruct (logistic_of_cases 0) as [(Hz & _)|[(Hz & _)|(Hz & ->)]]; try lra.
  cbn [n_lt n_div n_add n_exp n_int n_opp Rnum]. destruct (Rlt_dec 100 0); [lra|]. destruct (Rlt_dec 0 (- (100))); [lra|].
  replace (- 0) with 0 by lra. rewrite exp_0. unfold one. cbn [n_int Rnum]. split; [f_equal; lra|]. f_equal. cbn. lra.
Qed.
(** The logistic loss of the code is not always positive: beyond the margin 100 it is exactly zero. *)
Theorem C36_logistic_zero_refuted : exists s r,
  gradient f32num LLogistic None 1 [s] 1 [F 0] (F 1) = Some r /\ l_loss r = F 0.
Proof. exists (F 101). eexists. vm_compute. split; reflexivity. Qed.
Print Assumptions C36_logistic_zero_refuted.
Theorem C36_square : forall h y s ps pl g0 g m r,
  gradient Rnum LSquare h y (s :: ps) pl (g0 :: g) m = Some r ->
  l_loss r = (s - IZR y) * (s - IZR y) / 2 /\ 0 <= l_loss r /\ (l_loss r = 0 <-> s = IZR y) /\
  exists d, l_grad r = d :: g /\ derivable_pt_lim (fun t => (t - IZR y) * (t - IZR y) / 2) s d.
Proof.
  intros h y s ps pl g0 g m r H. destruct (square_gradient _ _ _ _ _ _ _ _ _ H) as (El & Eg).
  split; [exact El|]. rewrite El. pose proof (Rle_0_sqr (s - IZR y)) as Hq. unfold Rsqr in Hq. split; [lra|].
  split; [split; [|intros ->; lra]|].
  { intros Hz. assert (Hz2 : (s - IZR y) * (s - IZR y) = 0) by lra. apply Rmult_integral in Hz2. lra. }
  eexists. split; [exact Eg|].
  assert (D : derivable_pt_lim (fun t => t - IZR y) s (1 - 0)).
  { apply (derivable_pt_lim_minus id (fun _ => IZR y)); [apply derivable_pt_lim_id|apply derivable_pt_lim_const]. }
  pose proof (derivable_pt_lim_mult _ _ _ _ _ D D) as D2.
  pose proof (derivable_pt_lim_scal _ (/ 2) _ _ D2) as D3.
  eapply derivable_pt_lim_ext; [|replace (s - IZR y) with (/ 2 * ((1 - 0) * (s - IZR y) + (s - IZR y) * (1 - 0))) by lra; exact D3].
  intros t. cbv beta delta [mult_real_fct mult_fct]. field.
Qed.
Print Assumptions C36_square.
(** The loss reported while learning is the loss reported by evaluation, for every arithmetic and
    every loss but the uniform hinge loss. *)
Theorem C36_same_loss : forall (T : Type) (N : num T) k y ps pl g m r,
  k <> LUniHinge -> gradient N k None y ps pl g m = Some r -> loss_value N k y ps pl m = Some (l_loss r).
Proof. intros. eapply loss_agrees; eauto. Qed.
Print Assumptions C36_same_loss.
Example C36_same_loss_witness : exists r, gradient f32num LMaxHinge None 1 [F 3; F 2; F 1] 0 [F 0; F 0; F 0] (F 1) = Some r /\
  l_loss r = F 2 /\ l_grad r = [F 1; F (-1); F 0].
Proof. eexists. split; [vm_compute; reflexivity|]. vm_compute. split; reflexivity. Qed.
(** "The gradient is zero whenever the loss is" fails for the max-score losses without a margin
    handler: the gradient array is not written and keeps the values of the example before. *)
Theorem C36_stale_gradient_refuted : exists ps, label_of f32num ps = Some 0%Z /\
  forall k, k = LMaxHinge \/ k = LMaxBool -> exists r1 r2,
    gradient f32num k None 1 ps 0 [F 0; F 0] (F 1) = Some r1 /\
    gradient f32num k None 0 ps 0 (l_grad r1) (F 1) = Some r2 /\
    l_loss r2 = F 0 /\ l_grad r2 = [F 1; F (-1)].
Proof.
  exists [F 3; F 1]. split; [reflexivity|]. intros k [-> | ->]; do 2 eexists; (split; [vm_compute; reflexivity|]);
  (split; [vm_compute; reflexivity|]); vm_compute; split; reflexivity.
Qed.
Print Assumptions C36_stale_gradient_refuted.

(** ** C37 *)
(** Max-score losses: if there is a loss, the best class other than the true one (the first on ties)
    moves down and the true class up by the same amount, nothing else changes. *)
Theorem C37_max_hinge : forall h label ps plabel g margin r,
  length g = length ps -> (2 <= length ps)%nat -> (0 <= label < Z.of_nat (length ps))%Z ->
  Forall (fun v => - fmax < v) ps -> label_of Rnum ps = Some plabel ->
  gradient Rnum LMaxHinge h label ps plabel g margin = Some r -> 0 < l_loss r ->
  exists m, best_other ps (Z.to_nat label) m /\ opposes (length ps) (Z.to_nat label) m 1 (l_grad r) /\
    lsum (l_grad r) = 0.
Proof.
  intros h label ps plabel g margin r Hg Hn Hl Hps Hlab H Hpos.
  destruct (max_hinge_gradient _ _ _ _ _ _ _ Hg Hn Hl Hps Hlab H) as (m & own & riv & Hb & _ & _ & _ & Hm & Hop).
  exists m. split; [exact Hb|]. split; [auto|]. eapply opposes_balanced; [| |apply not_eq_sym, Hb|apply Hop, Hpos]; lia.
Qed.
Print Assumptions C37_max_hinge.
Theorem C37_max_bool : forall h label ps plabel g margin r,
  length g = length ps -> (2 <= length ps)%nat -> (0 <= label < Z.of_nat (length ps))%Z ->
  label_of Rnum ps = Some plabel ->
  gradient Rnum LMaxBool h label ps plabel g margin = Some r -> 0 < l_loss r ->
  exists m, best_other ps (Z.to_nat label) m /\ opposes (length ps) (Z.to_nat label) m 1 (l_grad r) /\
    lsum (l_grad r) = 0.
Proof.
  intros h label ps plabel g margin r Hg Hn Hl Hlab H Hpos.
  destruct (max_bool_gradient _ _ _ _ _ _ _ Hg Hn Hl Hlab H) as [(E & _)|(_ & _ & m & Hb & _ & Hm & Hop)]; [lra|].
  exists m. split; [exact Hb|]. split; [exact Hop|]. eapply opposes_balanced; [| |apply not_eq_sym, Hb|apply Hop]; lia.
Qed.
Print Assumptions C37_max_bool.
Theorem C37_max_logistic : forall h label ps plabel g margin r,
  length g = length ps -> (2 <= length ps)%nat -> (0 <= label < Z.of_nat (length ps))%Z ->
  Forall (fun v => - fmax < v) ps -> label_of Rnum ps = Some plabel ->
  gradient Rnum LMaxLogistic h label ps plabel g margin = Some r ->
  exists m a, best_other ps (Z.to_nat label) m /\ 0 <= a <= 1 /\
    opposes (length ps) (Z.to_nat label) m a (l_grad r) /\ lsum (l_grad r) = 0.
Proof.
  intros h label ps plabel g margin r Hg Hn Hl Hps Hlab H.
  destruct (max_logistic_gradient _ _ _ _ _ _ _ Hg Hn Hl Hps Hlab H) as (m & a & own & riv & Hb & Hm & Ha & _ & _ & _ & Hop).
  exists m, a. split; [exact Hb|]. split; [exact Ha|]. split; [exact Hop|].
  eapply opposes_balanced; [| |apply not_eq_sym, Hb|apply Hop]; lia.
Qed.
Print Assumptions C37_max_logistic.
(** Three classes with scores 1, 3, 3 and the true class 0: class 1 is the rival. *)
Example C37_max_witness : let ps := [1; 3; 3] in
  label_of Rnum ps = Some 1%Z /\ Forall (fun v => - fmax < v) ps /\
  exists r, gradient Rnum LMaxHinge None 0 ps 1 [0; 0; 0] 1 = Some r /\ 0 < l_loss r /\ l_grad r = [-1; 1; 0].
Proof.
  cbv zeta. assert (Hf : 0 < fmax).
  { unfold fmax. cbn. lra. }
  split; [|split].
  - cbn. unfold max_element, max_from. cbn [n_lt Rnum]. repeat (destruct (Rlt_dec _ _); try lra). reflexivity.
  - repeat constructor; lra.
  - cbn [gradient]. unfold rival, rdz, rd. cbn [Z.eqb Z.ltb Z.compare Z.to_nat Pos.to_nat Pos.iter_op Nat.add nth_error bind]. change (Pos.to_nat 1) with 1%nat. cbn [nth_error bind]. eexists. split.
    + unfold hinge_of. rewrite std_max_real. cbn [n_lt n_sub n_add Rnum]. unfold zero, one. cbn [n_int Rnum].
      rewrite Rmax_right by lra. destruct (Rlt_dec 0 _); [|lra]. reflexivity.
    + cbn [l_loss l_grad]. split; [lra|]. reflexivity.
Qed.
(** Uniform losses: the true class moves up by b and the classes scored at least as high share b
    equally.  The boolean loss balances exactly; the other two divide by (number + 1e-12), so the sum
    is off by at most 1e-12. *)
Theorem C37_uniform_bool : forall h label ps plabel g margin r,
  (2 <= length ps)%nat -> (Z.of_nat (length ps) < 2 ^ 64)%Z -> (0 <= label < Z.of_nat (length ps))%Z ->
  label_of Rnum ps = Some plabel ->
  gradient Rnum LUniBool h label ps plabel g margin = Some r -> 0 < l_loss r ->
  exists own, nth_error ps (Z.to_nat label) = Some own /\ (1 <= rivals ps own)%nat /\
    spreads ps (Z.to_nat label) own (/ INR (rivals ps own)) 1 (l_grad r) /\ lsum (l_grad r) = 0.
Proof.
  intros h label ps plabel g margin r Hn Hb Hl Hlab H Hpos.
  destruct (uni_bool_gradient _ _ _ _ _ _ _ Hn Hb Hl Hlab H) as [(E & _)|(_ & _ & Hx)]; [lra|exact Hx].
Qed.
Print Assumptions C37_uniform_bool.
Theorem C37_uniform_logistic : forall h label ps plabel g margin r own,
  length g = length ps -> (0 <= label < Z.of_nat (length ps))%Z ->
  nth_error ps (Z.to_nat label) = Some own -> (1 <= rivals ps own)%nat ->
  gradient Rnum LUniLogistic h label ps plabel g margin = Some r ->
  l_grad r = map (fun _ => 0) g \/
  exists a b, 0 <= b <= 1 /\ a = b / (INR (rivals ps own) + eps) /\
    spreads ps (Z.to_nat label) own a b (l_grad r) /\ Rabs (lsum (l_grad r)) <= / 10 ^ 12.
Proof.
  intros h label ps plabel g margin r own Hg Hl Ho Hr H. destruct eps_val as (He & He').
  destruct (uni_logistic_gradient _ _ _ _ _ _ _ _ Hg Hl Ho H) as [E|(a & b & Hb & Ha & Hs & Hsum)]; [left; exact E|right].
  exists a, b. repeat (split; [assumption|]). specialize (Hsum Hr). apply Rabs_le. lra.
Qed.
Print Assumptions C37_uniform_logistic.
Theorem C37_uniform_hinge : forall h label ps plabel g margin r own,
  (0 <= label < Z.of_nat (length ps))%Z -> nth_error ps (Z.to_nat label) = Some own ->
  (1 <= rivals ps own)%nat ->
  gradient Rnum LUniHinge h label ps plabel g margin = Some r ->
  l_grad r = g \/ (forall v, In v (l_grad r) -> v = 0) \/
  spreads ps (Z.to_nat label) own (1 / (INR (rivals ps own) + eps)) 1 (l_grad r) /\
  Rabs (lsum (l_grad r)) <= / 10 ^ 12.
Proof.
  intros h label ps plabel g margin r own Hl Ho Hr H. destruct eps_val as (He & He').
  destruct (uni_hinge_gradient _ _ _ _ _ _ _ _ Hl Ho H) as (_ & [E|[E|[E|(Hs & Hsum)]]]).
  - right; left. rewrite E. intros v Hv. apply in_map_iff in Hv as (u & <- & _). reflexivity.
  - right; left. rewrite E. intros v Hv. apply in_map_iff in Hv as (u & <- & _). reflexivity.
  - now left.
  - right; right. split; [exact Hs|]. specialize (Hsum Hr). apply Rabs_le. lra.
Qed.
Print Assumptions C37_uniform_hinge.
(** Scores 1, 3, 0, 2 and the true class 0: two rivals, which get one half each. *)
Example C37_uniform_witness : let ps := [1; 3; 0; 2] in
  label_of Rnum ps = Some 1%Z /\ rivals ps 1 = 2%nat /\
  exists r, gradient Rnum LUniBool None 0 ps 1 [0; 0; 0; 0] 1 = Some r /\ l_loss r = 1 /\ l_grad r = [-1; / 2; 0; / 2].
Proof.
  cbv zeta. split; [|split].
  - cbn. unfold max_element, max_from. cbn [n_lt Rnum]. repeat (destruct (Rlt_dec _ _); try lra). reflexivity.
  - unfold rivals. cbn [filter]. repeat (destruct (Rle_dec _ _); try lra). reflexivity.
  - cbn [gradient]. cbn. repeat (destruct (Rlt_dec _ _); try lra). cbn [bind filter length].
    unfold rdz. cbn. repeat (destruct (Rle_dec _ _); try lra). cbn. eexists. split; [reflexivity|]. cbn. split; [reflexivity|].
    repeat f_equal; unfold one; cbn; lra.
Qed.

(** ** C38 *)
(** The uniform hinge loss reports zero to the model whatever the scores, for every arithmetic and
    every margin handler. *)
Theorem C38_reports_zero : forall (T : Type) (N : num T) h y ps pl g m r,
  gradient N LUniHinge h y ps pl g m = Some r -> l_loss r = zero N.
Proof.
  intros T N h y ps pl g m r H. cbn [gradient] in H. dob H Q1. destruct (false_stats N t ps).
  destruct h; deep H; reflexivity.
Qed.
Print Assumptions C38_reports_zero.
(** So no model that predicts with its weights as they are ever changes them (eager updates). *)
Theorem C38_never_learns : forall (T : Type) (N : num T) k p rnd c e lab ps c' e',
  n_lt N (zero N) (zero N) = false -> direct_kind k = true -> c_loss c = LUniHinge -> c_lazy c = false ->
  iterate N (alg_of N k) p rnd c e = Some (lab, ps, c', e') ->
  c_ws c' = c_ws (linear_update_dim N (Z.to_nat (x_dim p)) c).
Proof.
  intros T N k p rnd c e lab ps c' e' Hz Hk Hl Hy H.
  destruct (iterate_idle N _ _ _ _ _ _ _ _ _ Hk H) as (_ & q & _ & Hq & _ & Hu). destruct q; [|auto].
  destruct (Hu eq_refl) as (h & m & r & Eg & _ & Hi). rewrite Hl in Eg. apply Hi; auto.
  now rewrite (C38_reports_zero _ _ _ _ _ _ _ _ _ Eg).
Qed.
Print Assumptions C38_never_learns.
(** Three classes, an example of class 1 scored 0 everywhere: its loss is about 1 (margin violated), a
    perceptron trained on it any number of times keeps zero weights. *)
Theorem C38_learns_refuted : exists p,
  loss_value f32num LUniHinge (p_label p) [F 0; F 0; F 0] 0 (F 1) = Some (F 1) /\
  exists c e r, run KPerceptron 3 LUniHinge [fit [p; p; p]] = Some (c, e, r) /\
    c_ws c = repeat [F 0; F 0; F 0] 3 /\ c_err c = 3%Z.
Proof.
  exists (pt 1 [(1, 2); (2, 1)]%Z). split; [vm_compute; reflexivity|]. do 3 eexists. vm_compute. repeat split; reflexivity.
Qed.
Print Assumptions C38_learns_refuted.

(** ** C39 *)
(** Labels and indexes: a two-class label becomes 1 (from 1) or -1, other labels stay; indexes stay. *)
Theorem C39_labels : forall (T : Type) (N : num T) n fl k p q lo, wf_point lo p ->
  preprocess N n fl k p = Some q ->
  p_label q = (if (n =? 1)%nat then if (p_label p =? 1)%Z then 1 else -1 else p_label p)%Z /\
  p_idx q = p_idx p /\ wf_point lo q.
Proof. intros. eapply preprocess_shape; eauto. Qed.
Print Assumptions C39_labels.
(** Feature selection sets the values of unselected features to zero and changes no other value. *)
Theorem C39_selection : forall (T : Type) (N : num T) n fl p lo, wf_point lo p ->
  (preprocess N n None NoNorm p = Some (mkpt (calibrate n (p_label p)) (p_idx p) (p_val p))) /\
  exists q, preprocess N n (Some fl) NoNorm p = Some q /\
  forall j i v, nth_error (p_idx p) j = Some i -> nth_error (p_val p) j = Some v ->
    nth_error (p_val q) j = Some (if (i <? Z.of_nat (length fl))%Z && nth (Z.to_nat i) fl false then v else zero N).
Proof.
  intros T N n fl p lo (Hl & _). split; [reflexivity|]. eexists. split; [reflexivity|].
  intros j i v Hi Hv. exact (filter_values T N fl (mkpt (calibrate n (p_label p)) (p_idx p) (p_val p)) j i v Hl Hi Hv).
Qed.
Print Assumptions C39_selection.
(** Normalisation divides the selected values by one number, their norm, and an example with a
    non-zero value gets norm one. *)
Theorem C39_norm_l1 : forall n fl (p : point R), wf_point 0 p ->
  exists s q, preprocess Rnum n fl NoNorm p = Some s /\ preprocess Rnum n fl NormL1 p = Some q /\
  p_val q = map (fun v => v / lsum (map Rabs (p_val s))) (p_val s) /\
  ((exists v, In v (p_val s) /\ v <> 0) -> lsum (map Rabs (p_val q)) = 1).
Proof.
  intros n fl p Hw. destruct (preprocess_ok 0 n fl NoNorm p ltac:(lia) Hw) as (s & Es & Hs).
  destruct (preprocess_ok 0 n fl NormL1 p ltac:(lia) Hw) as (q & Eq & Hq). cbv zeta in *.
  exists s, q. rewrite Hq, Hs. repeat (split; [assumption || reflexivity|]). intros Hv. now apply normalised_l1.
Qed.
Print Assumptions C39_norm_l1.
Theorem C39_norm_l2 : forall n fl (p : point R), wf_point 0 p ->
  exists s q, preprocess Rnum n fl NoNorm p = Some s /\ preprocess Rnum n fl NormL2 p = Some q /\
  p_val q = map (fun v => v / sqrt (lsum (map (fun v => v * v) (p_val s)))) (p_val s) /\
  ((exists v, In v (p_val s) /\ v <> 0) -> lsum (map (fun v => v * v) (p_val q)) = 1).
Proof.
  intros n fl p Hw. destruct (preprocess_ok 0 n fl NoNorm p ltac:(lia) Hw) as (s & Es & Hs).
  destruct (preprocess_ok 0 n fl NormL2 p ltac:(lia) Hw) as (q & Eq & Hq). cbv zeta in *.
  exists s, q. rewrite Hq, Hs. repeat (split; [assumption || reflexivity|]). intros Hv. now apply normalised_l2.
Qed.
Print Assumptions C39_norm_l2.
(** Label 0 of a two-class model, features 1, 3 and 9, of which 3 and 9 are not selected. *)
Example C39_witness :
  preprocess f32num 1 (Some [false; true; true; false]) NormL2 (pt 0 [(1, 2); (2, 0); (3, 4); (9, 1)]%Z)
  = Some (pt (-1) [(1, 1); (2, 0); (3, 0); (9, 0)]%Z).
Proof. vm_compute. reflexivity. Qed.
(** Normalising an example whose values are all zero divides zero by zero. *)
Theorem C39_zero_refuted : exists p q, wf_point 0 p /\ preprocess f32num 1 None NormL2 p = Some q /\
  p_val q = [S754_nan].
Proof.
  exists (pt 1 [(4, 0)]%Z). eexists. split; [wfp|]. split; vm_compute; reflexivity.
Qed.
Print Assumptions C39_zero_refuted.
