(** Proofs about the losses, continued: uniform variants, binary losses. *)
From Coq Require Import Reals Lra.
From Verif Require Import M_Base M_Num M_Expr M_Loss M_Online S_Expr S_Real S_Online S_Loss P_DataPoint
  P_Expr P_Real P_Online P_Predict P_Step P_Safe P_Loss.
Local Open Scope R_scope.

Lemma lsum_upd l i u v : nth_error l i = Some v -> lsum (upd i u l) = lsum l - v + u.
Proof.
  revert i. induction l as [|x l IH]; intros [|i] H; cbn in H; try discriminate.
  - inv H. unfold lsum. cbn. lra.
  - unfold upd; fold (@upd R). cbn [lsum fold_right]. unfold lsum in IH. cbn. rewrite (IH i H). lra.
Qed.
Definition above (own : R) (ps : list R) : nat := length (filter (n_le Rnum own) ps).
Lemma above_rivals own ps : (above own ps - 1)%nat = rivals ps own.
Proof. reflexivity. Qed.
Lemma lsum_uniform own a ps : lsum (uniform_grad Rnum own a ps) = INR (above own ps) * a.
Proof.
  unfold above. induction ps as [|p ps IH]; [cbn; lra|]. cbn [uniform_grad map filter]. fold (uniform_grad Rnum own a ps).
  unfold lsum in *. cbn [fold_right]. rewrite IH. destruct (n_le Rnum own p).
  - cbn [length]. rewrite S_INR. lra.
  - unfold zero. cbn. lra.
Qed.
Lemma above_le own ps : (above own ps <= length ps)%nat.
Proof. unfold above. induction ps; cbn [filter length]; [lia|]. destruct (n_le Rnum own a); cbn [length]; lia. Qed.
Lemma above_pos own ps l : nth_error ps l = Some own -> (1 <= above own ps)%nat.
Proof.
  intros H. unfold above. assert (Hin : In own (filter (n_le Rnum own) ps)).
  { apply filter_In. split; [eapply nth_error_In; eauto|]. apply Rle_b. lra. }
  destruct (filter _ ps); [destruct Hin|]. cbn. lia.
Qed.
Lemma above_two own ps l m v : nth_error ps l = Some own -> nth_error ps m = Some v -> l <> m -> own <= v ->
  (2 <= above own ps)%nat.
Proof.
  unfold above. revert l m. induction ps as [|p ps IH]; intros [|l] [|m] Hl Hm Hne Hv; try discriminate; try lia.
  - cbn in Hl, Hm. inv Hl. cbn [filter]. replace (n_le Rnum own own) with true by (symmetry; apply Rle_b; lra).
    cbn [length]. assert (Hin : In v (filter (n_le Rnum own) ps)).
    { apply filter_In. split; [eapply nth_error_In; eauto|]. now apply Rle_b. }
    destruct (filter _ ps); [destruct Hin|]. cbn. lia.
  - cbn in Hl, Hm. inv Hm. cbn [filter]. replace (n_le Rnum own v) with true by (symmetry; now apply Rle_b).
    pose proof (above_pos own ps l Hl) as H1. unfold above in H1. cbn [length]. lia.
  - cbn in Hl, Hm. specialize (IH l m Hl Hm ltac:(lia) Hv). cbn [filter]. destruct (n_le Rnum own p); cbn [length]; lia.
Qed.
Lemma uniform_spreads own a b ps l g : (0 <= l < Z.of_nat (length ps))%Z ->
  wrz (uniform_grad Rnum own a ps) l (- b) = Some g -> nth_error ps (Z.to_nat l) = Some own ->
  spreads ps (Z.to_nat l) own a b g /\ lsum g = INR (rivals ps own) * a - b.
Proof.
  intros Hl H Hown. destruct (wrz_some (uniform_grad Rnum own a ps) l (- b)) as (g' & E & L & U).
  { unfold uniform_grad. rewrite map_length. exact Hl. }
  rewrite E in H. injection H as <-. unfold uniform_grad in L. rewrite map_length in L. split.
  - split; [exact L|]. intros i v Hv. rewrite U.
    rewrite nth_error_upd by (unfold uniform_grad; rewrite map_length; lia).
    destruct (Nat.eqb i (Z.to_nat l)); [reflexivity|]. unfold uniform_grad. erewrite map_nth_error by exact Hv.
    f_equal. cbn. destruct (Rle_dec own v); reflexivity.
  - rewrite U. rewrite (lsum_upd _ _ _ a).
    + rewrite lsum_uniform. rewrite <- above_rivals, minus_INR by (eapply above_pos; eauto). cbn. lra.
    + unfold uniform_grad. erewrite map_nth_error by exact Hown.
      replace (n_le Rnum own own) with true by (symmetry; apply Rle_b; lra). reflexivity.
Qed.

(** Uniform boolean loss. *)
Lemma uni_bool_gradient h label ps plabel g margin r :
  (2 <= length ps)%nat -> (Z.of_nat (length ps) < 2 ^ 64)%Z -> (0 <= label < Z.of_nat (length ps))%Z ->
  label_of Rnum ps = Some plabel ->
  gradient Rnum LUniBool h label ps plabel g margin = Some r ->
  (l_loss r = 0 /\ plabel = label) \/
  (l_loss r = 1 /\ plabel <> label /\ exists own, nth_error ps (Z.to_nat label) = Some own /\
    (1 <= rivals ps own)%nat /\
    spreads ps (Z.to_nat label) own (/ INR (rivals ps own)) 1 (l_grad r) /\ lsum (l_grad r) = 0).
Proof.
  intros Hn H64 Hl Hlab H. cbn [gradient] in H. destruct (Z.eqb_spec plabel label) as [E|Hne].
  - left. cbv zeta in H. match type of H with (if ?b then _ else _) = _ => destruct b eqn:Eb end.
    { exfalso. apply Rlt_b in Eb. unfold zero in Eb. cbn in Eb. lra. }
    inv H. auto.
  - right. cbv zeta in H. match type of H with (if ?b then _ else _) = _ => destruct b eqn:Eb end.
    2:{ exfalso. apply Rlt_b_false in Eb. unfold zero, one in Eb. cbn in Eb. lra. }
    dob H Q1. dob H Q2. inv H. cbn [l_loss l_grad]. split; [reflexivity|]. split; [exact Hne|].
    apply rdz_nth in Q1; [|lia]. exists r0. split; [exact Q1|].
    destruct ps as [|a [|b ps0]]; cbn in Hn; try lia. set (ps := a :: b :: ps0) in *.
    assert (Hlab' : plabel = Z.of_nat (max_element Rnum ps)) by (unfold ps in Hlab; cbn [label_of] in Hlab; injection Hlab as <-; reflexivity).
    destruct (first_max_best ps _ (R_first_max ps ltac:(discriminate))) as (v & Hv & H1 & H2).
    assert (Hml : Z.to_nat label <> max_element Rnum ps) by lia.
    assert (H2a : (2 <= above r0 ps)%nat) by (eapply above_two; eauto).
    assert (Hc : (1 <= rivals ps r0)%nat) by (rewrite <- above_rivals; lia). split; [exact Hc|].
    assert (Hlen : (above r0 ps <= length ps)%nat) by apply above_le.
    assert (Hu : u64 (Z.of_nat (above r0 ps) - 1) = Z.of_nat (rivals ps r0)).
    { unfold u64. rewrite <- above_rivals. rewrite Z.mod_small by (unfold two64 in *; lia). lia. }
    assert (Ha : n_div Rnum (one Rnum) (n_int Rnum (u64 (Z.of_nat (length (filter (n_le Rnum r0) ps)) - 1)))
      = / INR (rivals ps r0)).
    { fold (above r0 ps). rewrite Hu. unfold one. cbn. rewrite <- INR_IZR_INZ. lra. }
    rewrite Ha in Q2. destruct (uniform_spreads r0 (/ INR (rivals ps r0)) 1 ps label l) as (S1 & S2); auto.
    split; [exact S1|]. rewrite S2. rewrite Rinv_r; [lra|]. apply not_0_INR. lia.
Qed.

(** Uniform hinge and logistic loss: the constant 1e-12 enters the step. *)
Definition eps : R := n_lit Rnum 1 (-12).
Lemma eps_val : 0 < eps <= / 10 ^ 12.
Proof.
  unfold eps. cbn [n_lit Rnum]. unfold R_of_dec. rewrite Rmult_1_l.
  change (powerRZ 10 (-12)) with (/ 10 ^ (Pos.to_nat 12)). replace (Pos.to_nat 12) with 12%nat by reflexivity.
  split; [|lra]. apply Rinv_0_lt_compat. apply pow_lt. lra.
Qed.
Lemma false_scan_real own ps : forall a n, false_scan Rnum own ps (a, n)
  = (a + lsum (filter (n_le Rnum own) ps), n + INR (above own ps)).
Proof.
  unfold above. induction ps as [|p ps IH]; intros a n.
  - cbn. f_equal; lra.
  - cbn [false_scan filter]. destruct (n_le Rnum own p).
    + cbn [fst snd length]. rewrite IH. unfold lsum, one. cbn [fold_right]. rewrite S_INR. cbn. f_equal; lra.
    + apply IH.
Qed.
Lemma false_stats_real own ps : (1 <= above own ps)%nat ->
  false_stats Rnum own ps = (lsum (filter (n_le Rnum own) ps) - own, INR (rivals ps own) + eps).
Proof.
  intros H. unfold false_stats. rewrite false_scan_real. cbn [fst snd n_sub Rnum]. unfold zero, one.
  cbn [n_int Rnum]. rewrite <- above_rivals, minus_INR by lia. cbn [INR]. fold eps. f_equal; lra.
Qed.
Lemma spread_bal c a b : (1 <= c)%nat -> 0 <= b <= 1 -> a = b / (INR c + eps) -> - eps <= INR c * a - b <= 0.
Proof.
  intros Hc Hb ->. destruct eps_val as (He & _). assert (Hc1 : 1 <= INR c) by (change 1 with (INR 1); apply le_INR; lia).
  assert (E : INR c * (b / (INR c + eps)) - b = - (eps * b) / (INR c + eps)) by (field; lra).
  rewrite E. split.
  - apply (Rmult_le_reg_r (INR c + eps)); [lra|]. unfold Rdiv. rewrite Rmult_assoc, Rinv_l by lra. nra.
  - apply (Rmult_le_reg_r (INR c + eps)); [lra|]. unfold Rdiv. rewrite Rmult_assoc, Rinv_l by lra. nra.
Qed.
Lemma uni_hinge_gradient h label ps plabel g margin r own :
  (0 <= label < Z.of_nat (length ps))%Z -> nth_error ps (Z.to_nat label) = Some own ->
  gradient Rnum LUniHinge h label ps plabel g margin = Some r ->
  l_loss r = 0 /\
  (l_grad r = zeros Rnum g \/ l_grad r = zeros Rnum ps \/ l_grad r = g \/
   spreads ps (Z.to_nat label) own (1 / (INR (rivals ps own) + eps)) 1 (l_grad r) /\
   ((1 <= rivals ps own)%nat -> - eps <= lsum (l_grad r) <= 0)).
Proof.
  intros Hl Hown H. cbn [gradient] in H. dob H Q1. apply rdz_nth in Q1; [|lia]. assert (r0 = own) by congruence. subst r0.
  assert (Hz : zero Rnum = 0) by reflexivity.
  rewrite (false_stats_real own ps (above_pos own ps _ Hown)) in H. cbv zeta in H.
  assert (Hsp : forall l0, wrz (uniform_grad Rnum own (n_div Rnum (one Rnum) (INR (rivals ps own) + eps)) ps) label
      (n_opp Rnum (one Rnum)) = Some l0 ->
    spreads ps (Z.to_nat label) own (1 / (INR (rivals ps own) + eps)) 1 l0 /\
    ((1 <= rivals ps own)%nat -> - eps <= lsum l0 <= 0)).
  { intros l0 Hw. destruct (uniform_spreads own (1 / (INR (rivals ps own) + eps)) 1 ps label l0 Hl Hw Hown) as (S1 & S2).
    split; [exact S1|]. intros Hc. rewrite S2. apply spread_bal; auto; lra. }
  destruct h as [f|].
  - dob H Q2. dob H Q3. destruct p as (mm, v). destruct (n_le Rnum _ (zero Rnum)); inv H; cbn [l_loss l_grad].
    + split; [exact Hz|]. right; left. unfold zeros.
      destruct (wrz_some (uniform_grad Rnum own (n_div Rnum (one Rnum) (INR (rivals ps own) + eps)) ps) label
        (n_opp Rnum (one Rnum))) as (g2 & E & L & _); [unfold uniform_grad; rewrite map_length; exact Hl|].
      rewrite E in Q2. injection Q2 as <-. unfold uniform_grad in L. rewrite map_length in L.
      clear -L. revert ps L. induction g2; intros [|p ps] L; cbn in *; try discriminate; auto. f_equal. auto.
    + split; [exact Hz|]. right; right; right. auto.
  - destruct (n_lt Rnum (zero Rnum) _).
    + dob H Q2. inv H. cbn [l_loss l_grad]. split; [exact Hz|]. right; right; right. auto.
    + inv H. cbn [l_loss l_grad]. split; [exact Hz|]. auto.
Qed.
Lemma logistic_frac z : 0 <= 1 / (1 + Rtrigo_def.exp z) <= 1.
Proof.
  pose proof (exp_pos z) as He. split.
  - apply Rlt_le, Rdiv_lt_0_compat; lra.
  - apply (Rmult_le_reg_r (1 + Rtrigo_def.exp z)); [lra|]. unfold Rdiv. rewrite Rmult_assoc, Rinv_l; lra.
Qed.
Lemma uni_logistic_gradient h label ps plabel g margin r own :
  length g = length ps ->
  (0 <= label < Z.of_nat (length ps))%Z -> nth_error ps (Z.to_nat label) = Some own ->
  gradient Rnum LUniLogistic h label ps plabel g margin = Some r ->
  l_grad r = zeros Rnum g \/
  exists a b, 0 <= b <= 1 /\ a = b / (INR (rivals ps own) + eps) /\
   spreads ps (Z.to_nat label) own a b (l_grad r) /\
   ((1 <= rivals ps own)%nat -> - eps <= lsum (l_grad r) <= 0).
Proof.
  intros Hg Hl Hown H. cbn [gradient] in H. dob H Q1. apply rdz_nth in Q1; [|lia]. assert (r0 = own) by congruence. subst r0.
  rewrite (false_stats_real own ps (above_pos own ps _ Hown)) in H. cbv zeta in H.
  match type of H with (if ?b then _ else _) = _ => destruct b end.
  - dob H Q2. inv H. cbn [l_grad]. right. exists (1 / (INR (rivals ps own) + eps)), 1. split; [lra|]. split; [reflexivity|].
    destruct (uniform_spreads own (1 / (INR (rivals ps own) + eps)) 1 ps label l Hl Q2 Hown) as (S1 & S2).
    split; [exact S1|]. intros Hc. rewrite S2. apply spread_bal; auto; lra.
  - match type of H with (if ?b then _ else _) = _ => destruct b end.
    + inv H. now left.
    + dob H Q2. inv H. cbn [l_grad]. right. eexists _, _. split; [|split; [reflexivity|]].
      2:{ destruct (uniform_spreads own _ _ ps label l Hl Q2 Hown) as (S1 & S2).
        split; [exact S1|]. intros Hc. rewrite S2. apply spread_bal; auto. apply logistic_frac. }
      apply logistic_frac.
Qed.

(** ** Binary losses *)
Lemma hinge_gradient h y s ps pl g0 g m r : gradient Rnum LHinge h y (s :: ps) pl (g0 :: g) m = Some r ->
  l_loss r = Rmax 0 (l_margin r - s * IZR y) /\ (h = None -> l_margin r = m) /\
  l_grad r = (if Rlt_dec 0 (l_loss r) then - IZR y else 0) :: g.
Proof.
  intros H. cbn [gradient rd nth_error bind] in H. destruct h as [f|].
  - cbn [wr] in H. dob H Q1. dob Q1 Q2. destruct p as ((ga, ma), va).
    cbn [wr] in Q2. injection Q2 as <-. dob Q1 Q3. destruct p as (mm, vv). inv Q1. cbn [wr bind] in H. inv H. cbn [l_loss l_margin l_grad].
    unfold hinge_of. rewrite std_max_real. split; [reflexivity|]. split; [discriminate|].
    f_equal. rewrite <- opp_IZR. cbn. destruct (Rlt_dec 0 _); reflexivity.
  - cbn [bind wr] in H. inv H. cbn [l_loss l_margin l_grad]. unfold hinge_of. rewrite std_max_real.
    split; [reflexivity|]. split; [reflexivity|]. f_equal. rewrite <- opp_IZR. cbn. destruct (Rlt_dec 0 _); reflexivity.
Qed.
