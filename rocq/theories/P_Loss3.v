(** Proofs about the logistic and square losses, agreement of loss() and gradient(), and
    pre-processing. *)
From Coq Require Import Reals Lra.
From Verif Require Import M_Base M_Num M_Expr M_Loss M_Online S_Expr S_Real S_Online S_Loss P_DataPoint
  P_Expr P_Real P_Online P_Predict P_Step P_Safe P_Loss.
Local Open Scope R_scope.
Local Notation exp := Rtrigo_def.exp.

Lemma ln_1p_pos z : 0 < ln (1 + exp z).
Proof. rewrite <- ln_1. apply ln_increasing; pose proof (exp_pos z); lra. Qed.
Lemma ln_1p_le x : 0 < x -> ln (1 + x) <= x.
Proof.
  intros Hx. destruct (Rle_dec (ln (1 + x)) x) as [|Hn]; auto. exfalso.
  assert (exp x < exp (ln (1 + x))) by (apply exp_increasing; lra). rewrite exp_ln in H by lra.
  pose proof (exp_ineq1 x). lra.
Qed.
Lemma logistic_of_cases z :
  (100 < z /\ logistic_of Rnum z = z) \/ (z < -100 /\ logistic_of Rnum z = 0) \/
  (-100 <= z <= 100 /\ logistic_of Rnum z = ln (1 + exp z)).
Proof.
  unfold logistic_of, zero, one. cbn [n_lt n_int n_opp n_log n_add n_exp Rnum].
  destruct (Rlt_dec 100 z); [left; split; [lra|reflexivity]|].
  destruct (Rlt_dec z (- (100))); [right; left; split; [lra|reflexivity]|].
  right; right. split; [lra|]. reflexivity.
Qed.
Lemma logistic_sound z : 0 <= logistic_of Rnum z /\ (0 < logistic_of Rnum z <-> -100 <= z) /\
  Rabs (logistic_of Rnum z - ln (1 + exp z)) <= exp (-100).
Proof.
  pose proof (exp_pos (-100)) as H100. pose proof (ln_1p_pos z) as Hp.
  destruct (logistic_of_cases z) as [(Hz & ->)|[(Hz & ->)|(Hz & ->)]].
  - split; [lra|]. split; [split; lra|].
    assert (E : ln (1 + exp z) = z + ln (1 + exp (- z))).
    { rewrite <- (ln_exp z) at 2. rewrite <- ln_mult by (pose proof (exp_pos z); pose proof (exp_pos (- z)); lra).
      f_equal. rewrite Rmult_plus_distr_l, Rmult_1_r, <- exp_plus. replace (z + - z) with 0 by lra. rewrite exp_0. lra. }
    rewrite E. replace (z - (z + ln (1 + exp (- z)))) with (- ln (1 + exp (- z))) by lra.
    rewrite Rabs_Ropp, Rabs_pos_eq by (apply Rlt_le, ln_1p_pos).
    eapply Rle_trans; [apply ln_1p_le, exp_pos|]. apply Rlt_le, exp_increasing. lra.
  - split; [lra|]. split; [split; lra|]. rewrite Rminus_0_l, Rabs_Ropp, Rabs_pos_eq by lra.
    eapply Rle_trans; [apply ln_1p_le, exp_pos|]. apply Rlt_le, exp_increasing. lra.
  - split; [lra|]. split; [split; lra|]. rewrite Rminus_diag_eq, Rabs_R0 by reflexivity. lra.
Qed.
Lemma logistic_gradient h y s ps pl g0 g m r : gradient Rnum LLogistic h y (s :: ps) pl (g0 :: g) m = Some r ->
  l_loss r = logistic_of Rnum (- s * IZR y) /\
  exists d, l_grad r = d :: g /\
    (-100 <= - s * IZR y <= 100 -> derivable_pt_lim (fun t => ln (1 + exp (- t * IZR y))) s d) /\
    (100 < - s * IZR y -> d = - IZR y) /\ (- s * IZR y < -100 -> d = 0).
Proof.
  intros H. cbn [gradient rd nth_error bind wr] in H. inv H. cbn [l_loss l_grad]. split; [reflexivity|].
  eexists. split; [reflexivity|]. cbn [n_mul n_opp n_int n_lt n_div n_add n_exp Rnum]. unfold one, zero. cbn [n_int Rnum].
  rewrite opp_IZR. set (z := - s * IZR y). split; [|split].
  - intros Hz. destruct (Rlt_dec 100 z); [lra|]. destruct (Rlt_dec z (- (100))); [lra|].
    assert (D1 : derivable_pt_lim (fun t => - t * IZR y) s (- IZR y)).
    { apply (derivable_pt_lim_ext (fun t => (- IZR y) * t)); [intros; ring|].
      pose proof (derivable_pt_lim_scal id (- IZR y) s 1 (derivable_pt_lim_id s)) as D.
      rewrite Rmult_1_r in D. exact D. }
    assert (D2 : derivable_pt_lim (fun t => 1 + exp (- t * IZR y)) s (0 + exp z * - IZR y)).
    { apply (derivable_pt_lim_plus (fun _ => 1)); [apply derivable_pt_lim_const|].
      apply (derivable_pt_lim_comp (fun t => - t * IZR y) exp); [exact D1|]. apply derivable_pt_lim_exp. }
    replace (- IZR y / (1 + exp (- z))) with (/ (1 + exp z) * (0 + exp z * - IZR y)).
    + apply (derivable_pt_lim_comp (fun t => 1 + exp (- t * IZR y)) ln); [exact D2|].
      apply derivable_pt_lim_ln. cbv beta. fold z. pose proof (exp_pos z). lra.
    + rewrite exp_Ropp. pose proof (exp_pos z). field. split; lra.
  - intros Hz. destruct (Rlt_dec 100 z); [reflexivity|lra].
  - intros Hz. destruct (Rlt_dec 100 z); [lra|]. destruct (Rlt_dec z (- (100))); [reflexivity|lra].
Qed.
Lemma square_gradient h y s ps pl g0 g m r : gradient Rnum LSquare h y (s :: ps) pl (g0 :: g) m = Some r ->
  l_loss r = (s - IZR y) * (s - IZR y) / 2 /\ l_grad r = (s - IZR y) :: g.
Proof.
  intros H. cbn [gradient rd nth_error bind wr] in H. inv H. cbn [l_loss l_grad]. cbn [n_mul n_sub n_int n_lit Rnum].
  split; [|reflexivity]. unfold R_of_dec. change (powerRZ 10 (-1)) with (/ (10 * 1)). lra.
Qed.

Ltac deep H := repeat match type of H with
  | bind ?m _ = Some _ => let E := fresh "Q" in destruct m eqn:E; cbn [bind] in H; [|discriminate H]
  | (if ?b then _ else _) = Some _ => let E := fresh "C" in destruct b eqn:E
  | (let '(_, _) := ?x in _) = Some _ => destruct x
  | Some _ = Some _ => injection H as <-
  end.
(** loss() and gradient() report the same loss, for every arithmetic. *)
Lemma loss_agrees (T : Type) (N : num T) k label ps pl g m r : k <> LUniHinge ->
  gradient N k None label ps pl g m = Some r ->
  loss_value N k label ps pl m = Some (l_loss r).
Proof.
  intros Hk H. destruct k; try congruence; cbn [gradient loss_value] in *; cbv zeta in *.
  - deep H. reflexivity.
  - deep H; reflexivity.
  - deep H; reflexivity.
  - cbn [bind] in H. destruct (rd ps 0); [|discriminate]. cbn [bind] in *. deep H. reflexivity.
  - destruct (rival N label ps pl); [|discriminate]. cbn [bind] in *.
    destruct (rdz ps label); [|discriminate]. cbn [bind] in *.
    destruct (rdz ps z); [|discriminate]. cbn [bind] in *. deep H; reflexivity.
  - destruct (rd ps 0); [|discriminate]. cbn [bind] in *. deep H; reflexivity.
  - destruct (rival N label ps pl); [|discriminate]. cbn [bind] in *.
    destruct (rdz ps z); [|discriminate]. cbn [bind] in *.
    destruct (rdz ps label); [|discriminate]. cbn [bind] in *. unfold logistic_of.
    destruct (n_lt N (n_int N 100) _); [deep H; reflexivity|].
    destruct (n_lt N _ (n_opp N (n_int N 100))); deep H; reflexivity.
  - destruct (rdz ps label); [|discriminate]. cbn [bind] in *. destruct (false_stats N t ps).
    unfold logistic_of.
    destruct (n_lt N (n_int N 100) _); [deep H; reflexivity|].
    destruct (n_lt N _ (n_opp N (n_int N 100))); deep H; reflexivity.
  - destruct (rd ps 0); [|discriminate]. cbn [bind] in *. deep H; reflexivity.
Qed.

(** ** Pre-processing *)
Lemma fold_left_lsum (f : R -> R) (l : list (Z * R)) : forall a,
  fold_left (fun a '(_, v) => a + f v) l a = a + lsum (map f (map snd l)).
Proof.
  induction l as [|(i, v) l IH]; intros a; cbn [fold_left map]; [unfold lsum; cbn; lra|].
  rewrite IH. unfold lsum. cbn [fold_right snd]. lra.
Qed.
Lemma map_snd_combine {A B} (a : list A) (b : list B) : length a = length b -> map snd (combine a b) = b.
Proof. revert b. induction a; intros [|y b] H; cbn in *; try discriminate; auto. f_equal. auto. Qed.
Lemma lsum_scale f c l : (forall v, f (v / c) = f v / f c) -> lsum (map f (map (fun v => v / c) l)) = lsum (map f l) / f c.
Proof.
  intros Hf. unfold lsum. induction l as [|v l IH]; cbn; [unfold Rdiv; lra|]. rewrite IH, Hf. unfold Rdiv. lra.
Qed.
Lemma lsum_nonneg l : (forall v, In v l -> 0 <= v) -> 0 <= lsum l.
Proof.
  unfold lsum. induction l; intros H; cbn; [lra|].
  assert (0 <= a) by (apply H; now left). assert (0 <= fold_right Rplus 0 l) by (apply IHl; intros; apply H; now right). lra.
Qed.
Lemma lsum_pos l : (forall v, In v l -> 0 <= v) -> (exists v, In v l /\ 0 < v) -> 0 < lsum l.
Proof.
  intros Hn (v & Hv & Hp). apply in_split in Hv as (a & b & ->). rewrite lsum_app.
  assert (0 <= lsum a) by (apply lsum_nonneg; intros; apply Hn; apply in_or_app; now left).
  assert (0 <= lsum b) by (apply lsum_nonneg; intros; apply Hn; apply in_or_app; right; now right).
  change (lsum (v :: b)) with (v + lsum b). lra.
Qed.
Lemma filter_idx (T : Type) (N : num T) fl (p : point T) : p_idx (filter_features N fl p) = p_idx p.
Proof. destruct fl; reflexivity. Qed.
Lemma filter_len (T : Type) (N : num T) fl (p : point T) : length (p_idx p) = length (p_val p) ->
  length (p_val (filter_features N fl p)) = length (p_val p).
Proof.
  intros H. destruct fl; [|reflexivity]. cbn. rewrite map_length. unfold feats. rewrite combine_length. lia.
Qed.
Lemma preprocess_shape (T : Type) (N : num T) n fl k p q lo : wf_point lo p ->
  preprocess N n fl k p = Some q ->
  p_label q = calibrate n (p_label p) /\ p_idx q = p_idx p /\ wf_point lo q.
Proof.
  intros (Hl & Hs & Hr) H. unfold preprocess in H.
  set (p1 := mkpt (calibrate n (p_label p)) (p_idx p) (p_val p)) in *.
  assert (L : length (p_val (filter_features N fl p1)) = length (p_val p)) by (rewrite filter_len; [reflexivity|exact Hl]).
  assert (I : p_idx (filter_features N fl p1) = p_idx p) by (rewrite filter_idx; reflexivity).
  assert (La : p_label (filter_features N fl p1) = calibrate n (p_label p)) by (destruct fl; reflexivity).
  destruct k; [|dob H Q1|dob H Q1]; inv H; cbn [p_label p_idx p_val]; unfold wf_point, calc_sparse_value; cbn [p_idx p_val];
    rewrite ?map_length; split; auto; split; auto; rewrite I; repeat split; auto; congruence.
Qed.
Lemma preprocess_ok lo n fl k (p : point R) : (0 <= lo)%Z -> wf_point lo p ->
  exists q, preprocess Rnum n fl k p = Some q /\
  let sel := p_val (filter_features Rnum fl p) in
  let l1 := lsum (map Rabs sel) in let l2 := lsum (map (fun v => v * v) sel) in
  p_val q = match k with NoNorm => sel | NormL1 => map (fun v => v / l1) sel
                       | NormL2 => map (fun v => v / sqrt l2) sel end.
Proof.
  intros Hlo (Hl & Hs & Hr). unfold preprocess.
  set (p1 := mkpt (calibrate n (p_label p)) (p_idx p) (p_val p)).
  assert (Hv : p_val (filter_features Rnum fl p1) = p_val (filter_features Rnum fl p)) by (destruct fl; reflexivity).
  assert (Hw : wf_point lo (filter_features Rnum fl p1)).
  { assert (I : p_idx (filter_features Rnum fl p1) = p_idx p) by (rewrite filter_idx; reflexivity).
    unfold wf_point. rewrite I. split; [rewrite filter_len; auto|]. auto. }
  assert (Hsort : sorted_ix (feats (filter_features Rnum fl p1))) by (eapply feats_sorted; eauto).
  assert (Hlen : length (p_idx (filter_features Rnum fl p1)) = length (p_val (filter_features Rnum fl p1))) by apply Hw.
  destruct k; cbn zeta.
  - eexists. split; [reflexivity|]. exact Hv.
  - rewrite (norm1_sparse Rnum 0) by auto. cbn [bind]. eexists. split; [reflexivity|]. cbn [p_val].
    unfold calc_sparse_value. rewrite Hv. apply map_ext_in. intros v _. cbn [n_div Rnum]. f_equal.
    rewrite (fold_left_ext _ (fun a '(_, v) => a + Rabs v)).
    + rewrite fold_left_lsum. unfold feats. rewrite map_snd_combine, Hv by auto. unfold zero. cbn. lra.
    + intros a (i, u). cbn [n_add Rnum]. now rewrite op_abs_real.
  - rewrite (norm2_sparse Rnum 0) by auto. cbn [bind]. eexists. split; [reflexivity|]. cbn [p_val].
    unfold calc_sparse_value. rewrite Hv. apply map_ext_in. intros v _. cbn [n_div Rnum n_sqrt]. do 2 f_equal.
    cbn [n_add n_mul Rnum].
    rewrite (fold_left_lsum (fun v => v * v)). unfold feats. rewrite map_snd_combine, Hv by auto. unfold zero. cbn. lra.
Qed.
Lemma normalised_l1 sel : (exists v, In v sel /\ v <> 0) ->
  lsum (map Rabs (map (fun v => v / lsum (map Rabs sel)) sel)) = 1.
Proof.
  intros (v & Hv & Hn).
  assert (Hp : 0 < lsum (map Rabs sel)).
  { apply lsum_pos; [intros u Hu; apply in_map_iff in Hu as (u' & <- & _); apply Rabs_pos|].
    exists (Rabs v). split; [now apply in_map|]. now apply Rabs_pos_lt. }
  rewrite lsum_scale.
  - rewrite (Rabs_pos_eq (lsum _)) by lra. apply Rinv_r. lra.
  - intros u. unfold Rdiv. rewrite Rabs_mult. f_equal. rewrite Rabs_inv. reflexivity.
Qed.
Lemma normalised_l2 sel : (exists v, In v sel /\ v <> 0) ->
  lsum (map (fun v => v * v) (map (fun v => v / sqrt (lsum (map (fun v => v * v) sel))) sel)) = 1.
Proof.
  intros (v & Hv & Hn). set (s := lsum (map (fun v => v * v) sel)).
  assert (Hp : 0 < s).
  { apply lsum_pos; [intros u Hu; apply in_map_iff in Hu as (u' & <- & _); nra|].
    exists (v * v). split; [now apply (in_map (fun v => v * v))|]. nra. }
  assert (Hq : 0 < sqrt s) by now apply sqrt_lt_R0.
  rewrite (lsum_scale (fun v => v * v)).
  - fold s. rewrite sqrt_sqrt by lra. apply Rinv_r. lra.
  - intros u. field. lra.
Qed.
Lemma filter_values (T : Type) (N : num T) fl (p : point T) j i v :
  length (p_idx p) = length (p_val p) -> nth_error (p_idx p) j = Some i -> nth_error (p_val p) j = Some v ->
  nth_error (p_val (filter_features N (Some fl) p)) j
  = Some (if (i <? Z.of_nat (length fl))%Z && nth (Z.to_nat i) fl false then v else zero N).
Proof.
  intros Hl Hi Hv. cbn [filter_features p_val]. unfold feats. rewrite nth_error_map.
  assert (E : nth_error (combine (p_idx p) (p_val p)) j = Some (i, v)).
  { clear -Hi Hv. revert j Hi Hv. generalize (p_idx p) (p_val p). induction l; intros [|y l0] [|j] Hi Hv; cbn in *; try discriminate.
    - congruence.
    - auto. }
  rewrite E. cbn [option_map filter_value]. f_equal.
  replace (Z.of_nat (length fl) - 1 <? i)%Z with (negb (i <? Z.of_nat (length fl))%Z) by lia.
  destruct (i <? _)%Z, (nth (Z.to_nat i) fl false); reflexivity.
Qed.
