(** Numbers stay numbers: normalising an example, and testing. *)
From Coq Require Import Reals Lra.
From Verif Require Import M_Base M_Num M_Expr M_Loss M_Online M_Olm M_OlmSel M_Heap M_Algs S_Expr S_Online S_Session
  S_Nan P_DataPoint P_Expr P_Online P_Predict P_Step P_Safe P_Session P_Session2 P_Inv P_Real P_Nan P_Nan2 P_Nan3 P_Nan4 P_Nan5 P_Nan6.
Local Open Scope R_scope.

Lemma sparse_sum (f : xreal -> xreal) (h : R -> R) x : (forall y, f (Some y) = Some (h y)) -> (forall y, 0 <= h y) -> (forall y, y <> 0 -> 0 < h y) -> xfin x ->
  forall v r, reduce_sparse Xnum (map (fun q => (fst q, Some (f (snd q)))) x) (Some v) = Some r ->
  exists y, r = Some y /\ v <= y /\ (Exists (fun q => nz (snd q)) x -> v < y) /\
    y = v + fold_right (fun q s => match snd q with Some u => h u | None => 0 end + s) 0 x.
Proof.
  intros H1 H2 H3. induction x as [|(i, u) x IH]; intros Hx v r E; cbn [map reduce_sparse] in E.
  - injection E as <-. exists v. split; [reflexivity|]. split; [lra|]. split; [intros H; inversion H|cbn; lra].
  - inversion Hx; subst. cbn [snd fst] in *. destruct H4 as (z & ->). rewrite H1 in E. cbn [bind] in E.
    change (reduce_sparse Xnum (map (fun q => (fst q, Some (f (snd q)))) x) (Some (v + h z)) = Some r) in E.
    destruct (IH H5 _ _ E) as (y & -> & B1 & B2 & B3). pose proof (H2 z). exists y. split; [reflexivity|]. split; [lra|]. split.
    + intros He. inversion He; subst; [|specialize (B2 H4); lra]. destruct H4 as (z' & Ez & Hz). cbn in Ez. injection Ez as <-. specialize (H3 z Hz). lra.
    + cbn [fold_right snd]. lra.
Qed.
Lemma reduce_un (f : xreal -> xreal) x r : reduce_plus Xnum (EUn f (ESparse x)) = Some r ->
  reduce_sparse Xnum (map (fun q => (fst q, Some (f (snd q)))) x) (Some 0) = Some r.
Proof.
  intros E. unfold reduce_plus in E. dob E Q1. cbn in Q1. injection Q1 as <-. dob E Q2.
  assert (El : l = map (fun q => (fst q, Some (f (snd q)))) x).
  { cbn [sparse_items bind] in Q2. apply some_inj in Q2. rewrite <- Q2, map_map. apply map_ext. now intros (i, v). }
  now rewrite El in E.
Qed.
Lemma norm1_value x r : xfin x -> norm1 Xnum (ESparse x) = Some r -> exists y, r = Some y /\ (Exists (fun q => nz (snd q)) x -> 0 < y).
Proof.
  intros Hx E. apply reduce_un in E. destruct (sparse_sum (op_abs Xnum) Rabs x) with (5 := E) as (y & -> & _ & B & _); auto.
  - intros y. unfold op_abs. cbn. destruct (Rlt_dec 0 y); [f_equal; rewrite Rabs_right; lra|]. f_equal. rewrite Rabs_left1; lra.
  - apply Rabs_pos.
  - intros y. apply Rabs_pos_lt.
  - exists y. auto.
Qed.
Lemma norm2_value x r : xfin x -> norm2 Xnum (ESparse x) = Some r -> exists y, r = Some y /\ (Exists (fun q => nz (snd q)) x -> 0 < y) /\ y = sq_sum (map snd x).
Proof.
  intros Hx E. apply reduce_un in E. destruct (sparse_sum (op_square Xnum) (fun y => y * y) x) with (5 := E) as (y & -> & _ & B & C); auto.
  - intros y. nra.
  - intros y Hy. assert (0 < y * y); [|lra]. destruct (Rdichotomy _ _ Hy); nra.
  - exists y. split; [reflexivity|]. split; [exact B|]. rewrite C. clear. unfold sq_sum. induction x as [|(i, u) x IH]; cbn; [lra|]. cbn in IH. lra.
Qed.
Lemma filter_value_fin fl q : fin (snd q) -> fin (filter_value Xnum fl q).
Proof. destruct q as (i, v). intros H. unfold filter_value. destruct (_ || _)%bool; [apply fin_zero|exact H]. Qed.
Lemma filter_ok flags p : wf_point 0 p -> fin_point p -> fin_point (filter_features Xnum flags p) /\ length (p_idx (filter_features Xnum flags p)) = length (p_val (filter_features Xnum flags p)) /\
  (selected_nonzero flags p -> nonzero (filter_features Xnum flags p)).
Proof.
  intros (Hl & _ & Hi) Hf. destruct flags as [fl|]; cbn [filter_features].
  - unfold fin_point. cbn [p_val p_idx]. split; [|split].
    + rewrite Forall_map. eapply Forall_impl; [|apply (feats_vals fin p Hf)]. intros q. apply filter_value_fin.
    + rewrite map_length. unfold feats. rewrite combine_length. lia.
    + intros (i & x & Hin & Hx & Hfl). exists x. split; [|exact Hx]. cbn [p_val]. apply in_map_iff. exists (i, Some x). split; [|exact Hin].
      unfold filter_value. assert (Hi0 : (0 <= i)%Z). { rewrite Forall_forall in Hi. apply in_combine_l in Hin. apply Hi in Hin. lia. }
      pose proof (nth_error_Some fl (Z.to_nat i)) as Hlen. rewrite Hfl in Hlen. assert (Z.to_nat i < length fl)%nat by (apply Hlen; discriminate).
      rewrite (nth_error_nth _ _ _ Hfl). destruct (Z.ltb_spec (Z.of_nat (length fl) - 1) i); [lia|]. reflexivity.
  - split; [exact Hf|]. split; [exact Hl|]. intros (i & x & Hin & Hx & _). exists x. split; [|exact Hx]. eapply in_combine_r; eauto.
Qed.
Lemma scaled_fin s vs : s <> 0 -> Forall fin vs -> Forall fin (calc_sparse_value (n_div Xnum) vs (Some s)).
Proof. intros Hs H. unfold calc_sparse_value. rewrite Forall_map. eapply Forall_impl; [|exact H]. intros v Hv. apply fin_div; [exact Hv|]. now exists s. Qed.
Lemma scaled_nonzero s vs x : s <> 0 -> In (Some x) vs -> x <> 0 -> exists y, In (Some y) (calc_sparse_value (n_div Xnum) vs (Some s)) /\ y <> 0.
Proof.
  intros Hs Hin Hx. exists (x / s). split.
  - apply in_map_iff. exists (Some x). split; [|exact Hin]. cbn. destruct (Req_EM_T s 0); [easy|reflexivity].
  - unfold Rdiv. apply Rmult_integral_contrapositive. split; [exact Hx|]. now apply Rinv_neq_0_compat.
Qed.
Lemma scaled_sum s vs : s <> 0 -> Forall fin vs -> sq_sum (calc_sparse_value (n_div Xnum) vs (Some s)) = sq_sum vs / (s * s).
Proof.
  intros Hs H. unfold sq_sum. induction H as [|v vs Hv H IH]; cbn [calc_sparse_value map fold_right]; [field; exact Hs|].
  unfold calc_sparse_value in IH. rewrite IH. destruct Hv as (x & ->). cbn. destruct (Req_EM_T s 0); [easy|]. field. exact Hs.
Qed.
Lemma preprocess_fin n flags k p q : wf_point 0 p -> fin_point p -> k = NoNorm \/ selected_nonzero flags p ->
  preprocess Xnum n flags k p = Some q -> fin_point q /\ (selected_nonzero flags p -> nonzero q) /\ (k = NormL2 -> sq_sum (p_val q) = 1).
Proof.
  intros Hw Hf Hk E. unfold preprocess in E. cbv zeta in E. set (p1 := mkpt (calibrate n (p_label p)) (p_idx p) (p_val p)) in *.
  destruct (filter_ok flags p1 Hw Hf) as (F1 & F2 & F3). set (p2 := filter_features Xnum flags p1) in *.
  assert (F3' : selected_nonzero flags p -> nonzero p2) by exact F3. clear F3.
  destruct k.
  - injection E as <-. split; [exact F1|]. split; [exact F3'|discriminate].
  - destruct Hk as [Hk|Hk]; [discriminate|]. specialize (F3' Hk). dob E Q1. apply some_inj in E. rewrite <- E. unfold fin_point. cbn [p_val].
    destruct (norm1_value _ _ (feats_vals fin p2 F1) Q1) as (y & -> & Hy). specialize (Hy (feats_nz p2 F2 F3')). assert (Hy0 : y <> 0) by lra.
    split; [now apply scaled_fin|]. split; [|discriminate]. intros _. destruct F3' as (x & Hin & Hx). exact (scaled_nonzero y _ x Hy0 Hin Hx).
  - destruct Hk as [Hk|Hk]; [discriminate|]. specialize (F3' Hk). dob E Q1. apply some_inj in E. rewrite <- E. unfold fin_point. cbn [p_val].
    destruct (norm2_value _ _ (feats_vals fin p2 F1) Q1) as (y & -> & Hy & Ey). specialize (Hy (feats_nz p2 F2 F3')).
    assert (Es : n_sqrt Xnum (Some y) = Some (sqrt y)) by (cbn; destruct (Rlt_dec y 0); [lra|reflexivity]). rewrite Es.
    pose proof (sqrt_lt_R0 _ Hy) as Hs. assert (Hs0 : sqrt y <> 0) by lra.
    split; [now apply scaled_fin|]. split; [intros _; destruct F3' as (x & Hin & Hx); exact (scaled_nonzero _ _ x Hs0 Hin Hx)|]. intros _.
    rewrite scaled_sum by assumption. rewrite sqrt_sqrt by lra. rewrite feats_snd in Ey by exact F2. rewrite <- Ey. field. lra.
Qed.

Lemma test_fin k loss pre data c e rows errs c' e' : params_ok k loss -> numeric k c e ->
  Forall (fun p => forall x, pre p = Some x -> fin_point x) data ->
  test Xnum (alg_of Xnum k) pre data c e = Some (rows, errs, c', e') -> Forall (fun row => Forall fin (snd row)) rows /\ Forall fins (c_ws c').
Proof.
  intros HP (A & B & C) HD E. unfold test in E. dob E Q1. destruct p as (c1, e1). dob E Q2. injection E as <- <- <- <-.
  assert (Hc : Forall fins (c_ws c1)).
  { destruct (c_updated c); [|injection Q1 as <- <-; apply A]. destruct (end_ok k loss _ _ _ _ HP A C (lower_iter _ _ B) Q1) as ((D & _) & _). apply D. }
  split; [|exact Hc]. clear Q1. revert l Q2. induction HD as [|p data Hp HD IH]; intros l Q2; cbn [mapM] in Q2; [injection Q2 as <-; constructor|].
  dob Q2 Q3. dob Q2 Q4. injection Q2 as <-. constructor; [|now apply IH]. unfold test_point in Q3. dob Q3 Q5. dob Q3 Q6. destruct p2 as (lab, ps). injection Q3 as <-. cbn [snd].
  eapply predict_fin; [exact Hc| |exact Q6]. now apply Hp.
Qed.
