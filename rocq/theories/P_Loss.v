(** Proofs about the losses in exact arithmetic. *)
From Coq Require Import Reals Lra.
From Verif Require Import M_Base M_Num M_Expr M_Loss M_Online S_Expr S_Real S_Online S_Loss P_DataPoint
  P_Expr P_Real P_Online P_Predict P_Step P_Safe.
Local Open Scope R_scope.

(** ** Soft thresholding *)
Lemma op_trunc_real w t : op_trunc Rnum w t = soft w t.
Proof.
  unfold op_trunc, soft, zero. cbn [Rnum n_le n_lt n_int n_sub n_opp n_add].
  destruct (Rle_dec 0 w); destruct (Rlt_dec _ _);
    first [rewrite Rmax_right by lra | rewrite Rmax_left by lra]; lra.
Qed.
Lemma soft_compose w a b : 0 <= a -> 0 <= b -> soft (soft w a) b = soft w (a + b).
Proof.
  intros Ha Hb. unfold soft. destruct (Rle_dec 0 w).
  - destruct (Rle_dec 0 (Rmax 0 (w - a))) as [|Hn]; [|exfalso; apply Hn; apply Rmax_l].
    unfold Rmax; repeat destruct (Rle_dec _ _); lra.
  - unfold Rmax; repeat destruct (Rle_dec _ _); lra.
Qed.
Lemma soft_abs w t : 0 <= t -> Rabs (soft w t) = Rabs w - Rmin (Rabs w) t.
Proof.
  intros Ht. unfold soft, Rmax, Rmin, Rabs. destruct (Rle_dec 0 w); repeat destruct (Rle_dec _ _);
    repeat destruct (Rcase_abs _); lra.
Qed.
Lemma soft_sign w t : 0 <= t -> 0 <= w * soft w t.
Proof.
  intros Ht. unfold soft, Rmax. destruct (Rle_dec 0 w); destruct (Rle_dec _ _); try nra.
Qed.
Lemma soft_zero w : soft w 0 = w.
Proof. unfold soft, Rmax. destruct (Rle_dec 0 w); destruct (Rle_dec _ _); lra. Qed.

(** ** Sums of lists *)
Lemma lsum_app a b : lsum (a ++ b) = lsum a + lsum b.
Proof. unfold lsum. induction a; cbn; [lra|]. rewrite IHa. lra. Qed.
Lemma lsum_rsum l : lsum l = rsum (length l) (dv l).
Proof.
  induction l as [|a l IH] using rev_ind; [reflexivity|]. rewrite lsum_app, app_length, Nat.add_1_r. cbn [rsum].
  rewrite (rsum_ext (length l) _ (dv l)).
  - rewrite <- IH. unfold dv. rewrite app_nth2, Nat.sub_diag by lia. cbn. lra.
  - intros i Hi. unfold dv. now rewrite app_nth1.
Qed.
Lemma opposes_balanced n l m a g : (l < n)%nat -> (m < n)%nat -> l <> m -> opposes n l m a g -> lsum g = 0.
Proof.
  intros Hl Hm Hne (Hg & H). rewrite lsum_rsum, Hg.
  assert (E : forall i, (i < n)%nat -> dv g i = if Nat.eqb i m then a else if Nat.eqb i l then - a else 0).
  { intros i Hi. unfold dv. apply nth_error_nth. now apply H. }
  rewrite (rsum_ext _ _ _ E).
  rewrite (rsum_at n m _ (fun i => if Nat.eqb i l then - a else 0) Hm).
  2:{ intros i Hi Hn. now replace (Nat.eqb i m) with false by lia. }
  rewrite (rsum_at n l (fun i => if Nat.eqb i l then - a else 0) (fun _ => 0) Hl).
  2:{ intros i Hi Hn. now replace (Nat.eqb i l) with false by lia. }
  rewrite rsum_zero, Nat.eqb_refl, Nat.eqb_refl. replace (Nat.eqb m l) with false by lia. lra.
Qed.

(** ** The rival *)
Lemma nth_error_upd {A} i (v : A) l j : (i < length l)%nat ->
  nth_error (upd i v l) j = if Nat.eqb j i then Some v else nth_error l j.
Proof.
  revert i j. induction l as [|x l IH]; intros i j Hi; cbn in Hi; [lia|]. destruct i as [|i], j as [|j]; cbn; auto.
  rewrite IH by lia. reflexivity.
Qed.
Lemma first_max_best ps m : first_max Rnum ps m -> exists b, nth_error ps m = Some b /\
  (forall j v, nth_error ps j = Some v -> v <= b) /\
  (forall j v, (j < m)%nat -> nth_error ps j = Some v -> v < b).
Proof.
  intros (b & Hb & H1 & H2). exists b. split; [exact Hb|]. split.
  - intros j v Hj. apply (Rlt_b_false b v). eauto.
  - intros j v Hj Hv. apply (Rlt_b v b). eauto.
Qed.
Lemma R_first_max l : l <> [] -> first_max Rnum l (max_element Rnum l).
Proof.
  intros Hl. apply (max_element_spec Rnum (fun _ => True)); auto.
  - intros. apply R_irr.
  - intros. eapply R_tr; eassumption.
  - intros. eapply R_tot; eassumption.
  - apply Forall_forall. auto.
Qed.
Definition fmax : R := n_fmax Rnum.
Lemma rival_best ps label plabel : (2 <= length ps)%nat -> (0 <= label < Z.of_nat (length ps))%Z ->
  Forall (fun v => - fmax < v) ps -> label_of Rnum ps = Some plabel ->
  exists m, rival Rnum label ps plabel = Some (Z.of_nat m) /\ (m < length ps)%nat /\
    best_other ps (Z.to_nat label) m.
Proof.
  intros Hn Hl Hps Hlab. destruct ps as [|a [|b ps0]]; cbn in Hn; try lia. set (ps := a :: b :: ps0) in *.
  assert (Hlab' : plabel = Z.of_nat (max_element Rnum ps)) by (cbn in Hlab; inv Hlab; reflexivity).
  unfold rival. destruct (Z.eqb_spec plabel label) as [E|Hne].
  - destruct (wrz_some ps label (n_opp Rnum (n_fmax Rnum))) as (p' & Q1 & L1 & U1); [exact Hl|].
    rewrite Q1. cbn [bind]. exists (max_element Rnum p'). split; [reflexivity|].
    assert (Hne' : p' <> []) by (intros ->; cbn in L1; lia).
    destruct (first_max_best p' _ (R_first_max p' Hne')) as (m & Hm & H1 & H2).
    assert (Hlt : (max_element Rnum p' < length ps)%nat).
    { rewrite <- L1. apply nth_error_Some. congruence. }
    assert (Hnth : forall j, nth_error p' j = if Nat.eqb j (Z.to_nat label) then Some (- fmax) else nth_error ps j).
    { intros j. rewrite U1. apply nth_error_upd. lia. }
    split; [exact Hlt|].
    assert (Hml : max_element Rnum p' <> Z.to_nat label).
    { intros Heq. rewrite Heq, Hnth, Nat.eqb_refl in Hm. injection Hm as <-.
      set (j := if Nat.eqb (Z.to_nat label) 0 then 1%nat else 0%nat).
      assert (Hj : exists v, nth_error ps j = Some v /\ j <> Z.to_nat label).
      { unfold j. destruct (Nat.eqb_spec (Z.to_nat label) 0); cbn; eexists; (split; [reflexivity|lia]). }
      destruct Hj as (v & Hj & Hjl). specialize (H1 j v). rewrite Hnth in H1.
      replace (Nat.eqb j (Z.to_nat label)) with false in H1 by lia. specialize (H1 Hj).
      rewrite Forall_forall in Hps. specialize (Hps v (nth_error_In _ _ Hj)). lra. }
    split; [exact Hml|]. exists m. rewrite Hnth in Hm.
    replace (Nat.eqb (max_element Rnum p') (Z.to_nat label)) with false in Hm by lia.
    split; [exact Hm|]. split.
    + intros j v Hj Hv. apply (H1 j v). rewrite Hnth. now replace (Nat.eqb j (Z.to_nat label)) with false by lia.
    + intros j v Hj Hlt' Hv. apply (H2 j v Hlt'). rewrite Hnth.
      now replace (Nat.eqb j (Z.to_nat label)) with false by lia.
  - rewrite Hlab'. exists (max_element Rnum ps). split; [reflexivity|].
    destruct (first_max_best ps _ (R_first_max ps ltac:(discriminate))) as (m & Hm & H1 & H2).
    split; [apply nth_error_Some; congruence|]. split; [lia|]. exists m. split; [exact Hm|]. split; eauto.
Qed.

(** ** Gradients of the max-score losses *)
Lemma two_grad_opposes (g : list R) m l a g' : (m < length g)%nat -> (0 <= l < Z.of_nat (length g))%Z ->
  m <> Z.to_nat l -> two_grad Rnum g (Z.of_nat m) l a (- a) = Some g' ->
  opposes (length g) (Z.to_nat l) m a g'.
Proof.
  intros Hm Hl Hne H. destruct (two_grad_some Rnum g (Z.of_nat m) l a (- a)) as (g2 & E & L & U); [lia|lia|].
  rewrite E in H. injection H as <-. split; [exact L|]. intros i Hi. rewrite U.
  rewrite Nat2Z.id. rewrite nth_error_upd by (rewrite upd_length; unfold zeros; rewrite map_length; lia).
  rewrite nth_error_upd by (unfold zeros; rewrite map_length; lia).
  destruct (Nat.eqb_spec i (Z.to_nat l)).
  - subst i. now replace (Nat.eqb (Z.to_nat l) m) with false by lia.
  - destruct (Nat.eqb i m); [reflexivity|]. unfold zeros.
    destruct (nth_error g i) eqn:Eg; [|apply nth_error_None in Eg; lia].
    erewrite map_nth_error by exact Eg. reflexivity.
Qed.
Lemma rdz_nth {A} (l : list A) i v : (0 <= i)%Z -> rdz l i = Some v -> nth_error l (Z.to_nat i) = Some v.
Proof. unfold rdz, rd. intros Hi. replace (i <? 0)%Z with false by lia. auto. Qed.
Lemma Rlt0 x : n_lt Rnum (zero Rnum) x = true <-> 0 < x.
Proof. apply Rlt_b. Qed.

Lemma max_hinge_gradient h label ps plabel g margin r :
  length g = length ps -> (2 <= length ps)%nat -> (0 <= label < Z.of_nat (length ps))%Z ->
  Forall (fun v => - fmax < v) ps -> label_of Rnum ps = Some plabel ->
  gradient Rnum LMaxHinge h label ps plabel g margin = Some r ->
  exists m own riv, best_other ps (Z.to_nat label) m /\ nth_error ps (Z.to_nat label) = Some own /\
    nth_error ps m = Some riv /\ l_loss r = Rmax 0 (l_margin r - own + riv) /\
    (m < length ps)%nat /\
    (0 < l_loss r -> opposes (length ps) (Z.to_nat label) m 1 (l_grad r)).
Proof.
  intros Hg Hn Hl Hps Hlab H. destruct (rival_best ps label plabel Hn Hl Hps Hlab) as (m & Er & Hm & Hb).
  cbn [gradient] in H. rewrite Er in H. cbn [bind] in H. dob H Q1. dob H E2.
  apply rdz_nth in Q1; [|lia]. apply rdz_nth in E2; [|lia]. rewrite Nat2Z.id in E2.
  exists m, r0, r1. split; [exact Hb|]. split; [exact Q1|]. split; [exact E2|].
  assert (Hml : m <> Z.to_nat label) by apply Hb.
  destruct h as [f|].
  - dob H E3. dob H E4. destruct p as (mm, v). 
    unfold hinge_of in H. rewrite std_max_real in H.
    assert (Hop : opposes (length g) (Z.to_nat label) m 1 l).
    { eapply two_grad_opposes; [lia|lia|exact Hml|exact E3]. }
    cbn [n_add n_sub Rnum] in H. unfold zero in H at 1 2. cbn [n_int Rnum] in H.
    match type of H with (if ?b then _ else _) = _ => destruct b eqn:Eb end.
    + dob H E5. dob H E6. inv H. cbn [l_loss l_margin l_grad]. split; [reflexivity|]. split; [exact Hm|].
      intros Hpos. exfalso. apply Rle_b in Eb. unfold zero in Eb. cbn in Eb. lra.
    + inv H. cbn [l_loss l_margin l_grad]. split; [reflexivity|]. split; [exact Hm|]. intros _. now rewrite <- Hg.
  - unfold hinge_of in H. rewrite std_max_real in H.
    match type of H with (if ?b then _ else _) = _ => destruct b eqn:Eb end.
    + dob H E3. inv H. cbn [l_loss l_margin l_grad]. split; [reflexivity|]. split; [exact Hm|]. intros _.
      rewrite <- Hg. eapply two_grad_opposes; [lia|lia|exact Hml|exact E3].
    + inv H. cbn [l_loss l_margin l_grad]. split; [reflexivity|]. split; [exact Hm|]. intros Hpos.
      apply Rlt_b_false in Eb. unfold zero in *. cbn in *. lra.
Qed.
Lemma max_bool_gradient h label ps plabel g margin r :
  length g = length ps -> (2 <= length ps)%nat -> (0 <= label < Z.of_nat (length ps))%Z ->
  label_of Rnum ps = Some plabel ->
  gradient Rnum LMaxBool h label ps plabel g margin = Some r ->
  (l_loss r = 0 /\ plabel = label) \/
  (l_loss r = 1 /\ plabel <> label /\ exists m, best_other ps (Z.to_nat label) m /\ plabel = Z.of_nat m /\
    (m < length ps)%nat /\ opposes (length ps) (Z.to_nat label) m 1 (l_grad r)).
Proof.
  intros Hg Hn Hl Hlab H. cbn [gradient] in H. destruct (Z.eqb_spec plabel label) as [E|Hne].
  - left. cbv zeta in H. match type of H with (if ?b then _ else _) = _ => destruct b eqn:Eb end.
    { exfalso. apply Rlt_b in Eb. unfold zero in Eb. cbn in Eb. lra. }
    inv H. auto.
  - right. cbv zeta in H. match type of H with (if ?b then _ else _) = _ => destruct b eqn:Eb end.
    2:{ exfalso. apply Rlt_b_false in Eb. unfold zero, one in Eb. cbn in Eb. lra. }
    dob H Q1. inv H. cbn [l_loss l_grad]. split; [reflexivity|]. split; [exact Hne|].
    destruct ps as [|a [|b ps0]]; cbn in Hn; try lia. set (ps := a :: b :: ps0) in *.
    assert (Hlab' : plabel = Z.of_nat (max_element Rnum ps)) by (cbn in Hlab; inv Hlab; reflexivity).
    destruct (first_max_best ps _ (R_first_max ps ltac:(discriminate))) as (v & Hv & H1 & H2).
    exists (max_element Rnum ps). assert (Hml : max_element Rnum ps <> Z.to_nat label) by lia.
    assert (Hlt : (max_element Rnum ps < length ps)%nat) by (apply nth_error_Some; congruence).
    split; [split; [exact Hml|exists v; split; [exact Hv|split; eauto]]|]. split; [exact Hlab'|]. split; [exact Hlt|].
    rewrite Hlab' in Q1. rewrite <- Hg. eapply two_grad_opposes; [lia|lia|exact Hml|exact Q1].
Qed.
Lemma max_logistic_gradient h label ps plabel g margin r :
  length g = length ps -> (2 <= length ps)%nat -> (0 <= label < Z.of_nat (length ps))%Z ->
  Forall (fun v => - fmax < v) ps -> label_of Rnum ps = Some plabel ->
  gradient Rnum LMaxLogistic h label ps plabel g margin = Some r ->
  exists m a own riv, best_other ps (Z.to_nat label) m /\ (m < length ps)%nat /\ 0 <= a <= 1 /\
    nth_error ps (Z.to_nat label) = Some own /\ nth_error ps m = Some riv /\
    l_loss r = logistic_of Rnum (riv - own) /\
    opposes (length ps) (Z.to_nat label) m a (l_grad r).
Proof.
  intros Hg Hn Hl Hps Hlab H. destruct (rival_best ps label plabel Hn Hl Hps Hlab) as (m & Er & Hm & Hb).
  cbn [gradient] in H. rewrite Er in H. cbn [bind] in H. dob H Q1. dob H E2.
  apply rdz_nth in Q1; [|lia]. apply rdz_nth in E2; [|lia]. rewrite Nat2Z.id in Q1.
  assert (Hml : m <> Z.to_nat label) by apply Hb.
  unfold logistic_of. cbn [n_sub Rnum] in *.
  match type of H with (if ?b then _ else _) = _ => destruct b eqn:Eb end.
  - dob H E3. inv H. exists m, 1, r1, r0. cbn [l_loss l_grad].
    split; [exact Hb|]. split; [exact Hm|]. split; [lra|]. split; [exact E2|]. split; [exact Q1|].
    split; [now rewrite Eb|]. rewrite <- Hg. eapply two_grad_opposes; [lia|lia|exact Hml|exact E3].
  - match type of H with (if ?b then _ else _) = _ => destruct b eqn:Ec end.
    + dob H E3. inv H. exists m, 0, r1, r0. cbn [l_loss l_grad].
      split; [exact Hb|]. split; [exact Hm|]. split; [lra|]. split; [exact E2|]. split; [exact Q1|].
      split; [now rewrite Eb, Ec|]. rewrite <- Hg. eapply two_grad_opposes; [lia|lia|exact Hml|].
      replace (- 0) with 0 by lra. exact E3.
    + cbv zeta in H. dob H E3. dob H E4. dob H E5. inv H.
      set (a := 1 / (1 + Rtrigo_def.exp (- (r0 - r1)))).
      assert (Ha : 0 <= a <= 1).
      { unfold a. pose proof (exp_pos (- (r0 - r1))) as He. split.
        - apply Rlt_le, Rdiv_lt_0_compat; lra.
        - apply (Rmult_le_reg_r (1 + Rtrigo_def.exp (- (r0 - r1)))); [lra|]. unfold Rdiv. rewrite Rmult_assoc, Rinv_l; lra. }
      exists m, a, r1, r0. cbn [l_loss l_grad].
      split; [exact Hb|]. split; [exact Hm|]. split; [exact Ha|]. split; [exact E2|]. split; [exact Q1|].
      split; [now rewrite Eb, Ec|]. rewrite <- Hg. eapply two_grad_opposes; [lia|lia|exact Hml|].
      unfold two_grad. change a with (n_div Rnum (one Rnum) (n_add Rnum (one Rnum) (n_exp Rnum (n_opp Rnum (r0 - r1))))).
      rewrite E3. cbn [bind]. rewrite <- E5. f_equal.
      apply rdz_nth in E4; [|lia]. rewrite Nat2Z.id in E4.
      destruct (wrz_some (zeros Rnum g) (Z.of_nat m)
        (n_div Rnum (one Rnum) (n_add Rnum (one Rnum) (n_exp Rnum (n_opp Rnum (r0 - r1)))))) as (g2 & E6 & L & U).
      { unfold zeros. rewrite map_length. lia. }
      rewrite E6 in E3. inv E3. rewrite Nat2Z.id in E4. rewrite nth_error_upd, Nat.eqb_refl in E4.
      2:{ unfold zeros. rewrite map_length. lia. }
      inv E4. reflexivity.
Qed.
