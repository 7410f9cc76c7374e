(** Confidences shrink and scales grow: the arithmetic of one step, and sessions. *)
From Coq Require Import Reals Lra Psatz Sorted.
From Verif Require Import M_Base M_Num M_Expr M_Loss M_Online M_Olm M_OlmSel M_Heap M_Algs S_Expr
  S_Real S_Online S_Session S_Learn P_DataPoint P_Expr P_Real P_Online P_Predict P_Step P_Safe P_SafeOlm P_SafeSel2
  P_Session P_Session2 P_Inv P_Conf.
Local Open Scope R_scope.

Lemma scaled_bounds u v s : 0 <= u -> 0 < s -> 0 < scaled u v s <= s.
Proof.
  intros Hu Hs. unfold scaled. pose proof (Rle_0_sqr v) as Hv. unfold Rsqr in Hv.
  assert (Hd : 0 <= s * (v * v) * u) by (apply Rmult_le_pos; [apply Rmult_le_pos|]; lra).
  split; [apply Rdiv_lt_0_compat; lra|].
  apply (Rmult_le_reg_r (1 + s * (v * v) * u)); [lra|]. unfold Rdiv. rewrite Rmult_assoc, Rinv_l by lra.
  assert (0 <= s * (s * (v * v) * u)) by (apply Rmult_le_pos; lra). lra.
Qed.
Lemma scaled_at u x i s : 0 <= u -> 0 < s -> 0 < at_feature x i (scaled u) (scaled u 1) s <= s.
Proof.
  intros Hu Hs. unfold at_feature. cbv zeta.
  assert (A : 0 < match lookup x i with Some v => scaled u v s | None => s end <= s).
  { destruct (lookup x i); [now apply scaled_bounds|lra]. }
  destruct (i =? 0)%nat; [|exact A]. pose proof (scaled_bounds u 1 _ Hu (proj1 A)). lra.
Qed.
Lemma adapted_sq d g v s : (adapted d g v s - d) * (adapted d g v s - d) = (s - d) * (s - d) + g * v * (g * v).
Proof.
  unfold adapted. set (t := _ + g * v * (g * v)). replace (sqrt t + d - d) with (sqrt t) by ring.
  apply sqrt_sqrt. unfold t. pose proof (Rle_0_sqr (s - d)). pose proof (Rle_0_sqr (g * v)). unfold Rsqr in *. lra.
Qed.
Lemma adapted_ge d g v s : d <= s -> s <= adapted d g v s.
Proof.
  intros H. unfold adapted. pose proof (Rle_0_sqr (g * v)) as H0. unfold Rsqr in H0.
  assert (s - d <= sqrt ((s - d) * (s - d) + g * v * (g * v))); [|lra].
  rewrite <- (sqrt_square (s - d)) at 1 by lra. apply sqrt_le_1_alt. lra.
Qed.
Lemma adapted_at d g x i s : d <= s ->
  let s' := at_feature x i (adapted d g) (adapted d g 1) s in
  s <= s' /\ (s' - d) * (s' - d) = (s - d) * (s - d) + g * xv x i * (g * xv x i) + (if (i =? 0)%nat then g * g else 0).
Proof.
  intros H. unfold at_feature, xv. cbv zeta.
  assert (A : s <= match lookup x i with Some v => adapted d g v s | None => s end) by (destruct (lookup x i); [now apply adapted_ge|lra]).
  split.
  - destruct (i =? 0)%nat; [|exact A]. pose proof (adapted_ge d g 1 _ (Rle_trans _ _ _ H A)). lra.
  - destruct (i =? 0)%nat; destruct (lookup x i); rewrite ?adapted_sq; ring.
Qed.

(** ** The variance of a margin *)
Lemma dotmul_sq_real l x : sorted_ix x ->
  dotmul Rnum l (eL2 Rnum (ESparse x)) = Some (rsum (length l) (fun i => dv l i * (xv x i * xv x i))).
Proof.
  intros Hs. rewrite (dotmul_spec Rnum 0 l _ x); simpl; auto. f_equal.
  apply (fdot_real l (fun _ v => v * v)); auto. intros; apply Rmult_0_l.
Qed.
Lemma sqnorm_rsum n x : sorted_ix x -> below n x -> rsum n (fun i => xv x i * xv x i) = sqnorm x.
Proof.
  intros Hs Hb. rewrite <- (fold_entries n (fun _ v => v * v) x Hs Hb (fun _ => Rmult_0_l 0)). unfold sqnorm. clear.
  assert (G : forall a, fold_left (fun s q => s + snd q * snd q) x a = a + fold_right (fun (q : Z * R) s => snd q * snd q + s) 0 x).
  { induction x as [|q x IH]; intros a; simpl; [lra|]. rewrite IH. lra. }
  rewrite G. lra.
Qed.
Lemma sqnorm_nonneg x : 0 <= sqnorm x.
Proof. induction x as [|q x IH]; simpl; [lra|]. pose proof (Rle_0_sqr (snd q)). unfold Rsqr in *. lra. Qed.
Lemma sumsq_nonneg x : 0 <= sumsq x.
Proof. induction x as [|q x IH]; simpl; [lra|]. pose proof (Rle_0_sqr q). unfold Rsqr in *. lra. Qed.

Lemma lookup_of_In (x : list (Z * R)) i v : sorted_ix x -> In (i, v) x -> (0 <= i)%Z -> lookup x (Z.to_nat i) = Some v.
Proof.
  intros Hs Hin Hi. induction x as [|(j, u) x IH]; [destruct Hin|]. cbn [lookup]. rewrite Z2Nat.id by lia.
  destruct (sorted_ix_tail _ _ _ Hs) as (Hs' & _ & _ & Hni).
  destruct Hin as [[= -> ->]|Hin]; [now rewrite Z.eqb_refl|].
  destruct (Z.eqb_spec j i) as [->|]; [|now apply IH].
  destruct Hni. exact (in_map fst _ _ Hin).
Qed.
Section Var.
Variables (x : list (Z * R)) (d : nat) (a : R) (bo : bool).
Hypothesis Hs : sorted_ix x.
Hypothesis Hb : below d x.
Hypothesis Hd : (1 <= d)%nat.
Hypothesis Hpos : forall i v, In (i, v) x -> (0 <= i)%Z.
Hypothesis Ha : 0 < a.
Definition good_vec (Sg : list R) : Prop := length Sg = d /\ forall i, (i < d)%nat -> 0 < dv Sg i <= a.
Lemma quad_bounds Sg : good_vec Sg ->
  let q := rsum (length Sg) (fun i => dv Sg i * (xv x i * xv x i)) in
  0 <= q <= a * sqnorm x /\ ((exists i v, In (i, v) x /\ v <> 0) -> 0 < q).
Proof.
  intros (L & H) q. subst q. rewrite L. assert (F : forall i, (i < d)%nat -> 0 <= dv Sg i * (xv x i * xv x i)).
  { intros i Hi. destruct (H i Hi). pose proof (Rle_0_sqr (xv x i)) as S. unfold Rsqr in S. apply Rmult_le_pos; lra. }
  split; [split|].
  - now apply rsum_nonneg.
  - rewrite <- (sqnorm_rsum d x Hs Hb), <- rsum_scal. apply rsum_le. intros i Hi. destruct (H i Hi).
    pose proof (Rle_0_sqr (xv x i)) as S. unfold Rsqr in S. apply Rmult_le_compat_r; lra.
  - intros (i & v & Hin & Hv). pose proof (Hpos _ _ Hin) as Hi.
    assert (Hl : (Z.to_nat i < d)%nat).
    { unfold below in Hb. rewrite Forall_forall in Hb. specialize (Hb i (in_map fst _ _ Hin)). lia. }
    apply Rlt_le_trans with (dv Sg (Z.to_nat i) * (xv x (Z.to_nat i) * xv x (Z.to_nat i))).
    + unfold xv. rewrite (lookup_of_In x i v) by auto. destruct (H _ Hl).
      apply Rmult_lt_0_compat; [lra|]. pose proof (Rlt_0_sqr v Hv) as S. exact S.
    + now apply (rsum_elem_le d (fun i => dv Sg i * (xv x i * xv x i))).
Qed.
Lemma variance_bounds gs : forall Ss acc v, Forall good_vec Ss -> variance Rnum x bo gs Ss acc = Some v ->
  acc <= v <= acc + sumsq gs * (a * (sqnorm x + 1)) /\
  ((exists i v, In (i, v) x /\ v <> 0) -> Exists (fun g => g <> 0) gs -> acc < v).
Proof.
  induction gs as [|g gs IH]; intros Ss acc v HS H.
  - cbn in H. injection H as <-. simpl. split; [lra|]. intros _ E. inversion E.
  - destruct Ss as [|Sg Ss]; [discriminate|]. inversion HS as [|? ? HSg HSs]; subst. cbn [variance] in H.
    change (n_eq Rnum g (zero Rnum)) with (if Req_EM_T g 0 then true else false) in H.
    destruct (Req_EM_T g 0) as [Hg|Hg].
    + destruct (IH _ _ _ HSs H) as (A & B). subst g. simpl. split; [lra|]. intros Hx HE. apply B; auto.
      inversion HE; subst; [congruence|assumption].
    + rewrite dotmul_sq_real in H by exact Hs. cbn [bind] in H. destruct (quad_bounds Sg HSg) as (Q & Qp).
      set (q := rsum (length Sg) _) in *. cbv zeta in H. dob H Q2. destruct (IH _ _ _ HSs H) as (A & _).
      destruct HSg as (L & HSg). specialize (HSg 0%nat ltac:(lia)). pose proof (Rlt_0_sqr g Hg) as G. unfold Rsqr in G.
      assert (E : acc + q * (g * g) <= r <= acc + (q + a) * (g * g)).
      { destruct bo.
        - dob Q2 Q3. apply Some_inj in Q2. subst r. unfold rd in Q3. apply nth_error_nth with (d := 0) in Q3. unfold dv in HSg. rewrite Q3 in HSg.
          cbn. nra.
        - apply Some_inj in Q2. subst r. cbn. nra. }
      assert (0 <= q * (g * g)) by (apply Rmult_le_pos; lra).
      simpl. split; [split; [lra|]|].
      * assert ((q + a) * (g * g) <= a * (sqnorm x + 1) * (g * g)) by (apply Rmult_le_compat_r; lra). lra.
      * intros Hx _. specialize (Qp Hx). assert (0 < q * (g * g)) by (apply Rmult_lt_0_compat; lra). lra.
Qed.
End Var.

(** ** The step sizes of CW and ECCW *)
Lemma cw_alpha_nonneg phi v loss : 0 < phi -> 0 < v -> 0 <= loss -> 0 <= cw_alpha Rnum phi v loss.
Proof.
  intros Hp Hv Hl. unfold cw_alpha. cbn [Rnum n_int n_add n_sub n_mul n_div n_opp n_sqrt one]. cbv zeta.
  set (m := phi * v - loss). set (t := 1 + 2 * phi * m).
  apply Rmult_le_pos; [|left; apply Rinv_0_lt_compat; apply Rmult_lt_0_compat; [apply Rmult_lt_0_compat; lra|lra]].
  assert (t <= sqrt (t * t - 8 * phi * (m - phi * v))); [|fold t; lra].
  apply Rle_trans with (Rabs t); [apply Rle_abs|]. rewrite <- sqrt_Rsqr_abs. unfold Rsqr. apply sqrt_le_1_alt.
  assert (0 <= phi * loss) by (apply Rmult_le_pos; lra). unfold m. lra.
Qed.
Lemma eccw_alpha_nonneg phi v loss : 0 < phi -> 0 < v <= 1 -> 0 <= loss -> 0 <= eccw_alpha Rnum phi v loss.
Proof.
  intros Hp Hv Hl. unfold eccw_alpha. cbn [Rnum n_int n_add n_sub n_mul n_div n_opp n_sqrt n_lit one]. cbv zeta.
  set (m := phi * v - loss). set (psi := 1 + phi * phi / 2). set (xi := 1 + phi * phi).
  assert (Hpp : 0 < phi * phi) by (apply Rmult_lt_0_compat; lra).
  apply Rmult_le_pos; [|left; apply Rinv_0_lt_compat; apply Rmult_lt_0_compat; unfold xi; lra].
  match goal with |- 0 <= - m * psi + sqrt ?T => assert (m * psi <= sqrt T) end; [|lra].
  destruct (Rle_dec m 0) as [Hm|Hm].
  - apply Rle_trans with 0; [|apply sqrt_pos]. assert (0 <= (- m) * psi) by (apply Rmult_le_pos; unfold psi; lra). lra.
  - rewrite <- (sqrt_square (m * psi)) by (apply Rmult_le_pos; unfold psi; lra). apply sqrt_le_1_alt.
    assert (E : m * psi * (m * psi) = m * phi * phi * (m * phi * phi) / 4 + m * m * xi) by (unfold psi, xi; field).
    rewrite E. assert (L : m * m <= v * phi * phi).
    { assert (m <= phi * v) by (unfold m; lra). apply Rle_trans with (phi * v * (phi * v)); [apply Rmult_le_compat; lra|].
      replace (phi * v * (phi * v)) with (phi * phi * (v * v)) by ring. replace (v * phi * phi) with (phi * phi * v) by ring.
      apply Rmult_le_compat_l; [lra|]. nra. }
    assert (m * m * xi <= v * phi * phi * xi) by (apply Rmult_le_compat_r; [unfold xi; lra|exact L]).
    replace (R_of_dec 25 (-2)) with (/ 4); [lra|]. unfold R_of_dec, powerRZ. change (Pos.to_nat 2) with 2%nat. simpl pow. field.
Qed.
Lemma eccw_tmp_nonneg phi v alpha : 0 < phi -> 0 <= alpha -> 0 <= eccw_tmp Rnum phi v alpha.
Proof.
  intros Hp Ha. unfold eccw_tmp. cbn [Rnum n_mul n_sqrt]. cbv zeta. apply Rmult_le_pos; [apply Rmult_le_pos; lra|apply sqrt_pos].
Qed.

(** What the hinge losses hand to a margin handler. *)
Definition unit_grad (g : list R) : Prop := Exists (fun a => a <> 0) g /\ sumsq g <= 2.
Lemma wr_sumsq (l : list R) : forall i v l', wr l i v = Some l' -> sumsq l' <= sumsq l + v * v /\ In v l'.
Proof.
  induction l as [|b l IH]; intros [|i] v l' H; cbn [wr] in H; try discriminate.
  - injection H as <-. simpl. split; [|now left]. pose proof (Rle_0_sqr b). unfold Rsqr in *. lra.
  - dob H Q1. injection H as <-. destruct (IH _ _ _ Q1) as (A & B). simpl. split; [lra|now right].
Qed.
Lemma wrz_sumsq (l : list R) i v l' : wrz l i v = Some l' -> sumsq l' <= sumsq l + v * v /\ In v l'.
Proof. unfold wrz. destruct (i <? 0)%Z; [discriminate|]. apply wr_sumsq. Qed.
Lemma zeros_sumsq g : sumsq (zeros Rnum g) = 0.
Proof. induction g; simpl; [reflexivity|]. rewrite IHg. cbn. lra. Qed.
Lemma handler_gradient k f y ps pl g m r n : length g = n -> (k = LHinge /\ n = 1%nat \/ k = LMaxHinge \/ k = LUniHinge) ->
  gradient Rnum k (Some f) y ps pl g m = Some r ->
  exists g1 mm v, f g1 = Some (mm, v) /\ l_vt r = Some v /\ 0 <= l_loss r /\ Exists (fun a => a <> 0) g1 /\
    (k <> LUniHinge -> sumsq g1 <= 2).
Proof.
  intros Lg Hk H. destruct Hk as [(Hk & Hn)|[Hk|Hk]]; subst k; cbn [gradient] in H.
  - dob H Q1. dob H Q2. destruct p as ((g1, m1), vt). dob Q2 Q3. dob Q2 Q4. destruct p as (mm, v). injection Q2 as <- <- <-.
    cbv zeta in H. dob H Q5. injection H as <-. exists l, mm, v. cbn [l_vt l_loss].
    destruct g as [|g0 [|]]; cbn in Lg; try lia. cbn in Q3. injection Q3 as <-.
    split; [exact Q4|]. split; [reflexivity|]. split; [unfold hinge_of; rewrite std_max_real; apply Rmax_l|].
    split; [constructor; cbn; lra|]. intros _. cbn. lra.
  - dob H Q1. dob H Q2. dob H Q3. dob H Q4. dob H Q5. destruct p as (mm, v). cbv zeta in H.
    assert (E : l_vt r = Some v /\ 0 <= l_loss r).
    { destruct (n_le _ _ _); [dob H Q6; dob H Q7|]; injection H as <-; cbn [l_vt l_loss]; split; auto;
        unfold hinge_of; rewrite std_max_real; apply Rmax_l. }
    destruct E as (E1 & E2). exists l, mm, v. unfold two_grad in Q4. dob Q4 Q6.
    destruct (wrz_sumsq _ _ _ _ Q6) as (A & _). destruct (wrz_sumsq _ _ _ _ Q4) as (B & C). rewrite zeros_sumsq in A. cbn in A, B.
    repeat (split; [assumption|]). split.
    + apply Exists_exists. eexists. split; [exact C|]. cbn. lra.
    + intros _. lra.
  - dob H Q1. destruct (false_stats _ _ _) as (fp, fn). cbv zeta in H. dob H Q2. dob H Q3. destruct p as (mm, v). injection H as <-.
    exists l, mm, v. cbn [l_vt l_loss]. destruct (wrz_sumsq _ _ _ _ Q2) as (_ & C).
    split; [exact Q3|]. split; [reflexivity|]. split; [cbn; lra|]. split.
    + apply Exists_exists. eexists. split; [exact C|]. cbn. lra.
    + congruence.
Qed.

(** One training step and the numbers. *)
Section Step.
Variables (k : kind (R:=R)) (n : nat) (loss : loss_kind).
Hypothesis Hk : second_order k.
Hypothesis Hloss : loss_ok n loss.
Lemma iterate_conf p rnd c e lab ps c' e' : wf_point (lo_of k) p -> label_ok n (p_label p) -> sound Rnum k n loss c e ->
  (forall j i, (j < n)%nat -> 0 < conf k e j i) ->
  iterate Rnum (alg_of Rnum k) p rnd c e = Some (lab, ps, c', e') ->
  (c_upd c' = c_upd c /\ forall j i, (j < n)%nat -> conf k e' j i = conf k e j i) \/
  (c_upd c' = (c_upd c + 1)%Z /\ exists c4 e3 r,
    gradient Rnum loss (a_margin (alg_of Rnum k) c4 e3 p) (p_label p) ps lab (c_g c4) (c_margin c4) = Some r /\
    wf_core c4 /\ length (c_ws c4) = n /\ cshape k n (c_dim c4) e3 /\ (Z.to_nat (x_dim p) <= c_dim c4)%nat /\
    (forall j i, conf k e3 j i = conf k e j i) /\ c_g c' = l_grad r /\
    forall j i, (j < n)%nat -> conf k e' j i =
      cupd k (l_grad r) (match l_vt r with Some v => v | None => c_vt c4 end) (l_loss r) (feats p) j i (conf k e j i)).
Proof.
  intros Hp Hlab Hs Hpos H.
  destruct (iterate_sound Rnum k n loss Hloss p rnd c e lab ps c' e' Hp Hlab Hs H)
    as (e1 & e2 & c3 & e3 & q & G1 & G2 & S1 & Hd & G3 & F3 & S3 & _ & _ & _ & _ & G6).
  assert (C1 : forall j i, conf k e1 j i = conf k e j i).
  { eapply conf_grow; [exact Hk| |exact G1]. destruct Hs as (_ & _ & _ & HI). now apply inv_pre. }
  assert (C2 : forall j i, conf k e2 j i = conf k e j i).
  { intros. rewrite <- C1. eapply conf_reg_begin; eauto. }
  pose proof (conf_prep _ _ _ _ _ _ Hk G3). subst e3.
  assert (U1 : c_upd (linear_update_dim Rnum (Z.to_nat (x_dim p)) c) = c_upd c) by (unfold linear_update_dim; destruct (_ <? _)%nat; reflexivity).
  pose proof F3 as (F3d & _ & F3g & _ & _ & _ & _ & _ & _ & SC3). assert (U3 : c_upd c3 = c_upd c) by (unfold same_counters in SC3; cbn in SC3; destruct SC3 as (A1 & A2 & A3 & A4); congruence).
  destruct G6 as [(-> & -> & ->)|(-> & r & e4 & G6)].
  - left. split; [exact U3|]. auto.
  - cbv zeta in G6. destruct G6 as (Gr & Lr & S5 & Up & S' & Re).
    set (c4 := cost_margin_step Rnum c3 (p_label p)) in *.
    assert (U4 : c_upd c4 = c_upd c /\ c_dim c4 = c_dim c3 /\ c_ws c4 = c_ws c3 /\ c_g c4 = c_g c3) by (unfold c4, cost_margin_step; destruct (c_cost c3); auto).
    destruct U4 as (U4 & D4 & W4 & G4).
    destruct Up as [(Wu & Up & F')|(Wu & -> & ->)].
    + right. pose proof F' as (F'd & _ & F'g & _ & _ & _ & _ & _ & _ & SC'). split.
      { unfold same_counters in SC'. cbn in SC'. destruct SC' as (A1 & A2 & A3 & A4). rewrite U4 in *. lia. }
      exists c4, e2, r. split; [exact Gr|].
      destruct S3 as (Hc3 & Hn3 & Hl3 & HI3). destruct S5 as (Hc5 & Hn5 & Hl5 & HI5).
      assert (Sh : cshape k n (c_dim c3) e2) by (rewrite <- Hn3; apply conf_shape; [exact Hk|now apply inv_pre]).
      assert (Hd4 : (Z.to_nat (x_dim p) <= c_dim c4)%nat) by (rewrite D4, F3d; exact Hd).
      split; [|split; [congruence|split; [now rewrite D4|split; [exact Hd4|split; [exact C2|split; [exact F'g|]]]]]].
      { destruct Hc3 as (V1 & V2 & V3 & V4). split; [lia|]. rewrite W4, D4, G4. auto. }
      intros j i Hj. rewrite (conf_reg_end _ _ _ _ _ Hk Re).
      rewrite (conf_update k p (l_loss r) (set_upd (set_lres c4 r) (c_upd (set_lres c4 r) + 1)) e2 c' e4 n j i Hk Hp Hc5 Hd4 Hn5); [|cbn; rewrite D4; exact Sh|exact Hj|rewrite C2; auto|exact Up].
      cbn. rewrite C2. reflexivity.
    + left. split; [cbn; exact U4|]. intros j i Hj. rewrite (conf_reg_end _ _ _ _ _ Hk Re). apply C2.
Qed.
End Step.

(** The shrinking models. *)
Definition conf_in (k : kind (R:=R)) (n : nat) (e : state_of k) : Prop :=
  forall j i, (j < n)%nat -> 0 < conf k e j i <= conf0 k.
Lemma feats_pos lo p i v : (0 <= lo)%Z -> wf_point (R:=R) lo p -> In (i, v) (feats p) -> (0 <= i)%Z.
Proof.
  intros Hlo (L & _ & F) Hin. rewrite Forall_forall in F. apply (in_map fst) in Hin. rewrite feats_fst in Hin by exact L.
  specialize (F _ Hin). cbn in F. lia.
Qed.
Lemma in_feats (p : point R) v : length (p_idx p) = length (p_val p) -> In v (p_val p) -> exists i, In (i, v) (feats p).
Proof.
  intros L Hin. assert (E : map snd (feats p) = p_val p).
  { unfold feats. revert L. generalize (p_idx p) (p_val p). clear. intros l. induction l; intros [|b m] L; simpl in *; try lia; auto. f_equal. auto. }
  rewrite <- E in Hin. apply in_map_iff in Hin as ((i, w) & E1 & Hin). simpl in E1. subst. eauto.
Qed.
Lemma step_shrinks k n loss p rnd c e lab ps c' e' : shrinking k = true -> conf_params k loss -> loss_ok n loss ->
  wf_point (lo_of k) p -> label_ok n (p_label p) -> conf_example k p -> sound Rnum k n loss c e -> conf_in k n e ->
  iterate Rnum (alg_of Rnum k) p rnd c e = Some (lab, ps, c', e') ->
  forall j i, (j < n)%nat -> 0 < conf k e' j i <= conf k e j i /\
    (i <> O -> ~ In (Z.of_nat i) (p_idx p) -> conf k e' j i = conf k e j i).
Proof.
  intros Hk Hpar Hloss Hp Hlab Hex Hs HK H.
  assert (H2 : second_order k) by (unfold second_order; now rewrite Hk).
  assert (Hpos : forall j i, (j < n)%nat -> 0 < conf k e j i) by (intros; now apply HK).
  assert (Lp : length (p_idx p) = length (p_val p)) by (destruct Hp as (? & _); assumption).
  destruct (iterate_conf k n loss H2 Hloss p rnd c e lab ps c' e' Hp Hlab Hs Hpos H)
    as [(_ & E)|(_ & c4 & e3 & r & Gr & Hc4 & Hn4 & Sh & Hd & C3 & _ & E)]; intros j i Hj.
  { rewrite E by exact Hj. split; [|reflexivity]. pose proof (Hpos j i Hj). lra. }
  rewrite E by exact Hj. pose proof (Hpos j i Hj) as H0. set (s := conf k e j i) in *.
  set (vt := match l_vt r with Some v => v | None => c_vt c4 end) in *.
  assert (Hf : forall u, i <> O -> ~ In (Z.of_nat i) (p_idx p) -> at_feature (feats p) i (scaled u) (scaled u 1) s = s).
  { intros u Hi Hn. unfold at_feature. destruct (Nat.eqb_spec i 0); [congruence|].
    replace (lookup (feats p) i) with (@None R); [reflexivity|]. symmetry. apply lookup_None. now rewrite feats_fst by exact Lp. }
  (* the variance seen by CW and ECCW *)
  assert (Hvar : forall a phi b, (k = KCW a phi b \/ k = KECCW a phi b) -> 0 < a ->
     (loss = LHinge \/ loss = LMaxHinge \/ loss = LUniHinge) -> (exists v, In v (p_val p) /\ v <> 0) ->
     0 < vt /\ 0 <= l_loss r /\ (loss <> LUniHinge -> vt <= 2 * (a * (sqnorm (feats p) + 1)))).
  { intros a phi b Ek Ha Hl (v0 & Hv0 & Hn0).
    assert (Em : exists b' phi', a_margin (alg_of Rnum k) c4 e3 p = cw_handler Rnum phi' b' c4 (confs k e3) p /\ lo_of k = 0%Z /\ conf0 k = a /\ (forall d, cshape k n d e3 -> shape n d (confs k e3))).
    { destruct Ek; subst k; cbn; exists b, phi; auto. }
    destruct Em as (b' & phi' & Em & Elo & Ec0 & Esh). rewrite Em in Gr. unfold cw_handler in Gr.
    pose proof (wf_glen c4 Hc4) as Lg. rewrite Hn4 in Lg.
    assert (Hl' : loss = LHinge /\ n = 1%nat \/ loss = LMaxHinge \/ loss = LUniHinge).
    { destruct Hl as [Hl|Hl]; [left|right; exact Hl]. split; [exact Hl|]. destruct Hloss as (_ & Hl2). destruct (Nat.eq_dec n 1); [assumption|]. specialize (Hl2 n0). rewrite Hl in Hl2. discriminate. }
    destruct (handler_gradient _ _ _ _ _ _ _ _ n Lg Hl' Gr) as (g1 & mm & v & Ef & Ev & El & Ex & Es). cbv beta in Ef. dob Ef Q1. injection Ef as _ <-.
    subst vt. rewrite Ev. destruct (Esh _ Sh) as (Ls & Fs).
    rewrite Elo in Hp.
    assert (Hg : Forall (good_vec (c_dim c4) a) (confs k e3)).
    { apply Forall_forall. intros Sg HS. rewrite Forall_forall in Fs. split; [now apply Fs|]. intros i' Hi'.
      apply In_nth with (d := []) in HS as (j' & Hj' & Ej). rewrite Ls in Hj'. specialize (HK j' i' Hj'). rewrite <- C3, Ec0 in HK. unfold conf in HK.
      rewrite Ej in HK. unfold dv. rewrite (nth_any i' Sg 0 (conf0 k)); [exact HK|]. rewrite (Fs Sg); [exact Hi'|]. rewrite <- Ej. apply nth_In. lia. }
    destruct (variance_bounds (feats p) (c_dim c4) a b' (fs p Hp) (feats_bel 0 p _ ltac:(lia) Hp Hd) (proj1 Hc4) (fun i v Hin => feats_pos 0 p i v ltac:(lia) Hp Hin) g1 _ _ _ Hg Q1) as (B1 & B2).
    cbn in B1, B2. split; [|split; [exact El|]].
    - apply B2; [|exact Ex]. destruct (in_feats p v0 Lp Hv0) as (i0 & Hi0). eauto.
    - intros Hu. specialize (Es Hu). pose proof (sqnorm_nonneg (feats p)).
      assert (sumsq g1 * (a * (sqnorm (feats p) + 1)) <= 2 * (a * (sqnorm (feats p) + 1))); [|lra].
      apply Rmult_le_compat_r; [|exact Es]. apply Rmult_le_pos; lra. }
  assert (Hat : forall u, 0 <= u -> 0 < at_feature (feats p) i (scaled u) (scaled u 1) s <= s /\
     (i <> O -> ~ In (Z.of_nat i) (p_idx p) -> at_feature (feats p) i (scaled u) (scaled u 1) s = s)).
  { intros u Hu. split; [now apply scaled_at|apply Hf]. }
  assert (Hid : 0 < s <= s /\ (i <> O -> ~ In (Z.of_nat i) (p_idx p) -> s = s)) by (split; [lra|auto]).
  assert (Hgg : forall g r, 0 < r -> 0 <= g * g / r).
  { intros g r' Hr. pose proof (Rle_0_sqr g). unfold Rsqr in *. apply Rmult_le_pos; [lra|]. left. now apply Rinv_0_lt_compat. }
  destruct k; try discriminate Hk; cbn [cupd cstep conf_params conf_example] in *;
    try (destruct (Req_EM_T (nth j (l_grad r) 0) 0); [exact Hid|]); cbv zeta.
  - destruct j; [|exact Hid]. destruct (lookup (feats p) i) eqn:El; [|exact Hid]. split; [apply scaled_bounds; lra|].
    intros _ Hn. exfalso. rewrite <- (feats_fst p Lp) in Hn. apply lookup_None in Hn. congruence.
  - apply Hat. now apply Hgg.
  - apply Hat. now apply Hgg.
  - destruct Hpar as (Ha & Hphi & Hl). destruct (Hvar a phi _ (or_introl eq_refl) Ha Hl Hex) as (V1 & V2 & _).
    apply Hat. pose proof (cw_alpha_nonneg phi vt (l_loss r) Hphi V1 V2). apply Rmult_le_pos; lra.
  - destruct Hpar as (Ha & Hphi & Hl). destruct Hex as (Hex & Hnorm).
    destruct (Hvar a phi _ (or_intror eq_refl) Ha ltac:(tauto) Hex) as (V1 & V2 & V3).
    assert (vt <= 1). { eapply Rle_trans; [apply V3|exact Hnorm]. destruct Hl; congruence. }
    apply Hat. apply eccw_tmp_nonneg; [exact Hphi|]. apply eccw_alpha_nonneg; auto.
Qed.
