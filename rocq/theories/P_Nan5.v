(** Numbers stay numbers: updates, the end of training, sessions. *)
From Coq Require Import Reals Lra.
From Verif Require Import M_Base M_Num M_Expr M_Loss M_Online M_Olm M_OlmSel M_Heap M_Algs S_Expr S_Online S_Session
  S_Nan P_DataPoint P_Expr P_Online P_Predict P_Step P_Safe P_Session P_Session2 P_Inv P_Real P_Conf2 P_Nan P_Nan2 P_Nan3 P_Nan4.
Local Open Scope R_scope.

Lemma ec2 {A} (PE : A -> Prop) f gs ws es ws' es' : each_class2 Xnum f gs ws es = Some (ws', es') -> fins gs -> Forall fins ws -> Forall PE es ->
  (forall g w e w' e', fin g -> fins w -> PE e -> f g w e = Some (w', e') -> fins w' /\ PE e') -> Forall fins ws' /\ Forall PE es'.
Proof. intros E Hg Hw He Hf. exact (each_class2_vals Xnum fin fins PE f gs ws es ws' es' Hg Hw He Hf E). Qed.
(* ------------------------------------------------------------- selection *)
Lemma zero_at_fin i ws ws' : Forall fins ws -> zero_at Xnum i ws = Some ws' -> Forall fins ws'.
Proof.
  intros H E. unfold zero_at in E. eapply mapM_vals; [exact H| |exact E]. intros w w' Hw Ew. eapply wr_vals; [exact Hw| |exact Ew]. auto with num.
Qed.
Lemma offer_scores_fin ids : forall h sc ws h' sc' ws', Forall fins ws -> offer_scores Xnum ids h sc ws = Some (h', sc', ws') -> Forall fins ws'.
Proof.
  induction ids as [|i ids IH]; intros h sc ws h' sc' ws' Hw E; cbn [offer_scores] in E; [injection E as <- <- <-; exact Hw|].
  dob E Q1. destruct p as (h1, ret). destruct ret as [j|]; [|eauto]. dob E Q2. dob E Q3. eapply IH; [|exact E]. eapply zero_at_fin; eauto.
Qed.
Lemma offer_ids_fin cmp vs ids : forall h ws h' ws', Forall fins ws -> offer_ids Xnum cmp vs ids h ws = Some (h', ws') -> Forall fins ws'.
Proof.
  induction ids as [|i ids IH]; intros h ws h' ws' Hw E; cbn [offer_ids] in E; [injection E as <- <-; exact Hw|].
  destruct (_ <? _)%Z; [discriminate|]. dob E Q1. destruct p as (h1, ret). destruct ret as [j|]; [|eauto]. dob E Q2. eapply IH; [|exact E]. eapply zero_at_fin; eauto.
Qed.
Lemma sel1_select_fin B p c s c' s' : nums c -> sel1_select Xnum B p c s = Some (c', s') -> nums c'.
Proof.
  intros Hc E. unfold sel1_select in E. destruct B as [|B]; [injection E as <- <-; exact Hc|]. destruct s as (ab, h). dob E Q1. dob E Q2. dob E Q3.
  destruct p0 as ((h2, ab2), ws). injection E as <- <-. apply nums_ws; [exact Hc|]. eapply offer_scores_fin; [apply Hc|exact Q3].
Qed.
Lemma sel2_truncate_fin cmp p c s c' s' : nums c -> sel2_truncate Xnum cmp p c s = Some (c', s') -> nums c' /\ s_vecs s' = s_vecs s.
Proof.
  intros Hc E. unfold sel2_truncate in E. dob E Q1. destruct p0 as (h, ws). injection E as <- <-. split; [|reflexivity]. apply nums_ws; [exact Hc|].
  eapply offer_ids_fin; [apply Hc|exact Q1].
Qed.
Lemma feature_loop_ok (P : xreal -> Prop) cmp f B x : (forall o v, P o -> fin v -> P (f o v)) -> forall v h v' h', Forall P v -> xfin x ->
  feature_loop cmp f B x v h = Some (v', h') -> Forall P v'.
Proof.
  intros Hf. induction x as [|(i, xv) x IH]; intros v h v' h' Hv Hx E; cbn [feature_loop] in E; [injection E as <- <-; exact Hv|].
  dob E Q1. dob E Q2. dob E Q3. inversion Hx; subst. eapply IH; [|exact H2|exact E]. eapply wr_vals; [exact Hv| |exact Q2]. apply Hf; [|exact H1].
  exact (rd_vals P _ _ _ Hv Q1).
Qed.
Lemma sel2_confidence_ok (P : xreal -> Prop) cmp bias0 feat whole B x gs s s' :
  (forall g o, fin g -> P o -> P (bias0 g o)) -> (forall g o v, fin g -> P o -> fin v -> P (feat g o v)) ->
  (forall g v v', fin g -> Forall P v -> whole g v = Some v' -> Forall P v') ->
  fins gs -> xfin x -> Forall (Forall P) (s_vecs s) -> sel2_confidence Xnum cmp bias0 feat whole B x gs s = Some s' -> Forall (Forall P) (s_vecs s').
Proof.
  intros H1 H2 H3 Hg Hx HS E. unfold sel2_confidence in E.
  assert (M : forall vs, Forall (Forall P) vs ->
    (do vs' <- each_class Xnum whole gs vs; do (sum, h) <- sum_loop Xnum cmp B (map fst x) vs' (s_sum s) (s_heap s); Some (mksel2 vs' sum h)) = Some s' ->
    Forall (Forall P) (s_vecs s')).
  { intros vs Hvs Ev. dob Ev Q1. dob Ev Q2. destruct p as (sum, h). injection Ev as <-. cbn [s_vecs].
    eapply (each_class_vals Xnum fin (Forall P)); [exact Hg|exact Hvs| |exact Q1]. intros g w w' Gg Gw Ew. eapply H3; eauto. }
  destruct (s_vecs s) as [|v [|v2 vs]]; [now apply M in E| |now apply M in E]. destruct gs as [|g gs]; [now apply M in E|].
  clear M. dob E Q1. dob E Q2. destruct p as (v2, h). injection E as <-. cbn [s_vecs]. inversion HS; subst. inversion Hg; subst. constructor; [|constructor].
  eapply feature_loop_ok; [|  |exact Hx|exact Q2]; [intros; now apply H2|]. eapply upd0_vals; [exact H4| |exact Q1]. intros; now apply H1.
Qed.

(* ------------------------------------------------------------- handlers *)
Definition stored (k : kind (R:=xreal)) (v : xreal) : Prop :=
  match k with
  | KCW _ _ _ => pos v
  | KECCW _ _ _ => exists x, v = Some x /\ 0 < x <= 1
  | _ => True
  end.
Lemma feats_snd (p : point xreal) : length (p_idx p) = length (p_val p) -> map snd (feats p) = p_val p.
Proof. unfold feats. generalize (p_idx p). induction (p_val p) as [|v l IH]; intros [|i idx] H; cbn in *; try discriminate; [reflexivity|]. f_equal. apply IH. lia. Qed.
Lemma feats_nz (p : point xreal) : length (p_idx p) = length (p_val p) -> nonzero p -> Exists (fun q => nz (snd q)) (feats p).
Proof.
  intros Hl (x & Hin & Hx). rewrite <- (feats_snd p Hl) in Hin. apply in_map_iff in Hin as (q & Eq & Hq). apply Exists_exists. exists q. split; [exact Hq|]. rewrite Eq. now exists x.
Qed.
Lemma cw_variance a b p loss n g Ss v : pos a -> Forall (Forall (within a)) Ss -> wf_point 0 p -> fin_point p ->
  b = true \/ nonzero p -> (Forall (fun Sg => Z.to_nat (x_dim p) <= length Sg)%nat Ss) -> asked loss n g ->
  variance Xnum (feats p) b g Ss (zero Xnum) = Some v ->
  exists x y, a = Some y /\ v = Some x /\ 0 < x /\ (loss = LUniHinge \/ x <= y * (sq_sum (p_val p) + 1) * 2).
Proof.
  intros (y & -> & Hy) HS Hp Hf Hb Hd (G1 & G2 & G3 & G4) E. pose proof Hp as (Hl & _).
  destruct (variance_bounds y (feats p) b Hy (feats_vals fin p Hf) g Ss (zero Xnum) 0 v HS G2 eq_refl E) as (x & -> & B1 & B2).
  exists x, y. split; [reflexivity|]. split; [reflexivity|]. rewrite feats_snd in B1 by exact Hl. split.
  - apply B2; [exact G3| |].
    + destruct Hb as [Hb|Hb]; [now left|right]. now apply feats_nz.
    + eapply Forall_impl; [|exact Hd]. intros Sg Hs. pose proof (feats_below 0 p (length Sg) (Z.le_refl 0) Hp Hs) as Hb'. rewrite Forall_map in Hb'. exact Hb'.
  - destruct G4 as [G4|G4]; [now left|right]. pose proof (sq_sum_nonneg (p_val p)). pose proof (sq_sum_nonneg g).
    assert (0 <= y * (sq_sum (p_val p) + 1)) by (apply Rmult_le_pos; lra). nra.
Qed.
Lemma margin_ok k loss n p c e f g1 m v : params_ok k loss -> st_ok k e -> example_ok k p -> wf_point (lo_of k) p ->
  inv_of Xnum False k (c_ws c) (c_dim c) e -> (Z.to_nat (x_dim p) <= c_dim c)%nat ->
  a_margin (alg_of Xnum k) c e p = Some f -> asked loss n g1 -> f g1 = Some (m, v) -> fin m /\ stored k v.
Proof.
  intros HP HS (Hf & Hx) Hw HI Hd Ef Ha Ev. destruct k; cbn [alg_of] in Ef; try discriminate Ef.
  - cbn [cw a_margin] in Ef. unfold cw_handler in Ef. injection Ef as <-. dob Ev Q1. injection Ev as <- <-. destruct HP as (P1 & P2 & P3).
    destruct (cw_variance a bias_on p loss n g1 e x P1 HS Hw Hf Hx) as (x0 & y & _ & -> & Hx0 & _); auto.
    { cbn [inv_of] in HI. destruct HI as (_ & HI). eapply Forall_impl; [|exact HI]. intros Sg HSg. cbn beta in HSg. lia. }
    split; [destruct P2 as (ph & -> & _); eexists; reflexivity|]. now exists x0.
  - cbn [eccw a_margin] in Ef. unfold cw_handler in Ef. injection Ef as <-. dob Ev Q1. injection Ev as <- <-. destruct HP as (P1 & P2 & P3). destruct Hx as (Hx & z & Ez & Hz).
    destruct (cw_variance a bias_on p loss n g1 e x P1 HS Hw Hf Hx) as (x0 & y & Ey & -> & Hx0 & Hx1); auto.
    { cbn [inv_of] in HI. destruct HI as (_ & HI). eapply Forall_impl; [|exact HI]. intros Sg HSg. cbn beta in HSg. lia. }
    split; [destruct P2 as (ph & -> & _); eexists; reflexivity|]. exists x0. split; [reflexivity|]. split; [exact Hx0|]. rewrite Ez in Ey. injection Ey as <-.
    destruct Hx1 as [Hx1|Hx1]; [destruct P3; congruence|]. lra.
Qed.

(* ------------------------------------------------------------- updates *)
Lemma grad_steps_fin x c c' : nums c -> xfin x -> grad_steps Xnum x c = Some c' -> nums c'.
Proof.
  intros Hc Hx E. unfold grad_steps in E. dob E Q1. injection E as <-. apply nums_ws; [exact Hc|]. pose proof (nums_bias _ Hc) as Hb. destruct Hc as (A & B & C & D).
  eapply (each_class_vals Xnum fin fins); [exact B|exact A| |exact Q1]. intros g w w' Hg Hw Ew. exact (grad_step_fin _ _ _ _ _ _ C Hb Hg Hw Hx Ew).
Qed.
Lemma ogd_update_fin e0 t p lv c c' : fin e0 -> fin t -> nums c -> (1 <= c_iter c)%Z -> xfin (feats p) -> ogd_update Xnum e0 t p lv c = Some c' -> nums c'.
Proof.
  intros He Ht Hc Hi Hx E. unfold ogd_update in E. eapply grad_steps_fin; [|exact Hx|exact E]. apply nums_eta; [exact Hc|]. apply fin_div; [exact He|]. now apply ogd_pow_nz.
Qed.
Lemma eta_coeff_pos c : pos (eta_coeff Xnum c).
Proof. unfold eta_coeff. destruct (_ =? _)%nat; [apply pos_one|apply pos_int; lia]. Qed.
Lemma norm2_pos x n : xfin x -> Exists (fun q => nz (snd q)) x -> norm2 Xnum (ESparse x) = Some n -> pos n.
Proof.
  intros Hx He E. unfold norm2, reduce_plus in E. dob E Q1. cbn in Q1. injection Q1 as <-. dob E Q2.
  assert (El : l = map (fun q => (fst q, Some (op_square Xnum (snd q)))) x).
  { cbn [sparse_items bind] in Q2. apply some_inj in Q2. rewrite <- Q2, map_map. apply map_ext. now intros (i, v). }
  rewrite El in E. clear El Q2.
  assert (L : forall x v r, xfin x -> reduce_sparse Xnum (map (fun q => (fst q, Some (op_square Xnum (snd q)))) x) (Some v) = Some r ->
    exists y, r = Some y /\ v <= y /\ (Exists (fun q => nz (snd q)) x -> v < y)).
  { clear. induction x as [|(i, u) x IH]; intros v r Hx E; cbn [map reduce_sparse] in E.
    - injection E as <-. exists v. split; [reflexivity|]. split; [lra|]. intros H; inversion H.
    - inversion Hx; subst. cbn [snd fst] in *. destruct H1 as (z & ->). cbn [bind] in E.
      change (reduce_sparse Xnum (map (fun q => (fst q, Some (op_square Xnum (snd q)))) x) (Some (v + z * z)) = Some r) in E.
      destruct (IH _ _ H2 E) as (y & -> & B1 & B2). exists y. split; [reflexivity|]. split; [nra|]. intros He. inversion He; subst.
      + destruct H0 as (z' & Ez & Hz). cbn in Ez. injection Ez as <-. assert (0 < z * z) by nra. lra.
      + specialize (B2 H0). nra. }
  destruct (L x 0 n Hx E) as (y & -> & _ & B). exists y. split; [reflexivity|auto].
Qed.
Lemma cw_alpha_X phi v lv : 0 < phi -> 0 < v -> 0 <= lv -> cw_alpha Xnum (Some phi) (Some v) (Some lv) = Some (cw_alpha Rnum phi v lv).
Proof.
  intros Hp Hv Hl. unfold cw_alpha, one. cbn. destruct (Rlt_dec _ 0) as [H|_].
  - exfalso. set (m := phi * v - lv) in *. assert (m - phi * v = - lv) by (unfold m; ring). rewrite H0 in H.
    pose proof (Rle_0_sqr (1 + 2 * phi * m)) as Hs. unfold Rsqr in Hs. assert (0 <= phi * lv) by (apply Rmult_le_pos; lra). nra.
  - cbn. destruct (Req_EM_T (4 * phi * v) 0) as [H|_]; [|reflexivity]. assert (0 < 4 * phi * v) by (apply Rmult_lt_0_compat; lra). lra.
Qed.
Lemma eccw_alpha_X phi v lv : 0 < phi -> 0 < v -> 0 <= lv -> eccw_alpha Xnum (Some phi) (Some v) (Some lv) = Some (eccw_alpha Rnum phi v lv).
Proof.
  intros Hp Hv Hl. unfold eccw_alpha, one. cbn. destruct (Req_EM_T 2 0) as [H|_]; [lra|]. cbn.
  assert (Hpp : 0 < phi * phi) by (apply Rmult_lt_0_compat; lra).
  destruct (Rlt_dec _ 0) as [H|_].
  - exfalso. set (t := (phi * v - lv) * phi * phi) in *. pose proof (Rle_0_sqr t) as Hs. unfold Rsqr in Hs.
    assert (0 <= t * t * R_of_dec 25 (-2)). { apply Rmult_le_pos; [exact Hs|]. destruct (pos_lit 25 (-2) ltac:(lia)) as (y & Ey & Hy). cbn in Ey. injection Ey as <-. lra. }
    assert (0 < v * phi * phi * (1 + phi * phi)) by (apply Rmult_lt_0_compat; [apply Rmult_lt_0_compat; [apply Rmult_lt_0_compat|]|]; lra). lra.
  - cbn. destruct (Req_EM_T (v * (1 + phi * phi)) 0) as [H|_]; [|reflexivity]. assert (0 < v * (1 + phi * phi)) by (apply Rmult_lt_0_compat; lra). lra.
Qed.
Lemma eccw_tmp_X phi v al : 0 < v -> eccw_tmp Xnum (Some phi) (Some v) (Some al) = Some (eccw_tmp Rnum phi v al).
Proof.
  intros Hv. unfold eccw_tmp. cbn. destruct (Rlt_dec _ 0) as [H|_].
  - exfalso. pose proof (Rle_0_sqr (al * v * phi)) as Hs. unfold Rsqr in Hs. nra.
  - cbn. match goal with |- context [Rlt_dec (?u * ?u) 0] => set (w := u); destruct (Rlt_dec (w * w) 0) as [H|_] end; [nra|reflexivity].
Qed.
Lemma arow_eta_fin r x lv c Ss eta : pos r -> fin lv -> nums c -> Forall (Forall (within (one Xnum))) Ss -> xfin x ->
  arow_eta Xnum r x lv c Ss = Some eta -> fin eta.
Proof.
  intros Hr Hl Hc HS Hx E. unfold arow_eta in E. dob E Q1. cbv zeta in E. apply some_inj in E. rewrite <- E.
  destruct (variance_bounds 1 x _ Rlt_0_1 Hx _ _ (zero Xnum) 0 x0 HS (proj1 (proj2 Hc)) eq_refl Q1) as (v & -> & (B1 & _) & _).
  apply fin_mul; [exact Hl|]. apply fin_div; [auto with num|]. apply pos_nz, pos_add'; [now exists v|exact Hr].
Qed.
Lemma arow_update_fin r p lv c Ss c' Ss' : pos r -> fin lv -> nums c -> Forall (Forall (within (one Xnum))) Ss -> xfin (feats p) ->
  arow_update Xnum r p lv c Ss = Some (c', Ss') -> nums c' /\ Forall (Forall (within (one Xnum))) Ss'.
Proof.
  intros Hr Hl Hc HS Hx E. unfold arow_update in E. dob E Q1. cbv zeta in E. dob E Q2. destruct p0 as (ws, Ss1). injection E as <- <-.
  assert (He : fin x) by (eapply arow_eta_fin; [exact Hr|exact Hl|exact Hc|exact HS|exact Hx|exact Q1]).
  pose proof (nums_eta _ _ Hc He) as Hc1. pose proof (nums_bias _ Hc1) as Hb. pose proof Hc1 as (A & B & C & D).
  destruct (ec2 (Forall (within (one Xnum))) _ _ _ _ _ _ Q2 B A HS) as (F & G).
  - intros g w Sg w' Sg' Hg Hw HSg Ew. unfold arow_step in Ew. dob Ew Q3. dob Ew Q4. injection Ew as <- <-. split.
    + exact (sigma_w_step_fin _ _ _ _ _ _ _ _ C Hb Hg Hw HSg Hx Q3).
    + exact (arow_sigma_ok _ _ _ _ _ _ Hr Hg HSg Hx Q4).
  - split; [now apply nums_ws|exact G].
Qed.
Lemma cw_loop_fin a tmp al p c Ss ws Ss' : pos a -> above 0 tmp -> fin al -> nums c -> Forall (Forall (within a)) Ss -> xfin (feats p) ->
  each_class2 Xnum (cw_step Xnum tmp al (bias_eta Xnum (set_eta c al)) (feats p)) (c_g c) (c_ws c) Ss = Some (ws, Ss') ->
  Forall fins ws /\ Forall (Forall (within a)) Ss'.
Proof.
  intros Ha Ht Hal Hc HS Hx Q2. pose proof (nums_eta _ _ Hc Hal) as Hc1. pose proof (nums_bias _ Hc1) as Hb. destruct Hc as (A & B & C & D).
  refine (each_class2_vals Xnum fin fins (Forall (within a)) _ _ _ _ _ _ B A HS _ Q2).
  intros g w Sg w' Sg' Hg Hw HSg Ew. unfold cw_step in Ew. dob Ew Q3. dob Ew Q4. injection Ew as <- <-. split.
  - exact (sigma_w_step_fin _ _ _ _ _ _ _ _ Hal Hb Hg Hw HSg Hx Q3).
  - exact (cw_sigma_ok _ _ _ _ _ Ht HSg Hx Q4).
Qed.
Lemma ada_fobos_update_fin d p lv c Hs c' Hs' : pos d -> nums c -> Forall (Forall (atleast d)) Hs -> xfin (feats p) ->
  ada_fobos_update Xnum d p lv c Hs = Some (c', Hs') -> nums c' /\ Forall (Forall (atleast d)) Hs'.
Proof.
  intros Hd Hc HS Hx E. unfold ada_fobos_update in E. dob E Q1. destruct p0 as (ws, Hs1). injection E as <- <-. pose proof (nums_bias _ Hc) as Hb. pose proof Hc as (A & B & C & D).
  destruct (ec2 (Forall (atleast d)) _ _ _ _ _ _ Q1 B A HS) as (F & G).
  - intros g w H w' H' Hg Hw HH Ew. unfold ada_fobos_step in Ew. dob Ew Q3. dob Ew Q4. injection Ew as <- <-.
    pose proof (ada_H_ok _ _ _ _ _ Hd Hg HH Hx Q3) as HH'. split; [|exact HH'].
    exact (ada_w_step_fin _ _ _ _ _ _ _ _ Hd C Hb Hg Hw HH' Hx Q4).
  - split; [now apply nums_ws|exact G].
Qed.
Definition Hu_ok (d : xreal) (Hu : list xreal * list xreal) : Prop := Forall (atleast d) (fst Hu) /\ fins (snd Hu).
Lemma ada_rda_update_fin d p lv c s c' s' : pos d -> nums c -> Forall (Hu_ok d) s -> xfin (feats p) ->
  ada_rda_update Xnum d p lv c s = Some (c', s') -> nums c' /\ Forall (Hu_ok d) s'.
Proof.
  intros Hd Hc HS Hx E. unfold ada_rda_update in E. dob E Q1. destruct p0 as (ws, Hs1). injection E as <- <-. pose proof Hc as (A & B & C & D & _).
  destruct (ec2 (Hu_ok d) _ _ _ _ _ _ Q1 B A HS) as (F & G).
  - intros g w (H, u) w' (H', u') Hg Hw (HH & Hu) Ew. cbn [fst snd] in *. unfold ada_rda_step in Ew. dob Ew Q3. dob Ew Q4. dob Ew Q5. injection Ew as <- <- <-.
    pose proof (ada_H_ok _ _ _ _ _ Hd Hg HH Hx Q3) as HH'. pose proof (ut_step_fin _ _ _ _ Hg Hu Hx Q4) as Hu'. split; [|split; [exact HH'|exact Hu']].
    refine (ada_rda_assign_fin _ _ _ _ _ _ _ Hd C D _ Hw HH' Q5). vf.
  - split; [now apply nums_ws|exact G].
Qed.
Lemma combine_ok d Hs us : Forall (Forall (atleast d)) Hs -> Forall fins us -> Forall (Hu_ok d) (combine Hs us).
Proof. intros H. revert us. induction H; intros [|u us] Hu; cbn; constructor; inversion Hu; subst; [split; auto|auto]. Qed.
Lemma split_ok d s : Forall (Hu_ok d) s -> Forall (Forall (atleast d)) (map fst s) /\ Forall fins (map snd s).
Proof. intros H. rewrite !Forall_map. split; (eapply Forall_impl; [|exact H]); intros a (A & B); assumption. Qed.
Lemma ada_confidence_ok d B p gs s s' : pos d -> fins gs -> xfin (feats p) -> Forall (Forall (atleast d)) (s_vecs s) ->
  ada_confidence Xnum d B p gs s = Some s' -> Forall (Forall (atleast d)) (s_vecs s').
Proof.
  intros Hd Hg Hx HS E. unfold ada_confidence in E.
  assert (Hs : forall s, atleast d s -> fin s) by (intros s0 Hs; apply pos_fin; eapply atleast_pos; eauto).
  refine (sel2_confidence_ok (atleast d) _ _ _ _ _ _ _ _ _ _ _ _ Hg Hx HS E).
  - intros g o Gg Go. apply atleast_add; [exact Hd|]. apply nn_sqrt, nn_add; apply nn_sq; auto with num.
  - intros g o v Gg Go Gv. cbv zeta. apply atleast_add; [exact Hd|]. apply nn_sqrt, nn_add; [apply nn_sq; auto with num|].
    destruct Gg as (a & ->), Gv as (b & ->). eexists. split; [reflexivity|]. nra.
  - intros g v v' Gg Gv Ev. exact (ada_H_ok _ _ _ _ _ Hd Gg Gv Hx Ev).
Qed.

Lemma update_ok k loss p lv c e c' e' : params_ok k loss -> nums c -> st_ok k e -> example_ok k p -> wf_point (lo_of k) p ->
  (1 <= c_iter c)%Z -> fin lv -> (is_hinge loss -> above 0 lv) -> (forall a phi b, k = KCW a phi b \/ k = KECCW a phi b -> stored k (c_vt c)) ->
  a_update (alg_of Xnum k) p lv c e = Some (c', e') -> nums c' /\ st_ok k e'.
Proof.
  intros HP Hc HS (Hp & Hx) Hw Hi Hlv Hh Hst E. pose proof (feats_vals fin p Hp) as Hf. pose proof (nums_bias _ Hc) as Hb.
  destruct k; cbn [alg_of] in E.
  - cbn [perceptron plain a_update] in E. dob E Q1. injection E as <- <-. split; [|exact I]. unfold perceptron_update in Q1. cbv zeta in Q1. dob Q1 Q2. injection Q1 as <-.
    pose proof (nums_eta _ _ Hc fin_one) as Hc1. pose proof (nums_bias _ Hc1) as Hb1. apply nums_ws; [exact Hc1|]. destruct Hc1 as (A & B & C & D).
    eapply (each_class_vals Xnum fin fins); [exact B|exact A| |exact Q2]. intros g w w' Gg Gw Ew. exact (perceptron_step_fin _ _ _ _ _ Hb1 Gg Gw Hf Ew).
  - cbn [pa plain a_update] in E. dob E Q1. injection E as <- <-. split; [|exact I]. unfold pa_update, pa_eta in Q1. dob Q1 Q2. dob Q2 Q3. injection Q2 as <-.
    eapply grad_steps_fin; [|exact Hf|exact Q1]. apply nums_eta; [exact Hc|]. apply fin_div; [exact Hlv|]. apply pos_nz, pos_mul; [apply eta_coeff_pos|].
    eapply norm2_pos; [exact Hf| |exact Q3]. apply feats_nz; [apply Hw|exact Hx].
  - cbn [pa1 plain a_update] in E. dob E Q1. injection E as <- <-. split; [|exact I]. unfold pa1_update, pa_eta in Q1. dob Q1 Q2.
    eapply grad_steps_fin; [|exact Hf|exact Q1]. apply nums_eta; [exact Hc|]. unfold std_min. destruct (n_lt Xnum x C) eqn:El; [|exact HP]. destruct x as [x|]; [now exists x|discriminate].
  - cbn [pa2 plain a_update] in E. dob E Q1. injection E as <- <-. split; [|exact I]. unfold pa2_update in Q1. dob Q1 Q2.
    eapply grad_steps_fin; [|exact Hf|exact Q1]. apply nums_eta; [exact Hc|]. apply fin_div; [exact Hlv|]. apply pos_nz, pos_add'.
    + apply nn_mul; [apply pos_above, eta_coeff_pos|]. eapply norm2_nn; [|exact Q2]. exact Hf.
    + apply pos_div; [apply pos_lit; lia|exact HP].
  - cbn [ogd plain a_update] in E. dob E Q1. injection E as <- <-. split; [|exact I]. destruct HP. eapply ogd_update_fin; [| | | |exact Hf|exact Q1]; assumption.
  - cbn [stg a_update] in E. dob E Q1. injection E as <- <-. split; [|exact HS]. destruct HP as (P1 & P2 & P3). eapply ogd_update_fin; [| | | |exact Hf|exact Q1]; assumption.
  - cbn [fobos_l1 a_update] in E. dob E Q1. injection E as <- <-. split; [|exact HS]. destruct HP as (P1 & P2 & P3). eapply ogd_update_fin; [| | | |exact Hf|exact Q1]; assumption.
  - cbn [pet a_update] in E. dob E Q1. destruct HP as (P1 & P2). split; [|exact I]. eapply sel1_select_fin; [|exact E]. exact (ogd_update_fin _ _ _ _ _ _ P1 P2 Hc Hi Hf Q1).
  - cbn [rda a_update] in E. unfold rda_update in E. dob E Q1. injection E as <- <-. split; [exact Hc|]. destruct Hc as (A & B & C & D).
    eapply (each_class_vals Xnum fin fins); [exact B|exact HS| |exact Q1]. intros g w w' Gg Gw Ew. exact (ut_step_fin _ _ _ _ Gg Gw Hf Ew).
  - cbn [rda_l1 a_update] in E. unfold rda_update in E. dob E Q1. injection E as <- <-. split; [exact Hc|]. destruct Hc as (A & B & C & D).
    eapply (each_class_vals Xnum fin fins); [exact B|exact HS| |exact Q1]. intros g w w' Gg Gw Ew. exact (ut_step_fin _ _ _ _ Gg Gw Hf Ew).
  - cbn [erda_l1 a_update] in E. unfold rda_update in E. dob E Q1. injection E as <- <-. split; [exact Hc|]. destruct Hc as (A & B & C & D).
    eapply (each_class_vals Xnum fin fins); [exact B|exact HS| |exact Q1]. intros g w w' Gg Gw Ew. exact (ut_step_fin _ _ _ _ Gg Gw Hf Ew).
  - cbn [alma2 a_update] in E. unfold alma_update in E. cbv zeta in E. dob E Q1. injection E as <- <-. cbn [st_ok] in *. destruct HP as (P1 & P2 & P3). split; [|lia].
    match type of Q1 with context [set_eta c ?et] => assert (He : fin et) end.
    { apply fin_div; [exact P2|]. apply pos_nz, pos_mul; [exact P3|]. apply pos_sqrt, pos_int. lia. }
    pose proof (nums_eta _ _ Hc He) as Hc1. pose proof (nums_bias _ Hc1) as Hb1. apply nums_margin; [|apply alma_margin_fin; auto; lia]. apply nums_ws; [exact Hc1|].
    destruct Hc1 as (A & B & C1 & D). eapply (each_class_vals Xnum fin fins); [exact B|exact A| |exact Q1]. intros g w w' Gg Gw Ew. exact (alma_step_fin _ _ _ _ _ _ C1 Hb1 Gg Gw Hf Ew).
  - cbn [sop a_update] in E. unfold sop_update in E. destruct e as (X, v). cbv zeta in E. dob E Q1. dob E Q2. injection E as <- <-. destruct HS as (S1 & S2). cbn [fst snd] in *.
    pose proof (nums_eta _ _ Hc fin_one) as Hc1. pose proof (nums_bias _ Hc1) as Hb1. split; [exact Hc1|]. cbn [st_ok fst snd]. split.
    + eapply (calc_vals (above 0) (above 0)); [exact S1| | |exact Q2]; [|intros; now apply nn_add]. exists fin. split; [exact Hf|]. intros; now apply nn_square.
    + destruct Hc1 as (A & B & C1 & D). eapply (each_class_vals Xnum fin fins); [exact B|exact S2| |exact Q1]. intros g w w' Gg Gw Ew. exact (perceptron_step_fin _ _ _ _ _ Hb1 Gg Gw Hf Ew).
  - cbn [arow a_update] in E. exact (arow_update_fin _ _ _ _ _ _ _ HP Hlv Hc HS Hf E).
  - cbn [sofs a_update] in E. unfold sofs_update in E. destruct B as [|B].
    + dob E Q1. destruct p0 as (c1, vs). injection E as <- <-. exact (arow_update_fin _ _ _ _ _ _ _ HP Hlv Hc HS Hf Q1).
    + dob E Q1. cbv zeta in E. assert (He : fin x) by exact (arow_eta_fin _ _ _ _ _ _ HP Hlv Hc HS Hf Q1). dob E Q2.
      pose proof (nums_eta _ _ Hc He) as Hc1. pose proof (nums_bias _ Hc1) as Hb1.
      assert (Hc2 : nums c0).
      { unfold sofs_weights in Q2. dob Q2 Q3. destruct p0 as (ws, es). injection Q2 as <-. apply nums_ws; [exact Hc1|]. destruct Hc1 as (A & B1 & C1 & D).
        destruct (ec2 (Forall (within (one Xnum))) _ _ _ _ _ _ Q3 B1 A HS) as (F & G); [|exact F].
        intros g w Sg w' Sg' Gg Gw GS Ew. dob Ew Q4. injection Ew as <- <-. split; [|exact GS]. exact (sigma_w_step_fin _ _ _ _ _ _ _ _ C1 Hb1 Gg Gw GS Hf Q4). }
      destruct (single_zero _ _); [injection E as <- <-; split; [exact Hc2|exact HS]|]. dob E Q3.
      assert (Hr1 : forall g, fin g -> above 0 (n_div Xnum (n_mul Xnum g g) r)).
      { intros g (u & ->). destruct HP as (y & -> & Hy). cbn. destruct (Req_EM_T y 0); [lra|]. eexists. split; [reflexivity|]. apply Rmult_le_pos; [nra|]. left. now apply Rinv_0_lt_compat. }
      assert (HS1 : Forall (Forall (within (one Xnum))) (s_vecs s)).
      { refine (sel2_confidence_ok (within (one Xnum)) _ _ _ _ _ _ _ _ _ _ _ _ (proj1 (proj2 Hc2)) Hf HS Q3).
        - intros g o Gg Go. apply within_div; [exact Go|]. apply one_plus, nn_mul; [apply pos_above; eapply within_pos; eauto|now apply Hr1].
        - intros g o v Gg Go Gv. apply within_div; [exact Go|]. apply one_plus, nn_mul; [|now apply Hr1]. apply within_pos in Go as (a & -> & Ha). destruct Gv as (b & ->).
          eexists. split; [reflexivity|]. assert (0 <= b * b) by nra. nra.
        - intros g v v' Gg Gv Ev. exact (arow_sigma_ok _ _ _ _ _ _ HP Gg Gv Hf Ev). }
      destruct (sel2_truncate_fin _ _ _ _ _ _ Hc2 E) as (F & G). split; [exact F|]. cbn [st_ok]. now rewrite G.
  - cbn [cw a_update] in E. unfold cw_update in E. cbv zeta in E. destruct HP as (P1 & (ph & -> & P2) & P3). destruct (Hst a (Some ph) bias_on (or_introl eq_refl)) as (v & Ev & Hv).
    destruct (Hh P3) as (l & -> & Hl). rewrite Ev, cw_alpha_X in E by assumption. pose proof (cw_alpha_nonneg ph v l P2 Hv Hl) as Hal. set (al := cw_alpha Rnum ph v l) in *. dob E Q1. destruct p0 as (ws, Ss).
    injection E as <- <-. assert (Ht : above 0 (n_mul Xnum (n_mul Xnum (n_int Xnum 2) (Some al)) (Some ph))).
    { eexists. split; [reflexivity|]. apply Rmult_le_pos; [apply Rmult_le_pos; lra|lra]. }
    destruct (cw_loop_fin a _ (Some al) p c e ws Ss P1 Ht (fin_some _) Hc HS Hf Q1) as (F & G). split; [|exact G]. apply nums_ws; [|exact F]. apply nums_eta; [exact Hc|apply fin_some].
  - cbn [eccw a_update] in E. unfold eccw_update in E. cbv zeta in E. destruct HP as (P1 & (ph & -> & P2) & P3). destruct (Hst a (Some ph) bias_on (or_intror eq_refl)) as (v & Ev & Hv).
    assert (P3' : is_hinge loss) by (unfold is_hinge; tauto). destruct (Hh P3') as (l & -> & Hl). rewrite Ev, eccw_alpha_X in E by tauto. pose proof (eccw_alpha_nonneg ph v l P2 Hv Hl) as Hal. set (al := eccw_alpha Rnum ph v l) in *.
    rewrite eccw_tmp_X in E by tauto. dob E Q1. destruct p0 as (ws, Ss). injection E as <- <-.
    assert (Ht : above 0 (Some (eccw_tmp Rnum ph v al))). { eexists. split; [reflexivity|]. now apply eccw_tmp_nonneg. }
    destruct (cw_loop_fin a _ (Some al) p c e ws Ss P1 Ht (fin_some _) Hc HS Hf Q1) as (F & G). split; [|exact G]. apply nums_ws; [|exact F]. apply nums_eta; [exact Hc|apply fin_some].
  - cbn [ada_fobos a_update] in E. exact (ada_fobos_update_fin _ _ _ _ _ _ _ HP Hc HS Hf E).
  - cbn [ada_fobos_l1 a_update] in E. dob E Q1. destruct p0 as (c1, H1). injection E as <- <-. destruct HS as (S1 & S2), HP as (P1 & P2).
    destruct (ada_fobos_update_fin _ _ _ _ _ _ _ P1 Hc S1 Hf Q1) as (F & G). split; [exact F|]. split; [exact G|exact S2].
  - cbn [ada_fobos_ofs a_update] in E. unfold ada_fobos_ofs_update in E. destruct B as [|B].
    + dob E Q1. destruct p0 as (c1, vs). injection E as <- <-. exact (ada_fobos_update_fin _ _ _ _ _ _ _ HP Hc HS Hf Q1).
    + destruct (single_zero _ _); [injection E as <- <-; split; [exact Hc|exact HS]|]. dob E Q1. pose proof (ada_confidence_ok _ _ _ _ _ _ HP (proj1 (proj2 Hc)) Hf HS Q1) as HS1. dob E Q2.
      assert (Hc2 : nums c0).
      { unfold ada_ofs_weights in Q2. dob Q2 Q3. destruct p0 as (ws, es). injection Q2 as <-. apply nums_ws; [exact Hc|]. destruct Hc as (A & B1 & C1 & D).
        destruct (ec2 (Forall (atleast delta)) _ _ _ _ _ _ Q3 B1 A HS1) as (F & G); [|exact F].
        intros g w H w' H' Gg Gw GH Ew. dob Ew Q4. injection Ew as <- <-. split; [|exact GH]. exact (ada_w_step_fin _ _ _ _ _ _ _ _ HP C1 Hb Gg Gw GH Hf Q4). }
      destruct (sel2_truncate_fin _ _ _ _ _ _ Hc2 E) as (F & G). split; [exact F|]. cbn [st_ok]. now rewrite G.
  - cbn [ada_rda a_update] in E. exact (ada_rda_update_fin _ _ _ _ _ _ _ HP Hc HS Hf E).
  - cbn [ada_rda_l1 a_update] in E. exact (ada_rda_update_fin _ _ _ _ _ _ _ (proj1 HP) Hc HS Hf E).
  - cbn [ada_rda_ofs a_update] in E. unfold ada_rda_ofs_update in E. destruct e as (s, ut). destruct HS as (S1 & S2). cbn [fst snd] in *. destruct B as [|B].
    + dob E Q1. destruct p0 as (c1, Hu). injection E as <- <-. destruct (ada_rda_update_fin _ _ _ _ _ _ _ HP Hc (combine_ok _ _ _ S1 S2) Hf Q1) as (F & G). split; [exact F|]. exact (split_ok _ _ G).
    + destruct (single_zero _ _); [injection E as <- <-; split; [exact Hc|split; assumption]|]. dob E Q1. pose proof (ada_confidence_ok _ _ _ _ _ _ HP (proj1 (proj2 Hc)) Hf S1 Q1) as HS1. dob E Q2. destruct p0 as (c2, ut2).
      dob E Q3. destruct p0 as (c3, s3). injection E as <- <-.
      assert (Hc2 : nums c2 /\ Forall fins ut2).
      { unfold ada_rda_ofs_weights in Q2. dob Q2 Q4. destruct p0 as (ws, es). injection Q2 as <- <-. pose proof Hc as (A & B1 & C1 & D & _).
        destruct (ec2 (Hu_ok delta) _ _ _ _ _ _ Q4 B1 A (combine_ok _ _ _ HS1 S2)) as (F & G).
        - intros g w (H, u) w' (H', u') Gg Gw (GH & Gu) Ew. cbn [fst snd] in *. dob Ew Q5. dob Ew Q6. injection Ew as <- <- <-. pose proof (ut_step_fin _ _ _ _ Gg Gu Hf Q5) as Gu'. split; [|split; [exact GH|exact Gu']].
          refine (ada_rda_assign_fin _ _ _ _ _ _ _ HP C1 D _ Gw GH Q6). vf.
        - split; [now apply nums_ws|exact (proj2 (split_ok _ _ G))]. }
      destruct Hc2 as (Hc2 & Hut). destruct (sel2_truncate_fin _ _ _ _ _ _ Hc2 Q3) as (F & G). split; [exact F|]. cbn [st_ok fst snd]. rewrite G. split; assumption.
  - cbn [fofs a_update] in E. unfold fofs_update in E. dob E Q1. split; [|exact I]. eapply sel1_select_fin; [|exact E]. apply nums_ws; [exact Hc|]. destruct Hc as (A & B1 & C1 & D).
    eapply (each_class_vals Xnum fin fins); [exact B1|exact A| |exact Q1]. intros g w w' Gg Gw Ew. exact (fofs_step_fin _ _ _ _ _ _ _ HP C1 Hb Gg Gw Hf Ew).
Qed.
