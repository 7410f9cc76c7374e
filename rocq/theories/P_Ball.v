(** The models that project onto a ball. *)
From Coq Require Import Reals Lra Psatz Sorted.
From Verif Require Import M_Base M_Num M_Expr M_Loss M_Online M_Olm M_OlmSel M_Heap M_Algs S_Expr
  S_Real S_Online S_Session S_Learn P_DataPoint P_Expr P_Real P_Online P_Predict P_Step P_Safe P_SafeOlm P_SafeSel2
  P_Session P_Session2 P_Inv P_Conf P_Conf2.
Local Open Scope R_scope.

Lemma norm2_dense_sumsq w : norm2 Rnum (EDense w) = Some (sumsq w).
Proof.
  rewrite norm2_dense_real, <- (fold_left_rsum w (fun v => v * v)). f_equal.
  assert (G : forall a, fold_left (fun a v => a + v * v) w a = a + sumsq w); [|rewrite G; lra].
  induction w as [|b w IH]; intros a; simpl; [lra|]. rewrite IH. lra.
Qed.
Lemma imap_const (f : R -> R) (w : list R) : forall k, imap k (fun _ => f) w = map f w.
Proof. induction w; intros k; simpl; auto. now rewrite IHw. Qed.
Lemma calc_scalar op (a : R) (w : list R) : calc op w (EScalar a) = Some (map (fun v => op v a) w).
Proof. rewrite (calc_dense 0) by (cbn; auto). now rewrite (imap_const (fun v => op v a)). Qed.
Lemma sumsq_scale a w : sumsq (map (fun v => v * a) w) = a * a * sumsq w.
Proof. induction w as [|b w IH]; simpl; [lra|]. rewrite IH. ring. Qed.
Lemma sumsq_app a b : sumsq (a ++ b) = sumsq a + sumsq b.
Proof. induction a as [|x a IH]; simpl; [lra|]. rewrite IH. lra. Qed.
Lemma sumsq_zeros n : sumsq (repeat 0 n) = 0.
Proof. induction n; simpl; lra. Qed.
Lemma wr_zero_sumsq (w : list R) i w' : wr w i 0 = Some w' -> sumsq w' <= sumsq w.
Proof. intros H. apply wr_sumsq in H. lra. Qed.

Definition in_ball (b : R) (w : list R) : Prop := sumsq w <= b.
Lemma alma_step_ball eta bias x g w w' : alma_step Rnum eta bias x g w = Some w' -> in_ball 1 w'.
Proof.
  unfold alma_step. intros H. dob H Q1. rewrite norm2_dense_sumsq in H. cbn [bind] in H. cbv zeta in H.
  pose proof (sumsq_nonneg l) as Hn. cbn [Rnum n_sqrt] in H.
  destruct (n_lt Rnum (one Rnum) (sqrt (sumsq l))) eqn:E.
  - apply Rlt_b in E. rewrite calc_scalar in H. injection H as <-. unfold in_ball. change (one Rnum) with 1 in E.
    rewrite (map_ext _ (fun v => v * / sqrt (sumsq l))) by reflexivity. rewrite sumsq_scale.
    pose proof (sqrt_sqrt _ Hn) as S. rewrite <- S at 3. right. field. lra.
  - apply Rlt_b_false in E. injection H as <-. unfold in_ball. change (one Rnum) with 1 in E.
    rewrite <- (sqrt_sqrt _ Hn). pose proof (sqrt_pos (sumsq l)). nra.
Qed.
Lemma fofs_step_ball lam eta bias x g w w' : 0 < lam -> fofs_step Rnum lam eta bias x g w = Some w' -> in_ball (1 / lam) w'.
Proof.
  unfold fofs_step. intros Hl H. cbv zeta in H. dob H Q0. dob H Q1. rewrite norm2_dense_sumsq in H. cbn [bind] in H.
  pose proof (sumsq_nonneg l0) as Hn. cbn [Rnum n_sqrt n_div] in H. change (one Rnum) with 1 in H.
  pose proof (sqrt_lt_R0 _ Hl) as Hs. pose proof (sqrt_sqrt lam ltac:(lra)) as Ss. pose proof (sqrt_sqrt _ Hn) as Sn.
  pose proof (sqrt_pos (sumsq l0)) as Hp. assert (Hil : 0 < 1 / lam) by (apply Rdiv_lt_0_compat; lra).
  set (sl := sqrt lam) in *. set (sn := sqrt (sumsq l0)) in *.
  destruct (n_lt Rnum (1 / sl / sn) 1) eqn:E.
  - rewrite calc_scalar in H. injection H as <-. unfold in_ball. cbn [Rnum n_mul]. rewrite sumsq_scale.
    destruct (Req_EM_T sn 0) as [Z|Z].
    + rewrite <- Sn, Z. rewrite !Rmult_0_r. lra.
    + rewrite <- Sn, <- Ss. right. field. lra.
  - apply Rlt_b_false in E. injection H as <-. unfold in_ball.
    destruct (Req_EM_T sn 0) as [Z|Z]; [rewrite <- Sn, Z; lra|].
    assert (L : sn <= 1 / sl).
    { apply (Rmult_le_compat_r sn) in E; [|lra]. unfold Rdiv in E. rewrite Rmult_assoc, Rinv_l, Rmult_1_r in E by lra. unfold Rdiv. lra. }
    rewrite <- Sn, <- Ss. replace (1 / (sl * sl)) with (1 / sl * (1 / sl)) by (field; lra).
    assert (0 < 1 / sl) by (apply Rdiv_lt_0_compat; lra). apply Rmult_le_compat; lra.
Qed.
Lemma each_class_all (f : R -> list R -> option (list R)) (P : list R -> Prop) gs ws : forall ws',
  (forall g w w', f g w = Some w' -> P w') -> Forall P ws -> each_class Rnum f gs ws = Some ws' -> Forall P ws'.
Proof.
  revert gs. induction ws as [|w ws IH]; intros [|g gs] ws' Hf HP H; cbn [each_class] in H; try discriminate; try (injection H as <-; constructor).
  dob H Q1. dob H Q2. injection H as <-. inversion HP; subst. constructor; [|eapply IH; eauto].
  destruct (n_eq _ _ _); [injection Q1 as <-; assumption|eauto].
Qed.
Lemma zero_at_ball b i ws ws' : zero_at Rnum i ws = Some ws' -> Forall (in_ball b) ws -> Forall (in_ball b) ws'.
Proof.
  revert ws'. unfold zero_at. induction ws as [|w ws IH]; intros ws' H HP; cbn [mapM] in H; [injection H as <-; constructor|].
  dob H Q1. dob H Q2. injection H as <-. inversion HP; subst. constructor; auto. apply wr_zero_sumsq in Q1. unfold in_ball in *. lra.
Qed.
Lemma offer_scores_ball b ids : forall h sc ws h' sc' ws', offer_scores Rnum ids h sc ws = Some (h', sc', ws') ->
  Forall (in_ball b) ws -> Forall (in_ball b) ws'.
Proof.
  induction ids as [|i ids IH]; intros h sc ws h' sc' ws' H HP; cbn [offer_scores] in H; [injection H as <- <- <-; exact HP|].
  dob H Q1. destruct p as (h1, [j|]); [|eauto]. dob H Q2. dob H Q3. eapply IH; eauto. eapply zero_at_ball; eauto.
Qed.
Lemma grow_ball b d (c : core) : wf_core c -> Forall (in_ball b) (c_ws c) -> Forall (in_ball b) (c_ws (linear_update_dim Rnum d c)).
Proof.
  intros (_ & _ & F & _) H. unfold linear_update_dim. destruct (c_dim c <? d)%nat; [|exact H]. cbn [c_ws set_dim set_ws].
  rewrite Forall_forall in *. intros w Hw. apply in_map_iff in Hw as (v & <- & Hv). unfold in_ball, grow.
  rewrite <- (F v Hv), firstn_all, sumsq_app. change (zero Rnum) with 0. rewrite sumsq_zeros. specialize (H v Hv). unfold in_ball in H. lra.
Qed.
Lemma sel1_select_ball b B p (c : core) s c' s' : sel1_select Rnum B p c s = Some (c', s') -> Forall (in_ball b) (c_ws c) -> Forall (in_ball b) (c_ws c').
Proof.
  unfold sel1_select. intros H HP. destruct B; [injection H as <- <-; exact HP|]. destruct s as (ab, h). dob H Q1. dob H Q2. dob H Q3.
  destruct p0 as ((h2, ab2), ws). injection H as <- <-. cbn. eapply offer_scores_ball; eauto.
Qed.
Lemma sel1_begin_ball b B (c : core) s c' s' : wf_core c -> sel1_begin Rnum B c s = Some (c', s') -> Forall (in_ball b) (c_ws c) -> Forall (in_ball b) (c_ws c').
Proof.
  intros Hc H HP. unfold sel1_begin in H. destruct B; [injection H as <- <-; exact HP|]. dob H Q1. destruct p as (c1, s1). dob H Q2. dob H Q3. injection H as <- <-.
  destruct (c_dim c <? S B + 1)%nat; [|injection Q1 as <- <-; exact HP]. unfold sel1_grow in Q1. destruct (c_dim c <? S B + 1)%nat; [|injection Q1 as <- <-; exact HP].
  destruct s. dob Q1 Q4. injection Q1 as <- _. now apply grow_ball.
Qed.

(** The radius squared. *)
Definition bound (k : kind (R:=R)) (b : R) : Prop :=
  match k with KALMA2 _ _ _ => b = 1 | KFOFS lam _ => 0 < lam /\ b = 1 / lam | _ => False end.
Definition balls (b : R) (c : core (R:=R)) : Prop := Forall (in_ball b) (c_ws c).
Lemma bound_pos k b : bound k b -> 0 < b.
Proof. destruct k; cbn; try contradiction; [lra|]. intros (Hl & ->). apply Rdiv_lt_0_compat; lra. Qed.
Lemma prep_ball k b p c e c' e' : bound k b -> a_prep (alg_of Rnum k) p c e = Some (c', e') -> c_ws c' = c_ws c.
Proof. intros Hk H. destruct k; try contradiction; cbn in H; injection H as <- <-; reflexivity. Qed.
Lemma update_ball k b p loss c e c' e' : bound k b -> balls b c -> a_update (alg_of Rnum k) p loss c e = Some (c', e') -> balls b c'.
Proof.
  intros Hk HK Up. destruct k; try contradiction; cbn [alg_of bound] in *.
  - cbn [alma2 a_update] in Up. unfold alma_update in Up. cbv zeta in Up. dob Up Q2. injection Up as <- _. unfold balls. cbn [c_ws set_margin set_ws]. subst b.
    eapply each_class_all; [| |exact Q2]; [intros; eapply alma_step_ball; eauto|exact HK].
  - destruct Hk as (Hl & ->). cbn [fofs a_update] in Up. unfold fofs_update in Up. dob Up Q2. eapply sel1_select_ball; [exact Up|]. cbn [c_ws set_ws].
    eapply each_class_all; [| |exact Q2]; [intros; eapply fofs_step_ball; eauto|exact HK].
Qed.
Lemma begin_ball k b c e c' e' : bound k b -> wf_core c -> balls b c -> a_begin (alg_of Rnum k) c e = Some (c', e') -> balls b c'.
Proof.
  intros Hk Hc HK Hb. unfold balls in *. destruct k; try contradiction; cbn in Hb.
  - injection Hb as <- <-. exact HK.
  - eapply sel1_begin_ball; eauto.
Qed.
Lemma end_ball k b c e c' e' : bound k b -> balls b c -> a_end (alg_of Rnum k) c e = Some (c', e') -> balls b c'.
Proof. intros Hk HK He. destruct k; try contradiction; cbn in He; injection He as <- <-; exact HK. Qed.

Section Ball.
Variables (k : kind (R:=R)) (n : nat) (loss : loss_kind) (pre : point R -> option (point R)) (b : R).
Hypothesis Hloss : loss_ok n loss.
Hypothesis Hk : bound k b.
Lemma point_ball p rnd x c e c' e' : pre p = Some x -> wf_point (lo_of k) x -> label_ok n (p_label x) -> True ->
  sound Rnum k n loss c e -> balls b c -> train_point Rnum (alg_of Rnum k) pre (p, rnd) c e = Some (c', e') -> balls b c'.
Proof.
  intros Ex Hx Hlab _ Hs HK H. unfold train_point in H. rewrite Ex in H. cbn [bind] in H. dob H Q. destruct p0 as (((lab, ps), c1), e1).
  assert (HB : balls b c1).
  2: { injection H as <- <-. unfold balls. destruct (lab =? p_label x)%Z; exact HB. }
  destruct (iterate_sound Rnum k n loss Hloss x rnd c e lab ps c1 e1 Hx Hlab Hs Q)
    as (ea & eb & c3 & e3 & q & G1 & G2 & S1 & Hd & G3 & F3 & S3 & _ & _ & _ & _ & G6).
  assert (H3 : balls b c3).
  { unfold balls. rewrite (prep_ball _ _ _ _ _ _ _ Hk G3). apply grow_ball; [apply Hs|exact HK]. }
  destruct G6 as [(-> & -> & ->)|(-> & r & e4 & G6)]; [exact H3|]. cbv zeta in G6. destruct G6 as (Gr & Lr & S5 & Up & S' & Re).
  set (c4 := cost_margin_step Rnum c3 (p_label x)) in *.
  assert (W4 : c_ws c4 = c_ws c3) by (unfold c4, cost_margin_step; destruct (c_cost c3); reflexivity).
  destruct Up as [(Wu & Up & F')|(Wu & -> & ->)]; [|unfold balls; cbn; rewrite W4; exact H3].
  eapply update_ball; [exact Hk| |exact Up]. unfold balls. cbn. rewrite W4. exact H3.
Qed.
Lemma ball_session c0 us s : fresh Rnum n c0 -> c_loss c0 = loss -> Forall (use_ok (lo_of k) n pre) us ->
  session Rnum (alg_of Rnum k) pre us (c0, init_of Rnum k n, true) = Some s -> at_rest Rnum k n loss (fun c _ => balls b c) s.
Proof.
  intros Hf Hl HU H. eapply (session_inv Rnum k n loss pre Hloss (fun c _ => balls b c) (fun _ => True)); eauto.
  - intros c e c' e' (Hc & _) HK Hb. eapply begin_ball; eauto.
  - apply point_ball.
  - intros c e c' e' _ HK He. eapply end_ball; eauto.
  - apply Forall_forall. intros [bs| |] _; cbn; auto. apply Forall_forall. intros. apply Forall_forall. auto.
  - apply fresh_rest; auto. destruct Hf as (_ & Hw & _). unfold balls. rewrite Hw. apply Forall_forall. intros w Hi. apply repeat_spec in Hi. subst w.
    unfold in_ball. cbn. pose proof (bound_pos _ _ Hk). lra.
Qed.
End Ball.
