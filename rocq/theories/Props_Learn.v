(** Properties C27, C28, C31 to C35, C49 and C51: what the learning algorithms compute. *)
From Coq Require Import Reals Lra Psatz SpecFloat Sorted.
From Verif Require Import M_Base M_Num M_Expr M_Loss M_Online M_Olm M_OlmSel M_Heap M_Algs S_Expr
  S_Real S_Loss S_Online S_Session S_Learn P_DataPoint P_Expr P_Real P_Online P_Predict P_Step P_Safe P_SafeOlm P_SafeSel2
  P_Session P_Session2 P_Inv P_Loss P_Conf P_Conf2 P_Conf3 P_Ball P_Perc P_PA Props_Online.
Local Open Scope R_scope.

(** Sessions that can be continued by one more example. *)
Lemma session_more (k : kind (R:=R)) n loss pre c0 us : fresh Rnum n c0 -> c_loss c0 = loss -> loss_ok n loss -> Forall (use_ok (lo_of k) n pre) us ->
  exists c e r, session Rnum (alg_of Rnum k) pre us (c0, init_of Rnum k n, true) = Some (c, e, r) /\
  forall p rnd x, pre p = Some x -> wf_point (lo_of k) x -> label_ok n (p_label x) ->
    exists c' e' r', use_step Rnum (alg_of Rnum k) pre (UTrain [[(p, rnd)]]) (c, e, r) = Some (c', e', r').
Proof.
  intros Hf Hl Hlo HU.
  destruct (session_of Rnum False k n c0 loss us pre Hf Hl Hlo) as (c & e & r & E & _); [tauto|auto|].
  exists c, e, r. split; [exact E|]. intros p rnd x Ex Hx Hlab.
  destruct (session_of Rnum False k n c0 loss (us ++ [UTrain [[(p, rnd)]]]) pre Hf Hl Hlo) as (c' & e' & r' & E' & _); [tauto| |].
  - apply Forall_app. split; [exact HU|]. constructor; [|constructor]. constructor; [|constructor]. constructor; [|constructor]. exists x. auto.
  - unfold session in E, E'. rewrite foldM_app, E in E'. cbn [bind foldM] in E'. dob E' Q. destruct p0 as ((c1, e1), r1). eauto.
Qed.
(** A fresh model over the reals, for the examples. *)
Definition coreR (n : nat) (k : loss_kind) : core (R:=R) :=
  mkcore (repeat [0] n) (repeat 0 n) 1 1 1 0 0 0 0 0 false 0 None k 1 0 false.
Lemma freshR n k : (1 <= n)%nat -> fresh Rnum n (coreR n k).
Proof. intros H. split; [exact H|]. repeat split. cbn. apply repeat_length. Qed.

(** ** C27 *)
(** Perceptron with the boolean losses: if some family of linear functions of total length at most 1
    classifies every training example of the session with margin gamma, and the examples (with their
    bias feature) have squared length at most rad2, then the updates made over the whole session, however long,
    number at most rad2 / gamma^2 for two classes and 2 rad2 / gamma^2 for more.  Without active
    learning every mistake is an update, so this bounds the mistakes. *)
Theorem C27_mistake_bound : forall n loss c0 us pre gamma rad2 ss, loss = LBool \/ loss = LMaxBool \/ loss = LUniBool -> loss_ok n loss ->
  fresh Rnum n c0 -> c_loss c0 = loss -> (Z.of_nat n < 2 ^ 64)%Z -> 0 <= c_b0 c0 -> 0 < gamma -> 0 <= rad2 -> length ss = n -> size2 ss <= 1 ->
  Forall (use_ok (lo_of (R:=R) KPerceptron) n pre) us -> trained_on (fun x => separates (c_b0 c0) gamma ss x /\ bounded (c_b0 c0) rad2 x) pre us ->
  exists c e r, session Rnum (alg_of Rnum KPerceptron) pre us (c0, init_of Rnum KPerceptron n, true) = Some (c, e, r) /\
    IZR (c_upd c - c_upd c0) * (gamma * gamma) <= (if (n =? 1)%nat then 1 else 2) * rad2 /\
    (c_active c0 <= 0 -> (c_err c - c_err c0 = c_upd c - c_upd c0)%Z).
Proof.
  intros n loss c0 us pre gamma rad2 ss Hbl Hloss Hf Hl H64 Hb Hg Hr Hn Hs HU HX.
  destruct (session_more KPerceptron n loss pre c0 us Hf Hl Hloss HU) as (c & e & r & E & _). exists c, e, r. split; [exact E|].
  destruct (perc_session n loss pre (c_b0 c0) gamma rad2 (c_active c0) ss (c_upd c0) (c_err c0) Hloss Hbl Hb Hn H64 c0 us (c, e, r) Hf Hl eq_refl eq_refl eq_refl eq_refl HU HX E)
    as ((_ & _ & K3 & K4 & K5) & _). split; [|exact K5].
  eapply potential_bound; [exact Hn|exact Hs| |exact Hg| |exact K4].
  - apply (IZR_le 0). lia.
  - unfold Gn. destruct (_ =? _)%nat; apply Rmult_le_pos; lra.
Qed.
Print Assumptions C27_mistake_bound.
Ltac sep := unfold value, inner, feats; cbn [fst snd combine p_idx p_val p_label fold_right]; cbv [Z.to_nat Pos.to_nat Pos.iter_op Nat.add]; cbn [nth fst snd fold_right]; lra.
(** Two examples told apart by the sign of feature 1, with a bias; and two of three classes. *)
Example C27_witness :
  let p1 := mkpt 1 [1%Z; 3%Z] [1; - 1] in let p2 := mkpt (-1) [1%Z] [- 1] in
  let c0 := mkcore [[0]] [0] 1 1 4 0 0 0 0 0 false 0 None LBool 1 0 false in
  loss_ok 1 LBool /\ fresh Rnum 1 c0 /\ size2 [([0; 1], 0)] <= 1 /\ Forall (use_ok 0 1 Some) [UTrain [[(p1, 0); (p2, 0)]]; UTrain [[(p2, 0)]]] /\
  trained_on (fun x => separates 4 1 [([0; 1], 0)] x /\ bounded 4 6 x) Some [UTrain [[(p1, 0); (p2, 0)]]; UTrain [[(p2, 0)]]].
Proof.
  cbv zeta. assert (W1 : accepts 0 1 Some (mkpt 1 [1%Z; 3%Z] [1; - 1])) by acc. assert (W2 : accepts 0 1 Some (mkpt (-1) [1%Z] [- 1])) by acc.
  split; [split; [reflexivity|congruence]|]. split; [repeat split; cbn; lia|]. split; [cbn; lra|]. split; [repeat constructor; auto|].
  assert (T1 : separates 4 1 [([0; 1], 0)] (mkpt 1 [1%Z; 3%Z] [1; - 1]) /\ bounded 4 6 (mkpt 1 [1%Z; 3%Z] [1; - 1])).
  { split; [split; [now left|sep]|]. split; [repeat constructor; lia|cbn; lra]. }
  assert (T2 : separates 4 1 [([0; 1], 0)] (mkpt (-1) [1%Z] [- 1]) /\ bounded 4 6 (mkpt (-1) [1%Z] [- 1])).
  { split; [split; [now right|sep]|]. split; [repeat constructor; lia|cbn; lra]. }
  unfold trained_on. repeat (apply Forall_cons || apply Forall_nil); cbn [fst]; intros x [= <-]; assumption.
Qed.
Example C27_witness_multi :
  let p1 := mkpt 1 [1%Z; 3%Z] [1; - 1] in let p2 := mkpt 2 [2%Z] [1] in
  let ss := [([], 0); ([0; 1 / 2], 0); ([0; 0; 1 / 2], 0)] in
  loss_ok 3 LMaxBool /\ fresh Rnum 3 (coreR 3 LMaxBool) /\ size2 ss <= 1 /\ Forall (use_ok 0 3 Some) [UTrain [[(p1, 0); (p2, 0)]]] /\
  trained_on (fun x => separates 1 (1 / 2) ss x /\ bounded 1 3 x) Some [UTrain [[(p1, 0); (p2, 0)]]].
Proof.
  cbv zeta. assert (W1 : accepts 0 3 Some (mkpt 1 [1%Z; 3%Z] [1; - 1])) by acc. assert (W2 : accepts 0 3 Some (mkpt 2 [2%Z] [1])) by acc.
  split; [split; [lia|reflexivity]|]. split; [apply freshR; lia|]. split; [cbn; lra|]. split; [repeat constructor; auto|].
  assert (T : forall x, x = mkpt 1 [1%Z; 3%Z] [1; - 1] \/ x = mkpt 2 [2%Z] [1] -> separates 1 (1 / 2) [([], 0); ([0; 1 / 2], 0); ([0; 0; 1 / 2], 0)] x /\ bounded 1 3 x).
  { intros x [->| ->]; (split; [intros [|[|[|j]]] Hj Hy; try lia; cbn in Hj, Hy; try lia; sep|split; [repeat constructor; lia|cbn; lra]]). }
  unfold trained_on. repeat (apply Forall_cons || apply Forall_nil); cbn [fst]; intros x [= <-]; apply T; auto.
Qed.

(** ** C28 *)
(** Two classes, hinge loss.  PA: the loss of the example is zero after the step, also with a bias
    step.  Without loss nothing changes.  With no bias step, the new weights solve the problem of the
    variant exactly (see [aggressive]): PA the nearest weights without loss, PA-I the best balance of
    distance and C times the loss, PA-II of distance and C times the squared loss. *)
Theorem C28_binary : forall k x rnd c e lab ps c' e', pa_kind k -> wf_core c -> length (c_ws c) = 1%nat -> c_loss c = LHinge ->
  c_active c <= 0 -> c_lazy c = false -> 0 <= c_b0 c ->
  wf_point 0 x -> Forall (fun i => (1 <= i)%Z) (p_idx x) -> 0 < sqnorm (feats x) -> (p_label x = 1 \/ p_label x = -1)%Z ->
  iterate Rnum (alg_of Rnum k) x rnd c e = Some (lab, ps, c', e') ->
  let H := fun vs => hinge (asked c (p_label x)) (IZR (p_label x) * lin (nth 0 vs []) (feats x)) in
  (k = KPA -> H (c_ws c') = 0) /\ (H (c_ws c) = 0 -> forall i, nth i (nth 0 (c_ws c') []) 0 = nth i (nth 0 (c_ws c) []) 0) /\
  (c_b0 c = 0 -> aggressive k 1 (c_dim c') H (c_ws c) (c_ws c')).
Proof.
  intros. eapply (pa_binary k 1 LHinge); eauto; [split; [reflexivity|congruence]|now left].
Qed.
Print Assumptions C28_binary.
(** More classes, max-score hinge loss: the same for the loss against the best other class r under
    the old weights; the loss against any other class is at most halved by PA.  (The scores must be
    above the smallest float, which the code uses as minus infinity.) *)
Theorem C28_multi : forall k x rnd c e lab ps c' e', pa_kind k -> wf_core c -> (2 <= length (c_ws c))%nat -> c_loss c = LMaxHinge ->
  c_active c <= 0 -> c_lazy c = false -> 0 <= c_b0 c ->
  wf_point 0 x -> Forall (fun i => (1 <= i)%Z) (p_idx x) -> 0 < sqnorm (feats x) -> (0 <= p_label x < Z.of_nat (length (c_ws c)))%Z ->
  iterate Rnum (alg_of Rnum k) x rnd c e = Some (lab, ps, c', e') -> Forall (fun v => - fmax < v) ps ->
  let n := length (c_ws c) in let y := Z.to_nat (p_label x) in
  let loss_to := fun r vs => hinge (asked c (p_label x)) (lin (nth y vs []) (feats x) - lin (nth r vs []) (feats x)) in
  exists r, best_other ps y r /\ (r < n)%nat /\
  (k = KPA -> loss_to r (c_ws c') = 0) /\
  (loss_to r (c_ws c) = 0 -> forall j i, (j < n)%nat -> nth i (nth j (c_ws c') []) 0 = nth i (nth j (c_ws c) []) 0) /\
  (c_b0 c = 0 -> aggressive k n (c_dim c') (loss_to r) (c_ws c) (c_ws c')) /\
  (k = KPA -> forall j, (j < n)%nat -> j <> y -> loss_to j (c_ws c') <= loss_to r (c_ws c) / 2).
Proof.
  intros. eapply (pa_multi k n LMaxHinge); eauto; unfold n.
  - split; [lia|reflexivity].
  - now right.
  - lia.
Qed.
Print Assumptions C28_multi.
(** The step itself: PA-I never moves by more than C times the example, PA-II divides the loss by the
    squared norm plus 1 / (2 C). *)
Theorem C28_step : forall k x rnd c e lab ps c' e', pa_kind k -> wf_core c -> length (c_ws c) = 1%nat -> c_loss c = LHinge ->
  c_active c <= 0 -> c_lazy c = false -> 0 <= c_b0 c ->
  wf_point 0 x -> Forall (fun i => (1 <= i)%Z) (p_idx x) -> 0 < sqnorm (feats x) -> (p_label x = 1 \/ p_label x = -1)%Z ->
  iterate Rnum (alg_of Rnum k) x rnd c e = Some (lab, ps, c', e') ->
  let l := hinge (asked c (p_label x)) (IZR (p_label x) * lin (nth 0 (c_ws c) []) (feats x)) in
  exists t, 0 <= t /\ (forall C, k = KPA1 C -> t <= C) /\ (forall C, k = KPA2 C -> t = l / (sqnorm (feats x) + 1 / (2 * C))) /\
    forall i, (1 <= i)%nat -> nth i (nth 0 (c_ws c') []) 0 = nth i (nth 0 (c_ws c) []) 0 + t * IZR (p_label x) * xv (feats x) i.
Proof.
  intros k x rnd c e lab ps c' e' Hk Hc Hn Hl Ha Hlz Hb Hx Hx1 Hxn Hy Hit l.
  destruct (pa_parts k 1 LHinge Hk (conj (fun _ => eq_refl) (fun H => False_ind _ (H eq_refl))) x rnd c e lab ps c' e' Hx (or_introl eq_refl) Hc Hn Hl Ha Hlz Hit)
    as (d & r & (Ed & Hd1 & Hdc) & Hbel & Lws' & Lps & Elab & Hps & Gr & Lg & St).
  destruct ps as [|s [|? ?]]; try discriminate Lps. destruct (c_g c) as [|g0 [|? ?]]; try discriminate Lg.
  destruct (P_Loss2.hinge_gradient _ _ _ _ _ _ _ _ _ Gr) as (A & B & Cg). specialize (B eq_refl). rewrite B in A. specialize (Hps 0%nat ltac:(lia)). cbn [nth] in Hps.
  assert (EH : l_loss r = l) by (rewrite A, Hps; unfold l, hinge; f_equal; ring).
  assert (Hl0 : 0 <= l) by apply hinge_nonneg.
  assert (T : forall C, 0 < C -> 1 * sqnorm (feats x) + 1 / 2 / C = sqnorm (feats x) + 1 / (2 * C)) by (intros; field; lra).
  assert (Q : forall C, 0 < C -> 0 < sqnorm (feats x) + 1 / (2 * C)).
  { intros C HC. assert (0 < / (2 * C)) by (apply Rinv_0_lt_compat; lra). unfold Rdiv. lra. }
  destruct St as [(Sl & St)|(Sl & St)].
  - assert (E0 : l = 0) by lra. exists 0. split; [lra|]. split; [intros C ->; cbn in Hk; lra|]. split; [intros C ->; rewrite E0; specialize (Q C Hk); field; cbn in Hk; split; [lra|]; nra|].
    intros i Hi. rewrite (St 0%nat i) by lia. ring.
  - rewrite Cg in St. destruct (Rlt_dec 0 (l_loss r)); [|lra]. rewrite EH in St. cbn [Nat.eqb] in St. exists (pa_tau k 1 (sqnorm (feats x)) l). split; [|split; [|split]].
    + destruct k; try contradiction; cbn [pa_tau]; cbn in Hk.
      * apply Rmult_le_pos; [lra|]. left. apply Rinv_0_lt_compat. lra.
      * apply Rmin_glb; [lra|]. apply Rmult_le_pos; [lra|]. left. apply Rinv_0_lt_compat. lra.
      * rewrite (T C Hk). apply Rmult_le_pos; [lra|]. left. apply Rinv_0_lt_compat. auto.
    + intros C ->. apply Rmin_l.
    + intros C ->. cbn [pa_tau]. now rewrite (T C Hk).
    + intros i Hi. rewrite (St 0%nat i) by lia. destruct (Nat.eqb_spec i 0); [lia|]. cbn [nth]. ring.
Qed.
Print Assumptions C28_step.
(** An example with loss, in machine numbers: PA moves the weight of feature 1 to 1/2; one class's
    worth of hypotheses is met by [coreR]. *)
Example C28_witness :
  let x := mkpt 1 [1%Z; 3%Z] [1; - 1] in
  pa_kind (KPA1 (1 / 10)) /\ wf_core (coreR 1 LHinge) /\ c_active (coreR 1 LHinge) <= 0 /\ 0 <= c_b0 (coreR 1 LHinge) /\ wf_point 0 x /\
  Forall (fun i => (1 <= i)%Z) (p_idx x) /\ 0 < sqnorm (feats x) /\
  hinge (asked (coreR 1 LHinge) 1) (IZR 1 * lin (nth 0 (c_ws (coreR 1 LHinge)) []) (feats x)) = 1.
Proof.
  cbv zeta. split; [cbn; lra|]. split; [split; [cbn; lia|split; [discriminate|split; [repeat constructor|reflexivity]]]|].
  split; [cbn; lra|]. split; [cbn; lra|]. split; [wfp|]. split; [repeat constructor; lia|]. split; [cbn; lra|].
  unfold hinge, lin, asked. cbn -[IZR Pos.to_nat]. change (Pos.to_nat 1) with 1%nat. change (Pos.to_nat 3) with 3%nat. cbn.
  rewrite Rmax_right; lra.
Qed.
Example C28_witness_run :
  match iterate f32num (alg_of f32num KPA) (pt 1 [(1, 1); (3, -1)]%Z) (F 0) (core0 1 LHinge) tt with
  | Some (_, _, c', _) => let w := nth 1 (nth 0 (c_ws c') []) (F 0) in n_eq f32num (n_add f32num w w) (F 1)
  | None => false
  end = true.
Proof. vm_compute. reflexivity. Qed.
(** For more than two classes the loss of the example need not be zero after a PA step: another class
    may still be too close. *)
Theorem C28_multi_refuted :
  exists x lab ps c' e', wf_point 0 x /\
    iterate f32num (alg_of f32num KPA) x (F 0) (core0 3 LMaxHinge) tt = Some (lab, ps, c', e') /\
    exists lab' ps' l, predict f32num c' x = Some (lab', ps') /\ loss_value f32num LMaxHinge (p_label x) ps' lab' (c_margin c') = Some l /\
      n_lt f32num (F 0) l = true.
Proof.
  exists (pt 0 [(1, 2)]%Z). eexists _, _, _, _. split; [cbn; wfp|]. split; [vm_compute; reflexivity|].
  eexists _, _, _. split; [vm_compute; reflexivity|]. split; vm_compute; reflexivity.
Qed.
Print Assumptions C28_multi_refuted.

(** ** C33 *)
(** Whatever a user does with ALMA or FOFS, the weight vector of every class stays in the ball of
    the model: radius 1, and 1 / sqrt lambda. *)
Theorem C33_ball : forall k n loss c0 us pre rho, radius k = Some rho -> (forall lam B, k = KFOFS lam B -> 0 < lam) -> loss_ok n loss ->
  fresh Rnum n c0 -> c_loss c0 = loss -> Forall (use_ok (lo_of k) n pre) us ->
  exists c e r, session Rnum (alg_of Rnum k) pre us (c0, init_of Rnum k n, true) = Some (c, e, r) /\
    forall w, In w (c_ws c) -> sqrt (sumsq w) <= rho.
Proof.
  intros k n loss c0 us pre rho Hr Hlam Hloss Hf Hl HU.
  destruct (session_more k n loss pre c0 us Hf Hl Hloss HU) as (c & e & r & E & _). exists c, e, r. split; [exact E|].
  assert (HB : exists b, bound k b /\ sqrt b = rho).
  { destruct k; try discriminate Hr; cbn in Hr; injection Hr as <-.
    - exists 1. split; [reflexivity|apply sqrt_1].
    - specialize (Hlam _ _ eq_refl). eexists. split; [split; [exact Hlam|reflexivity]|]. rewrite sqrt_div by lra. now rewrite sqrt_1. }
  destruct HB as (b & Hb & <-). destruct (ball_session k n loss pre b Hloss Hb c0 us _ Hf Hl HU E) as (HK & _).
  intros w Hw. apply sqrt_le_1_alt. exact (proj1 (Forall_forall _ _) HK w Hw).
Qed.
Print Assumptions C33_ball.
(** Two classes' worth of projection: FOFS with lambda = 4 keeps its weights within 1/2, ALMA within 1;
    a first example whose unprojected update has norm 2. *)
Example C33_witness :
  let p1 := mkpt 1 [1%Z; 3%Z] [10; - 10] in
  radius (KFOFS 4 2) = Some (1 / sqrt 4) /\ radius (KALMA2 (9 / 10) (sqrt 2) 1) = Some 1 /\ (0 < 4) /\ loss_ok 1 LHinge /\
  fresh Rnum 1 (coreR 1 LHinge) /\ Forall (use_ok 0 1 Some) [UTrain [[(p1, 0)]]].
Proof.
  cbv zeta. assert (W1 : accepts 0 1 Some (mkpt 1 [1%Z; 3%Z] [10; - 10])) by acc.
  split; [reflexivity|]. split; [reflexivity|]. split; [lra|]. split; [split; [reflexivity|congruence]|].
  split; [apply freshR; lia|]. repeat constructor; auto.
Qed.
(** The same in machine numbers: the projection happens (the weights are not simply zero). *)
Example C33_witness_run :
  exists c e r w, run (KFOFS (F 4) 2) 1 LHinge [fit [pt 1 [(1, 10); (3, -10)]%Z]] = Some (c, e, r) /\ c_ws c = [w] /\
    n_lt f32num (F 0) (nth 1 w (F 0)) = true /\ n_lt f32num (nth 1 w (F 0)) (n_lit f32num 5 (-1)) = true.
Proof. eexists _, _, _, _. split; [vm_compute; reflexivity|]. repeat split; vm_compute; reflexivity. Qed.

(** ** C34 *)
(** The confidences of AROW, SOFS, CW, ECCW and SOP start at their initial value; after every session
    they are positive and at most that, and training on one more example makes none of them larger
    and changes only those of the features in the example and the bias.  CW needs examples with a
    non-zero feature (it divides by the variance), ECCW small examples in addition (see below). *)
Theorem C34_confidence : forall k n loss c0 us pre, shrinking k = true -> conf_params k loss -> loss_ok n loss ->
  fresh Rnum n c0 -> c_loss c0 = loss -> Forall (use_ok (lo_of k) n pre) us -> trained_on (conf_example k) pre us ->
  (forall j i, conf k (init_of Rnum k n) j i = conf0 k) /\
  exists c e r, session Rnum (alg_of Rnum k) pre us (c0, init_of Rnum k n, true) = Some (c, e, r) /\
    (forall j i, (j < n)%nat -> 0 < conf k e j i <= conf0 k) /\
    forall p rnd x, pre p = Some x -> wf_point (lo_of k) x -> label_ok n (p_label x) -> conf_example k x ->
    exists c' e' r', use_step Rnum (alg_of Rnum k) pre (UTrain [[(p, rnd)]]) (c, e, r) = Some (c', e', r') /\
      forall j i, (j < n)%nat -> 0 < conf k e' j i <= conf k e j i /\
        (i <> O -> ~ In (Z.of_nat i) (p_idx x) -> conf k e' j i = conf k e j i).
Proof.
  intros k n loss c0 us pre Hk Hpar Hloss Hf Hl HU HX. split; [intros; apply init_conf|].
  destruct (session_more k n loss pre c0 us Hf Hl Hloss HU) as (c & e & r & E & More).
  exists c, e, r. split; [exact E|]. pose proof (shrink_rest k n loss pre Hloss Hk Hpar c0 us _ Hf Hl HU HX E) as Hr.
  split; [apply Hr|]. intros p rnd x Ex Hx Hlab HXx. destruct (More p rnd x Ex Hx Hlab) as (c' & e' & r' & Eu).
  exists c', e', r'. split; [exact Eu|]. intros j i Hj.
  destruct (one_more k n loss pre (shrinking_2nd k Hk) (conf_in k n) (conf_in_ext k n) c e r p rnd x c' e' r' Hr Ex Hx Hlab Eu) as (c1 & e1 & lab & ps & c2 & C1 & S1 & I1 & Hit).
  destruct (step_shrinks k n loss x rnd c1 e1 lab ps c2 e' Hk Hpar Hloss Hx Hlab HXx S1 I1 Hit j i Hj) as (A & B). rewrite C1 in A, B. auto.
Qed.
Print Assumptions C34_confidence.
(** ECCW and an example of norm 1, after one session on another example. *)
Example C34_witness :
  let k := KECCW (1 / 20) 1 true in
  let p1 := mkpt 1 [1%Z; 3%Z] [1; - 1] in let p2 := mkpt (-1) [2%Z] [1] in
  shrinking k = true /\ conf_params k LHinge /\ loss_ok 1 LHinge /\ fresh Rnum 1 (coreR 1 LHinge) /\
  Forall (use_ok (lo_of k) 1 Some) [UTrain [[(p1, 0)]]] /\ trained_on (conf_example k) Some [UTrain [[(p1, 0)]]] /\
  wf_point (lo_of k) p2 /\ label_ok 1 (p_label p2) /\ conf_example k p2.
Proof.
  cbv zeta. assert (W1 : wf_point 0 (mkpt 1 [1%Z; 3%Z] [1; - 1])) by wfp. assert (W2 : wf_point 0 (mkpt (-1) [2%Z] [1])) by wfp.
  split; [reflexivity|]. split; [cbn; split; [lra|split; [lra|now left]]|]. split; [split; [reflexivity|congruence]|].
  split; [apply freshR; lia|]. split; [|split; [|split; [exact W2|split; [now left|]]]].
  - repeat constructor. eexists. split; [reflexivity|]. split; [exact W1|]. now left.
  - constructor; [|constructor]. constructor; [|constructor]. constructor; [|constructor]. cbn [fst]. intros x [= <-]. split.
    + exists 1. split; [now left|lra].
    + cbn. lra.
  - split; [exists 1; split; [now left|lra]|]. cbn. lra.
Qed.
(** Without the bound on the examples the code of ECCW breaks the property: its margin handler hands
    out phi times the variance instead of phi times its root, the step size becomes negative, and one
    ordinary example makes the confidence of the bias grow and the one of feature 2 negative. *)
Theorem C34_eccw_refuted :
  let k := KECCW (F 1) (F 1) false in
  exists d1 d2, Forall (use_ok 0 1 Some) [fit [d1]; fit [d2]] /\
    exists c1 e1 r1 c2 e2 r2, run k 1 LHinge [fit [d1]] = Some (c1, e1, r1) /\ run k 1 LHinge [fit [d1]; fit [d2]] = Some (c2, e2, r2) /\
      exists s s', nth_error e1 0 = Some s /\ nth_error e2 0 = Some s' /\
        n_lt f32num (nth 0 s (F 0)) (nth 0 s' (F 0)) = true /\ n_lt f32num (nth 2 s' (F 0)) (F 0) = true.
Proof.
  cbv zeta. exists (pt 1 [(1, 10)]%Z), (pt 1 [(1, 5); (2, 3)]%Z). split; [repeat constructor; cbn; acc|].
  eexists _, _, _, _, _, _. split; [vm_compute; reflexivity|]. split; [vm_compute; reflexivity|].
  eexists _, _. split; [reflexivity|]. split; [reflexivity|]. split; vm_compute; reflexivity.
Qed.
Print Assumptions C34_eccw_refuted.

(** ** C35 *)
(** The scales of the adaptive models start at delta; after every session they are at least delta,
    and one more example makes none of them smaller.  After training on a stream of examples from
    scratch the scale of every class and feature is delta plus the root of the sum of the squared
    gradients of the updates that were made. *)
Theorem C35_scales : forall k n loss c0 us pre, adaptive k = true -> 0 < conf0 k -> loss_ok n loss ->
  fresh Rnum n c0 -> c_loss c0 = loss -> Forall (use_ok (lo_of k) n pre) us ->
  (forall j i, conf k (init_of Rnum k n) j i = conf0 k) /\
  exists c e r, session Rnum (alg_of Rnum k) pre us (c0, init_of Rnum k n, true) = Some (c, e, r) /\
    (forall j i, (j < n)%nat -> conf0 k <= conf k e j i) /\
    forall p rnd x, pre p = Some x -> wf_point (lo_of k) x -> label_ok n (p_label x) ->
    exists c' e' r', use_step Rnum (alg_of Rnum k) pre (UTrain [[(p, rnd)]]) (c, e, r) = Some (c', e', r') /\
      forall j i, (j < n)%nat -> conf k e j i <= conf k e' j i.
Proof.
  intros k n loss c0 us pre Hk Hpar Hloss Hf Hl HU. split; [intros; apply init_conf|].
  destruct (session_more k n loss pre c0 us Hf Hl Hloss HU) as (c & e & r & E & More).
  exists c, e, r. split; [exact E|]. pose proof (adapt_rest k n loss pre Hloss Hk Hpar c0 us _ Hf Hl HU E) as Hr.
  split; [apply Hr|]. intros p rnd x Ex Hx Hlab. destruct (More p rnd x Ex Hx Hlab) as (c' & e' & r' & Eu).
  exists c', e', r'. split; [exact Eu|]. intros j i Hj.
  destruct (one_more k n loss pre (adaptive_2nd k Hk) (scale_ok k n) (scale_ext k n) c e r p rnd x c' e' r' Hr Ex Hx Hlab Eu) as (c1 & e1 & lab & ps & c2 & C1 & S1 & I1 & Hit).
  destruct (step_adapts k n loss pre Hloss Hk Hpar x rnd c1 e1 lab ps c2 e' Hx Hlab S1 I1 Hit) as (_ & A). destruct (A j i Hj) as (A' & _). now rewrite C1 in A'.
Qed.
Print Assumptions C35_scales.
Theorem C35_closed_form : forall k n loss c0 ds pre c' e' r', adaptive k = true -> 0 < conf0 k -> loss_ok n loss ->
  fresh Rnum n c0 -> c_loss c0 = loss -> Forall (fun d => accepts (lo_of k) n pre (fst d)) ds ->
  session Rnum (alg_of Rnum k) pre [UTrain [ds]] (c0, init_of Rnum k n, true) = Some (c', e', r') ->
  exists c1 e1 tr c2, a_begin (alg_of Rnum k) c0 (init_of Rnum k n) = Some (c1, e1) /\
    traced k pre ds c1 e1 = Some (tr, c2, e') /\ c' = set_updated c2 true /\
    forall j i, (j < n)%nat -> conf k e' j i = conf0 k + sqrt (accumulated j i tr).
Proof.
  intros k n loss c0 ds pre c' e' r' Hk Hpar Hloss Hf Hl HA H.
  unfold session in H. cbn [foldM use_step] in H. dob H Q0. injection H as ->. dob Q0 Q1. destruct p as (((c3, e3), dp3), evs3). injection Q0 as <- <- <-.
  unfold train_batches in Q1. dob Q1 Q2. destruct p as (c1, e1). dob Q1 Q3. destruct p as (((c4, e4), dp4), evs4). injection Q1 as <- <- <- <-.
  cbn [foldM] in Q3. dob Q3 Q4. destruct p as (((c5, e5), dp5), evs5). injection Q3 as <- <- <- <-.
  assert (HA' : Forall (fun d => exists x, pre (fst d) = Some x) ds) by (eapply Forall_impl; [|exact HA]; intros d (x & Ex & _); eauto).
  destruct (traced_train k pre ds _ _ _ _ _ _ _ _ HA' Q4) as (tr & Et). exists c1, e1, tr, c5. split; [reflexivity|]. split; [exact Et|]. split; [reflexivity|].
  assert (Hr : at_rest Rnum k n loss (fun _ => scale_ok k n) (c0, init_of Rnum k n, true)).
  { apply fresh_rest; auto. intros j i Hj. rewrite init_conf. lra. }
  destruct Hr as (HI & Hi & _). assert (S1 : sound Rnum k n loss c1 e1) by (eapply begin_sound; eauto).
  assert (C1 : forall j i, conf k e1 j i = conf0 k).
  { intros. rewrite <- (init_conf k n j i). destruct Hi as (_ & _ & _ & Hi). eapply conf_begin; eauto using adaptive_2nd. }
  assert (I1 : scale_ok k n e1) by (intros j i Hj; rewrite C1; lra).
  destruct (traced_sum k n loss pre Hloss Hk Hpar ds _ _ _ _ _ HA S1 I1 Et) as (I5 & Hsum). intros j i Hj.
  specialize (Hsum j i Hj). rewrite C1 in Hsum. specialize (I5 j i Hj).
  replace (accumulated j i tr) with ((conf k e5 j i - conf0 k) * (conf k e5 j i - conf0 k)) by lra. rewrite sqrt_square by lra. lra.
Qed.
Print Assumptions C35_closed_form.
(** Three classes, two examples; the hypotheses of both theorems. *)
Example C35_witness :
  let k := KAdaRDA_OFS 1 2 in
  let p1 := mkpt 2 [1%Z; 3%Z] [1; - 1] in let p2 := mkpt 0 [2%Z] [1] in
  adaptive k = true /\ 0 < conf0 k /\ loss_ok 3 LMaxHinge /\ fresh Rnum 3 (coreR 3 LMaxHinge) /\
  Forall (fun d => accepts (lo_of k) 3 Some (fst d)) [(p1, 0); (p2, 0)] /\
  Forall (use_ok (lo_of k) 3 Some) [UTrain [[(p1, 0); (p2, 0)]]].
Proof.
  cbv zeta. assert (W1 : accepts 1 3 Some (mkpt 2 [1%Z; 3%Z] [1; - 1])) by acc. assert (W2 : accepts 1 3 Some (mkpt 0 [2%Z] [1])) by acc.
  split; [reflexivity|]. split; [cbn; lra|]. split; [split; [lia|reflexivity]|].
  split; [apply freshR; lia|]. split; repeat constructor; auto.
Qed.
