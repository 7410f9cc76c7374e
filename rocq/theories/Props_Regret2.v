(** C62: cumulative loss and mistakes of gradient descent on two classes. *)
From Coq Require Import Reals Lra Psatz Sorted.
From Verif Require Import M_Base M_Num M_Expr M_Loss M_Online M_Olm M_OlmSel M_Heap M_Algs S_Expr
  S_Real S_Loss S_Online S_Session S_Learn S_Regret P_DataPoint P_Expr P_Real P_Online P_Predict P_Step P_Safe P_SafeOlm P_SafeSel2
  P_Session P_Session2 P_Inv P_Loss P_Loss2 P_Conf P_Conf2 P_Perc P_PA P_Keep P_Regret P_Regret2 Props_Online Props_Learn Props_Regret.
Local Open Scope R_scope.

(** [rounds] is the training, also for OGD. *)
Theorem C62_rounds : forall eta0 pt n loss c0 bs pre, let k := KOGD eta0 pt in loss_ok n loss -> fresh Rnum n c0 -> c_loss c0 = loss ->
  Forall (Forall (fun d => accepts 0 n pre (fst d))) bs ->
  exists c' e' r' tr c2, session Rnum (alg_of Rnum k) pre [UTrain bs] (c0, init_of Rnum k n, true) = Some (c', e', r') /\
    rounds k pre (concat bs) c0 (init_of Rnum k n) = Some (tr, c2, e') /\ c' = set_updated c2 true /\
    Forall2 (fun d t => pre (fst d) = Some (fst t)) (concat bs) tr.
Proof. intros eta0 pt n loss c0 bs pre k. apply rounds_training; [reflexivity|]. intros. reflexivity. Qed.
Print Assumptions C62_rounds.

(** OGD with any step sizes eta0 / t^power_t against any linear function u with a bias: the losses,
    weighted by the step sizes, exceed those of u by at most this much. *)
Theorem C62_ogd : forall eta0 pt loss c0 e ds pre tr c' e' u, 0 <= eta0 -> (loss = LHinge \/ loss = LLogistic) -> descent_model c0 -> c_loss c0 = loss ->
  rounds (KOGD eta0 pt) pre ds c0 e = Some (tr, c', e') -> Forall (fun t => usable (fst t)) tr ->
  let m := c_margin c0 in let b0 := c_b0 c0 in let eta := rate eta0 pt in let t1 := (c_iter c0 + 1)%Z in
  2 * timed (fun t a => eta t * (own_loss loss m a - fixed_loss loss m b0 u a)) t1 tr
  <= size2 [u] + timed (fun t a => eta t * eta t * (sqnorm (feats (fst a)) + b0)) t1 tr + 2 * slack loss * timed (fun t _ => eta t) t1 tr.
Proof.
  intros eta0 pt loss c0 e ds pre tr c' e' u He Hok Hm Hl H Hp m b0 eta t1.
  destruct (fresh_okd loss c0 Hm Hl) as (Hc & Hom).
  destruct (descent_rounds eta0 pt loss He Hok m b0 u (proj1 (proj2 Hm)) pre ds c0 e tr c' e' 0 Hc Hom H Hp) as (_ & _ & _ & om' & _ & G).
  specialize (G (c_dim c') (le_n _)). pose proof (apart_nonneg u (c_dim c') om' (nth 0 (c_ws c') [])).
  assert (A : apart u (c_dim c') 0 (nth 0 (c_ws c0) []) <= size2 [u]). { destruct Hm as ((_ & -> & _) & _). cbn [repeat nth]. apply apart_fresh. }
  fold t1 in G. rewrite timed_minus in G. fold eta in G. rewrite <- timed_scal, <- (timed_scal (fun t _ => eta t)).
  assert (X : forall l t, timed (fun t a => 2 * eta t * (own_loss loss m a - fixed_loss loss m b0 u a - slack loss)) t l =
    timed (fun t a => 2 * (eta t * (own_loss loss m a - fixed_loss loss m b0 u a))) t l - timed (fun t (_ : point R * list (list R)) => 2 * slack loss * eta t) t l).
  { clear. induction l as [|a l IH]; intros t; cbn [timed]; [ring|]. rewrite IH. ring. }
  rewrite X in G. lra.
Qed.
Print Assumptions C62_ogd.
(** A constant step size (power_t = 0): the regret over T rounds, and the mistakes. *)
Theorem C62_constant : forall eta0 loss c0 e ds pre tr c' e' u rad2, 0 < eta0 -> (loss = LHinge \/ loss = LLogistic) -> descent_model c0 -> c_loss c0 = loss ->
  rounds (KOGD eta0 0) pre ds c0 e = Some (tr, c', e') -> Forall (fun t => usable (fst t)) tr ->
  let m := c_margin c0 in let b0 := c_b0 c0 in let T := INR (length tr) in
  (forall t, In t tr -> sqnorm (feats (fst t)) + b0 <= rad2) ->
  total (own_loss loss m) tr <= total (fixed_loss loss m b0 u) tr + size2 [u] / (2 * eta0) + eta0 / 2 * rad2 * T + slack loss * T /\
  floor loss m * IZR (c_err c' - c_err c0) <= total (own_loss loss m) tr.
Proof.
  intros eta0 loss c0 e ds pre tr c' e' u rad2 He Hok Hm Hl H Hp m b0 T Hr.
  destruct (fresh_okd loss c0 Hm Hl) as (Hc & Hom).
  destruct (descent_rounds eta0 0 loss (Rlt_le _ _ He) Hok m b0 u (proj1 (proj2 Hm)) pre ds c0 e tr c' e' 0 Hc Hom H Hp) as (_ & _ & M & _).
  split; [|exact M].
  pose proof (C62_ogd eta0 0 loss c0 e ds pre tr c' e' u (Rlt_le _ _ He) Hok Hm Hl H Hp) as G. cbv zeta in G. fold m b0 in G.
  assert (Hi : (0 <= c_iter c0)%Z) by apply Hm.
  assert (R1 : forall t, rate eta0 0 t = eta0).
  { intros t. unfold rate, Rpower. rewrite Rmult_0_l, exp_0. field. }
  set (t1 := (c_iter c0 + 1)%Z) in *.
  assert (E1 : timed (fun t a => rate eta0 0 t * (own_loss loss m a - fixed_loss loss m b0 u a)) t1 tr = eta0 * (total (own_loss loss m) tr - total (fixed_loss loss m b0 u) tr)).
  { rewrite <- total_minus, <- (timed_const _ tr t1), <- timed_scal. clear - R1. generalize t1. induction tr as [|a l IH]; intros t; cbn [timed]; [reflexivity|]. now rewrite IH, R1. }
  assert (E2 : timed (fun t (a : point R * list (list R)) => rate eta0 0 t * rate eta0 0 t * (sqnorm (feats (fst a)) + b0)) t1 tr <= eta0 * eta0 * rad2 * T).
  { unfold T. clear - R1 Hr He. generalize t1. induction tr as [|a l IH]; intros t; cbn [timed length]; [cbn; lra|]. rewrite S_INR. specialize (IH ltac:(intros; apply Hr; now right) (t + 1)%Z). specialize (Hr a ltac:(now left)). rewrite R1.
    assert (eta0 * eta0 * (sqnorm (feats (fst a)) + b0) <= eta0 * eta0 * rad2) by (apply Rmult_le_compat_l; [apply Rle_0_sqr|exact Hr]). lra. }
  assert (E3 : timed (fun t (_ : point R * list (list R)) => rate eta0 0 t) t1 tr = eta0 * T).
  { unfold T. clear - R1. generalize t1. induction tr as [|a l IH]; intros t; cbn [timed length]; [cbn; ring|]. rewrite S_INR, IH, R1. ring. }
  rewrite E1, E3 in G. set (Lo := total (own_loss loss m) tr) in *. set (Lf := total (fixed_loss loss m b0 u) tr) in *.
  apply Rmult_le_reg_l with (r := 2 * eta0); [lra|].
  replace (2 * eta0 * (Lf + size2 [u] / (2 * eta0) + eta0 / 2 * rad2 * T + slack loss * T)) with (2 * eta0 * Lf + size2 [u] + eta0 * eta0 * rad2 * T + 2 * slack loss * (eta0 * T)) by (field; lra).
  lra.
Qed.
Print Assumptions C62_constant.
(** The best constant step for T rounds gives a regret of sqrt T. *)
Theorem C62_root : forall len loss c0 e ds pre tr c' e' u rad2, 0 < len -> 0 < rad2 -> (loss = LHinge \/ loss = LLogistic) -> descent_model c0 -> c_loss c0 = loss ->
  let m := c_margin c0 in let b0 := c_b0 c0 in let T := INR (length tr) in
  (0 < length tr)%nat -> rounds (KOGD (len / sqrt (rad2 * T)) 0) pre ds c0 e = Some (tr, c', e') -> Forall (fun t => usable (fst t)) tr ->
  (forall t, In t tr -> sqnorm (feats (fst t)) + b0 <= rad2) -> size2 [u] <= len * len ->
  total (own_loss loss m) tr <= total (fixed_loss loss m b0 u) tr + len * sqrt (rad2 * T) + slack loss * T.
Proof.
  intros len loss c0 e ds pre tr c' e' u rad2 Hlen Hr2 Hok Hm Hl m b0 T HT H Hp Hr Hs.
  assert (T0 : 0 < T) by (apply lt_0_INR; exact HT).
  assert (Q : 0 < sqrt (rad2 * T)) by (apply sqrt_lt_R0, Rmult_lt_0_compat; assumption).
  assert (E : sqrt (rad2 * T) * sqrt (rad2 * T) = rad2 * T) by (apply sqrt_sqrt; left; now apply Rmult_lt_0_compat).
  set (q := sqrt (rad2 * T)) in *.
  assert (He : 0 < len / q) by (apply Rmult_lt_0_compat; [exact Hlen|now apply Rinv_0_lt_compat]).
  destruct (C62_constant (len / q) loss c0 e ds pre tr c' e' u rad2 He Hok Hm Hl H Hp Hr) as (G & _). fold m b0 T in G.
  eapply Rle_trans; [exact G|]. apply Rplus_le_compat_r. rewrite Rplus_assoc. apply Rplus_le_compat_l.
  assert (A1 : size2 [u] / (2 * (len / q)) <= len * q / 2).
  { replace (len * q / 2) with (len * len / (2 * (len / q))) by (field; lra). apply Rmult_le_compat_r; [|exact Hs]. left. apply Rinv_0_lt_compat. lra. }
  assert (A2 : len / q / 2 * rad2 * T = len * q / 2).
  { replace (len / q / 2 * rad2 * T) with (len / q / 2 * (rad2 * T)) by ring. rewrite <- E. field. lra. }
  lra.
Qed.
Print Assumptions C62_root.
(** Both losses, a bias, two examples; the first round suffers a loss and the fixed function less of it. *)
Definition stepR (k : loss_kind) : core (R:=R) := mkcore [[0]] [0] 1 1 1 0 0 0 0 0 false 0 None k 1 0 false.
Example C62_witness : forall loss eta0 pt, loss = LHinge \/ loss = LLogistic -> 0 < eta0 ->
  let p1 := mkpt 1 [1%Z; 3%Z] [1; 1] in let p2 := mkpt (-1) [2%Z] [1] in let u := ([0; 1; -2; 0], 1) in
  descent_model (stepR loss) /\ size2 [u] = 6 /\
  exists tr c' e', rounds (KOGD eta0 pt) Some [(p1, 0); (p2, 0)] (stepR loss) (init_of Rnum (KOGD eta0 pt) 1) = Some (tr, c', e') /\ length tr = 2%nat /\
    Forall (fun t => usable (fst t)) tr /\ (forall t, In t tr -> sqnorm (feats (fst t)) + 1 <= 3) /\
    exists t, In t tr /\ fixed_loss loss 1 1 u t < own_loss loss 1 t.
Proof.
  intros loss eta0 pt Hok He p1 p2 u. assert (A1 : accepts 0 1 Some p1) by acc. assert (A2 : accepts 0 1 Some p2) by acc.
  assert (Hf : fresh Rnum 1 (stepR loss)) by (split; [lia|]; repeat split).
  split. { split; [exact Hf|]. cbn. repeat split; try lra; lia. }
  split; [unfold size2, u, sumsq; cbn [fold_right fst snd]; ring|].
  destruct (C62_rounds eta0 pt 1 loss (stepR loss) [[(p1, 0); (p2, 0)]] Some) as (c' & e' & r' & tr & c2 & _ & E & _ & F).
  { split; [intros _; destruct Hok as [->| ->]; reflexivity|congruence]. } { exact Hf. } { reflexivity. } { repeat constructor; auto. }
  cbn [concat app] in E, F. exists tr, c2, e'. split; [exact E|].
  inversion F as [|? t1 ? l1 H1 F1]; subst. inversion F1 as [|? t2 ? l2 H2 F2]; subst. inversion F2; subst. cbn [fst] in H1, H2.
  destruct t1 as (x1, w1). destruct t2 as (x2, w2). cbn [fst] in H1, H2. apply Some_inj in H1. apply Some_inj in H2. subst x1 x2.
  split; [reflexivity|].
  split. { constructor; [|constructor; [|constructor]]; (split; [wfp|split; [repeat constructor; lia|cbn; auto]]). }
  split; [intros t [<-|[<-|[]]]; cbn; lra|]. exists (p1, w1). split; [now left|].
  cbn [rounds] in E. cbn [fst bind] in E. dob E Q1. destruct p as (? & ?). dob E Q2. destruct p as ((? & ?) & ?). injection E as E _ _ _; subst w1.
  assert (E1 : value 1 u (feats p1) = 2). { unfold value, inner, u, p1. cbn [feats p_idx p_val combine fold_right fst snd]. change (Z.to_nat 1) with 1%nat. change (Z.to_nat 3) with 3%nat. cbn [nth]. rewrite sqrt_1. ring. }
  assert (E2 : lin [0] (feats p1) = 0). { unfold lin, inner, p1. cbn [feats p_idx p_val combine fold_right fst snd]. change (Z.to_nat 1) with 1%nat. change (Z.to_nat 3) with 3%nat. cbn [nth]. ring. }
  unfold fixed_loss, own_loss. cbn [fst snd c_ws stepR nth p_label p1]. fold p1. rewrite E1, E2. destruct Hok as [->| ->]; cbn [loss_at].
  - unfold hinge. rewrite Rmax_left, Rmax_right by lra. lra.
  - apply ln_increasing; [pose proof (exp_pos (- (2 * 1))); lra|]. apply Rplus_lt_compat_l. apply exp_increasing. lra.
Qed.
