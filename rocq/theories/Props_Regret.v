(** C61: cumulative bounds of the passive-aggressive models. *)
From Coq Require Import Reals Lra Psatz Sorted.
From Verif Require Import M_Base M_Num M_Expr M_Loss M_Online M_Olm M_OlmSel M_Heap M_Algs S_Expr
  S_Real S_Loss S_Online S_Session S_Learn S_Regret P_DataPoint P_Expr P_Real P_Online P_Predict P_Step P_Safe P_SafeOlm P_SafeSel2
  P_Session P_Session2 P_Inv P_Loss P_Loss2 P_Conf P_Conf2 P_Perc P_PA P_Keep P_Regret Props_Online Props_Learn.
Local Open Scope R_scope.

Lemma pa_total k n c0 ds pre e tr c' e' us : pa_kind k -> plain_model n c0 -> c_loss c0 = hinge_for n -> unbiased n us ->
  rounds k pre ds c0 e = Some (tr, c', e') -> Forall (fun t => proper n (fst t)) tr -> finite_scores n tr ->
  let m := c_margin c0 in
  total (fun t => gain k (moved n * sqnorm (feats (fst t))) (suffered m t) (hindsight m us t)) tr <= length2 us /\
  forall h : point R * list (list R) -> R, (forall t, In t tr -> 0 <= h t) -> (forall t, In t tr -> m <= suffered m t -> 1 <= h t) -> IZR (c_err c' - c_err c0) <= total h tr.
Proof.
  intros Hk Hm Hl Hus H Hp Hf m.
  destruct (all_rounds k n (hinge_for n) m us Hk eq_refl Hus pre ds c0 e tr c' e' (fresh_okc n _ c0 Hm Hl) H Hp Hf) as (_ & _ & M & G).
  split; [|exact M]. specialize (G (c_dim c') (le_n _)). pose proof (dist2_fresh n c0 us (c_dim c') (proj1 Hm) (proj1 Hus)). pose proof (dist2_nonneg n (c_dim c') (c_ws c') us). lra.
Qed.
Lemma in_proper n (tr : list (point R * list (list R))) t : Forall (fun t => proper n (fst t)) tr -> In t tr -> 0 < moved n * sqnorm (feats (fst t)).
Proof. intros H Ht. rewrite Forall_forall in H. destruct (H t Ht) as (_ & _ & Hx & _). unfold moved. destruct (n =? 1)%nat; lra. Qed.
Lemma suffered_nonneg m t : 0 <= suffered m t.
Proof. apply margin_loss_nonneg. Qed.
Lemma moved_pos n : 0 < moved n.
Proof. unfold moved. destruct (n =? 1)%nat; lra. Qed.

Lemma le_scaled a b v : 0 < a -> 0 <= v -> a <= b -> v <= b * (v / a).
Proof.
  intros Ha Hv Hab. assert (0 < / a) by now apply Rinv_0_lt_compat. assert (E : v = a * (v / a)) by (field; lra). rewrite E at 1. apply Rmult_le_compat_r; [|exact Hab].
  apply Rmult_le_pos; lra.
Qed.
Lemma mistakes_h m b (tr : list (point R * list (list R))) (E : R) f :
  (forall h : point R * list (list R) -> R, (forall t, In t tr -> 0 <= h t) -> (forall t, In t tr -> m <= suffered m t -> 1 <= h t) -> E <= total h tr) ->
  0 <= b -> (forall t, In t tr -> 0 <= f t) -> (forall t, In t tr -> m <= suffered m t -> b <= f t) -> b * E <= total f tr.
Proof.
  intros M Hb Hf Hm. destruct (Req_dec b 0) as [->|Hb0].
  { rewrite Rmult_0_l. rewrite <- (Rmult_0_l (total f tr)), <- total_scal. apply total_le. intros t Ht. specialize (Hf t Ht). lra. }
  assert (I : 0 < / b) by (apply Rinv_0_lt_compat; lra).
  assert (X : E <= total (fun t => / b * f t) tr).
  { apply M; [intros t Ht; apply Rmult_le_pos; [lra|auto]|]. intros t Ht Hge. specialize (Hm t Ht Hge). rewrite <- (Rinv_l b) by lra. apply Rmult_le_compat_l; lra. }
  rewrite total_scal in X. apply Rmult_le_compat_l with (r := b) in X; [|lra]. rewrite <- Rmult_assoc, Rinv_r, Rmult_1_l in X by lra. exact X.
Qed.
Lemma mistakes_sq m (tr : list (point R * list (list R))) (E b : R) :
  (forall h : point R * list (list R) -> R, (forall t, In t tr -> 0 <= h t) -> (forall t, In t tr -> m <= suffered m t -> 1 <= h t) -> E <= total h tr) ->
  0 <= m -> total (fun t => suffered m t * suffered m t) tr <= b -> (forall t, In t tr -> 0 <= suffered m t) -> m * m * E <= b.
Proof.
  intros M Hm Hb Hs. eapply Rle_trans; [|exact Hb]. apply (mistakes_h m _ tr E _ M); [apply Rle_0_sqr|intros; apply Rle_0_sqr|].
  intros t Ht Hge. apply Rmult_le_compat; lra.
Qed.

Lemma rounds_training k n loss c0 bs pre : lo_of k = 0%Z -> (forall c e, a_begin (alg_of Rnum k) c e = Some (c, e)) -> loss_ok n loss -> fresh Rnum n c0 -> c_loss c0 = loss ->
  Forall (Forall (fun d => accepts 0 n pre (fst d))) bs ->
  exists c' e' r' tr c2, session Rnum (alg_of Rnum k) pre [UTrain bs] (c0, init_of Rnum k n, true) = Some (c', e', r') /\
    rounds k pre (concat bs) c0 (init_of Rnum k n) = Some (tr, c2, e') /\ c' = set_updated c2 true /\
    Forall2 (fun d t => pre (fst d) = Some (fst t)) (concat bs) tr.
Proof.
  intros Hk Hbeg Hloss Hf Hl HA.
  destruct (session_more k n loss pre c0 [UTrain bs] Hf Hl Hloss) as (c' & e' & r' & E & _).
  { constructor; [|constructor]. cbn [use_ok]. now rewrite Hk. }
  assert (G : forall ds c e dp evs c' e' dp' evs', Forall (fun d => accepts 0 n pre (fst d)) ds -> foldM (train_step Rnum (alg_of Rnum k) pre) ds (c, e, dp, evs) = Some (c', e', dp', evs') ->
    exists tr, rounds k pre ds c e = Some (tr, c', e') /\ Forall2 (fun d t => pre (fst d) = Some (fst t)) ds tr).
  { clear. induction ds as [|d ds IH]; intros c e dp evs c' e' dp' evs' HA H; cbn [foldM rounds] in *.
    - injection H as <- <- <- <-. eauto.
    - dob H Q1. destruct p as (((c1, e1), dp1), evs1). inversion HA as [|? ? (x & Ex & _) HA']; subst. unfold train_step in Q1. dob Q1 Q2. destruct p as (c2, e2).
      assert (E : c2 = c1 /\ e2 = e1) by (destruct (next_show dp <=? c_data c2)%Z; injection Q1; auto). destruct E as (-> & ->).
      rewrite Ex. cbn [bind]. destruct (IH _ _ _ _ _ _ _ _ HA' H) as (tr & -> & F). cbn [bind]. eexists. split; [reflexivity|]. constructor; [exact Ex|exact F]. }
  assert (GB : forall bs c e dp evs c' e' dp' evs', Forall (Forall (fun d => accepts 0 n pre (fst d))) bs -> foldM (fun b st => foldM (train_step Rnum (alg_of Rnum k) pre) b st) bs (c, e, dp, evs) = Some (c', e', dp', evs') ->
    foldM (train_step Rnum (alg_of Rnum k) pre) (concat bs) (c, e, dp, evs) = Some (c', e', dp', evs')).
  { clear. assert (A : forall (f : point R * R -> core (R:=R) * state_of k * displayer * list event -> option (core (R:=R) * state_of k * displayer * list event)) l1 l2 s, foldM f (l1 ++ l2) s = (do s' <- foldM f l1 s; foldM f l2 s')).
    { intros f. induction l1 as [|a l1 IH]; intros l2 s; cbn [app foldM]; [reflexivity|]. destruct (f a s) as [s1|]; cbn [bind]; auto. }
    induction bs as [|b bs IH]; intros c e dp evs c' e' dp' evs' HA H; cbn [foldM concat] in *; [exact H|].
    inversion HA; subst. dob H Q. destruct p as (((c1, e1), dp1), evs1). rewrite A, Q. cbn [bind]. now apply IH. }
  pose proof E as E0. unfold session in E. cbn [foldM use_step] in E. dob E Q0. injection E as ->. dob Q0 Q1. destruct p as (((c3, e3), dp3), evs3). injection Q0 as <- <- <-.
  unfold train_batches in Q1. dob Q1 Q2. destruct p as (c1, e1). dob Q1 Q3. destruct p as (((c4, e4), dp4), evs4). injection Q1 as <- <- <- <-.
  assert (Eb : c1 = c0 /\ e1 = init_of Rnum k n) by (rewrite Hbeg in Q2; injection Q2; auto). destruct Eb as (-> & ->).
  pose proof (GB _ _ _ _ _ _ _ _ _ HA Q3) as Q4.
  destruct (G _ _ _ _ _ _ _ _ _ ltac:(apply Forall_concat; exact HA) Q4) as (tr & Et & F).
  exists (set_updated c4 true), e4, false, tr, c4. auto.
Qed.

(** [rounds] is the training: every accepted example gives one round, in the order of the batches. *)
Theorem C61_rounds : forall k n loss c0 bs pre, pa_kind k -> loss_ok n loss -> fresh Rnum n c0 -> c_loss c0 = loss ->
  Forall (Forall (fun d => accepts 0 n pre (fst d))) bs ->
  exists c' e' r' tr c2, session Rnum (alg_of Rnum k) pre [UTrain bs] (c0, init_of Rnum k n, true) = Some (c', e', r') /\
    rounds k pre (concat bs) c0 (init_of Rnum k n) = Some (tr, c2, e') /\ c' = set_updated c2 true /\
    Forall2 (fun d t => pre (fst d) = Some (fst t)) (concat bs) tr.
Proof. intros k n loss c0 bs pre Hk. apply rounds_training; [now apply pa_lo|]. intros. destruct k; try contradiction; reflexivity. Qed.
Print Assumptions C61_rounds.

(** PA against any linear functions us without loss: the squared losses relative to the length of the
    examples add up to at most the squared length of us; so do the mistakes. *)
Theorem C61_pa : forall n c0 e ds pre tr c' e' us, plain_model n c0 -> c_loss c0 = hinge_for n -> unbiased n us ->
  rounds KPA pre ds c0 e = Some (tr, c', e') -> Forall (fun t => proper n (fst t)) tr -> finite_scores n tr ->
  let m := c_margin c0 in
  (forall t, In t tr -> hindsight m us t = 0) ->
  total (fun t => suffered m t * suffered m t / (moved n * sqnorm (feats (fst t)))) tr <= length2 us /\
  forall rad2, 0 <= rad2 -> (forall t, In t tr -> sqnorm (feats (fst t)) <= rad2) ->
    total (fun t => suffered m t * suffered m t) tr <= moved n * rad2 * length2 us /\
    (0 <= m -> m * m * IZR (c_err c' - c_err c0) <= moved n * rad2 * length2 us).
Proof.
  intros n c0 e ds pre tr c' e' us Hm Hl Hus H Hp Hf m Hz.
  destruct (pa_total KPA n c0 ds pre e tr c' e' us I Hm Hl Hus H Hp Hf) as (G & M). fold m in G, M. cbn [gain] in G.
  assert (G1 : total (fun t => suffered m t * suffered m t / (moved n * sqnorm (feats (fst t)))) tr <= length2 us).
  { eapply Rle_trans; [|exact G]. apply total_le. intros t Ht. rewrite (Hz t Ht). lra. }
  split; [exact G1|]. intros rad2 Hr0 Hr.
  assert (G2 : total (fun t => suffered m t * suffered m t) tr <= moved n * rad2 * length2 us).
  { eapply Rle_trans; [|apply Rmult_le_compat_l; [|exact G1]]; [|apply Rmult_le_pos; [left; apply moved_pos|exact Hr0]].
    rewrite <- total_scal. apply total_le. intros t Ht. pose proof (in_proper n tr t Hp Ht) as P. specialize (Hr t Ht). pose proof (moved_pos n) as Q.
    apply le_scaled; [exact P|apply Rle_0_sqr|]. apply Rmult_le_compat_l; lra. }
  split; [exact G2|]. intros Hm0. eapply mistakes_sq; eauto. intros t _. apply suffered_nonneg.
Qed.
Print Assumptions C61_pa.
(** PA-I with parameter C against any linear functions us. *)
Theorem C61_pa1 : forall C n c0 e ds pre tr c' e' us, 0 < C -> plain_model n c0 -> c_loss c0 = hinge_for n -> unbiased n us ->
  rounds (KPA1 C) pre ds c0 e = Some (tr, c', e') -> Forall (fun t => proper n (fst t)) tr -> finite_scores n tr ->
  let m := c_margin c0 in
  total (fun t => Rmin C (suffered m t / (moved n * sqnorm (feats (fst t)))) * suffered m t) tr <= length2 us + 2 * C * total (hindsight m us) tr /\
  forall rad2, 0 < rad2 -> (forall t, In t tr -> sqnorm (feats (fst t)) <= rad2) -> 0 <= m ->
    Rmin C (m / (moved n * rad2)) * m * IZR (c_err c' - c_err c0) <= length2 us + 2 * C * total (hindsight m us) tr.
Proof.
  intros C n c0 e ds pre tr c' e' us HC Hm Hl Hus H Hp Hf m.
  destruct (pa_total (KPA1 C) n c0 ds pre e tr c' e' us HC Hm Hl Hus H Hp Hf) as (G & M). fold m in G, M. cbn [gain] in G.
  rewrite total_minus, total_scal in G. split; [lra|]. intros rad2 Hr0 Hr Hm0.
  set (b := Rmin C (m / (moved n * rad2)) * m). pose proof (moved_pos n) as Q.
  assert (P0 : 0 < moved n * rad2) by now apply Rmult_lt_0_compat.
  assert (Hb : 0 <= b). { apply Rmult_le_pos; [|exact Hm0]. apply Rmin_glb; [lra|]. apply Rmult_le_pos; [exact Hm0|]. left. now apply Rinv_0_lt_compat. }
  eapply Rle_trans; [apply (mistakes_h m b tr _ (fun t => Rmin C (suffered m t / (moved n * sqnorm (feats (fst t)))) * suffered m t) M Hb)|lra].
  - intros t Ht. pose proof (in_proper n tr t Hp Ht) as P. pose proof (suffered_nonneg m t). apply Rmult_le_pos; [|assumption]. apply Rmin_glb; [lra|]. apply Rmult_le_pos; [assumption|]. left. now apply Rinv_0_lt_compat.
  - intros t Ht Hge. pose proof (in_proper n tr t Hp Ht) as P. specialize (Hr t Ht). unfold b.
    assert (I : / (moved n * rad2) <= / (moved n * sqnorm (feats (fst t)))) by (apply Rinv_le_contravar; [exact P|apply Rmult_le_compat_l; lra]).
    assert (I0 : 0 < / (moved n * rad2)) by now apply Rinv_0_lt_compat.
    apply Rmult_le_compat; [apply Rmin_glb; [lra|apply Rmult_le_pos; lra]|exact Hm0| |exact Hge].
    apply Rle_min_compat_l. unfold Rdiv. apply Rmult_le_compat; lra.
Qed.
Print Assumptions C61_pa1.
(** PA-II with parameter C against any linear functions us. *)
Theorem C61_pa2 : forall C n c0 e ds pre tr c' e' us, 0 < C -> plain_model n c0 -> c_loss c0 = hinge_for n -> unbiased n us ->
  rounds (KPA2 C) pre ds c0 e = Some (tr, c', e') -> Forall (fun t => proper n (fst t)) tr -> finite_scores n tr ->
  let m := c_margin c0 in
  total (fun t => suffered m t * suffered m t / (moved n * sqnorm (feats (fst t)) + 1 / (2 * C))) tr
    <= length2 us + 2 * C * total (fun t => hindsight m us t * hindsight m us t) tr /\
  forall rad2, 0 <= rad2 -> (forall t, In t tr -> sqnorm (feats (fst t)) <= rad2) ->
    let bound := (moved n * rad2 + 1 / (2 * C)) * (length2 us + 2 * C * total (fun t => hindsight m us t * hindsight m us t) tr) in
    total (fun t => suffered m t * suffered m t) tr <= bound /\ (0 <= m -> m * m * IZR (c_err c' - c_err c0) <= bound).
Proof.
  intros C n c0 e ds pre tr c' e' us HC Hm Hl Hus H Hp Hf m.
  destruct (pa_total (KPA2 C) n c0 ds pre e tr c' e' us HC Hm Hl Hus H Hp Hf) as (G & M). fold m in G, M. cbn [gain] in G.
  rewrite total_minus, total_scal in G.
  assert (G1 : total (fun t => suffered m t * suffered m t / (moved n * sqnorm (feats (fst t)) + 1 / (2 * C))) tr <= length2 us + 2 * C * total (fun t => hindsight m us t * hindsight m us t) tr) by lra.
  split; [exact G1|]. intros rad2 Hr0 Hr bound. assert (IC : 0 < 1 / (2 * C)) by (unfold Rdiv; rewrite Rmult_1_l; apply Rinv_0_lt_compat; lra).
  pose proof (moved_pos n) as Q. assert (P0 : 0 <= moved n * rad2) by (apply Rmult_le_pos; lra).
  assert (G2 : total (fun t => suffered m t * suffered m t) tr <= bound).
  { unfold bound. eapply Rle_trans; [|apply Rmult_le_compat_l; [lra|exact G1]].
    rewrite <- total_scal. apply total_le. intros t Ht. pose proof (in_proper n tr t Hp Ht) as P. specialize (Hr t Ht).
    apply le_scaled; [lra|apply Rle_0_sqr|]. apply Rplus_le_compat_r. apply Rmult_le_compat_l; lra. }
  split; [exact G2|]. intros Hm0. eapply mistakes_sq; eauto. intros t _. apply suffered_nonneg.
Qed.
Print Assumptions C61_pa2.
(** Two classes: two examples, both suffer loss 1, and functions without loss.  The hypotheses of all
    three theorems, for one training. *)
Local Ltac evl := cbn -[Rmax Rplus Rmult Rminus Ropp IZR]; try change (Pos.to_nat 1) with 1%nat; try change (Pos.to_nat 2) with 2%nat; try change (Pos.to_nat 3) with 3%nat; cbn -[Rmax Rplus Rmult Rminus Ropp IZR].
Definition plainR (n : nat) (k : loss_kind) : core (R:=R) :=
  mkcore (repeat [0] n) (repeat 0 n) 1 1 0 0 0 0 0 0 false 0 None k 1 0 false.
Lemma plain_plainR n k : (1 <= n)%nat -> plain_model n (plainR n k).
Proof. intros H. split; [split; [exact H|]; repeat split; cbn; apply repeat_length|]. cbn. repeat split; lra. Qed.
Example C61_witness : forall k, pa_kind k ->
  let p1 := mkpt 1 [1%Z; 3%Z] [1; 1] in let p2 := mkpt (-1) [2%Z] [2] in let us := [[0; 1; -1; 0]] in
  plain_model 1 (plainR 1 LHinge) /\ unbiased 1 us /\ length2 us = 2 /\
  exists tr c' e', rounds k Some [(p1, 0); (p2, 0)] (plainR 1 LHinge) (init_of Rnum k 1) = Some (tr, c', e') /\
    Forall (fun t => proper 1 (fst t)) tr /\ finite_scores 1 tr /\ (forall t, In t tr -> hindsight 1 us t = 0) /\
    (forall t, In t tr -> sqnorm (feats (fst t)) <= 4) /\ exists t, In t tr /\ suffered 1 t = 1.
Proof.
  intros k Hk p1 p2 us. assert (A1 : accepts 0 1 Some p1) by acc. assert (A2 : accepts 0 1 Some p2) by acc.
  split; [apply plain_plainR; lia|]. split; [split; [reflexivity|repeat constructor]|]. split; [unfold length2, total, us, sumsq; cbn [fold_right]; ring|].
  destruct (C61_rounds k 1 LHinge (plainR 1 LHinge) [[(p1, 0); (p2, 0)]] Some Hk) as (c' & e' & r' & tr & c2 & _ & E & _ & F).
  { split; [reflexivity|congruence]. } { apply plain_plainR; lia. } { reflexivity. } { repeat constructor; auto. }
  cbn [concat app] in E, F. exists tr, c2, e'. split; [exact E|].
  inversion F as [|? t1 ? l1 H1 F1]; subst. inversion F1 as [|? t2 ? l2 H2 F2]; subst. inversion F2; subst. cbn [fst] in H1, H2.
  destruct t1 as (x1, w1). destruct t2 as (x2, w2). cbn [fst] in H1, H2. apply Some_inj in H1. apply Some_inj in H2. subst x1 x2.
  split. { constructor; [|constructor; [|constructor]]; (split; [wfp|split; [repeat constructor; lia|split; [cbn; lra|cbn; auto]]]). }
  split; [intros Hn; lia|]. split.
  { intros t [<-|[<-|[]]]; unfold hindsight, margin_loss, us, hinge, lin, inner, p1, p2; evl; rewrite Rmax_left; lra. }
  split; [intros t [<-|[<-|[]]]; cbn; lra|]. exists (p1, w1). split; [now left|].
  cbn [rounds] in E. cbn [fst bind] in E. dob E Q1. destruct p as (? & ?). dob E Q2. destruct p as ((? & ?) & ?). injection E as E _ _ _; subst w1.
  unfold suffered, margin_loss, hinge, lin, inner. evl. rewrite Rmax_right; lra.
Qed.
(** Three classes. *)
Example C61_witness_multi : forall k, pa_kind k ->
  let p1 := mkpt 2 [1%Z] [2] in let us := [[0; -1]; [0; 0]; [0; 1]] in
  plain_model 3 (plainR 3 LMaxHinge) /\ unbiased 3 us /\
  exists tr c' e', rounds k Some [(p1, 0)] (plainR 3 LMaxHinge) (init_of Rnum k 3) = Some (tr, c', e') /\
    Forall (fun t => proper 3 (fst t)) tr /\ finite_scores 3 tr /\ (forall t, In t tr -> hindsight 1 us t = 0) /\ exists t, In t tr /\ suffered 1 t = 1.
Proof.
  intros k Hk p1 us. assert (A1 : accepts 0 3 Some p1) by acc.
  split; [apply plain_plainR; lia|]. split; [split; [reflexivity|repeat constructor]|].
  destruct (C61_rounds k 3 LMaxHinge (plainR 3 LMaxHinge) [[(p1, 0)]] Some Hk) as (c' & e' & r' & tr & c2 & _ & E & _ & F).
  { split; [lia|reflexivity]. } { apply plain_plainR; lia. } { reflexivity. } { repeat constructor; auto. }
  cbn [concat app] in E, F. exists tr, c2, e'. split; [exact E|].
  inversion F as [|? t1 ? l1 H1 F1]; subst. inversion F1; subst. cbn [fst] in H1. destruct t1 as (x1, w1). cbn [fst] in H1. apply Some_inj in H1. subst x1.
  cbn [rounds] in E. cbn [fst bind] in E. dob E Q1. destruct p as (? & ?). injection E as E _ _. subst w1.
  assert (L : forall v, In v (c_ws (plainR 3 LMaxHinge)) -> lin v (feats p1) = 0).
  { intros v Hv. apply repeat_spec in Hv. subst v. unfold lin, inner, p1. cbn [feats p_idx p_val combine fold_right fst snd]. rewrite (nth_overflow [0]) by (cbn; lia). cbn [nth]. ring. }
  split. { constructor; [|constructor]. split; [wfp|]. split; [repeat constructor; lia|]. split; [cbn; lra|cbn; lia]. }
  split. { intros _. constructor; [|constructor]. cbn [fst snd]. apply Forall_forall. intros w Hw. rewrite (L w Hw). cbn. lra. }
  split.
  { intros t [<-|[]]. unfold hindsight, margin_loss, us, hinge, lin, inner, p1. evl.
    replace (1 - (1 * 2 + 0 + 0 - (-1 * 2 + 0 + 0))) with (-3) by ring. replace (1 - (1 * 2 + 0 + 0 - (0 * 2 + 0 + 0))) with (-1) by ring. rewrite (Rmax_left 0 (-3)), (Rmax_left 0 (-1)), !(Rmax_left 0 0) by lra. reflexivity. }
  exists (p1, c_ws (plainR 3 LMaxHinge)). split; [now left|]. unfold suffered. rewrite (margin_loss_is 1 _ _ 0); cbn [fst snd].
  - unfold gap. rewrite !L by (cbn; auto). unfold hinge. rewrite Rmax_right; lra.
  - cbn; lia. - cbn; lia. - cbn; lia.
  - intros j Hj _. rewrite !L by (apply nth_In; cbn in *; lia). lra.
Qed.
(** With bias steps (bias_eta = 2) the bound is wrong: the two examples are separated by functions of
    squared length 2 and have length 1, but PA makes three mistakes on them. *)
Theorem C61_bias_refuted : exists c' e',
  let ds := [(pt 1 [(1, 1)], F 0); (pt (-1) [(2, 1)], F 0); (pt 1 [(1, 1)], F 0); (pt (-1) [(2, 1)], F 0)]%Z in
  let c0 := core0 1 LHinge in
  let c0 := mkcore (c_ws c0) (c_g c0) (c_dim c0) (c_eta c0) (F 2) 0 0 0 0 0 false (F 0) None LHinge (F 1) (F 0) false in
  train f32num (alg_of f32num KPA) Some ds c0 tt = Some (c', e') /\ c_err c' = 3%Z /\
  hindsight 1 [[0; 1; -1]] (mkpt 1 [1%Z] [1], []) = 0 /\ hindsight 1 [[0; 1; -1]] (mkpt (-1) [2%Z] [1], []) = 0 /\ length2 [[0; 1; -1]] = 2 /\
  sqnorm (feats (mkpt 1 [1%Z] [1])) = 1 /\ sqnorm (feats (mkpt (-1) [2%Z] [1])) = 1.
Proof.
  eexists _, _. cbv zeta. split; [vm_compute; reflexivity|]. split; [vm_compute; reflexivity|].
  split; [|split; [|split; [unfold length2, total, sumsq; cbn [fold_right]; ring|split; cbn; ring]]];
    unfold hindsight, margin_loss, hinge, lin, inner; evl; rewrite Rmax_left; lra.
Qed.
Print Assumptions C61_bias_refuted.
