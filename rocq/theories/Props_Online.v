(** Properties C20 to C26, C29 and C54: the training framework and the registered models. *)
From Coq Require Import Reals SpecFloat Sorted.
From Verif Require Import M_Base M_Num M_Expr M_Loss M_Online M_Olm M_OlmSel M_Heap M_Algs S_Expr
  S_Online S_Session P_DataPoint P_Expr P_Online P_Predict P_Step P_Safe P_Session P_Session2 P_Keep
  P_Idle.

(** Small data for the examples: single-precision numbers, examples given by integers, a fresh
    model. *)
Definition F (z : Z) : f32 := f32_int z.
Definition pt (y : Z) (l : list (Z * Z)) : point f32 :=
  mkpt y (map fst l) (map (fun p => F (snd p)) l).
Definition core0 (n : nat) (k : loss_kind) : core (R:=f32) :=
  mkcore (repeat [F 0] n) (repeat (F 0) n) 1 (F 1) (F 1) 0 0 0 0 0 false (F 0) None k (F 1) (F 0) false.
Definition fit (l : list (point f32)) : use (R:=f32) := UTrain [map (fun p => (p, F 0)) l].
Definition run k n loss us :=
  session f32num (alg_of f32num k) Some us (core0 n loss, init_of f32num k n, true).
Lemma fresh0 n k : (1 <= n)%nat -> fresh f32num n (core0 n k).
Proof. intros H. split; [exact H|]. repeat split. cbn. apply repeat_length. Qed.
Ltac wfp := split; [reflexivity|]; split;
  [repeat constructor; lia | repeat constructor; cbn; unfold two32; lia].
Ltac acc := eexists; split; [reflexivity|]; split; [wfp|]; first [now left | right; cbn; lia].

(** ** C20 *)
(** For every model with a feature budget B and every session of training and testing, one set of at
    most B features holds all non-zero weights of all classes. *)
Theorem C20_budget : forall (R : Type) (N : num R) k B n c0 loss us pre,
  budget_of k = Some B -> (1 <= B)%nat -> fresh N n c0 -> c_loss c0 = loss -> loss_ok n loss ->
  ~ In UReset us -> Forall (use_ok (lo_of k) n pre) us ->
  exists c e r, session N (alg_of N k) pre us (c0, init_of N k n, true) = Some (c, e, r) /\
    within_budget N B c.
Proof.
  intros R N k B n c0 loss us pre Hb HB Hf Hl Hk Hr HU.
  destruct (session_of N True k n c0 loss us pre Hf Hl Hk) as (c & e & r & E & _); [tauto|auto|].
  exists c, e, r. split; [exact E|]. eapply (session_budget N k B); eauto.
Qed.
Print Assumptions C20_budget.
(** Three classes, two kept features, examples with up to four features. *)
Example C20_witness :
  let us := [fit [pt 0 [(1, 1); (3, 2); (4, 1)]; pt 2 [(2, 5); (3, 1)]]; UTest [pt 1 [(1, 1); (9, 1)]];
             fit [pt 1 [(1, 4); (2, 1); (5, 1); (6, 3)]]] in
  budget_of (KAdaRDA_OFS (F 1) 2) = Some 2%nat /\ fresh f32num 3 (core0 3 LMaxHinge) /\
  loss_ok 3 LMaxHinge /\ ~ In UReset us /\ Forall (use_ok 1 3 Some) us /\
  match run (KAdaRDA_OFS (F 1) 2) 3 LMaxHinge us with
  | Some (c, _, _) => (c_dim c, nonzero_count f32num c) = (7%nat, 5%nat)
  | None => False
  end.
Proof.
  cbv zeta. split; [reflexivity|]. split; [apply fresh0; lia|]. split; [split; [lia|reflexivity]|].
  split; [cbn; intuition discriminate|]. split.
  - repeat constructor; cbn; acc.
  - vm_compute. reflexivity.
Qed.
(** Setting a parameter of a trained model makes the next Train choose the first B features afresh
    although others have weight: the budget is exceeded. *)
Theorem C20_reinit_refuted : exists us,
  Forall (use_ok 1 1 Some) us /\
  exists c e r, run (KSOFS (F 1) 1) 1 LHinge us = Some (c, e, r) /\ ~ within_budget f32num 1 c.
Proof.
  exists [fit [pt 1 [(1, 1); (3, 2)]]; UReset; fit [pt (-1) [(1, 1); (2, 1)]; pt 1 [(1, 3)]]]. split.
  - repeat constructor; cbn; acc.
  - destruct (run (KSOFS (F 1) 1) 1 LHinge _) as [((c, e), r)|] eqn:E; vm_compute in E; [|discriminate].
    exists c, e, r. split; [reflexivity|]. intros (fs & Hl & H). injection E as <- _ _.
    assert (H1 : In 1%nat fs).
    { destruct (in_dec Nat.eq_dec 1%nat fs) as [|Hn]; auto. exfalso.
      specialize (H _ 1%nat _ (or_introl eq_refl) ltac:(discriminate) Hn eq_refl). discriminate. }
    assert (H3 : In 3%nat fs).
    { destruct (in_dec Nat.eq_dec 3%nat fs) as [|Hn]; auto. exfalso.
      specialize (H _ 3%nat _ (or_introl eq_refl) ltac:(discriminate) Hn eq_refl). discriminate. }
    destruct fs as [|a [|b fs]]; cbn in *; intuition congruence || lia.
Qed.
Print Assumptions C20_reinit_refuted.
(** A feature with index 0, legal for the other models, makes the second-order selection models
    access their heap out of range. *)
Theorem C20_index0_refuted : exists us, Forall (use_ok 0 1 Some) us /\ ~ In UReset us /\
  run (KSOFS (F 1) 1) 1 LHinge us = None.
Proof.
  exists [fit [pt 1 [(0, 1); (3, 2)]]]. split; [repeat constructor; cbn; acc|].
  split; [cbn; intuition discriminate|]. vm_compute. reflexivity.
Qed.
Print Assumptions C20_index0_refuted.

(** ** C21 *)
(** Scores are inner products over the features below the dimension of the model, plus the bias;
    prediction never fails on sorted examples (no weight outside the vector is read). *)
Theorem C21_inner_product : forall (R : Type) (N : num R) (d : R) c p lo,
  0 <= lo -> wf_core c -> wf_point lo p ->
  exists lab, predict N c p = Some (lab,
    map (fun w => n_add N
      (fold_left (fun acc '(i, v) => n_add N acc (n_mul N (nth (Z.to_nat i) w d) v))
        (filter (fun q => fst q <? Z.of_nat (length w)) (combine (p_idx p) (p_val p))) (zero N))
      (nth 0 w d)) (c_ws c)).
Proof.
  intros R N d c p lo Hlo Hc Hp. destruct (predict_spec N d c p lo Hlo Hc Hp) as (lab & _ & E).
  exists lab. exact E.
Qed.
Print Assumptions C21_inner_product.
(** Dropping the features the model does not know changes nothing. *)
Theorem C21_unseen_ignored : forall (R : Type) (N : num R) c p lo,
  0 <= lo -> wf_core c -> wf_point lo p -> predict N c (restrict (c_dim c) p) = predict N c p.
Proof. exact (fun R N => @predict_restrict R N). Qed.
Print Assumptions C21_unseen_ignored.
Definition core2 : core (R:=f32) :=
  mkcore [[F 1; F 2; F 3]; [F 4; F (-5); F 6]] [F 0; F 0] 3 (F 1) (F 1) 0 0 0 0 0 false (F 0) None
    LMaxHinge (F 1) (F 0) false.
Example C21_witness : wf_core core2 /\ wf_point 1 (pt 0 [(1, 10); (2, 1); (7, 9)]) /\
  predict f32num core2 (pt 0 [(1, 10); (2, 1); (7, 9)]) = Some (0, [F 24; F (-40)]).
Proof.
  split; [repeat split; cbn; auto; try lia; try discriminate; repeat constructor|].
  split; [wfp|]. vm_compute. reflexivity.
Qed.
(** Only the last index is compared with the dimension: with unsorted indexes a weight outside of
    the vector is read. *)
Theorem C21_unsorted_refuted : exists p : point f32,
  length (p_idx p) = length (p_val p) /\ Forall (fun i => 1 <= i < two32 - 1) (p_idx p) /\
  predict f32num core2 p = None.
Proof.
  exists (pt 0 [(1, 1); (7, 1); (2, 1)]). split; [reflexivity|].
  split; [|vm_compute; reflexivity].
  apply Forall_forall. intros i Hi. cbn in Hi. unfold two32. lia.
Qed.
Print Assumptions C21_unsorted_refuted.

(** ** C22 *)
Theorem C22_growth : forall (R : Type) (N : num R) d (c : core (R:=R)), wf_core c ->
  wf_core (linear_update_dim N d c) /\ c_dim (linear_update_dim N d c) = Nat.max (c_dim c) d /\
  padded N d (c_ws c) (c_ws (linear_update_dim N d c)).
Proof.
  intros R N d c Hc. destruct (wf_update_dim N d c Hc) as (H1 & H2 & _).
  split; [exact H1|]. split; [exact H2|]. now apply update_dim_padded.
Qed.
Print Assumptions C22_growth.
(** Predictions are unchanged whenever adding 0 times a value changes nothing. *)
Theorem C22_prediction_unchanged : forall (R : Type) (N : num R) d c p lo, 0 <= lo ->
  (forall a v, n_add N a (n_mul N (zero N) v) = a) -> wf_core c -> wf_point lo p ->
  predict N (linear_update_dim N d c) p = predict N c p.
Proof. exact (fun R N => @predict_grow R N). Qed.
Print Assumptions C22_prediction_unchanged.
(** In particular in exact arithmetic. *)
Theorem C22_prediction_unchanged_exact : forall d (c : core (R:=R)) p lo, 0 <= lo ->
  wf_core c -> wf_point lo p ->
  predict Rnum (linear_update_dim Rnum d c) p = predict Rnum c p.
Proof.
  intros d c p lo Hlo Hc Hp. apply (predict_grow Rnum d c p lo); auto. intros a v. cbn. ring.
Qed.
Print Assumptions C22_prediction_unchanged_exact.
Example C22_witness : wf_core core2 /\
  c_ws (linear_update_dim f32num 5 core2) = [[F 1; F 2; F 3; F 0; F 0]; [F 4; F (-5); F 6; F 0; F 0]] /\
  predict f32num (linear_update_dim f32num 5 core2) (pt 0 [(1, 10); (4, 9)])
  = predict f32num core2 (pt 0 [(1, 10); (4, 9)]).
Proof.
  split; [repeat split; cbn; auto; try lia; try discriminate; repeat constructor|].
  split; vm_compute; reflexivity.
Qed.
(** In floating point an infinite feature value turns the new zero weight into NaN. *)
Theorem C22_infinite_feature_refuted : exists (p : point f32) d, wf_point 1 p /\
  predict f32num (linear_update_dim f32num d core2) p <> predict f32num core2 p.
Proof.
  exists (mkpt 0 [1; 4] [F 1; S754_infinity false]), 5%nat. split; [wfp|].
  vm_compute. discriminate.
Qed.
Print Assumptions C22_infinite_feature_refuted.

(** ** C23 *)
(** One classifier: the label is 1 for scores >= 0 and -1 otherwise. *)
Theorem C23_binary : forall (R : Type) (N : num R) s,
  label_of N [s] = Some (if n_le N (zero N) s then 1 else -1).
Proof. reflexivity. Qed.
Print Assumptions C23_binary.
(** Several classifiers: the first of the best-scored classes, in exact arithmetic ... *)
Theorem C23_first_max_exact : forall a b (l : list R), exists m,
  label_of Rnum (a :: b :: l) = Some (Z.of_nat m) /\ first_max Rnum (a :: b :: l) m.
Proof.
  intros a b l. exists (max_element Rnum (a :: b :: l)). split; [reflexivity|].
  apply (max_element_spec Rnum (fun _ => True)); [intros; now apply R_irr|intros; eapply R_tr; eassumption|intros; eapply R_tot; eassumption|discriminate|].
  apply Forall_forall. auto.
Qed.
Print Assumptions C23_first_max_exact.
(** ... and in single precision for all scores that are not NaN, infinities included. *)
Theorem C23_first_max_f32 : forall a b (l : list f32), Forall f32_num (a :: b :: l) -> exists m,
  label_of f32num (a :: b :: l) = Some (Z.of_nat m) /\ first_max f32num (a :: b :: l) m.
Proof.
  intros a b l H. exists (max_element f32num (a :: b :: l)). split; [reflexivity|].
  apply (max_element_spec f32num f32_num); auto; [apply f32_irr|apply f32_tr|apply f32_tot|discriminate].
Qed.
Print Assumptions C23_first_max_f32.
Example C23_witness : Forall f32_num [F 1; F 7; F (-3); F 7; S754_infinity true] /\
  label_of f32num [F 1; F 7; F (-3); F 7; S754_infinity true] = Some 1.
Proof. split; [|vm_compute; reflexivity]. repeat constructor; vm_compute; auto; discriminate. Qed.
(** ** C24 *)
(** For every registered model: the mistakes counted are exactly the examples whose prediction
    differs from the label, and examples, iterations and updates are consistent. *)
Theorem C24_counters : forall (R : Type) (N : num R) k pre data c e c' e',
  train N (alg_of N k) pre data c e = Some (c', e') ->
  exists rows, length rows = length data /\
    (forall j y lab, nth_error rows j = Some (y, lab) -> row_of N (alg_of N k) pre data c e j y lab) /\
    c_err c' = c_err c + mistakes rows /\
    c_data c' = c_data c + Z.of_nat (length data) /\
    exists q u, c_iter c' = c_iter c + q /\ c_upd c' = c_upd c + u /\ 0 <= u <= q /\
      q <= Z.of_nat (length data).
Proof. intros R N k pre. apply train_rows. apply alg_keeps. Qed.
Print Assumptions C24_counters.
(** The same for any algorithm that leaves the counters alone, whatever else it does. *)
Theorem C24_counters_any : forall (R : Type) (N : num R) E (a : alg (R:=R) E) pre data c e c' e',
  keeps_counters a -> train N a pre data c e = Some (c', e') ->
  exists rows, length rows = length data /\
    (forall j y lab, nth_error rows j = Some (y, lab) -> row_of N a pre data c e j y lab) /\
    c_err c' = c_err c + mistakes rows /\
    c_data c' = c_data c + Z.of_nat (length data) /\
    exists q u, c_iter c' = c_iter c + q /\ c_upd c' = c_upd c + u /\ 0 <= u <= q /\
      q <= Z.of_nat (length data).
Proof. intros R N E a pre data c e c' e' K H. eapply train_rows; eauto. Qed.
Print Assumptions C24_counters_any.
(** Without active learning every example is an iteration. *)
Theorem C24_iterations : forall (R : Type) (N : num R) k p rnd c e lab ps c' e',
  n_lt N (zero N) (c_active c) = false ->
  iterate N (alg_of N k) p rnd c e = Some (lab, ps, c', e') -> c_iter c' = c_iter c + 1.
Proof.
  intros R N k p rnd c e lab ps c' e'. apply iterate_iter.
  - apply alg_keeps.
  - intros. eapply prep_keeps. eassumption.
  - intros. eapply grow_keeps. eassumption.
Qed.
Print Assumptions C24_iterations.
Example C24_witness :
  match train f32num (alg_of f32num KPA) Some
    [(pt 1 [(1, 1)], F 0); (pt (-1) [(1, 2); (2, 1)], F 0); (pt 1 [(1, 1)], F 0); (pt 1 [(2, 1)], F 0)]
    (core0 1 LHinge) tt with
  | Some (c, _) => (c_data c, c_iter c, c_err c, c_upd c) = (4, 4, 2, 4)
  | None => False
  end.
Proof. vm_compute. reflexivity. Qed.

(** ** C25 *)
(** A model that predicts with its weights as they are keeps them, up to the zero weights of new
    features, when the label is not queried, when in lazy mode the prediction is right, and when
    otherwise the loss is not positive. *)
Theorem C25_no_update : forall (R : Type) (N : num R) k p rnd c e lab ps c' e',
  direct_kind k = true -> wf_core c ->
  iterate N (alg_of N k) p rnd c e = Some (lab, ps, c', e') ->
  exists ws1, padded N (Z.to_nat (x_dim p)) (c_ws c) ws1 /\
  exists q, queried N (linear_update_dim N (Z.to_nat (x_dim p)) c) ps lab rnd = Some q /\
  (q = false -> c_ws c' = ws1) /\
  (c_lazy c = true -> lab = p_label p -> c_ws c' = ws1) /\
  (q = true -> exists h m r,
     gradient N (c_loss c) h (p_label p) ps lab (c_g c) m = Some r /\
     m = (match c_cost c with None => c_margin c | Some v => if p_label p =? 1 then v else one N end) /\
     (n_lt N (zero N) (l_loss r) = false -> c_lazy c = false -> c_ws c' = ws1)).
Proof.
  intros R N k p rnd c e lab ps c' e' Hk Hc H.
  exists (c_ws (linear_update_dim N (Z.to_nat (x_dim p)) c)). split; [now apply update_dim_padded|].
  destruct (iterate_idle N k p rnd c e lab ps c' e' Hk H) as (_ & Hq). exact Hq.
Qed.
Print Assumptions C25_no_update.
(** The update counter tells exactly whether the model was updated (any algorithm). *)
Theorem C25_update_iff_loss : forall (R : Type) (N : num R) k p rnd c e lab ps c' e',
  iterate N (alg_of N k) p rnd c e = Some (lab, ps, c', e') ->
  exists c3 e3,
  (exists c1 e1 e2, a_grow (alg_of N k) (Z.to_nat (x_dim p)) c e = Some (c1, e1) /\
    a_reg_begin (alg_of N k) p e1 = Some e2 /\
    a_prep (alg_of N k) p (set_data (set_iter c1 (c_iter c1 + 1)) (c_data c1 + 1)) e2 = Some (c3, e3)) /\
  predict N c3 p = Some (lab, ps) /\
  exists q, queried N c3 ps lab rnd = Some q /\
  (q = false -> c_upd c' = c_upd c) /\
  (q = true -> exists r,
     let c4 := cost_margin_step N c3 (p_label p) in
     gradient N (c_loss c4) (a_margin (alg_of N k) c4 e3 p) (p_label p) ps lab (c_g c4) (c_margin c4)
       = Some r /\
     c_upd c' = c_upd c + (if suffers N c4 p lab (l_loss r) then 1 else 0)).
Proof. intros R N k p rnd c e lab ps c' e'. apply iterate_upd_iff. apply alg_keeps. Qed.
Print Assumptions C25_update_iff_loss.
(** A well classified example with a new feature: the old weights stay. *)
Definition core3 (lazy : bool) : core (R:=f32) :=
  mkcore [[F 0; F 3]] [F 0] 2 (F 1) (F 1) 0 5 5 1 1 lazy (F 0) None LHinge (F 1) (F 0) true.
Example C25_witness : direct_kind (KAROW (F 1)) = true /\ wf_core (core3 false) /\
  match iterate f32num (alg_of f32num (KAROW (F 1))) (pt 1 [(1, 2); (2, 7)]) (F 0) (core3 false) [[F 1; F 1]] with
  | Some (lab, _, c, _) => (lab, c_ws c, c_upd c, c_iter c) = (1, [[F 0; F 3; F 0]], 1, 6)
  | None => False
  end.
Proof.
  split; [reflexivity|]. split; [|vm_compute; reflexivity].
  repeat split; cbn; auto; try lia; try discriminate; repeat constructor.
Qed.
(** The regularised models are different by design: they shrink the weights of the example's features
    before predicting, loss or not. *)
Theorem C25_regularised_refuted : exists p (e : state_of (KFOBOS_L1 (F 1) (F 0) (F 1) (F 0))) lab ps c' e',
  wf_core (core3 false) /\
  iterate f32num (alg_of f32num (KFOBOS_L1 (F 1) (F 0) (F 1) (F 0))) p (F 0) (core3 false) e
    = Some (lab, ps, c', e') /\
  c_upd c' = c_upd (core3 false) /\ c_ws c' <> c_ws (core3 false).
Proof.
  set (e := mklazy (F 1) (F 0) (F 0) [F 4; F 4]).
  destruct (iterate f32num (alg_of f32num (KFOBOS_L1 (F 1) (F 0) (F 1) (F 0))) (pt 1 [(1, 2)]) (F 0)
    (core3 false) e) as [(((lab, ps), c'), e')|] eqn:E.
  2:{ vm_compute in E. discriminate. }
  exists (pt 1 [(1, 2)]), e, lab, ps, c', e'.
  split; [repeat split; cbn; auto; try lia; try discriminate; repeat constructor|].
  split; [exact E|]. vm_compute in E. inversion E; subst. split; [reflexivity|]. vm_compute. discriminate.
Qed.
Print Assumptions C25_regularised_refuted.

(** ** C26 *)
(** Training gives the same state, progress reports and counters however the examples are cut into
    batches. *)
Theorem C26_batching : forall (R : Type) (N : num R) E (a : alg (R:=R) E) pre bs1 bs2 reinit s,
  concat bs1 = concat bs2 ->
  train_batches N a pre bs1 reinit s = train_batches N a pre bs2 reinit s.
Proof. intros R N E a pre bs1 bs2 ri s H. now rewrite !train_batches_flat, H. Qed.
Print Assumptions C26_batching.
(** The progress reports do not influence the model either. *)
Theorem C26_reports : forall (R : Type) (N : num R) E (a : alg (R:=R) E) pre data c e,
  (forall dp evs c' e' dp' evs',
     foldM (train_step N a pre) data (c, e, dp, evs) = Some (c', e', dp', evs') ->
     train N a pre data c e = Some (c', e')) /\
  (forall dp evs c' e', train N a pre data c e = Some (c', e') ->
     exists dp' evs', foldM (train_step N a pre) data (c, e, dp, evs) = Some (c', e', dp', evs')).
Proof.
  intros. split; intros; [eapply train_step_state; eauto|eapply train_step_total; eauto].
Qed.
Print Assumptions C26_reports.
Example C26_witness :
  let d := map (fun p => (p, F 0)) [pt 1 [(1, 1)]; pt (-1) [(1, 2); (2, 1)]; pt 1 [(2, 1)]] in
  concat [d] = concat [firstn 1 d; []; skipn 1 d] /\
  match train_batches f32num (alg_of f32num (KAROW (F 1))) Some [firstn 1 d; []; skipn 1 d] true
    (core0 1 LHinge, [[F 1]], ExpShow 2 2 1) with
  | Some (c, _, _, evs) => (c_data c, c_err c, length evs) = (3, 2, 2%nat)
  | None => False
  end.
Proof. split; [reflexivity|]. vm_compute. reflexivity. Qed.

(** ** C29 *)
(** After any session, one more example changes only the weights of its own features and the
    bias. *)
Theorem C29_local : forall (R : Type) (N : num R) k n c0 loss us pre p rnd x,
  local_kind k = true -> fresh N n c0 -> c_loss c0 = loss -> loss_ok n loss ->
  Forall (use_ok (lo_of k) n pre) us -> accepts (lo_of k) n pre p -> pre p = Some x ->
  exists c e r c' e' r',
  session N (alg_of N k) pre us (c0, init_of N k n, true) = Some (c, e, r) /\
  use_step N (alg_of N k) pre (UTrain [[(p, rnd)]]) (c, e, r) = Some (c', e', r') /\
  step_local N (p_idx x) (c_ws c) (c_ws c').
Proof.
  intros R N k n c0 loss us pre p rnd x Hk Hf Hl Hlo HU Ha Hx.
  destruct (session_of N False k n c0 loss us pre Hf Hl Hlo) as (c & e & r & E & _); [tauto|auto|].
  destruct (session_of N False k n c0 loss (us ++ [UTrain [[(p, rnd)]]]) pre Hf Hl Hlo)
    as (c' & e' & r' & E' & _); [tauto| |].
  { apply Forall_app. split; [exact HU|]. repeat constructor. exact Ha. }
  unfold session in E'. rewrite foldM_app in E'. fold (session N (alg_of N k) pre us) in E'.
  unfold session in E. rewrite E in E'. cbn [bind foldM] in E'.
  destruct (use_step N (alg_of N k) pre (UTrain [[(p, rnd)]]) (c, e, r)) as [((c1, e1), r1)|] eqn:E1;
    [|discriminate].
  exists c, e, r, c1, e1, r1. split; [exact E|]. split; [exact E1|].
  eapply (session_local N k n c0 loss us pre p rnd x); eauto.
Qed.
Print Assumptions C29_local.
Example C29_witness : local_kind (KCW (F 1) (F 1) true) = true /\
  Forall (use_ok 0 3 Some) [fit [pt 0 [(1, 1); (4, 2)]; pt 2 [(2, 1)]]] /\
  match run (KCW (F 1) (F 1) true) 3 LMaxHinge [fit [pt 0 [(1, 1); (4, 2)]; pt 2 [(2, 1)]]],
        run (KCW (F 1) (F 1) true) 3 LMaxHinge [fit [pt 0 [(1, 1); (4, 2)]; pt 2 [(2, 1)]; pt 1 [(4, 1)]]] with
  | Some (c, _, _), Some (c', _, _) =>
    map (firstn 4) (c_ws c) <> map (firstn 4) (c_ws c') /\ map (skipn 4) (c_ws c) <> map (skipn 4) (c_ws c') /\
    map (fun w => firstn 3 (tl w)) (c_ws c) = map (fun w => firstn 3 (tl w)) (c_ws c')
  | _, _ => False
  end.
Proof.
  split; [reflexivity|]. split; [repeat constructor; cbn; acc|]. vm_compute.
  split; [discriminate|]. split; [discriminate|reflexivity].
Qed.

(** ** C54 *)
(** No session of training, testing and parameter changes ever leaves an array: every registered
    model runs to completion on every sequence of accepted examples. *)
Theorem C54_memory_safe : forall (R : Type) (N : num R) k n c0 loss us pre,
  fresh N n c0 -> c_loss c0 = loss -> loss_ok n loss -> Forall (use_ok (lo_of k) n pre) us ->
  exists c e r, session N (alg_of N k) pre us (c0, init_of N k n, true) = Some (c, e, r) /\
    wf_core c /\ length (c_ws c) = n.
Proof.
  intros R N k n c0 loss us pre Hf Hl Hk HU.
  destruct (session_of N False k n c0 loss us pre Hf Hl Hk) as (c & e & r & E & Hc & Hn & _); [tauto|auto|].
  exists c, e, r. auto.
Qed.
Print Assumptions C54_memory_safe.
Example C54_witness :
  let us := [fit [pt 1 [(1, 1); (9, 2)]; pt (-1) []]; UReset; UTest [pt 1 [(40, 1)]];
             fit [pt (-1) [(20, 2)]]] in
  fresh f32num 1 (core0 1 LHinge) /\ loss_ok 1 LHinge /\ Forall (use_ok 0 1 Some) us /\
  match run (KAdaFOBOS_L1 (F 1) (F 1) (F 0)) 1 LHinge us with
  | Some (c, _, _) => (c_dim c, c_data c, map (@length _) (c_ws c)) = (21%nat, 3, [21%nat])
  | None => False
  end.
Proof.
  cbv zeta. split; [apply fresh0; lia|]. split; [split; [reflexivity|lia]|].
  split; [repeat constructor; cbn; acc|]. vm_compute. reflexivity.
Qed.
(** A label that is not a class of the model is written to the gradient vector out of range. *)
Theorem C54_label_refuted : exists us,
  run KPerceptron 3 LMaxHinge us = None /\
  exists p, us = [fit [p]] /\ wf_point 0 p.
Proof. exists [fit [pt 3 [(1, 1)]]]. split; [vm_compute; reflexivity|]. eexists. split; [reflexivity|wfp]. Qed.
Print Assumptions C54_label_refuted.
