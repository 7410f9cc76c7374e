(** Property C51: which training sessions cannot leave the numbers. *)
From Coq Require Import Reals Lra SpecFloat.
From Verif Require Import M_Base M_Num M_Expr M_Loss M_Online M_Olm M_OlmSel M_Heap M_Algs S_Expr S_Online S_Session
  S_Nan P_DataPoint P_Expr P_Online P_Safe P_Session P_Session2 P_Inv P_Nan6 P_Nan7 Props_Online Props_Finish.

(** With parameters in their range, all registered models keep all weights, and all scores of later
    tests, numbers: no training step divides by zero or takes the root of a negative number, whatever
    the examples, their order, labels, repetitions and the tests in between.  Excepted: examples without
    a non-zero feature for PA (and for CW without bias), examples of large norm for ECCW, and the first
    example for RDA_L1 (see the three counterexamples). *)
Theorem C51_numbers : forall k n loss pre us c0,
  fresh Xnum n c0 -> c_loss c0 = loss -> fin_core c0 -> loss_ok n loss -> (Z.of_nat n <= two64)%Z ->
  params_ok k loss -> start_ok k c0 -> Forall (use_ok (lo_of k) n pre) us -> Forall (trains_on (example_ok k) pre) us ->
  exists c e r, session Xnum (alg_of Xnum k) pre us (c0, init_of Xnum k n, true) = Some (c, e, r) /\
    Forall (Forall fin) (c_ws c) /\
    (forall data rows errs c' e', Forall (fun p => forall x, pre p = Some x -> fin_point x) data ->
       test Xnum (alg_of Xnum k) pre data c e = Some (rows, errs, c', e') ->
       Forall (fun row => Forall fin (snd row)) rows /\ Forall (Forall fin) (c_ws c')).
Proof.
  intros k n loss pre us c0 Hf Hl Hc Hk Hn HP Hs HU HX.
  destruct (C54_memory_safe xreal Xnum k n c0 loss us pre Hf Hl Hk HU) as (c & e & r & E & _). exists c, e, r. split; [exact E|].
  pose proof (session_numeric k n loss pre Hk HP Hn us c0 c e r Hf Hl Hc Hs HU HX E) as HN. split; [apply HN|].
  intros data rows errs c' e' HD ET. exact (test_fin k loss pre data c e rows errs c' e' HP HN HD ET).
Qed.
Print Assumptions C51_numbers.

(** Data over the exact numbers. *)
Definition xi (z : Z) : xreal := Some (IZR z).
Definition xp (y : Z) (l : list (Z * Z)) : point xreal := mkpt y (map fst l) (map (fun q => xi (snd q)) l).
Definition xc (n : nat) (loss : loss_kind) (it : Z) : core (R:=xreal) :=
  mkcore (repeat [xi 0] n) (repeat (xi 0) n) 1 (xi 1) (xi 1) 0 it 0 0 0 false (xi 0) None loss (xi 1) (xi 0) false.
Definition xfit (l : list (point xreal)) : use (R:=xreal) := UTrain [map (fun p => (p, xi 0)) l].
Lemma xc_fresh n loss it : (1 <= n)%nat -> fresh Xnum n (xc n loss it).
Proof. intros H. split; [exact H|]. repeat split. cbn. apply repeat_length. Qed.
Lemma xc_fin n loss it : fin_core (xc n loss it).
Proof.
  assert (F : forall z, fin (xi z)) by (intros; eexists; reflexivity).
  repeat split; cbn; auto; try discriminate; apply Forall_forall; intros w Hw; apply repeat_spec in Hw; subst; auto.
Qed.
Lemma xp_fin y l : fin_point (xp y l).
Proof. unfold fin_point. cbn. rewrite Forall_map. apply Forall_forall. intros q _. eexists. reflexivity. Qed.
(** CW with three classes and an example without features, a test in between; ECCW with two classes and
    variance 1/32; RDA_L1 started at time 1; AdaRDA_OFS keeping two features. *)
Example C51_numbers_witness :
  let us := [xfit [xp 0 [(1, 1); (3, 2)]; xp 2 []; xp 1 [(3, 0)]]; UTest [xp 1 [(9, 1)]]; xfit [xp 1 [(1, -7)]]] in
  let vs := [xfit [xp 1 [(1, 1); (3, 2)]; xp (-1) [(3, -3)]]] in
  let k1 := KCW (xi 1) (xi 1) true in
  let k2 := KECCW (Some (/ 32)%R) (xi 1) true in
  let k3 := KRDA_L1 (xi 2) (xi 1) (xi 0) in
  let k4 := KAdaRDA_OFS (xi 1) 2 in
  (Forall (use_ok (lo_of k1) 3 Some) us /\ Forall (trains_on (example_ok k1) Some) us /\ params_ok k1 LMaxHinge /\ start_ok k1 (xc 3 LMaxHinge 0)) /\
  (Forall (use_ok (lo_of k2) 1 Some) vs /\ Forall (trains_on (example_ok k2) Some) vs /\ params_ok k2 LHinge /\ start_ok k2 (xc 1 LHinge 0)) /\
  (Forall (trains_on (example_ok k3) Some) us /\ params_ok k3 LMaxHinge /\ start_ok k3 (xc 3 LMaxHinge 1)) /\
  (Forall (use_ok (lo_of k4) 3 Some) us /\ Forall (trains_on (example_ok k4) Some) us /\ params_ok k4 LMaxHinge) /\
  loss_ok 3 LMaxHinge /\ loss_ok 1 LHinge /\ fresh Xnum 3 (xc 3 LMaxHinge 0) /\ fin_core (xc 3 LMaxHinge 0).
Proof.
  cbv zeta.
  assert (P1 : forall z, (0 < z)%Z -> pos (xi z)) by (intros z Hz; eexists; split; [reflexivity|]; now apply (IZR_lt 0)).
  assert (F1 : forall z, fin (xi z)) by (intros z; eexists; reflexivity).
  split; [|split; [|split; [|split; [|split; [|split; [|split]]]]]].
  - split; [repeat constructor; cbn; acc|]. split; [|split; [split; [|split]; auto; apply P1; lia|cbn; lia]].
    repeat constructor; cbn; intros; match goal with H : Some _ = Some _ |- _ => apply (f_equal (fun o => match o with Some v => v | None => xp 0 [] end)) in H; cbn in H; subst end; apply xp_fin.
  - split; [repeat constructor; cbn; acc|]. split; [|split; [split; [exists (/ 32)%R; split; [reflexivity|lra]|split; auto; apply P1; lia]|cbn; lia]].
    repeat constructor; cbn; intros; match goal with H : Some _ = Some _ |- _ => apply (f_equal (fun o => match o with Some v => v | None => xp 0 [] end)) in H; cbn in H; subst end;
      try apply xp_fin; exists (/ 32)%R; (split; [reflexivity|]); cbn; lra.
  - split; [|split; [split; auto; apply P1; lia|cbn; lia]].
    repeat constructor; cbn; intros; match goal with H : Some _ = Some _ |- _ => apply (f_equal (fun o => match o with Some v => v | None => xp 0 [] end)) in H; cbn in H; subst end; apply xp_fin.
  - split; [repeat constructor; cbn; acc|]. split; [|cbn; apply P1; lia].
    repeat constructor; cbn; intros; match goal with H : Some _ = Some _ |- _ => apply (f_equal (fun o => match o with Some v => v | None => xp 0 [] end)) in H; cbn in H; subst end; apply xp_fin.
  - split; [lia|reflexivity].
  - split; [reflexivity|lia].
  - apply xc_fresh. lia.
  - apply xc_fin.
Qed.

(** Preprocessing: without normalisation numbers stay numbers; normalising an example with a selected
    non-zero feature yields numbers, one of them not zero, and squared norm 1 in the case of l2, so that
    it is an example all models but ECCW accept; ECCW accepts it if the initial variance is at most 1/4. *)
Theorem C51_norm : forall n flags k p q, wf_point 0 p -> fin_point p -> k = NoNorm \/ selected_nonzero flags p ->
  preprocess Xnum n flags k p = Some q ->
  fin_point q /\ (selected_nonzero flags p -> nonzero q) /\ (k = NormL2 -> sq_sum (p_val q) = 1%R).
Proof. exact preprocess_fin. Qed.
Print Assumptions C51_norm.
Theorem C51_norm_accepted : forall m n flags p q, wf_point 0 p -> fin_point p -> selected_nonzero flags p ->
  preprocess Xnum n flags NormL2 p = Some q ->
  match m with KECCW a _ _ => exists x, a = Some x /\ (4 * x <= 1)%R | _ => True end -> example_ok m q.
Proof.
  intros m n flags p q Hw Hf Hs E Hm. destruct (preprocess_fin n flags NormL2 p q Hw Hf (or_intror Hs) E) as (A & B & D). specialize (B Hs). specialize (D eq_refl).
  split; [exact A|]. destruct m; auto. destruct Hm as (x & Ex & Hx). split; [now right|]. exists x. split; [exact Ex|]. rewrite D. lra.
Qed.
Print Assumptions C51_norm_accepted.
Example C51_norm_witness :
  let p := xp 1 [(2, 3); (5, 0); (7, -4)] in
  let flags := Some [true; true; true; false; false; true; true; true] in
  wf_point 0 p /\ fin_point p /\ selected_nonzero flags p /\ ~ selected_nonzero (Some [true; false]) p.
Proof.
  cbv zeta. split; [wfp|]. split; [apply xp_fin|]. split.
  - exists 7, (IZR (-4)). cbn. split; [tauto|]. split; [lra|reflexivity].
  - intros (i & x & Hin & _ & H). cbn in Hin. destruct Hin as [Hin|[Hin|[Hin|[]]]]; apply (f_equal fst) in Hin; cbn in Hin; subst; discriminate H.
Qed.
(** Normalising an all-zero example: 0 / 0, and the perceptron takes it over into its weights. *)
Theorem C51_norm_refuted : exists p q, wf_point 0 p /\ Forall (fun v => finite32 v = true) (p_val p) /\
  preprocess f32num 1 None NormL2 p = Some q /\ preprocess f32num 1 None NormL1 p = Some q /\ p_val q = [S754_nan] /\
  match session f32num (alg_of f32num KPerceptron) (preprocess f32num 1 None NormL2) [fit [pt (-1) [(1, 1)]; p]]
          (core0 1 LBool, tt, true) with
  | Some (c, _, _) => forallb (forallb finite32) (c_ws c) = false
  | None => False
  end.
Proof. exists (pt 1 [(1, 0)]). eexists. split; [wfp|]. split; [repeat constructor|]. split; [vm_compute; reflexivity|]. split; [vm_compute; reflexivity|]. split; vm_compute; reflexivity. Qed.
Print Assumptions C51_norm_refuted.
(** ECCW with its default parameters (variance 1, phi 0.5244, no bias) on three examples of one feature:
    the second update makes the variance negative, the third takes the root of a negative number, and
    every later score is not a number. *)
Theorem C51_eccw_refuted :
  let k := KECCW (F 1) (n_lit f32num 5244 (-4)) false in
  let train l := session f32num (alg_of f32num k) Some [fit l] (core_nb, init_of f32num k 1, true) in
  exists p1 p2 p3, Forall (wf_point 0) [p1; p2; p3] /\ forallb (fun p => forallb finite32 (p_val p)) [p1; p2; p3] = true /\
  match train [p1; p2], train [p1; p2; p3] with
  | Some (c2, e2, _), Some (c3, _, _) =>
    forallb (forallb finite32) (c_ws c2) = true /\ existsb (existsb (fun s => SFltb s (F 0))) e2 = true /\
    existsb (existsb (fun w => negb (finite32 w))) (c_ws c3) = true /\
    predict f32num c3 p1 = Some (-1, [S754_nan])
  | _, _ => False
  end.
Proof.
  cbv zeta. exists (pt 1 [(1, 2)]), (pt 1 [(1, 10)]), (pt (-1) [(1, 1)]).
  split; [apply Forall_cons; [wfp|]; apply Forall_cons; [wfp|]; apply Forall_cons; [wfp|constructor]|]. split; [reflexivity|]. vm_compute. auto.
Qed.
Print Assumptions C51_eccw_refuted.
(** CW whose bias_eta is set to 0 after training with a bias (SetParameter, online_model.cc:83-85): an
    example without features has variance 0, and its step divides by it. *)
Definition no_bias (c : core (R:=f32)) : core :=
  mkcore (c_ws c) (c_g c) (c_dim c) (c_eta c) (F 0) (c_t0 c) (c_iter c) (c_data c) (c_err c) (c_upd c) (c_lazy c)
    (c_active c) (c_cost c) (c_loss c) (c_margin c) (c_vt c) (c_updated c).
Theorem C51_cw_refuted : exists p q, wf_point 0 p /\ wf_point 0 q /\ forallb finite32 (p_val p ++ p_val q) = true /\
  match run (KCW (F 1) (F 1) true) 1 LHinge [fit [p]] with
  | Some (c, e, _) =>
    forallb (forallb finite32) (c_ws c) = true /\
    match session f32num (alg_of f32num (KCW (F 1) (F 1) false)) Some [fit [q]] (no_bias c, e, true) with
    | Some (c', _, _) => forallb (forallb finite32) (c_ws c') = false
    | None => False
    end
  | None => False
  end.
Proof. exists (pt 1 [(1, 1)]), (pt (-1) []). split; [wfp|]. split; [wfp|]. split; [reflexivity|]. vm_compute. auto. Qed.
Print Assumptions C51_cw_refuted.
