(** Properties C32 and C51: finishing training and degenerate examples. *)
From Coq Require Import SpecFloat Lia.
From Verif Require Import M_Base M_Num M_Expr M_Loss M_Online M_Olm M_OlmSel M_Heap M_Algs
  S_Online S_Session S_Finish P_Online P_End Props_Online.

(** ** C32 *)
(** A finished model is not changed by finishing it again: not its weights, not its counters, not
    the state of the algorithm; for every number type (so also for floats), every state. *)
Theorem C32_end_twice : forall (R : Type) (N : num R) k c e c1 e1,
  settles k = true -> a_end (alg_of N k) c e = Some (c1, e1) -> a_end (alg_of N k) c1 e1 = Some (c1, e1).
Proof. intros R N k c e c1 e1. apply end_twice. Qed.
Print Assumptions C32_end_twice.
(** So training on nothing and testing again leaves a tested model as it is. *)
Theorem C32_retest : forall (R : Type) (N : num R) k pre c e c1 e1 r1 c2 e2 r2,
  settles k = true -> c_updated c = true ->
  session N (alg_of N k) pre [UTest []] (c, e, false) = Some (c1, e1, r1) ->
  session N (alg_of N k) pre [UTrain []; UTest []] (c1, e1, r1) = Some (c2, e2, r2) ->
  c2 = c1 /\ e2 = e1.
Proof.
  intros R N k pre c e c1 e1 r1 c2 e2 r2 S U H1 H2. unfold session in *. cbn [foldM use_step] in *.
  unfold train_batches, test in *. cbn [mapM foldM bind filter length] in *. rewrite U in H1.
  destruct (a_end (alg_of N k) c e) as [(c', e')|] eqn:E; cbn [bind] in H1; [|discriminate]. injection H1 as -> -> <-.
  unfold use_step, test in H2. cbn [bind foldM mapM] in H2. change (c_updated (set_updated c1 true)) with true in H2. cbv iota in H2. rewrite end_flag in H2. rewrite (end_twice N k c e c1 e1 S E) in H2. cbn [bind] in H2.
  injection H2 as <- <- <-. auto.
Qed.
Print Assumptions C32_retest.
(** A model to which this applies: l1 dual averaging after two examples; finishing changes it (its
    weights for all features are computed then), finishing again does not. *)
Definition two_pts := [pt 1 [(1, 1); (3, -1)]; pt (-1) [(2, 1)]].
Definition eighth := n_div f32num (F 1) (F 8).
Example C32_witness :
  settles (KERDA_L1 (F 1) eighth (F 0) (F 0)) = true /\
  match run (KERDA_L1 (F 1) eighth (F 0) (F 0)) 1 LHinge [fit two_pts] with
  | Some (c, e, r) => c_updated c = true /\ r = false /\
      match a_end (alg_of f32num (KERDA_L1 (F 1) eighth (F 0) (F 0))) c e with
      | Some (c1, _) => forallb (fun '(a, b) => n_eq f32num a b) (combine (concat (c_ws c)) (concat (c_ws c1))) = false
      | None => False
      end
  | None => False
  end.
Proof. split; [reflexivity|]. vm_compute. auto. Qed.
(** Testing, training on no example and testing again changes the weights of the three models that
    truncate lazily: they are truncated a second time for the same examples. *)
Definition ends_differ (k : kind (R:=f32)) : Prop :=
  match run k 1 LHinge [fit two_pts; UTest []], run k 1 LHinge [fit two_pts; UTest []; fit []; UTest []] with
  | Some (c1, _, _), Some (c2, _, _) =>
    c_iter c1 = c_iter c2 /\ forallb (fun '(a, b) => n_eq f32num a b) (combine (concat (c_ws c1)) (concat (c_ws c2))) = false
  | _, _ => False
  end.
Theorem C32_lazy_refuted :
  exists k1 k2 k3, (exists a b c d, k1 = KFOBOS_L1 a b c d) /\ (exists a b c d e, k2 = KSTG a b c d e) /\ (exists a b c, k3 = KAdaFOBOS_L1 a b c) /\
  Forall (use_ok 0 1 Some) [fit two_pts; UTest []; fit []; UTest []] /\
  ends_differ k1 /\ ends_differ k2 /\ ends_differ k3.
Proof.
  exists (KFOBOS_L1 (F 1) (F 0) eighth (F 0)), (KSTG (F 1) (F 0) eighth (F 0) 10), (KAdaFOBOS_L1 (F 1) eighth (F 0)).
  split; [eauto 10|]. split; [eauto 10|]. split; [eauto 10|]. split.
  - repeat constructor; cbn; acc.
  - split; [|split]; vm_compute; auto.
Qed.
Print Assumptions C32_lazy_refuted.

(** ** C51 *)
(** Finite single-precision numbers. *)
Definition finite32 (x : f32) : bool := match x with S754_zero _ | S754_finite _ _ _ => true | _ => false end.
(** A fresh two-class model without a bias step. *)
Definition core_nb : core (R:=f32) :=
  mkcore [[F 0]] [F 0] 1 (F 1) (F 0) 0 0 0 0 0 false (F 0) None LHinge (F 1) (F 0) false.
(** PA and an example without features: the step is loss / 0; the bias becomes not-a-number although
    no bias step was asked for, and then every later example gets a score that is not a number. *)
Theorem C51_pa_refuted : exists p q : point f32, wf_point 0 p /\ wf_point 0 q /\ Forall (fun v => finite32 v = true) (p_val p ++ p_val q) /\
  fresh f32num 1 core_nb /\
  match session f32num (alg_of f32num KPA) Some [fit [p]] (core_nb, tt, true) with
  | Some (c, e, r) => c_ws c = [[S754_nan]] /\
     match test f32num (alg_of f32num KPA) Some [q] c e with
     | Some ([(_, _, ps)], _, _, _) => ps = [S754_nan]
     | _ => False
     end
  | None => False
  end.
Proof.
  exists (pt 1 []), (pt 1 [(1, 1)]). split; [wfp|]. split; [wfp|]. split; [repeat constructor|]. split.
  - split; [lia|]. repeat split.
  - vm_compute. auto.
Qed.
Print Assumptions C51_pa_refuted.
(** l1 dual averaging and the first example of a stream: the step is 1 / 0, the score not a number, the
    loss 0, and nothing is learned from it; dual averaging without l1 learns from the same example. *)
Theorem C51_rda_l1_refuted : exists p : point f32, wf_point 0 p /\ Forall (fun v => finite32 v = true) (p_val p) /\
  match run (KRDA_L1 (F 1) eighth (F 0)) 1 LHinge [fit [p]], run (KRDA (F 1)) 1 LHinge [fit [p]] with
  | Some (c, e, _), Some (c', _, _) =>
    forallb (forallb finite32) (c_ws c) = false /\ c_upd c = 0 /\ e = [[F 0; F 0]] /\ c_upd c' = 1
  | _, _ => False
  end.
Proof.
  exists (pt 1 [(1, 1)]). split; [wfp|]. split; [repeat constructor|]. vm_compute. auto.
Qed.
Print Assumptions C51_rda_l1_refuted.
