(** C58: a feature-selection model whose budget is 0 is the model it extends. *)
From Verif Require Import M_Base M_Num M_Expr M_Loss M_Online M_Olm M_OlmSel M_Heap M_Algs S_Unlimited P_Unlimited Props_Online.

(** Whatever is done with the two models from their constructors on (training, testing, changed
    parameters, any arithmetic, any examples, well-formed or not), the weights, counters and with them all
    answers are the same; neither leaves defined behaviour where the other does not. *)
Theorem C58_unlimited : forall (R : Type) (N : num R) k k' n c pre us, extends k = Some k' ->
  match session N (alg_of N k) pre us (c, init_of N k n, true), session N (alg_of N k') pre us (c, init_of N k' n, true) with
  | Some (c1, _, r1), Some (c2, _, r2) => c1 = c2 /\ r1 = r2
  | None, None => True
  | _, _ => False
  end.
Proof.
  intros R N k k' n c pre us Hk. destruct k; cbn in Hk; try discriminate; destruct B; try discriminate; injection Hk as <-; cbn [alg_of init_of].
  - pose proof (pet_agree N eta0 power_t pre us c true ([], heap_empty) tt eq_refl) as H. exact (agree3_cores _ _ _ H).
  - pose proof (sofs_agree N r pre us c true (mksel2 (repeat [one N] n) [] heap_empty) _ (conj eq_refl eq_refl)) as H. exact (agree3_cores _ _ _ H).
  - pose proof (ada_fobos_ofs_agree N delta pre us c true (mksel2 (repeat [delta] n) [] heap_empty) _ (conj eq_refl eq_refl)) as H. exact (agree3_cores _ _ _ H).
  - assert (U : urel (mksel2 (repeat [delta] n) [] heap_empty, repeat [zero N] n) (repeat ([delta], [zero N]) n)).
    { unfold urel. cbn. rewrite !repeat_length. split; [reflexivity|]. split; [|reflexivity]. induction n; cbn; congruence. }
    pose proof (ada_rda_ofs_agree N delta pre us c true _ _ U) as H. exact (agree3_cores _ _ _ H).
Qed.
Print Assumptions C58_unlimited.
(** Two trainings with a test and a change of parameters between them: the models agree, the weights are
    not zero, and with a budget of 1 they are others. *)
Example C58_witness :
  let us := [fit [pt 1 [(1, 1); (2, 3)]; pt (-1) [(2, 1); (4, 2)]]; UTest [pt 1 [(1, 1)]]; UReset; fit [pt 1 [(4, 1); (5, 2)]]] in
  let ws k := match run k 1 LHinge us with Some (c, _, _) => Some (c_ws c) | None => None end in
  ws (KPET (F 1) (F 0) 0) = ws (KOGD (F 1) (F 0)) /\ ws (KOGD (F 1) (F 0)) <> None /\ ws (KPET (F 1) (F 0) 1) <> ws (KOGD (F 1) (F 0)) /\
  ws (KSOFS (F 1) 0) = ws (KAROW (F 1)) /\ ws (KSOFS (F 1) 1) <> ws (KAROW (F 1)) /\
  ws (KAdaFOBOS_OFS (F 1) 0) = ws (KAdaFOBOS (F 1)) /\ ws (KAdaRDA_OFS (F 1) 0) = ws (KAdaRDA (F 1)) /\ ws (KAdaRDA_OFS (F 1) 0) <> None.
Proof. vm_compute. repeat split; discriminate. Qed.
