(** Property C49: dual averaging has its closed form. *)
From Coq Require Import Reals Lra SpecFloat.
From Verif Require Import M_Base M_Num M_Expr M_Loss M_Online M_Olm M_OlmSel M_Algs S_Expr S_Real S_Online
  S_Session S_Dual P_DataPoint P_Expr P_Real P_Online P_Session P_Session2 P_Dual P_Dual2 P_Dual3 P_Dual4 Props_Online.

(** In any arithmetic, single precision included: whatever is done with the model, it cannot be told from
    the learner that remembers its gradients and recomputes all weights from them; and the weights it
    holds have no influence on what it answers while training or how it finishes. *)
Theorem C49_rda : forall (R : Type) (N : num R) (sigma : R) n c0,
  fresh N n c0 -> loss_ok n (c_loss c0) ->
  indistinguishable N (alg_of N (KRDA sigma)) (dual_rda N sigma) n c0 (init_of N (KRDA sigma) n) [] 0 all_uses /\
  weights_are_cache N (alg_of N (KRDA sigma)) n c0 (init_of N (KRDA sigma) n) 0.
Proof. intros. now apply agrees_rda. Qed.
Print Assumptions C49_rda.
Theorem C49_rda_l1 : forall (R : Type) (N : num R) (sigma lam thresh : R) n c0,
  fresh N n c0 -> loss_ok n (c_loss c0) ->
  let k := KRDA_L1 sigma lam thresh in
  indistinguishable N (alg_of N k) (dual_rda_l1 N sigma lam thresh) n c0 (init_of N k n) [] 0 all_uses /\
  weights_are_cache N (alg_of N k) n c0 (init_of N k n) 0.
Proof. intros. now apply agrees_rda_l1. Qed.
Print Assumptions C49_rda_l1.
Theorem C49_erda_l1 : forall (R : Type) (N : num R) (sigma lam rou thresh : R) n c0,
  fresh N n c0 -> loss_ok n (c_loss c0) ->
  let k := KERDA_L1 sigma lam rou thresh in
  indistinguishable N (alg_of N k) (dual_erda_l1 N sigma lam rou thresh) n c0 (init_of N k n) [] 0 all_uses /\
  weights_are_cache N (alg_of N k) n c0 (init_of N k n) 0.
Proof. intros. now apply agrees_erda_l1. Qed.
Print Assumptions C49_erda_l1.
Theorem C49_ada_rda_l1 : forall (R : Type) (N : num R) (delta lam thresh : R) n c0,
  fresh N n c0 -> loss_ok n (c_loss c0) ->
  let k := KAdaRDA_L1 delta lam thresh in
  indistinguishable N (alg_of N k) (dual_ada_rda_l1 N delta lam thresh) n c0 (init_of N k n) [] 0 all_uses /\
  weights_are_cache N (alg_of N k) n c0 (init_of N k n) 0.
Proof. intros. now apply agrees_ada_rda_l1. Qed.
Print Assumptions C49_ada_rda_l1.
(** AdaRDA updates its weights in place and trains without a bias; the closed form holds from the start
    of training to the first test. *)
Theorem C49_ada_rda : forall (R : Type) (N : num R) (delta : R) n c0,
  fresh N n c0 -> loss_ok n (c_loss c0) -> n_mul N (zero N) (c_b0 c0) = zero N ->
  indistinguishable N (alg_of N (KAdaRDA delta)) (dual_ada_rda N delta) n c0 (init_of N (KAdaRDA delta) n) []
    1 no_test.
Proof. intros. now apply agrees_ada_rda. Qed.
Print Assumptions C49_ada_rda.

(** ** The sums, in exact arithmetic *)
(** What the gradient of one example is at coordinate i, per unit of the derivative by the score. *)
Definition part (x : list (Z * R)) (i : nat) : R :=
  ((match lookup x i with Some v => v | None => 0 end) + (if (i =? 0)%nat then 1 else 0))%R.
Fixpoint total {A} (f : A -> R) (l : list A) : R :=
  match l with [] => 0%R | a :: m => (f a + total f m)%R end.
(** The square of the gradient; a feature with index 0 and the bias count separately. *)
Definition part2 (x : list (Z * R)) (i : nat) : R :=
  ((match lookup x i with Some v => v * v | None => 0 end) + (if (i =? 0)%nat then 1 else 0))%R.
Theorem C49_sums : forall (delta : R) (h : history) k i,
  gsum Rnum h k i = total (fun e => nth k (snd e) 0 * part (fst e) i)%R h /\
  scale Rnum delta h k i = (delta + sqrt (total (fun e => nth k (snd e) 0 * nth k (snd e) 0 * part2 (fst e) i) h))%R.
Proof.
  intros delta h k i. 
  assert (Hp : forall h : history, (0 <= total (fun e => nth k (snd e) 0 * nth k (snd e) 0 * part2 (fst e) i) h)%R).
  { induction h0 as [|e h0 IH]; cbn [total]; [lra|].
    assert (0 <= part2 (fst e) i)%R by (unfold part2; destruct (lookup (fst e) i), (i =? 0)%nat; nra).
    assert (0 <= nth k (snd e) 0 * nth k (snd e) 0)%R by nra. nra. }
  induction h as [|(x, gs) h (IH1 & IH2)].
  - split; cbn [gsum scale total]; [reflexivity|]. rewrite sqrt_0. lra.
  - cbn [gsum scale total fst snd]. change (zero Rnum) with 0%R. cbn [n_eq n_add n_mul n_sub n_sqrt Rnum].
    set (g := nth k gs 0%R). set (T := total _ h) in IH2. assert (HT : (0 <= T)%R) by apply Hp.
    assert (More : forall U d, (0 <= U)%R -> (sqrt ((delta + sqrt U - delta) * (delta + sqrt U - delta) + d * d) + delta = delta + sqrt (U + d * d))%R).
    { intros U d HU. replace ((delta + sqrt U - delta) * (delta + sqrt U - delta))%R with (sqrt U * sqrt U)%R by ring.
      rewrite sqrt_sqrt by auto. ring. }
    fold T. destruct (Req_EM_T g 0) as [Hg|Hg].
    + rewrite IH1, IH2, Hg. split; [ring|]. f_equal. f_equal. ring.
    + rewrite IH1, IH2. unfold part, part2. destruct (lookup x i) as [v|], (i =? 0)%nat; split; try ring.
      * rewrite More by auto. rewrite More by nra. f_equal. f_equal. ring.
      * rewrite More by auto. f_equal. f_equal. ring.
      * rewrite More by auto. f_equal. f_equal. ring.
      * f_equal. f_equal. ring.
Qed.
Print Assumptions C49_sums.

(** ** Examples and a counterexample *)
Definition answers {E} (a : alg (R:=f32) E) (e0 : E) (us : list (use (R:=f32))) (p : point f32)
  : option (Z * list f32) :=
  do (c, e, _) <- session f32num a Some us (core0 1 LHinge, e0, true);
  do (l, ps, _, _) <- iterate f32num a p (F 0) c e;
  Some (l, ps).
(** AdaRDA: the closed form ends with the first test.  Finishing the model for the test gives it a bias,
    which stays when training goes on: the test changes the answer to the next training example. *)
Theorem C49_ada_rda_test_refuted : exists us t p,
  Forall (use_ok 1 1 Some) (us ++ [t]) /\ wf_point 1 p /\ label_ok 1 (p_label p) /\ t = UTest [p] /\
  let a := alg_of f32num (KAdaRDA (F 1)) in
  let e0 := init_of f32num (KAdaRDA (F 1)) 1 in
  let d := dual_ada_rda f32num (F 1) in
  exists ps ps', answers a e0 us p = Some (1, ps) /\ answers a e0 (us ++ [t]) p = Some (-1, ps') /\
  answers d [] us p = Some (1, ps) /\ answers d [] (us ++ [t]) p = Some (1, ps).
Proof.
  exists [fit [pt (-1) [(1, 1)]]], (UTest [pt 1 [(2, 1)]]), (pt 1 [(2, 1)]).
  split; [repeat constructor; cbn; acc|]. split; [wfp|]. split; [now left|]. split; [reflexivity|].
  exists [S754_zero false], [S754_finite true 8388608 (-24)]. vm_compute. auto.
Qed.
Print Assumptions C49_ada_rda_test_refuted.

(** A session of training, testing and training again, with updates of both signs, a new feature after
    the test, and the remembered gradients. *)
Definition dual_uses : list (use (R:=f32)) :=
  [fit [pt 1 [(1, 1); (3, 2)]; pt (-1) [(1, 1); (2, 1)]; pt 1 [(3, 1)]]; UTest [pt 1 [(1, 1)]];
   fit [pt (-1) [(3, 1); (4, 2)]]].
Example C49_witness :
  fresh f32num 1 (core0 1 LHinge) /\ loss_ok 1 LHinge /\ Forall (use_ok 0 1 Some) dual_uses /\
  wf_point 0 (pt 1 [(2, 4); (3, 1); (4, 1)]) /\ label_ok 1 1 /\
  (exists c h, session f32num (dual_rda f32num (F 1)) Some dual_uses (core0 1 LHinge, [], true) = Some (c, h, false) /\
     map (fun e => (map fst (fst e), snd e)) h = [([3; 4], [F 1]); ([1; 2], [F 1]); ([1; 3], [F (-1)])] /\
     gsum f32num h 0 3 = F (-1) /\ gsum f32num h 0 4 = F 2) /\
  (exists ps, answers (alg_of f32num (KRDA (F 1))) (init_of f32num (KRDA (F 1)) 1) dual_uses (pt 1 [(2, 4); (3, 1); (4, 1)]) = Some (-1, ps) /\
     answers (dual_rda f32num (F 1)) [] dual_uses (pt 1 [(2, 4); (3, 1); (4, 1)]) = Some (-1, ps)).
Proof.
  split; [apply fresh0; lia|]. split; [split; [reflexivity|easy]|]. split; [repeat constructor; cbn; acc|].
  split; [wfp|]. split; [now left|]. split.
  - do 2 eexists. split; [vm_compute; reflexivity|]. vm_compute. auto.
  - eexists. split; vm_compute; reflexivity.
Qed.
(** The hypotheses of the AdaRDA theorem: training only, bias factor 1. *)
Example C49_ada_witness :
  let us := [fit [pt 1 [(1, 1); (3, 2)]; pt (-1) [(1, 1); (2, 1)]; pt 1 [(3, 1)]]; UReset; fit [pt 1 [(2, 1)]]] in
  fresh f32num 1 (core0 1 LHinge) /\ loss_ok 1 LHinge /\ Forall (use_ok 1 1 Some) us /\ Forall no_test us /\
  n_mul f32num (zero f32num) (c_b0 (core0 1 LHinge)) = zero f32num /\
  (exists l ps, answers (alg_of f32num (KAdaRDA (F 1))) (init_of f32num (KAdaRDA (F 1)) 1) us (pt 1 [(2, 4); (3, 1)]) = Some (l, ps) /\
     answers (dual_ada_rda f32num (F 1)) [] us (pt 1 [(2, 4); (3, 1)]) = Some (l, ps)).
Proof.
  cbv zeta. split; [apply fresh0; lia|]. split; [split; [reflexivity|easy]|]. split; [repeat constructor; cbn; acc|].
  split; [repeat constructor|]. split; [reflexivity|]. do 2 eexists. split; vm_compute; reflexivity.
Qed.
