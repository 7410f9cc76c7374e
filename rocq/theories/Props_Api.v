(** Property C52: predictions through the C interface. *)
From Coq Require Import SpecFloat.
From Verif Require Import M_Base M_Num M_Expr M_Loss M_Online M_Olm M_Algs M_Api P_Online P_Api Props_Online.

(** C52: sol_Predict makes exactly one callback per example, in the order of the data; the k-th one
    receives the label and scores the (finished) model predicts for the k-th example, whatever was
    in the score buffer before; the number of examples is returned. *)
Theorem C52_calls : forall (R E : Type) (N : num R) (a : alg E) pre junk bs c e calls n c1 e1,
  Z.of_nat (length (concat bs)) <= 2147483647 ->
  sol_predict N a pre junk bs c e = Some (calls, n, c1, e1) ->
  (if c_updated c then a_end a c e = Some (c1, e1) else c1 = c /\ e1 = e) /\
  n = Z.of_nat (length (concat bs)) /\ length calls = length (concat bs) /\
  forall k p, nth_error (concat bs) k = Some p ->
    exists x lab ps, pre p = Some x /\ predict N c1 x = Some (lab, ps) /\
      nth_error calls k = Some (mkcall (p_label x) lab (length (c_ws c1)) ps).
Proof.
  intros R E N a pre junk bs c e calls n c1 e1 HL H. unfold sol_predict in H.
  destruct (if c_updated c then a_end a c e else Some (c, e)) as [(c', e')|] eqn:Q; [|discriminate]. cbn [bind] in H.
  rewrite batches_spec in H; [|now rewrite map_length, seq_length|lia|lia].
  destruct (mapM (test_point N pre c') (concat bs)) as [rows|] eqn:M; [|discriminate]. cbn in H. injection H as <- <- <- <-.
  split; [destruct (c_updated c); [exact Q|injection Q as -> ->; auto]|]. split; [reflexivity|].
  split; [rewrite map_length; now apply mapM_len in M|]. intros k p Hk. destruct (mapM_nth _ _ _ _ _ M Hk) as (r & Er & Hr).
  unfold test_point in Er. destruct (pre p) as [x|]; [|discriminate]. cbn [bind] in Er.
  destruct (predict N c' x) as [(lab, ps)|] eqn:Ep; [|discriminate]. injection Er as <-.
  exists x, lab, ps. split; [reflexivity|]. split; [exact Ep|]. now rewrite nth_error_map, Hr.
Qed.
Print Assumptions C52_calls.
(** It succeeds exactly when Model::Test on the same examples does, leaves the same model and
    reports the same labels and scores. *)
Theorem C52_test : forall (R E : Type) (N : num R) (a : alg E) pre junk bs c e,
  Z.of_nat (length (concat bs)) <= 2147483647 ->
  match test N a pre (concat bs) c e with
  | None => sol_predict N a pre junk bs c e = None
  | Some (rows, errs, c1, e1) => exists calls,
      sol_predict N a pre junk bs c e = Some (calls, Z.of_nat (length (concat bs)), c1, e1) /\
      map (fun k => (k_true k, k_label k, k_scores k)) calls = rows /\
      Forall (fun k => k_clf k = length (c_ws c1)) calls /\
      errs = Z.of_nat (length (filter (fun k => negb (k_label k =? k_true k)) calls))
  end.
Proof.
  intros R E N a pre junk bs c e HL. unfold test, sol_predict.
  destruct (if c_updated c then a_end a c e else Some (c, e)) as [(c', e')|]; [|reflexivity]. cbn [bind].
  rewrite batches_spec; [|now rewrite map_length, seq_length|lia|lia].
  destruct (mapM (test_point N pre c') (concat bs)) as [rows|]; [|reflexivity]. cbn.
  eexists. split; [reflexivity|]. split; [|split].
  - rewrite map_map. erewrite map_ext; [apply map_id|]. now intros ((y, l), ps).
  - apply Forall_forall. intros k Hk. apply in_map_iff in Hk as (((y, l), ps) & <- & _). reflexivity.
  - f_equal. induction rows as [|((y, l), ps) rows IH]; cbn; [reflexivity|]. destruct (negb (l =? y)); cbn; now rewrite ?IH.
Qed.
Print Assumptions C52_test.
(** So neither the batches nor the old contents of the buffer matter. *)
Theorem C52_batching : forall (R E : Type) (N : num R) (a : alg E) pre junk junk' bs bs' c e,
  concat bs = concat bs' -> Z.of_nat (length (concat bs)) <= 2147483647 ->
  sol_predict N a pre junk bs c e = sol_predict N a pre junk' bs' c e.
Proof.
  intros R E N a pre junk junk' bs bs' c e HB HL. unfold sol_predict.
  destruct (if c_updated c then a_end a c e else Some (c, e)) as [(c', e')|]; [|reflexivity]. cbn [bind].
  rewrite !batches_spec; try (now rewrite map_length, seq_length); rewrite <- ?HB; try lia. reflexivity.
Qed.
Print Assumptions C52_batching.
(** C52, finding: the number of examples is counted in an int, so a data set of 2^31 examples that
    Model::Test accepts makes sol_Predict overflow. *)
Theorem C52_overflow_refuted : exists bs : list (list (point f32)),
  test f32num (perceptron f32num) Some (concat bs) (core0 1 LBool) tt <> None /\
  sol_predict f32num (perceptron f32num) Some (fun _ => F 0) bs (core0 1 LBool) tt = None.
Proof.
  set (p := pt 1 []). set (m := Z.to_nat 1073741824). exists [repeat p m; repeat p m].
  assert (T : test_point f32num Some (core0 1 LBool) p = Some (1, 1, [F 0])) by (vm_compute; reflexivity).
  assert (M : forall k, mapM (test_point f32num Some (core0 1 LBool)) (repeat p k) = Some (repeat (1, 1, [F 0]) k)).
  { induction k as [|k IH]; cbn [repeat mapM]; [reflexivity|]. rewrite T. cbn [bind]. rewrite IH. reflexivity. }
  assert (L : Z.of_nat m = 1073741824) by (unfold m; apply Z2Nat.id; lia). clearbody m p. split.
  - cbn [concat]. rewrite app_nil_r, <- repeat_app. unfold test. change (c_updated (core0 1 LBool)) with false. cbn [bind]. rewrite M. discriminate.
  - unfold sol_predict. change (c_updated (core0 1 LBool)) with false. cbn [bind predict_batches].
    pose proof (batch_spec f32num Some (core0 1 LBool) (repeat p m)) as B. rewrite M in B.
    destruct (B [] (map (fun _ => F 0) (seq 0 (clf_num (core0 1 LBool)))) eq_refl) as (b1 & L1 & ->). cbn [bind].
    rewrite repeat_length, L. replace (2147483647 <? 0 + 1073741824) with false by lia.
    destruct (B (rev (map (call_of (clf_num (core0 1 LBool))) (repeat (1, 1, [F 0]) m)) ++ []) b1 L1) as (b2 & L2 & ->). cbn [bind].
    replace (2147483647 <? 0 + 1073741824 + 1073741824) with true by lia. reflexivity.
Qed.
Print Assumptions C52_overflow_refuted.
(** Three classes, trained, then predicted in two batches with rubbish in the buffer. *)
Example C52_witness :
  match run (KPA1 (F 1)) 3 LMaxHinge [fit [pt 0 [(1, 1); (3, 2)]; pt 2 [(2, 5); (3, 1)]]] with
  | Some (c, e, _) =>
    match sol_predict f32num (pa1 f32num (F 1)) Some (fun i => F (Z.of_nat i - 7))
            [[pt 2 [(2, 1)]; pt 1 [(3, 1); (4, 1)]]; []; [pt 0 [(1, 3)]]] c e with
    | Some (calls, n, _, _) => c_updated c = true /\ n = 3 /\ map k_label calls = [2; 0; 0] /\ map k_true calls = [2; 1; 0]
    | None => False
    end
  | None => False
  end.
Proof. vm_compute. auto. Qed.
