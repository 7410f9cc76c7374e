(** Proofs about the C interface. *)
From Verif Require Import M_Base M_Num M_Expr M_Loss M_Online M_Api P_Online.

Section P.
Context {R : Type}.
Variable N : num R.

Lemma wr_app (a : list R) v b x : wr (a ++ v :: b) (length a) x = Some (a ++ x :: b).
Proof. unfold wr. induction a as [|y a IH]; cbn in *; [reflexivity|]. now rewrite IH. Qed.

(** Writing all scores leaves exactly the scores in a buffer of that size. *)
Lemma write_scores_spec x ws : forall done buf, length buf = length ws ->
  write_scores N x ws (length done) (done ++ buf) = option_map (app done) (mapM (score N x) ws).
Proof.
  induction ws as [|w ws IH]; intros done buf L; cbn [write_scores mapM].
  - destruct buf; [|discriminate L]. now cbn; rewrite app_nil_r.
  - destruct buf as [|v buf]; [discriminate L|]. destruct (score N x w) as [s|]; [|reflexivity]. cbn [bind].
    rewrite wr_app. cbn [bind]. replace (done ++ s :: buf) with ((done ++ [s]) ++ buf) by now rewrite <- app_assoc.
    replace (S (length done)) with (length (done ++ [s])) by (rewrite app_length; cbn; lia).
    rewrite IH by (cbn in L; lia). destruct (mapM (score N x) ws) as [r|]; [|reflexivity]. cbn. f_equal. now rewrite <- app_assoc.
Qed.

Lemma mapM_len {A B} (f : A -> option B) l : forall r, mapM f l = Some r -> length r = length l.
Proof. induction l as [|a l IH]; intros r H; cbn in H; [injection H as <-; reflexivity|]. dob H Q. dob H Q2. injection H as <-. cbn. now rewrite (IH _ eq_refl). Qed.

Lemma predict_into_spec c p buf : length buf = clf_num c -> predict_into N c p buf = predict N c p.
Proof.
  intros L. unfold predict_into, predict. pose proof (write_scores_spec (feats p) (c_ws c) [] buf L) as W.
  cbn [length app] in W. rewrite W. destruct (mapM (score N (feats p)) (c_ws c)) as [ps|] eqn:E; [|reflexivity].
  cbn. rewrite firstn_all2 by (apply mapM_len in E; unfold clf_num; lia). reflexivity.
Qed.
Lemma predict_len c p lab ps : predict N c p = Some (lab, ps) -> length ps = clf_num c.
Proof. unfold predict. intros H. dob H Q. dob H Q2. injection H as <- <-. now apply mapM_len in Q. Qed.

(** A row of Model::Test as the arguments of a callback. *)
Definition call_of (n : nat) (r : Z * Z * list R) : call := let '(y, l, ps) := r in mkcall y l n ps.

Lemma predict_step_spec pre c p calls buf : length buf = clf_num c ->
  predict_step N pre c p (calls, buf) =
  match test_point N pre c p with
  | Some r => Some (call_of (clf_num c) r :: calls, snd r)
  | None => None
  end.
Proof.
  intros L. unfold predict_step, test_point. destruct (pre p) as [x|]; [|reflexivity]. cbn [bind].
  rewrite predict_into_spec by exact L. destruct (predict N c x) as [(lab, ps)|] eqn:E; reflexivity.
Qed.
Lemma test_point_len pre c p r : test_point N pre c p = Some r -> length (snd r) = clf_num c.
Proof. unfold test_point. intros H. destruct (pre p) as [x|]; [|discriminate]. cbn [bind] in H. destruct (predict N c x) as [(lab, ps)|] eqn:Q; [|discriminate]. injection H as <-. cbn. now apply predict_len in Q. Qed.

Lemma batch_spec pre c l : forall calls buf, length buf = clf_num c ->
  match mapM (test_point N pre c) l with
  | Some rows => exists buf', length buf' = clf_num c /\
      foldM (predict_step N pre c) l (calls, buf) = Some (rev (map (call_of (clf_num c)) rows) ++ calls, buf')
  | None => foldM (predict_step N pre c) l (calls, buf) = None
  end.
Proof.
  induction l as [|p l IH]; intros calls buf L; cbn [mapM foldM].
  - exists buf. split; [exact L|reflexivity].
  - rewrite predict_step_spec by exact L. destruct (test_point N pre c p) as [r|] eqn:E; [|reflexivity]. cbn [bind].
    specialize (IH (call_of (clf_num c) r :: calls) (snd r) (test_point_len _ _ _ _ E)).
    destruct (mapM (test_point N pre c) l) as [rows|]; [|exact IH]. destruct IH as (buf' & L' & ->). exists buf'. split; [exact L'|].
    cbn. now rewrite <- app_assoc.
Qed.

Lemma mapM_app {A B} (f : A -> option B) l m : mapM f (l ++ m) = (do a <- mapM f l; do b <- mapM f m; Some (a ++ b)).
Proof.
  induction l as [|x l IH]; cbn; [destruct (mapM f m); reflexivity|]. destruct (f x) as [y|]; [|reflexivity]. cbn. rewrite IH.
  destruct (mapM f l) as [a|]; [|reflexivity]. cbn. destruct (mapM f m); reflexivity.
Qed.

Lemma batches_spec pre c bs : forall calls buf n, length buf = clf_num c -> 0 <= n -> n + Z.of_nat (length (concat bs)) <= 2147483647 ->
  predict_batches N pre c bs (calls, buf) n =
  match mapM (test_point N pre c) (concat bs) with
  | Some rows => Some (rev calls ++ map (call_of (clf_num c)) rows, n + Z.of_nat (length (concat bs)))
  | None => None
  end.
Proof.
  induction bs as [|b bs IH]; intros calls buf n L Hn Hm; cbn [predict_batches concat].
  - cbn. now rewrite app_nil_r, Z.add_0_r.
  - rewrite mapM_app. pose proof (batch_spec pre c b calls buf L) as B.
    destruct (mapM (test_point N pre c) b) as [rows|]; [|rewrite B; reflexivity]. destruct B as (buf' & L' & ->). cbn [bind].
    cbn [concat] in Hm. rewrite app_length in Hm. rewrite app_length.
    replace (2147483647 <? _) with false by lia. rewrite IH by (auto; lia).
    destruct (mapM (test_point N pre c) (concat bs)) as [rows'|]; [|reflexivity]. cbn. f_equal. f_equal; [|lia].
    rewrite map_app, rev_app_distr, rev_involutive, app_assoc. reflexivity.
Qed.

Lemma mapM_nth {A B} (f : A -> option B) l : forall r k a, mapM f l = Some r -> nth_error l k = Some a ->
  exists b, f a = Some b /\ nth_error r k = Some b.
Proof.
  induction l as [|x l IH]; intros r k a H Hk; [destruct k; discriminate|]. cbn in H. dob H Q. dob H Q2. injection H as <-.
  destruct k; cbn in Hk; [injection Hk as <-; eauto|]. cbn. eauto.
Qed.
End P.
