(** RDA, RDA_L1 and ERDA_L1 against the learner that remembers its gradients. *)
From Coq Require Import Sorted.
From Verif Require Import M_Base M_Num M_Expr M_Loss M_Online M_Olm M_Algs S_Expr S_Online S_Session S_Dual
  P_DataPoint P_Expr P_Online P_Predict P_Step P_Safe P_SafeOlm P_Session P_Session2 P_Dual P_Dual2.

Section D.
Context {R : Type}.
Variable N : num R.
Local Notation zero := (zero N).
Variable n : nat.

Lemma cut_small_finalize thresh : cut_small N thresh = finalize_l1 N thresh.
Proof. reflexivity. Qed.
Lemma rst_I c e h : RSt N n (c_dim c) (c_ws c) (par c) e h -> length (c_ws c) = n ->
  shape (length (c_ws c)) (c_dim c) e.
Proof. intros (H & _) ->. exact H. Qed.

Ltac sparse_form p := let w := fresh in let u := fresh in let Hl := fresh in let H1 := fresh in
  intros w u Hl H1; rewrite (calc_sparse zero _ (feats p));
  [reflexivity|simpl; auto|reflexivity|now apply fs|simpl; repeat split; auto; lia].
Ltac dense_form := let w := fresh in let u := fresh in let Hl := fresh in let H1 := fresh in
  intros w u Hl H1; rewrite (calc_dense zero); [reflexivity|simpl; auto|simpl; repeat split; auto].
Ltac rprep p := let G := fresh in let E2 := fresh in let Hd := fresh in let Hs := fresh in
  let Hst := fresh in let Hp := fresh in let c2 := fresh in intros Hp Hd Hs Hst G;
  match type of G with context [rda_assign N ?c1 ?e ?f ?ut] =>
    destruct (rda_assign N c1 e f ut) as [c2|] eqn:E2; [|discriminate];
    eapply (rda_assign_sparse N n f p c1 e ut c2 _ Hp) in E2; [|exact Hd|exact Hs|exact Hst|sparse_form p] end;
  cbn [bind] in G; injection G as <- <-; split; [reflexivity|]; exact E2.
Ltac rend := let G := fresh in let E2 := fresh in let Hd := fresh in let Hs := fresh in
  let Hst := fresh in let c2 := fresh in intros Hd Hs Hst G;
  match type of G with context [rda_assign N ?c1 ?e ?f ?ut] =>
    destruct (rda_assign N c1 e f ut) as [c2|] eqn:E2; [|discriminate];
    eapply (rda_assign_full N n f c1 e ut c2 _) in E2; [|exact Hd|exact Hs|exact Hst|dense_form] end;
  cbn [bind] in G; injection G as <- <-; split; [reflexivity|]; rewrite E2; rewrite ?map_id; reflexivity.

Lemma agrees_rda sigma c0 : fresh N n c0 -> loss_ok n (c_loss c0) ->
  indistinguishable N (rda N sigma) (dual_rda N sigma) n c0 (init_of N (KRDA sigma) n) [] 0 all_uses /\
  weights_are_cache N (rda N sigma) n c0 (init_of N (KRDA sigma) n) 0.
Proof.
  assert (Hp : forall p c ut h c1 ut1, wf_point 0 p -> (1 <= c_dim c)%nat -> shape n (c_dim c) (c_ws c) ->
    sums N n (c_dim c) ut h -> rda_prep N sigma p c ut = Some (c1, ut1) -> ut1 = ut /\
    exists ws, c1 = set_ws (set_eta c (n_div N (one N) (n_mul N (before N c) sigma))) ws /\ shape n (c_dim c) ws /\
      forall k i, (k < n)%nat -> (i < c_dim c)%nat -> i = 0%nat \/ lookup (feats p) i <> None ->
      nth i (nth k ws []) zero = step_to N (fun u => u) (set_eta c (n_div N (one N) (n_mul N (before N c) sigma))) h k i).
  { intros p c ut h c1 ut1. unfold rda_prep. cbv zeta. rprep p. }
  assert (He : forall c ut h c1 ut1, (1 <= c_dim c)%nat -> shape n (c_dim c) (c_ws c) ->
    sums N n (c_dim c) ut h -> rda_end N sigma c ut = Some (c1, ut1) -> ut1 = ut /\
    c1 = set_updated (set_ws (set_eta c (n_div N (one N) (n_mul N (upto N c) sigma)))
         (map (fun w => w) (table n (c_dim c) (step_to N (fun u => u) (set_eta c (n_div N (one N) (n_mul N (upto N c) sigma))) h)))) false).
  { intros c ut h c1 ut1. unfold rda_end. cbv zeta. rend. }
  intros Hf Hl. split.
  - apply (user_agrees N n (KRDA sigma) (dual_rda N sigma) all_uses (RSt N n)
    (fun ws d e => shape (length ws) d e) local 0); auto.
    + cbn. lia.
    + apply (safe_gsafe N 0 _ _ _ (safe_rda N sigma)).
    + exact rst_I.
    + apply sums_init.
    + intros pre us s s' t _. apply (rda_like_session N n (rda_prep N sigma) (rda_end N sigma) _ _ (fun _ u => u) (fun _ u => u) (fun w => w)); auto.
    + apply (rda_like_iterate N n (rda_prep N sigma) (rda_end N sigma) _ _ (fun _ u => u) (fun _ u => u) (fun w => w)); auto.
    + apply (rda_like_test N n (rda_prep N sigma) (rda_end N sigma) _ _ (fun _ u => u) (fun _ u => u) (fun w => w)); auto.
  - apply (user_cache N n (KRDA sigma) (dual_rda N sigma) all_uses (RSt N n)
    (fun ws d e => shape (length ws) d e) local 0); auto.
    + cbn. lia.
    + apply (safe_gsafe N 0 _ _ _ (safe_rda N sigma)).
    + exact rst_I.
    + apply sums_init.
    + intros pre us s s' t _. apply (rda_like_session N n (rda_prep N sigma) (rda_end N sigma) _ _ (fun _ u => u) (fun _ u => u) (fun w => w)); auto.
    + apply (rda_like_iterate N n (rda_prep N sigma) (rda_end N sigma) _ _ (fun _ u => u) (fun _ u => u) (fun w => w)); auto.
    + apply (rda_like_test N n (rda_prep N sigma) (rda_end N sigma) _ _ (fun _ u => u) (fun _ u => u) (fun w => w)); auto.
    + apply (rda_like_end N n (rda_prep N sigma) (rda_end N sigma) _ _ (fun _ u => u) (fun _ u => u) (fun w => w)); auto.
    + intros c e Hwf HI. destruct (end_rda N sigma c e Hwf HI) as (c1 & e1 & G & _). eauto.
    + intros u. exact Logic.I.
Qed.
Lemma agrees_rda_l1 sigma lam thresh c0 : fresh N n c0 -> loss_ok n (c_loss c0) ->
  indistinguishable N (rda_l1 N sigma lam thresh) (dual_rda_l1 N sigma lam thresh) n c0 (init_of N (KRDA_L1 sigma lam thresh) n) [] 0 all_uses /\
  weights_are_cache N (rda_l1 N sigma lam thresh) n c0 (init_of N (KRDA_L1 sigma lam thresh) n) 0.
Proof.
  set (eta1 := fun c : core (R:=R) => n_div N (one N) (n_mul N (n_sub N (n_int N (c_iter c)) (one N)) sigma)). set (eta2 := fun c : core (R:=R) => n_div N (one N) (n_mul N (upto N c) sigma)).
  set (f1 := fun (c : core (R:=R)) u => op_trunc N u (n_mul N lam (n_sub N (n_int N (c_iter c)) (one N)))). set (f2 := fun (c : core (R:=R)) u => op_trunc N u (n_mul N lam (upto N c))).
  assert (Hp : forall p c ut h c1 ut1, wf_point 0 p -> (1 <= c_dim c)%nat -> shape n (c_dim c) (c_ws c) ->
    sums N n (c_dim c) ut h -> rda_l1_prep N sigma lam p c ut = Some (c1, ut1) -> ut1 = ut /\
    exists ws, c1 = set_ws (set_eta c (eta1 c)) ws /\ shape n (c_dim c) ws /\
      forall k i, (k < n)%nat -> (i < c_dim c)%nat -> i = 0%nat \/ lookup (feats p) i <> None ->
      nth i (nth k ws []) zero = step_to N (f1 (set_eta c (eta1 c))) (set_eta c (eta1 c)) h k i).
  { intros p c ut h c1 ut1. unfold rda_l1_prep. cbv zeta. rprep p. }
  assert (He : forall c ut h c1 ut1, (1 <= c_dim c)%nat -> shape n (c_dim c) (c_ws c) ->
    sums N n (c_dim c) ut h -> rda_l1_end N sigma lam thresh c ut = Some (c1, ut1) -> ut1 = ut /\
    c1 = set_updated (set_ws (set_eta c (eta2 c)) (map (cut_small N thresh)
           (table n (c_dim c) (step_to N (f2 (set_eta c (eta2 c))) (set_eta c (eta2 c)) h)))) false).
  { intros c ut h c1 ut1. unfold rda_l1_end. cbv zeta. rend. }
  assert (Hc : forall w, length (cut_small N thresh w) = length w) by (intros; apply map_length).
  intros Hf Hl. split.
  - apply (user_agrees N n (KRDA_L1 sigma lam thresh) (dual_rda_l1 N sigma lam thresh) all_uses (RSt N n)
    (fun ws d e => shape (length ws) d e) local 0); auto.
    + cbn. lia.
    + apply (safe_gsafe N 0 _ _ _ (safe_rda_l1 N sigma lam thresh)).
    + exact rst_I.
    + apply sums_init.
    + intros pre us s s' t _. apply (rda_like_session N n (rda_l1_prep N sigma lam) (rda_l1_end N sigma lam thresh) eta1 eta2 f1 f2 (cut_small N thresh)); auto.
    + apply (rda_like_iterate N n (rda_l1_prep N sigma lam) (rda_l1_end N sigma lam thresh) eta1 eta2 f1 f2 (cut_small N thresh)); auto.
    + apply (rda_like_test N n (rda_l1_prep N sigma lam) (rda_l1_end N sigma lam thresh) eta1 eta2 f1 f2 (cut_small N thresh)); auto.
  - apply (user_cache N n (KRDA_L1 sigma lam thresh) (dual_rda_l1 N sigma lam thresh) all_uses (RSt N n)
    (fun ws d e => shape (length ws) d e) local 0); auto.
    + cbn. lia.
    + apply (safe_gsafe N 0 _ _ _ (safe_rda_l1 N sigma lam thresh)).
    + exact rst_I.
    + apply sums_init.
    + intros pre us s s' t _. apply (rda_like_session N n (rda_l1_prep N sigma lam) (rda_l1_end N sigma lam thresh) eta1 eta2 f1 f2 (cut_small N thresh)); auto.
    + apply (rda_like_iterate N n (rda_l1_prep N sigma lam) (rda_l1_end N sigma lam thresh) eta1 eta2 f1 f2 (cut_small N thresh)); auto.
    + apply (rda_like_test N n (rda_l1_prep N sigma lam) (rda_l1_end N sigma lam thresh) eta1 eta2 f1 f2 (cut_small N thresh)); auto.
    + apply (rda_like_end N n (rda_l1_prep N sigma lam) (rda_l1_end N sigma lam thresh) eta1 eta2 f1 f2 (cut_small N thresh)); auto.
    + intros c e Hwf HI. destruct (end_rda_l1 N sigma lam thresh c e Hwf HI) as (c1 & e1 & G & _). eauto.
    + intros u. exact Logic.I.
Qed.
Lemma agrees_erda_l1 sigma lam rou thresh c0 : fresh N n c0 -> loss_ok n (c_loss c0) ->
  indistinguishable N (erda_l1 N sigma lam rou thresh) (dual_erda_l1 N sigma lam rou thresh) n c0 (init_of N (KERDA_L1 sigma lam rou thresh) n) [] 0 all_uses /\
  weights_are_cache N (erda_l1 N sigma lam rou thresh) n c0 (init_of N (KERDA_L1 sigma lam rou thresh) n) 0.
Proof.
  set (eta1 := fun c : core (R:=R) => n_div N (one N) (n_mul N (n_sqrt N (before N c)) sigma)). set (eta2 := fun c : core (R:=R) => n_div N (one N) (n_mul N (n_sqrt N (upto N c)) sigma)).
  set (f1 := fun (c : core (R:=R)) u => op_trunc N u (n_add N (n_mul N lam (before N c)) (n_mul N (n_mul N sigma rou) (n_sqrt N (before N c))))). set (f2 := fun (c : core (R:=R)) u => op_trunc N u (n_add N (n_mul N lam (upto N c)) (n_mul N (n_mul N sigma rou) (n_sqrt N (upto N c))))).
  assert (Hp : forall p c ut h c1 ut1, wf_point 0 p -> (1 <= c_dim c)%nat -> shape n (c_dim c) (c_ws c) ->
    sums N n (c_dim c) ut h -> erda_l1_prep N sigma lam rou p c ut = Some (c1, ut1) -> ut1 = ut /\
    exists ws, c1 = set_ws (set_eta c (eta1 c)) ws /\ shape n (c_dim c) ws /\
      forall k i, (k < n)%nat -> (i < c_dim c)%nat -> i = 0%nat \/ lookup (feats p) i <> None ->
      nth i (nth k ws []) zero = step_to N (f1 (set_eta c (eta1 c))) (set_eta c (eta1 c)) h k i).
  { intros p c ut h c1 ut1. unfold erda_l1_prep. cbv zeta. rprep p. }
  assert (He : forall c ut h c1 ut1, (1 <= c_dim c)%nat -> shape n (c_dim c) (c_ws c) ->
    sums N n (c_dim c) ut h -> erda_l1_end N sigma lam rou thresh c ut = Some (c1, ut1) -> ut1 = ut /\
    c1 = set_updated (set_ws (set_eta c (eta2 c)) (map (cut_small N thresh)
           (table n (c_dim c) (step_to N (f2 (set_eta c (eta2 c))) (set_eta c (eta2 c)) h)))) false).
  { intros c ut h c1 ut1. unfold erda_l1_end. cbv zeta. rend. }
  assert (Hc : forall w, length (cut_small N thresh w) = length w) by (intros; apply map_length).
  intros Hf Hl. split.
  - apply (user_agrees N n (KERDA_L1 sigma lam rou thresh) (dual_erda_l1 N sigma lam rou thresh) all_uses (RSt N n)
    (fun ws d e => shape (length ws) d e) local 0); auto.
    + cbn. lia.
    + apply (safe_gsafe N 0 _ _ _ (safe_erda_l1 N sigma lam rou thresh)).
    + exact rst_I.
    + apply sums_init.
    + intros pre us s s' t _. apply (rda_like_session N n (erda_l1_prep N sigma lam rou) (erda_l1_end N sigma lam rou thresh) eta1 eta2 f1 f2 (cut_small N thresh)); auto.
    + apply (rda_like_iterate N n (erda_l1_prep N sigma lam rou) (erda_l1_end N sigma lam rou thresh) eta1 eta2 f1 f2 (cut_small N thresh)); auto.
    + apply (rda_like_test N n (erda_l1_prep N sigma lam rou) (erda_l1_end N sigma lam rou thresh) eta1 eta2 f1 f2 (cut_small N thresh)); auto.
  - apply (user_cache N n (KERDA_L1 sigma lam rou thresh) (dual_erda_l1 N sigma lam rou thresh) all_uses (RSt N n)
    (fun ws d e => shape (length ws) d e) local 0); auto.
    + cbn. lia.
    + apply (safe_gsafe N 0 _ _ _ (safe_erda_l1 N sigma lam rou thresh)).
    + exact rst_I.
    + apply sums_init.
    + intros pre us s s' t _. apply (rda_like_session N n (erda_l1_prep N sigma lam rou) (erda_l1_end N sigma lam rou thresh) eta1 eta2 f1 f2 (cut_small N thresh)); auto.
    + apply (rda_like_iterate N n (erda_l1_prep N sigma lam rou) (erda_l1_end N sigma lam rou thresh) eta1 eta2 f1 f2 (cut_small N thresh)); auto.
    + apply (rda_like_test N n (erda_l1_prep N sigma lam rou) (erda_l1_end N sigma lam rou thresh) eta1 eta2 f1 f2 (cut_small N thresh)); auto.
    + apply (rda_like_end N n (erda_l1_prep N sigma lam rou) (erda_l1_end N sigma lam rou thresh) eta1 eta2 f1 f2 (cut_small N thresh)); auto.
    + intros c e Hwf HI. destruct (end_erda_l1 N sigma lam rou thresh c e Hwf HI) as (c1 & e1 & G & _). eauto.
    + intros u. exact Logic.I.
Qed.
End D.
