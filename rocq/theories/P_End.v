(** Ending training twice. *)
From Verif Require Import M_Base M_Num M_Expr M_Loss M_Online M_Olm M_OlmSel M_Algs S_Finish P_Online P_Conf.
From Coq Require Import Lia.

(** Case analysis on a bind. *)
Ltac dov H v := match type of H with (bind ?x _ = _) => let Q := fresh "Q" in destruct x as [v|] eqn:Q; cbn [bind] in H; [|discriminate H] end.
(** The second run of the final loop. *)
Ltac zc ws t := match goal with |- context [zip_class ?f ?a ?b] => replace (zip_class f a b) with (Some ws) by (symmetry; exact t) end; reflexivity.

Section E.
Context {R : Type}.
Variable N : num R.

Lemma dense_loop_assign (e : exp R) l : forall l2 i, length l2 = length l -> dense_loop assign e i l2 = dense_loop assign e i l.
Proof.
  induction l as [|x l IH]; intros [|y l2] i H; cbn in *; try discriminate; auto.
  destruct (at_ e i); cbn; [|reflexivity]. rewrite IH by congruence. reflexivity.
Qed.
Lemma dense_loop_length op (e : exp R) l : forall i l', dense_loop op e i l = Some l' -> length l' = length l.
Proof.
  induction l as [|x l IH]; cbn; intros i l' H; [injection H as <-; reflexivity|].
  dov H v. dov H rr. injection H as <-. cbn. f_equal. eapply IH; eauto.
Qed.
Lemma calc_assign_dense (e : exp R) l l2 : typ e = Some TDense -> length l2 = length l -> calc assign l2 e = calc assign l e.
Proof. intros T L. unfold calc. rewrite T. cbn [bind]. destruct (dsize e); cbn [bind]; [|reflexivity]. rewrite L. destruct (negb _ && _); [reflexivity|]. now apply dense_loop_assign. Qed.
Lemma calc_assign_length (e : exp R) l l' : typ e = Some TDense -> calc assign l e = Some l' -> length l' = length l.
Proof. intros T. unfold calc. rewrite T. cbn [bind]. destruct (dsize e); cbn [bind]; [|discriminate]. destruct (negb _ && _); [discriminate|]. apply dense_loop_length. Qed.
Lemma wr_len {A} (l : list A) i v l' : wr l i v = Some l' -> length l' = length l.
Proof. revert i l'; induction l as [|x l IH]; intros [|i] l' H; cbn in H; try discriminate; [injection H as <-; reflexivity|]. dov H r. injection H as <-. cbn. f_equal. eauto. Qed.
Lemma upd0_len (f : R -> R) l l' : upd0 f l = Some l' -> length l' = length l.
Proof. unfold upd0. intros H. dov H v. eapply wr_len; eauto. Qed.

(** A loop over the classes that overwrites the weights does not depend on them. *)
Lemma zip_class_over {A} (f : list R -> A -> option (list R)) (fin : list R -> list R) :
  (forall w w2 e, length w2 = length w -> f w2 e = f w e) ->
  (forall w e w', f w e = Some w' -> length (fin w') = length w) ->
  forall ws es ws', zip_class f ws es = Some ws' -> zip_class f (map fin ws') es = Some ws'.
Proof.
  intros F L. induction ws as [|w ws IH]; intros [|e es] ws' H; cbn in H; try discriminate; try (injection H as <-; reflexivity).
  dov H w1. dov H r. injection H as <-. cbn [map zip_class]. rewrite (F w (fin w1)) by (eapply L; eauto). rewrite Q. cbn [bind].
  rewrite (IH es r Q0). reflexivity.
Qed.
Lemma finalize_len th (w : list R) : length (finalize_l1 N th w) = length w.
Proof. apply map_length. Qed.


Lemma core_end (c : core (R:=R)) ws ws2 b : set_updated (set_ws (set_updated (set_ws c ws) b) ws2) b = set_updated (set_ws c ws2) b.
Proof. destruct c; reflexivity. Qed.
Lemma over_rda sigma_eta b (h : list R -> exp R) (f : R -> R) :
  (forall u, typ (h u) = Some TDense) ->
  let F := fun w u => do w1 <- calc assign w (emul N (EScalar sigma_eta) (h u)); do u0 <- rd u 0; wr w1 0 (n_mul N b (f u0)) in
  (forall w w2 e, length w2 = length w -> F w2 e = F w e) /\ (forall w e w', F w e = Some w' -> length w' = length w).
Proof.
  intros T F. split.
  - intros w w2 e L. unfold F. rewrite (calc_assign_dense _ w w2); auto. cbn. now rewrite T.
  - intros w e w' H. unfold F in H. dov H w1. dov H u0. apply wr_len in H. apply calc_assign_length in Q; [congruence|]. cbn. now rewrite T.
Qed.
Lemma over_ada eta b0 (h : list R * list R -> exp R) :
  (forall u, typ (h u) = Some TDense) ->
  let F := fun w Hu => ada_rda_assign N eta b0 (h Hu) w (fst Hu) in
  (forall w w2 e, length w2 = length w -> F w2 e = F w e) /\ (forall w e w', F w e = Some w' -> length w' = length w).
Proof.
  intros T F. assert (Te : forall u, typ (ediv N (emul N (EScalar (n_opp N eta)) (h u)) (EDense (fst u))) = Some TDense) by (intros; cbn; now rewrite T).
  split.
  - intros w w2 e L. unfold F, ada_rda_assign. now rewrite (calc_assign_dense _ w w2).
  - intros w e w' H. unfold F, ada_rda_assign in H. dov H w1. apply upd0_len in H. apply calc_assign_length in Q; [congruence|auto].
Qed.
(** A final loop that overwrites and then cuts small weights. *)
Lemma over_end {A} (f : list R -> A -> option (list R)) th ws es ws' :
  (forall w w2 e, length w2 = length w -> f w2 e = f w e) /\ (forall w e w', f w e = Some w' -> length w' = length w) ->
  zip_class f ws es = Some ws' -> zip_class f (map (finalize_l1 N th) ws') es = Some ws' /\ zip_class f ws' es = Some ws'.
Proof.
  intros (H1 & H2) H. split.
  - eapply zip_class_over; eauto. intros w e w' E. rewrite finalize_len. eauto.
  - rewrite <- (map_id ws') at 1. eapply (zip_class_over f (fun x => x)); eauto.
Qed.

(** The models whose EndTrain finishes a model for good. *)
Lemma end_twice k c e c1 e1 : settles k = true -> a_end (alg_of N k) c e = Some (c1, e1) -> a_end (alg_of N k) c1 e1 = Some (c1, e1).
Proof.
  destruct k; intros S H; try discriminate S; cbn [alg_of] in *;
  try (unfold perceptron, pa, pa1, pa2, ogd, alma2, arow, cw, eccw, ada_fobos, plain, pet, fofs, sofs, ada_fobos_ofs in *; cbn [a_end] in *; unfold end_none in *; apply Some_inj in H; injection H as <- <-; reflexivity).
  - unfold rda in *. cbn [a_end] in *. unfold rda_end, rda_assign in *. cbv zeta in *. dov H c2. dov Q ws. apply Some_inj in Q. apply Some_inj in H. injection H as <- <-. subst c2. unfold bias_eta in *. cbn in *.
    zc ws (proj2 (over_end _ (zero N) _ _ _ (over_rda _ _ (fun u => EDense u) (fun v => v) ltac:(auto)) Q0)).
  - unfold rda_l1 in *. cbn [a_end] in *. unfold rda_l1_end, rda_assign in *. cbv zeta in *. dov H c2. dov Q ws. apply Some_inj in Q. apply Some_inj in H. injection H as <- <-. subst c2. unfold bias_eta in *. cbn in *.
    zc ws (proj1 (over_end _ thresh _ _ _ (over_rda _ _ (fun u => etrunc N (EDense u) (EScalar (n_mul N lam (n_add N (n_int N (c_iter c)) (n_lit N 1 (-20)))))) (fun v => op_trunc N v _) ltac:(reflexivity)) Q0)).
  - unfold erda_l1 in *. cbn [a_end] in *. unfold erda_l1_end, rda_assign in *. cbv zeta in *. dov H c2. dov Q ws. apply Some_inj in Q. apply Some_inj in H. injection H as <- <-. subst c2. unfold bias_eta in *. cbn in *.
    zc ws (proj1 (over_end _ thresh _ _ _ (over_rda _ _ (fun u => etrunc N (EDense u) (EScalar (n_add N (n_mul N lam (n_add N (n_int N (c_iter c)) (n_lit N 1 (-20)))) (n_mul N (n_mul N sigma rou) (n_sqrt N (n_add N (n_int N (c_iter c)) (n_lit N 1 (-20)))))))) (fun v => op_trunc N v _) ltac:(reflexivity)) Q0)).
  - unfold sop in *. cbn [a_end] in *. unfold sop_end in *. destruct e as (X, v). dov H ws. apply Some_inj in H. injection H as <- <-.
    zc ws (proj2 (over_end _ (zero N) _ _ _ (conj (fun w w2 e L => calc_assign_dense (ediv N (EDense e) (eadd N (EScalar a) (EDense X))) w w2 eq_refl L) (fun w e w' => calc_assign_length (ediv N (EDense e) (eadd N (EScalar a) (EDense X))) w w' eq_refl)) Q)).
  - unfold ada_rda in *. cbn [a_end] in *. unfold ada_rda_end in *. dov H ws. apply Some_inj in H. injection H as <- <-. cbn in *.
    zc ws (proj2 (over_end _ (zero N) _ _ _ (over_ada _ _ (fun Hu => EDense (snd Hu)) ltac:(reflexivity)) Q)).
  - unfold ada_rda_l1 in *. cbn [a_end] in *. unfold ada_rda_l1_end in *. cbv zeta in *. dov H ws. apply Some_inj in H. injection H as <- <-. cbn in *.
    zc ws (proj1 (over_end _ thresh _ _ _ (over_ada _ _ (fun Hu => etrunc N (EDense (snd Hu)) (EScalar (n_mul N lam (n_int N (c_iter c))))) ltac:(reflexivity)) Q)).
  - destruct B; [|discriminate]. unfold ada_rda_ofs in *. cbn [a_end] in *. unfold ada_rda_ofs_end in *. destruct e as (s, ut). dov H ws. apply Some_inj in H. injection H as <- <-. cbn in *.
    zc ws (proj2 (over_end _ (zero N) _ _ _ (over_ada _ _ (fun Hu => EDense (snd Hu)) ltac:(reflexivity)) Q)).
Qed.
End E.

(** EndTrain does not read model_updated_. *)
Lemma end_flag {R} (N : num R) k c e b : a_end (alg_of N k) (set_updated c b) e = a_end (alg_of N k) c e.
Proof.
  destruct c as [f1 f2 f3 f4 f5 f6 f7 f8 f9 f10 f11 f12 f13 f14 f15 f16 f17], k; try reflexivity; cbn [alg_of] in *;
  try (unfold rda, rda_l1, erda_l1; cbn [a_end]; unfold rda_end, rda_l1_end, erda_l1_end, rda_assign, bias_eta; cbv zeta;
       cbn [c_ws c_eta c_b0 c_iter set_eta set_updated]; destruct (zip_class _ _ _); reflexivity).
Qed.
