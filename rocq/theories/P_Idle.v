(** One training step of the registered models: when it does not touch the weights, and which
    weights it can touch. *)
From Verif Require Import M_Base M_Num M_Expr M_Loss M_Online M_Olm M_OlmSel M_Heap M_Algs S_Expr
  S_Online S_Session P_DataPoint P_Expr P_Online P_Predict P_Step P_Safe P_Session P_Session2 P_Keep.

Section P.
Context {R : Type}.
Variable N : num R.
Local Notation zero := (zero N).

Ltac crack := repeat match goal with
  | H : Some _ = Some _ |- _ => injection H; clear H; intros; subst
  | H : None = Some _ |- _ => discriminate H
  | H : bind ?m _ = Some _ |- _ => destruct m as [?|] eqn:?; cbn [bind] in H; [|discriminate H]
  | H : context [match ?x with (_, _) => _ end] |- _ => destruct x
  | H : (if ?b then _ else _) = Some _ |- _ => destruct b eqn:?
  end.

Lemma udim_ge d (c : core (R:=R)) : (d <= c_dim c)%nat -> linear_update_dim N d c = c.
Proof. intros H. unfold linear_update_dim. now replace (c_dim c <? d)%nat with false by lia. Qed.
Lemma sigma_grow_core a d c s c' s' : sigma_grow N a d c s = Some (c', s') -> c' = linear_update_dim N d c.
Proof.
  unfold sigma_grow. intros H. destruct (Nat.ltb_spec (c_dim c) d).
  - crack. reflexivity.
  - inv H. now rewrite udim_ge by lia.
Qed.
Lemma sel2_grow_core a d c s c' s' : sel2_grow N a d c s = Some (c', s') -> c' = linear_update_dim N d c.
Proof.
  unfold sel2_grow. intros H. destruct (Nat.ltb_spec (c_dim c) d).
  - cbv zeta in H. crack. eapply sigma_grow_core; eauto.
  - inv H. now rewrite udim_ge by lia.
Qed.
Lemma sel1_grow_core d c s c' s' : sel1_grow N d c s = Some (c', s') -> c' = linear_update_dim N d c.
Proof.
  unfold sel1_grow. intros H. destruct (Nat.ltb_spec (c_dim c) d).
  - destruct s. cbv zeta in H. crack. reflexivity.
  - inv H. now rewrite udim_ge by lia.
Qed.
Lemma grow_core k d c e c' e' : a_grow (alg_of N k) d c e = Some (c', e') -> c' = linear_update_dim N d c.
Proof.
  destruct k; cbn; intros H; unfold grow_none, stg_grow, rda_grow, sop_grow, ada_rda_grow,
    ada_rda_ofs_grow in H; crack; eauto using sigma_grow_core, sel2_grow_core, sel1_grow_core;
    symmetry; apply udim_ge; now apply Nat.ltb_ge.
Qed.
Lemma prep_direct k p c e c' e' : direct_kind k = true ->
  a_prep (alg_of N k) p c e = Some (c', e') -> c' = c /\ e' = e.
Proof. destruct k; cbn; intros Hk H; try discriminate; unfold prep_none in H; inv H; auto. Qed.

Lemma update_dim_padded d c : wf_core c -> padded N d (c_ws c) (c_ws (linear_update_dim N d c)).
Proof.
  intros (Hd & Hne & Hw & Hg). unfold linear_update_dim, padded. rewrite Forall_forall in Hw.
  destruct (Nat.ltb_spec (c_dim c) d); cbn [c_ws set_dim set_ws].
  - split; [apply map_length|]. intros j w w' Hj Hj'. rewrite nth_error_map, Hj in Hj'. inv Hj'.
    assert (Hl : length w = c_dim c) by (apply Hw; eapply nth_error_In; eauto).
    unfold grow. rewrite firstn_all2 by lia. do 2 f_equal. lia.
  - split; [reflexivity|]. intros j w w' Hj Hj'. assert (w' = w) by congruence. subst w'.
    assert (Hl : length w = c_dim c) by (apply Hw; eapply nth_error_In; eauto).
    replace (Nat.max d (length w) - length w)%nat with O by lia. now rewrite app_nil_r.
Qed.

(** What decides whether the weights change. *)
Lemma iterate_idle k p rnd c e lab ps c' e' : direct_kind k = true ->
  iterate N (alg_of N k) p rnd c e = Some (lab, ps, c', e') ->
  let c1 := linear_update_dim N (Z.to_nat (x_dim p)) c in
  predict N c1 p = Some (lab, ps) /\
  exists q, queried N c1 ps lab rnd = Some q /\
  (q = false -> c_ws c' = c_ws c1) /\
  (c_lazy c = true -> lab = p_label p -> c_ws c' = c_ws c1) /\
  (q = true -> exists h m r,
     gradient N (c_loss c) h (p_label p) ps lab (c_g c) m = Some r /\
     m = (match c_cost c with None => c_margin c | Some v => if p_label p =? 1 then v else one N end) /\
     (n_lt N zero (l_loss r) = false -> c_lazy c = false -> c_ws c' = c_ws c1)).
Proof.
  intros Hk H c1. unfold iterate in H. dob H E1. destruct p0 as (cg, eg).
  pose proof (grow_core _ _ _ _ _ _ E1) as Hg. fold c1 in Hg. subst cg.
  dob H E2. dob H E3. destruct p0 as (c3, e3). destruct (prep_direct _ _ _ _ _ _ Hk E3) as (-> & ->).
  dob H E4. destruct p0 as (lab4, ps4). dob H E5.
  assert (Hset : c_loss c1 = c_loss c /\ c_lazy c1 = c_lazy c /\ c_cost c1 = c_cost c /\ c_g c1 = c_g c /\
    c_margin c1 = c_margin c).
  { unfold c1, linear_update_dim. destruct (c_dim c <? _)%nat; repeat split. }
  destruct Hset as (S1 & S2 & S3 & S4 & S5).
  destruct b.
  - dob H E6. destruct p0 as (c4, e4). inv H. split; [exact E4|]. exists true. split; [exact E5|].
    split; [discriminate|]. unfold learn in E6. dob E6 E7. dob E6 E8. destruct p0 as (c5, e5).
    dob E6 E9. inv E6.
    set (c2 := set_data (set_iter c1 (c_iter c1 + 1)) (c_data c1 + 1)) in *.
    assert (Hc2 : c_ws (cost_margin_step N c2 (p_label p)) = c_ws c1 /\
      c_lazy (cost_margin_step N c2 (p_label p)) = c_lazy c /\
      c_loss (cost_margin_step N c2 (p_label p)) = c_loss c /\
      c_g (cost_margin_step N c2 (p_label p)) = c_g c /\
      c_margin (cost_margin_step N c2 (p_label p)) =
        match c_cost c with None => c_margin c | Some v => if p_label p =? 1 then v else one N end).
    { unfold cost_margin_step. rewrite <- S3. unfold c2. cbn [c_cost set_data set_iter].
      destruct (c_cost c1); cbn; auto. }
    destruct Hc2 as (W & Lz & Ls & Gs & Mg). unfold wants_update in E8. cbn [c_lazy set_lres] in E8. rewrite Lz in E8.
    split.
    + intros Hl ->. rewrite Hl, Z.eqb_refl in E8. cbn [negb] in E8. inv E8. exact W.
    + intros _. rewrite Ls, Gs, Mg in E7. eexists _, _, l. split; [exact E7|]. split; [reflexivity|].
      intros Hn Hl. rewrite Hl, Hn in E8. inv E8. exact W.
  - inv H. split; [exact E4|]. exists false. split; [exact E5|]. split; [reflexivity|].
    split; [reflexivity|discriminate].
Qed.

(** ** Locality *)
Lemma begin_local k c e c' e' : local_kind k = true ->
  a_begin (alg_of N k) c e = Some (c', e') -> c' = c.
Proof. destruct k; cbn; intros Hk H; try discriminate; unfold begin_none in H; inv H; auto. Qed.
Lemma rel_local (k : kind (R:=R)) : local_kind k = true -> rel_of k = local (R:=R).
Proof. destruct k; cbn; intros; try discriminate; reflexivity. Qed.
Lemma step_local_of d idx c c' : wf_core c ->
  Forall2 (local idx) (c_ws (linear_update_dim N d c)) (c_ws c') -> step_local N idx (c_ws c) (c_ws c').
Proof.
  intros Hc HF. destruct (update_dim_padded d c Hc) as (HL & HP).
  assert (HL' : length (c_ws c') = length (c_ws c)) by (rewrite <- HL; symmetry; eapply Forall2_len; eauto).
  split; [exact HL'|]. intros j w w' i v Hj Hj' Hi Hni Hv.
  destruct (nth_error (c_ws (linear_update_dim N d c)) j) as [wg|] eqn:Eg.
  2:{ apply nth_error_None in Eg. assert (j < length (c_ws c))%nat by (apply nth_error_Some; congruence). lia. }
  pose proof (HP j w wg Hj Eg) as Hw.
  assert (Hloc : local idx wg w').
  { clear -HF Eg Hj'. revert j Eg Hj'. induction HF; intros [|j] E1 E2; try discriminate; cbn in *.
    - inv E1. now inv E2.
    - eauto. }
  destruct Hloc as (Hl & Hloc). rewrite (Hloc i Hi Hni), Hw in Hv.
  destruct (le_lt_dec (length w) i).
  - right. split; [lia|]. rewrite nth_error_app2 in Hv by lia. apply nth_error_In in Hv.
    now apply repeat_spec in Hv.
  - left. now rewrite nth_error_app1 in Hv by lia.
Qed.
Lemma session_local k n c0 loss us pre p rnd x c e r c' e' r' :
  local_kind k = true -> fresh N n c0 -> c_loss c0 = loss -> loss_ok n loss ->
  Forall (use_ok (lo_of k) n pre) us -> accepts (lo_of k) n pre p -> pre p = Some x ->
  session N (alg_of N k) pre us (c0, init_of N k n, true) = Some (c, e, r) ->
  use_step N (alg_of N k) pre (UTrain [[(p, rnd)]]) (c, e, r) = Some (c', e', r') ->
  step_local N (p_idx x) (c_ws c) (c_ws c').
Proof.
  intros Hk Hf Hl Hlo HU Hacc Hx E1 E2.
  assert (Hlo0 : 0 <= lo_of k) by (destruct k; cbn; lia).
  destruct (fresh_wf N n c0 Hf) as (Hc0 & Hn0).
  destruct Hacc as (x' & Ex & Hwx & Hlab). assert (x' = x) by congruence. subst x'.
  destruct (session_of N False k n c0 loss us pre Hf Hl Hlo) as (c1 & e1 & r1 & Es & Hc1 & Hn1 & HL & Hcase);
    [tauto|auto|].
  rewrite Es in E1. injection E1 as -> -> ->.
  cbn [use_step] in E2. dob E2 E3. destruct p0 as (((c2, e2), dp), evs). inv E2.
  unfold train_batches in E3. dob E3 E4. destruct p0 as (cb, eb). dob E3 E5.
  destruct p0 as (((c3, e3), dp3), evs3). inv E3.
  assert (Hb : cb = c) by (destruct r; [eapply begin_local; eauto|now inv E4]). subst cb.
  assert (HI : inv_of N False k (c_ws c) (c_dim c) eb).
  { destruct r.
    - destruct Hcase as [(-> & -> & _)|HI].
      + destruct (begin_of N False k c0 (init_of N k (length (c_ws c0))) Hc0) as (cz & ez & Ez & _ & HIz).
        { destruct Hf as (_ & Hw & Hd & _). pose proof (pre_init N False k (length (c_ws c0))) as Hpi.
          rewrite <- Hw in Hpi. now rewrite Hd. }
        rewrite E4 in Ez. now inv Ez.
      + destruct (begin_again N k c e Hc1 HI) as (cz & ez & Ez & _ & HIz). rewrite E4 in Ez. now inv Ez.
    - inv E4. destruct Hcase as [(_ & _ & Hx')|HI]; [discriminate|exact HI]. }
  cbn [foldM] in E5. dob E5 E6. inv E5. dob E6 E7. inv E6. unfold train_step in E7. dob E7 E8.
  destruct p0 as (cx, ex). unfold train_point in E8. rewrite Hx in E8. cbn [bind] in E8.
  destruct (iterate_safe N (lo_of k) (alg_of N k) (inv_of N False k) (rel_of k) x rnd c eb Hlo0
    (gsafe_of N False k) Hwx Hc1 HI) as (lab & ps & ci & ei & Ei & _ & _ & _ & _ & _ & _ & _ & _ & _ & _ & HF).
  { now rewrite Hn1, HL. }
  { now rewrite Hn1. }
  rewrite Ei in E8. cbn [bind] in E8. inv E8. rewrite rel_local in HF by auto.
  assert (Hws : c_ws c3 = c_ws ci).
  { destruct (lab =? p_label x); destruct (_ <=? _); now inv E7. }
  cbn [c_ws set_updated]. rewrite Hws. eapply step_local_of; eauto.
Qed.
End P.
