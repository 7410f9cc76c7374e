(** The training loop for an arbitrary algorithm. *)
From Verif Require Import M_Base M_Num M_Expr M_Loss M_Online S_Expr S_Online P_DataPoint P_Expr.
From Coq Require Import Sorted.

Ltac inv H := inversion H; subst; clear H.
(** Case split of a monadic computation that succeeds. *)
Ltac dob H E :=
  match type of H with
  | bind ?m _ = Some _ => destruct m as [?|] eqn:E; cbn [bind] in H; [|discriminate H]
  end.

Section P.
Context {R : Type}.
Variable N : num R.

Lemma same_refl (c : core (R:=R)) : same_counters c c.
Proof. repeat split. Qed.

(** Effect of one example on the counters; [q] is whether the label was queried, [u] whether the
    model was updated. *)
Lemma iterate_counters {E} (a : alg (R:=R) E) p rnd c e lab ps c' e' :
  keeps_counters a -> iterate N a p rnd c e = Some (lab, ps, c', e') ->
  exists q u : bool,
    c_data c' = c_data c + 1 /\ c_err c' = c_err c /\
    c_iter c' = c_iter c + (if q then 1 else 0) /\
    c_upd c' = c_upd c + (if u then 1 else 0) /\ (u = true -> q = true).
Proof.
  intros (Kg & Kp & Ku) H. unfold iterate in H.
  dob H E1. destruct p0 as (c1, e1). dob H E2. dob H E3. destruct p0 as (c3, e3).
  dob H E4. destruct p0 as (lab4, ps4). dob H E5.
  destruct (Kg _ _ _ _ _ E1) as (A1 & A2 & A3 & A4).
  destruct (Kp _ _ _ _ _ E3) as (B1 & B2 & B3 & B4). cbn in B1, B2, B3, B4.
  destruct b.
  - dob H E6. destruct p0 as (c4, e4). inv H. exists true.
    unfold learn in E6. dob E6 E7. dob E6 E8. destruct p0 as (c5, e5). dob E6 E9. inv E6.
    set (c2 := cost_margin_step N c3 (p_label p)) in *.
    assert (Hc2 : same_counters c3 c2).
    { unfold c2, cost_margin_step. destruct (c_cost c3); repeat split. }
    destruct Hc2 as (C1 & C2 & C3 & C4).
    destruct (wants_update N (set_lres c2 l) lab (p_label p) (l_loss l)).
    + exists true. destruct (Ku _ _ _ _ _ _ E8) as (D1 & D2 & D3 & D4).
      cbn in D1, D2, D3, D4. repeat split; auto; lia.
    + inv E8. exists false. cbn. repeat split; auto; try lia; try discriminate.
  - inv H. exists false, false. cbn. repeat split; auto; lia.
Qed.

Lemma train_cons {E} (a : alg (R:=R) E) pre d data c e :
  train N a pre (d :: data) c e =
  do (c1, e1) <- train_point N a pre d c e; train N a pre data c1 e1.
Proof.
  unfold train. cbn [foldM fst snd]. destruct (train_point N a pre d c e) as [(c1, e1)|]; reflexivity.
Qed.
Lemma foldM_app {A St} (f : A -> St -> option St) l1 l2 s :
  foldM f (l1 ++ l2) s = do s1 <- foldM f l1 s; foldM f l2 s1.
Proof.
  revert s. induction l1 as [|x l1 IH]; intros s; [reflexivity|]. cbn [app foldM].
  destruct (f x s); cbn [bind]; auto.
Qed.
Lemma foldM_concat {A St} (f : A -> St -> option St) ls s :
  foldM (fun b st => foldM f b st) ls s = foldM f (concat ls) s.
Proof.
  revert s. induction ls as [|l ls IH]; intros s; [reflexivity|]. cbn [foldM concat].
  rewrite foldM_app. destruct (foldM f l s); cbn [bind]; auto.
Qed.
Lemma foldM_ext {A St} (f g : A -> St -> option St) l s : (forall x s, f x s = g x s) ->
  foldM f l s = foldM g l s.
Proof.
  intros H. revert s. induction l as [|x l IH]; intros s; [reflexivity|]. cbn [foldM].
  rewrite H. destruct (g x s); cbn [bind]; auto.
Qed.

Lemma train_rows {E} (a : alg (R:=R) E) pre : keeps_counters a ->
  forall data c e c' e', train N a pre data c e = Some (c', e') ->
  exists rows, length rows = length data /\
    (forall k y lab, nth_error rows k = Some (y, lab) -> row_of N a pre data c e k y lab) /\
    c_err c' = c_err c + mistakes rows /\
    c_data c' = c_data c + Z.of_nat (length data) /\
    exists q u, c_iter c' = c_iter c + q /\ c_upd c' = c_upd c + u /\ 0 <= u <= q /\
      q <= Z.of_nat (length data).
Proof.
  intros K. induction data as [|(p, rnd) data IH]; intros c e c' e' H.
  - inv H. exists []. repeat split; cbn; try lia.
    + intros [|k]; discriminate.
    + exists 0, 0. repeat split; lia.
  - rewrite train_cons in H. dob H E1. destruct p0 as (c1, e1).
    pose proof E1 as E1'. unfold train_point in E1. dob E1 E2. rename p0 into x.
    dob E1 E3. destruct p0 as (((lab, ps), c2), e2). inv E1.
    destruct (IH _ _ _ _ H) as (rows & L & Hr & He & Hd & q & u & Hq & Hu & Hb & Hb2).
    destruct (iterate_counters _ _ _ _ _ _ _ _ _ K E3) as (q1 & u1 & D1 & D2 & D3 & D4 & D5).
    exists ((p_label x, lab) :: rows). split; [simpl; lia|]. split.
    { intros [|k] y lab' Hk.
      - inv Hk. exists c, e, p, rnd, x, ps, c2, e1. repeat split; auto.
      - simpl in Hk. destruct (Hr _ _ _ Hk) as (ck & ek & p' & rnd' & x' & ps' & c'' & e'' & T & R1).
        exists ck, ek, p', rnd', x', ps', c'', e''. split; [|exact R1].
        cbn [firstn]. rewrite train_cons, E1'. cbn [bind]. exact T. }
    assert (Hc1 : c_err (if lab =? p_label x then c2 else set_err c2 (c_err c2 + 1))
            = c_err c + (if lab =? p_label x then 0 else 1) /\
      c_data (if lab =? p_label x then c2 else set_err c2 (c_err c2 + 1)) = c_data c + 1 /\
      c_iter (if lab =? p_label x then c2 else set_err c2 (c_err c2 + 1))
        = c_iter c + (if q1 then 1 else 0) /\
      c_upd (if lab =? p_label x then c2 else set_err c2 (c_err c2 + 1))
        = c_upd c + (if u1 then 1 else 0)).
    { destruct (lab =? p_label x); cbn; repeat split; auto; lia. }
    destruct Hc1 as (F1 & F2 & F3 & F4). split; [|split].
    + rewrite He, F1. unfold mistakes. cbn [filter snd fst].
      destruct (lab =? p_label x); cbn [negb length]; lia.
    + rewrite Hd, F2. simpl. lia.
    + exists ((if q1 then 1 else 0) + q), ((if u1 then 1 else 0) + u).
      rewrite Hq, Hu, F3, F4. simpl length. 
      destruct q1, u1; try (specialize (D5 eq_refl); discriminate); repeat split; lia.
Qed.

(** Without active learning every example is queried. *)
Lemma iterate_iter {E} (a : alg (R:=R) E) p rnd c e lab ps c' e' :
  keeps_counters a -> (forall p c e c' e', a_prep a p c e = Some (c', e') -> c_active c' = c_active c) ->
  (forall d c e c' e', a_grow a d c e = Some (c', e') -> c_active c' = c_active c) ->
  n_lt N (zero N) (c_active c) = false ->
  iterate N a p rnd c e = Some (lab, ps, c', e') -> c_iter c' = c_iter c + 1.
Proof.
  intros (Kg & Kp & Ku) Ap Ag Hact H. unfold iterate in H.
  dob H E1. destruct p0 as (c1, e1). dob H E2. dob H E3. destruct p0 as (c3, e3).
  dob H E4. destruct p0 as (lab4, ps4). dob H E5.
  destruct (Kg _ _ _ _ _ E1) as (A1 & _). destruct (Kp _ _ _ _ _ E3) as (B1 & _). cbn in B1.
  pose proof (Ap _ _ _ _ _ E3) as Act3. cbn in Act3. rewrite (Ag _ _ _ _ _ E1) in Act3.
  unfold queried in E5. rewrite Act3, Hact in E5. inv E5.
  dob H E6. destruct p0 as (c4, e4). inv H.
  unfold learn in E6. dob E6 E7. dob E6 E8. destruct p0 as (c5, e5). dob E6 E9. inv E6.
  assert (Hc2 : c_iter (cost_margin_step N c3 (p_label p)) = c_iter c3).
  { unfold cost_margin_step. destruct (c_cost c3); reflexivity. }
  destruct (wants_update N _ lab (p_label p) (l_loss l)).
  - destruct (Ku _ _ _ _ _ _ E8) as (D1 & _). cbn in D1. lia.
  - inv E8. cbn. lia.
Qed.

(** One example on which the model is not updated. *)
Lemma iterate_no_update {E} (a : alg (R:=R) E) p rnd c e lab ps c' e' :
  keeps_counters a -> iterate N a p rnd c e = Some (lab, ps, c', e') -> c_upd c' = c_upd c ->
  exists c1 e1 e2 c3 e3, a_grow a (Z.to_nat (x_dim p)) c e = Some (c1, e1) /\
    a_reg_begin a p e1 = Some e2 /\
    a_prep a p (set_data (set_iter c1 (c_iter c1 + 1)) (c_data c1 + 1)) e2 = Some (c3, e3) /\
    c_ws c' = c_ws c3.
Proof.
  intros (Kg & Kp & Ku) H Hupd. unfold iterate in H.
  dob H E1. destruct p0 as (c1, e1). dob H E2. dob H E3. destruct p0 as (c3, e3).
  dob H E4. destruct p0 as (lab4, ps4). dob H E5.
  exists c1, e1. eexists. exists c3, e3. do 3 (split; [first [reflexivity | eassumption]|]).
  destruct (Kg _ _ _ _ _ E1) as (A1 & A2 & A3 & A4).
  destruct (Kp _ _ _ _ _ E3) as (B1 & B2 & B3 & B4). cbn in B1, B2, B3, B4.
  destruct b.
  - dob H E6. destruct p0 as (c4, e4). inv H.
    unfold learn in E6. dob E6 E7. dob E6 E8. destruct p0 as (c5, e5). dob E6 E9. inv E6.
    set (c2 := cost_margin_step N c3 (p_label p)) in *.
    assert (Hc2 : c_upd c2 = c_upd c3 /\ c_ws c2 = c_ws c3).
    { unfold c2, cost_margin_step. destruct (c_cost c3); split; reflexivity. }
    destruct Hc2 as (C4 & C5).
    destruct (wants_update N (set_lres c2 l) lab (p_label p) (l_loss l)).
    + destruct (Ku _ _ _ _ _ _ E8) as (D1 & D2 & D3 & D4). cbn in D4. lia.
    + inv E8. cbn. exact C5.
  - inv H. reflexivity.
Qed.

(** Whether the model is updated, from what one can observe: the label, the mode and the loss. *)
Definition suffers (c : core (R:=R)) (p : point R) (lab : Z) (loss : R) : bool :=
  if c_lazy c then negb (lab =? p_label p) else n_lt N (zero N) loss.

Lemma iterate_upd_iff {E} (a : alg (R:=R) E) p rnd c e lab ps c' e' :
  keeps_counters a -> iterate N a p rnd c e = Some (lab, ps, c', e') ->
  exists c3 e3,
  (exists c1 e1 e2, a_grow a (Z.to_nat (x_dim p)) c e = Some (c1, e1) /\
    a_reg_begin a p e1 = Some e2 /\
    a_prep a p (set_data (set_iter c1 (c_iter c1 + 1)) (c_data c1 + 1)) e2 = Some (c3, e3)) /\
  predict N c3 p = Some (lab, ps) /\
  exists q, queried N c3 ps lab rnd = Some q /\
  (q = false -> c_upd c' = c_upd c) /\
  (q = true -> exists r,
     let c4 := cost_margin_step N c3 (p_label p) in
     gradient N (c_loss c4) (a_margin a c4 e3 p) (p_label p) ps lab (c_g c4) (c_margin c4) = Some r /\
     c_upd c' = c_upd c + (if suffers c4 p lab (l_loss r) then 1 else 0)).
Proof.
  intros (Kg & Kp & Ku) H. unfold iterate in H.
  dob H E1. destruct p0 as (c1, e1). dob H E2. dob H E3. destruct p0 as (c3, e3).
  dob H E4. destruct p0 as (lab4, ps4). dob H E5.
  destruct (Kg _ _ _ _ _ E1) as (A1 & A2 & A3 & A4).
  destruct (Kp _ _ _ _ _ E3) as (B1 & B2 & B3 & B4). cbn in B1, B2, B3, B4.
  exists c3, e3. split; [exists c1, e1; eexists; repeat split; first [reflexivity | eassumption]|].
  destruct b.
  - dob H E6. destruct p0 as (c4, e4). inv H. split; [exact E4|]. exists true.
    split; [exact E5|]. split; [discriminate|]. intros _.
    unfold learn in E6. dob E6 E7. dob E6 E8. destruct p0 as (c5, e5). dob E6 E9. inv E6.
    exists l. cbv zeta. split; [exact E7|].
    set (c2 := cost_margin_step N c3 (p_label p)) in *.
    assert (Hc2 : c_upd c2 = c_upd c3)
      by (unfold c2, cost_margin_step; destruct (c_cost c3); reflexivity).
    assert (Hw : wants_update N (set_lres c2 l) lab (p_label p) (l_loss l)
                 = suffers c2 p lab (l_loss l)) by reflexivity.
    rewrite Hw in E8. destruct (suffers c2 p lab (l_loss l)).
    + destruct (Ku _ _ _ _ _ _ E8) as (D1 & D2 & D3 & D4). cbn in D4. lia.
    + inv E8. cbn. lia.
  - inv H. split; [exact E4|]. exists false. split; [exact E5|]. split; [|discriminate].
    intros _. cbn. lia.
Qed.

(** Batches and the flat loop. *)
Definition train_flat {E} (a : alg (R:=R) E) pre (data : list (point R * R)) (require_reinit : bool)
  (s : core * E * displayer) : option (core * E * displayer * list event) :=
  let '(c, e, dp) := s in
  do (c0, e0) <- (if require_reinit then a_begin a c e else Some (c, e));
  do (c1, e1, dp1, evs) <- foldM (train_step N a pre) data (c0, e0, dp, []);
  Some (set_updated c1 true, e1, dp1, event_of c1 :: evs).
Lemma train_batches_flat {E} (a : alg (R:=R) E) pre batches ri s :
  train_batches N a pre batches ri s = train_flat a pre (concat batches) ri s.
Proof.
  destruct s as ((c, e), dp). unfold train_batches, train_flat.
  destruct (if ri then a_begin a c e else Some (c, e)) as [(c0, e0)|]; cbn [bind]; [|reflexivity].
  rewrite foldM_concat. reflexivity.
Qed.

(** The callbacks do not influence the model: the state reached is that of [train]. *)
Lemma train_step_state {E} (a : alg (R:=R) E) pre data : forall c e dp evs c' e' dp' evs',
  foldM (train_step N a pre) data (c, e, dp, evs) = Some (c', e', dp', evs') ->
  train N a pre data c e = Some (c', e').
Proof.
  induction data as [|d data IH]; intros c e dp evs c' e' dp' evs' H.
  - inv H. reflexivity.
  - cbn [foldM] in H. dob H E1. unfold train_step in E1. dob E1 E2. destruct p0 as (c1, e1).
    rewrite train_cons, E2. cbn [bind].
    destruct (next_show dp <=? c_data c1); inv E1; eauto.
Qed.
Lemma train_step_total {E} (a : alg (R:=R) E) pre data : forall c e dp evs c' e',
  train N a pre data c e = Some (c', e') ->
  exists dp' evs', foldM (train_step N a pre) data (c, e, dp, evs) = Some (c', e', dp', evs').
Proof.
  induction data as [|d data IH]; intros c e dp evs c' e' H.
  - inv H. eexists _, _. reflexivity.
  - rewrite train_cons in H. dob H E1. destruct p as (c1, e1). cbn [foldM]. unfold train_step at 1.
    rewrite E1. cbn [bind]. destruct (next_show dp <=? c_data c1); cbn [bind]; eauto.
Qed.
End P.
