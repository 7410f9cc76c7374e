(** Trained models can be saved, loaded models can be trained. *)
From Coq Require Import String.
From Verif Require Import M_Base M_Num M_Expr M_Loss M_Online M_Olm M_OlmSel M_Heap M_Algs M_Text S_Text S_Expr S_Online S_Session
  P_DataPoint P_Expr P_Online P_Predict P_Step P_Safe P_SafeOlm P_SafeSel P_SafeSel2 P_Session P_Session2 P_Inv P_Keep
  M_Str M_Save S_Save P_Save P_Save2 P_Save3 P_Save4 S_Trained.
Local Open Scope list_scope.
Local Open Scope Z_scope.

Section P.
Context {R : Type}.
Variable N : num R.
Local Notation zero := (zero N).
Local Notation one := (one N).

(** ** What BeginTrain and EndTrain keep *)
Definition cfg (c c' : core (R:=R)) : Prop :=
  same_counters c c' /\ c_b0 c' = c_b0 c /\ c_t0 c' = c_t0 c /\ c_lazy c' = c_lazy c /\ c_active c' = c_active c /\
  c_cost c' = c_cost c /\ c_loss c' = c_loss c.
Lemma cfg_refl c : cfg c c.
Proof. repeat split. Qed.
Lemma cfg_trans a b c : cfg a b -> cfg b c -> cfg a c.
Proof.
  intros ((A1 & A2 & A3 & A4) & A5 & A6 & A7 & A8 & A9 & A10) ((B1 & B2 & B3 & B4) & B5 & B6 & B7 & B8 & B9 & B10).
  repeat split; congruence.
Qed.
Lemma cfg_dim d c : cfg c (linear_update_dim N d c).
Proof. unfold linear_update_dim. destruct (_ <? _)%nat; repeat split. Qed.
Ltac crack := repeat match goal with
  | H : Some _ = Some _ |- _ => injection H; clear H; intros; subst
  | H : None = Some _ |- _ => discriminate H
  | H : bind ?m _ = Some _ |- _ => destruct m as [?|] eqn:?; cbn [bind] in H; [|discriminate H]
  | H : context [match ?x with (_, _) => _ end] |- _ => destruct x
  | H : (if ?b then _ else _) = Some _ |- _ => destruct b
  | H : match ?x with O => _ | S _ => _ end = Some _ |- _ => destruct x
  | H : match ?x with nil => _ | cons _ _ => _ end = Some _ |- _ => destruct x
  end.
Lemma cfg_assign c e f ut c' : rda_assign N c e f ut = Some c' -> cfg c c' /\ c_dim c' = c_dim c.
Proof. unfold rda_assign. intros H. crack. repeat split. Qed.
Lemma cfg_sel1_grow d c s c' s' : sel1_grow N d c s = Some (c', s') -> c' = linear_update_dim N d c.
Proof.
  unfold sel1_grow, linear_update_dim. intros H. destruct (c_dim c <? d)%nat; [|crack; reflexivity]. destruct s. cbv zeta in H. crack. reflexivity.
Qed.
Lemma cfg_sel2_grow a d c s c' s' : sel2_grow N a d c s = Some (c', s') -> c' = linear_update_dim N d c.
Proof.
  unfold sel2_grow, sigma_grow, linear_update_dim. intros H. destruct (c_dim c <? d)%nat; [|crack; reflexivity]. cbn [bind] in H. crack. reflexivity.
Qed.
Lemma dim_le d c : (c_dim (linear_update_dim N d c) <= Nat.max (c_dim c) d)%nat.
Proof. unfold linear_update_dim. destruct (Nat.ltb_spec (c_dim c) d); cbn; lia. Qed.
Definition room (k : kind (R:=R)) : nat := match budget_of k with Some B => B + 1 | None => 1 end.
Lemma begin_cfg k c e c' e' : a_begin (alg_of N k) c e = Some (c', e') ->
  cfg c c' /\ c_updated c' = c_updated c /\ c_eta c' = c_eta c /\ (c_dim c' <= Nat.max (c_dim c) (room k))%nat.
Proof.
  assert (H0 : cfg c c /\ c_updated c = c_updated c /\ c_eta c = c_eta c /\ (c_dim c <= Nat.max (c_dim c) (room k))%nat) by (repeat split; lia).
  assert (G : forall d, cfg c (linear_update_dim N d c) /\ c_updated (linear_update_dim N d c) = c_updated c /\ c_eta (linear_update_dim N d c) = c_eta c /\
            (c_dim (linear_update_dim N d c) <= Nat.max (c_dim c) d)%nat).
  { intros d. split; [apply cfg_dim|]. split; [|split; [|apply dim_le]]; unfold linear_update_dim; destruct (_ <? _)%nat; reflexivity. }
  intros H. destruct k; cbn [alg_of room budget_of] in *;
    unfold perceptron, pa, pa1, pa2, ogd, plain, stg, fobos_l1, pet, rda, rda_l1, erda_l1, alma2, sop, arow,
     sofs, cw, eccw, ada_fobos, ada_fobos_l1, ada_fobos_ofs, ada_rda, ada_rda_l1, ada_rda_ofs, fofs in H;
    cbn [a_begin] in H; unfold begin_none, sel1_begin, sel2_begin in H; cbv zeta in H; crack; try exact H0;
    repeat match goal with
    | H : sel1_grow _ _ _ _ = Some _ |- _ => apply cfg_sel1_grow in H; subst
    | H : sel2_grow _ _ _ _ _ = Some _ |- _ => apply cfg_sel2_grow in H; subst
    end; try exact H0; try apply G.
Qed.
Lemma end_cfg k c e c' e' : a_end (alg_of N k) c e = Some (c', e') ->
  cfg c c' /\ c_updated c' = false /\ (keeps_eta k = true -> c_eta c' = c_eta c) /\ c_dim c' = c_dim c.
Proof.
  intros H. destruct k; cbn [alg_of keeps_eta] in *;
    unfold perceptron, pa, pa1, pa2, ogd, plain, stg, fobos_l1, pet, rda, rda_l1, erda_l1, alma2, sop, arow,
     sofs, cw, eccw, ada_fobos, ada_fobos_l1, ada_fobos_ofs, ada_rda, ada_rda_l1, ada_rda_ofs, fofs in H;
    cbn [a_end] in H; unfold end_none, linear_end, stg_end, fobos_end, rda_end, rda_l1_end, erda_l1_end, sop_end, ada_fobos_l1_end, ada_rda_end,
      ada_rda_l1_end, ada_rda_ofs_end, linear_end in H; cbv zeta in H; crack;
    repeat match goal with H : rda_assign _ _ _ _ _ = Some _ |- _ => apply cfg_assign in H; destruct H as (((? & ? & ? & ?) & ? & ? & ? & ? & ? & ?) & ?) end;
    cbn in *; repeat split; cbn; try congruence.
Qed.

(** ** The learning rate of the models that keep it *)
Ltac etas := repeat match goal with
  | H : grad_steps _ _ _ = Some _ |- _ => unfold grad_steps in H; crack
  | H : sel1_select _ _ _ _ _ = Some _ |- _ => unfold sel1_select in H; crack
  | H : ada_ofs_weights _ _ _ _ = Some _ |- _ => unfold ada_ofs_weights in H; crack
  | H : ada_rda_ofs_weights _ _ _ _ _ = Some _ |- _ => unfold ada_rda_ofs_weights in H; crack
  | H : sel2_truncate _ _ _ _ _ = Some _ |- _ => unfold sel2_truncate in H; crack
  | H : ada_fobos_update _ _ _ _ _ _ = Some _ |- _ => unfold ada_fobos_update in H; crack
  | H : ada_rda_update _ _ _ _ _ _ = Some _ |- _ => unfold ada_rda_update in H; crack
  end.
Lemma prep_eta k p c e c' e' : keeps_eta k = true -> a_prep (alg_of N k) p c e = Some (c', e') -> c_eta c' = c_eta c.
Proof.
  intros K. destruct k; try discriminate K; cbn; intros H; unfold prep_none, ada_fobos_l1_prep, ada_rda_l1_prep in H; cbv zeta in H; crack; reflexivity.
Qed.
Lemma update_eta k p l c e c' e' : keeps_eta k = true -> a_update (alg_of N k) p l c e = Some (c', e') -> c_eta c' = c_eta c.
Proof.
  intros K. destruct k; try discriminate K; cbn [alg_of]; intros H;
    unfold ada_fobos, ada_fobos_l1, ada_fobos_ofs, ada_rda, ada_rda_l1, ada_rda_ofs, fofs in H; cbn [a_update] in H;
    unfold ada_fobos_ofs_update, ada_rda_ofs_update, fofs_update in H; cbv zeta in H; crack; etas; try reflexivity.
Qed.

(** ** ALMA2's counter *)
Local Notation cnt := counter.
Lemma begin_cnt k c e c' e' : a_begin (alg_of N k) c e = Some (c', e') -> cnt k e' = cnt k e.
Proof. destruct k; try reflexivity. cbn. intros H. crack. reflexivity. Qed.
Lemma end_cnt k c e c' e' : a_end (alg_of N k) c e = Some (c', e') -> cnt k e' = cnt k e.
Proof. destruct k; try reflexivity. cbn. unfold end_none. intros H. crack. reflexivity. Qed.
Lemma grow_cnt k d c e c' e' : a_grow (alg_of N k) d c e = Some (c', e') -> cnt k e' = cnt k e.
Proof. destruct k; try reflexivity. cbn. unfold grow_none. intros H. crack. reflexivity. Qed.
Lemma reg_begin_cnt k p e e' : a_reg_begin (alg_of N k) p e = Some e' -> cnt k e' = cnt k e.
Proof. destruct k; try reflexivity. cbn. unfold reg_begin_none. intros H. crack. reflexivity. Qed.
Lemma reg_end_cnt k p i e e' : a_reg_end (alg_of N k) p i e = Some e' -> cnt k e' = cnt k e.
Proof. destruct k; try reflexivity. cbn. unfold reg_end_none. intros H. crack. reflexivity. Qed.
Lemma prep_cnt k p c e c' e' : a_prep (alg_of N k) p c e = Some (c', e') -> cnt k e' = cnt k e.
Proof. destruct k; try reflexivity. cbn. unfold prep_none. intros H. crack. reflexivity. Qed.
Lemma update_cnt k p l c e c' e' : a_update (alg_of N k) p l c e = Some (c', e') -> cnt k e <= cnt k e' <= cnt k e + 1.
Proof. destruct k; cbn [counter]; try lia. cbn. unfold alma_update. cbv zeta. intros H. crack. lia. Qed.

(** ** The settings of a session *)
Section Sess.
Variables (k : kind (R:=R)) (n : nat) (loss : loss_kind) (pre : point R -> option (point R)) (c0 : core (R:=R)) (e0 : state_of k) (M : Z).
Hypothesis Hloss : loss_ok n loss.
Hypothesis HM : Z.of_nat (room k) <= M.
Definition kept_settings (c : core (R:=R)) (e : state_of k) : Prop :=
  (c_b0 c = c_b0 c0 /\ c_t0 c = c_t0 c0 /\ c_lazy c = c_lazy c0 /\ c_active c = c_active c0 /\ c_cost c = c_cost c0) /\
  (keeps_eta k = true -> c_eta c = c_eta c0) /\ Z.of_nat (c_dim c) <= M /\
  c_iter c0 <= c_iter c <= c_iter c0 + (c_data c - c_data c0) /\ 1 <= cnt k e <= cnt k e0 + (c_data c - c_data c0).

Lemma iterate_kept x rnd c e lab ps c' e' : wf_point (lo_of k) x -> label_ok n (p_label x) -> x_dim x <= M -> sound N k n loss c e ->
  kept_settings c e -> iterate N (alg_of N k) x rnd c e = Some (lab, ps, c', e') -> kept_settings c' e'.
Proof.
  intros Hx Hl HX Hs ((K1 & K2 & K3 & K4 & K5) & K6 & K7 & K8 & K9) H.
  pose proof H as H0. apply (iterate_counters N _ _ _ _ _ _ _ _ _ (alg_keeps N k)) in H0 as (q0 & u0 & D1 & _ & D3 & _).
  destruct (iterate_sound N k n loss Hloss x rnd c e lab ps c' e' Hx Hl Hs H) as (e1 & e2 & c3 & e3 & q & T).
  cbv zeta in T. destruct T as (G1 & G2 & _ & _ & G3 & F3 & _ & _ & _ & _ & _ & T).
  set (d := Z.to_nat (x_dim x)) in *. set (c1 := linear_update_dim N d c) in *.
  assert (C1 : cfg c c1) by apply cfg_dim.
  assert (E1 : c_eta c1 = c_eta c) by (unfold c1, linear_update_dim; destruct (_ <? _)%nat; reflexivity).
  assert (Dm : Z.of_nat (c_dim c1) <= M) by (pose proof (dim_le d c) as Q; fold c1 in Q; lia).
  destruct C1 as (_ & C1 & C2 & C3 & C4 & C5 & _).
  destruct F3 as (F3 & _ & _ & F4 & F5 & F6 & F7 & F8 & _). cbn [set_data set_iter c_dim c_b0 c_t0 c_lazy c_active c_cost] in *.
  assert (B : (c_b0 c3 = c_b0 c0 /\ c_t0 c3 = c_t0 c0 /\ c_lazy c3 = c_lazy c0 /\ c_active c3 = c_active c0 /\ c_cost c3 = c_cost c0) /\
    (keeps_eta k = true -> c_eta c3 = c_eta c0) /\ Z.of_nat (c_dim c3) <= M).
  { split; [repeat split; congruence|]. split; [|congruence]. intros Q. rewrite (prep_eta k _ _ _ _ _ Q G3). cbn. rewrite E1. auto. }
  assert (Q3 : cnt k e3 = cnt k e) by (rewrite (prep_cnt _ _ _ _ _ _ G3), (reg_begin_cnt _ _ _ _ G2); exact (grow_cnt _ _ _ _ _ _ G1)).
  clear G1 G2 G3. destruct B as ((B1 & B2 & B3 & B4 & B5) & B6 & B7).
  destruct T as [(_ & -> & ->)|(_ & r & e4 & T)].
  - split; [repeat split; assumption|]. split; [exact B6|]. split; [exact B7|]. split; [|lia]. rewrite D1, D3. destruct q0; lia.
  - destruct T as (_ & _ & _ & T & _ & G5). set (c4 := cost_margin_step N c3 (p_label x)) in *.
    assert (C4' : cfg c3 c4 /\ c_eta c4 = c_eta c3 /\ c_dim c4 = c_dim c3) by (unfold c4, cost_margin_step; destruct (c_cost c3); repeat split; cbn; congruence).
    destruct C4' as ((_ & U1 & U2 & U3 & U4 & U5 & _) & U6 & U7).
    assert (Q4 : cnt k e <= cnt k e' <= cnt k e + 1 /\ c_b0 c' = c_b0 c3 /\ c_t0 c' = c_t0 c3 /\ c_lazy c' = c_lazy c3 /\ c_active c' = c_active c3 /\ c_cost c' = c_cost c3 /\
      (keeps_eta k = true -> c_eta c' = c_eta c3) /\ c_dim c' = c_dim c3).
    { rewrite (reg_end_cnt _ _ _ _ _ G5), <- Q3. destruct T as [(_ & V & W)|(_ & -> & ->)].
      - destruct W as (W1 & _ & _ & W2 & W3 & W4 & W5 & W6 & _). cbn in W1, W2, W3, W4, W5, W6.
        split; [exact (update_cnt _ _ _ _ _ _ _ V)|]. repeat split; try congruence. intros Q. rewrite (update_eta k _ _ _ _ _ _ Q V). cbn. congruence.
      - cbn [set_lres c_b0 c_t0 c_lazy c_active c_cost c_eta c_dim]. split; [lia|]. repeat split; try congruence. }
    destruct Q4 as (V0 & V1 & V2 & V3 & V4 & V5 & V6 & V7).
    split; [repeat split; congruence|]. split; [intros Q; rewrite (V6 Q); auto|]. split; [congruence|]. split; [|lia]. rewrite D1, D3. destruct q0; lia.
Qed.
Lemma point_kept p rnd x c e c' e' : pre p = Some x -> wf_point (lo_of k) x -> label_ok n (p_label x) -> x_dim x <= M ->
  sound N k n loss c e -> kept_settings c e -> train_point N (alg_of N k) pre (p, rnd) c e = Some (c', e') -> kept_settings c' e'.
Proof.
  intros Ex Hx Hl HX Hs HK H. unfold train_point in H. rewrite Ex in H. cbn [bind] in H. dob H Q. destruct p0 as (((lab, ps), c1), e1).
  injection H as <- <-. pose proof (iterate_kept _ _ _ _ _ _ _ _ Hx Hl HX Hs HK Q) as T. destruct (lab =? p_label x); exact T.
Qed.
Lemma session_kept us s' : idle_sound N k n loss c0 e0 -> c_updated c0 = false -> 1 <= cnt k e0 -> Z.of_nat (c_dim c0) <= M ->
  Forall (use_ok (lo_of k) n pre) us -> Forall (narrow pre M) us ->
  session N (alg_of N k) pre us (c0, e0, true) = Some s' ->
  let '(c, e, r) := s' in kept_settings c e /\ idle_sound N k n loss c e.
Proof.
  intros Hi Hu H1 Hd HU HN H.
  assert (A : at_rest N k n loss kept_settings s').
  { apply (session_inv N k n loss pre Hloss kept_settings (fun x => x_dim x <= M)) with (us := us) (s := (c0, e0, true)); auto.
    - intros c e c' e' _ (K1 & K2 & K3 & K4 & K5) Hb. pose proof (begin_cnt _ _ _ _ _ Hb) as Q.
      destruct (begin_cfg _ _ _ _ _ Hb) as (((I1 & I2 & I3 & I4) & I5 & I6 & I7 & I8 & I9 & _) & _ & I10 & I11).
      split; [destruct K1 as (? & ? & ? & ? & ?); repeat split; congruence|]. split; [intros; rewrite I10; auto|]. split; [lia|]. rewrite Q, I1, I2. auto.
    - intros. eapply point_kept; eauto.
    - intros c e c' e' _ (K1 & K2 & K3 & K4 & K5) Hb. pose proof (end_cnt _ _ _ _ _ Hb) as Q.
      destruct (end_cfg _ _ _ _ _ Hb) as (((I1 & I2 & I3 & I4) & I5 & I6 & I7 & I8 & I9 & _) & _ & I10 & I11).
      split; [destruct K1 as (? & ? & ? & ? & ?); repeat split; congruence|]. split; [intros; rewrite I10; auto|]. split; [lia|]. rewrite Q, I1, I2. auto.
    - split; [split; [repeat split|split; [auto|split; [exact Hd|split; lia]]]|]. split; [exact Hi|]. rewrite Hu. intros [|]; discriminate. }
  destruct s' as ((c, e), r). destruct A as (A & B & _). auto.
Qed.
End Sess.

(** The number of examples. *)
Lemma session_count k pre us : forall c e r c' e' r', session N (alg_of N k) pre us (c, e, r) = Some (c', e', r') ->
  c_data c' = c_data c + examples us.
Proof.
  assert (T : forall (l : list (point R * R)) c e dp evs c' e' dp' evs', foldM (train_step N (alg_of N k) pre) l (c, e, dp, evs) = Some (c', e', dp', evs') ->
    c_data c' = c_data c + Z.of_nat (length l)).
  { induction l as [|(p, rnd) l IH]; intros c e dp evs c' e' dp' evs' H; cbn [foldM] in H; [injection H as <- <- <- <-; cbn; lia|].
    dob H Q. destruct p0 as (((c1, e1), dp1), evs1). apply IH in H. unfold train_step in Q. dob Q Q1. destruct p0 as (c2, e2).
    assert (c1 = c2) by (destruct (_ <=? _); congruence). subst c2. unfold train_point in Q1. dob Q1 Q2. dob Q1 Q3. destruct p1 as (((lab, ps), c3), e3).
    apply (iterate_counters N _ _ _ _ _ _ _ _ _ (alg_keeps N k)) in Q3 as (q0 & u0 & D1 & _). injection Q1 as <- _. cbn [length].
    assert (c_data (if lab =? p_label p0 then c3 else set_err c3 (c_err c3 + 1)) = c_data c3) by (destruct (_ =? _); reflexivity). lia. }
  unfold session. induction us as [|u us IH]; intros c e r c' e' r' H; cbn [foldM examples fold_right] in *; [injection H as <- _ _; cbn; lia|].
  dob H Q. destruct p as ((c1, e1), r1). apply IH in H. fold (examples us). rewrite H. clear H IH. destruct u as [bs|data|]; cbn [use_step] in Q.
  - dob Q Q1. destruct p as (((c2, e2), dp2), evs2). injection Q as <- <- <-. unfold train_batches in Q1. dob Q1 Q2. destruct p as (c3, e3). dob Q1 Q3.
    destruct p as (((c4, e4), dp4), evs4). injection Q1 as <- <- <- <-. rewrite foldM_concat in Q3. apply T in Q3.
    assert (c_data c3 = c_data c) by (destruct r; [apply begin_cfg in Q2; destruct Q2 as (((_ & I & _) & _) & _); exact I|congruence]). cbn [set_updated c_data]. lia.
  - dob Q Q1. destruct p as (((rows, errs), c2), e2). injection Q as <- <- <-. unfold test in Q1. dob Q1 Q2. destruct p as (c3, e3). dob Q1 Q3. injection Q1 as _ _ <- _.
    assert (c_data c3 = c_data c) by (destruct (c_updated c); [apply end_cfg in Q2; destruct Q2 as (((_ & I & _) & _) & _); exact I|congruence]). lia.
  - injection Q as <- _ _. lia.
Qed.

(** ** Trained models can be saved *)
Lemma pre_extras k ws d (e : state_of k) : pre_of N False k ws d e -> extras_shape k e (length ws) d.
Proof.
  intros H. apply shape_extras. destruct k; cbn [pre_of inv_of] in H; auto.
  - now destruct H.
  - now destruct H.
  - now destruct H.
  - destruct H as (HA & HB). split; (split; [rewrite map_length; exact HA|]); apply Forall_forall; intros v Hv; apply in_map_iff in Hv as (u & <- & Hu);
      rewrite Forall_forall in HB; now destruct (HB u Hu).
  - destruct H as (HA & HB). split; (split; [rewrite map_length; exact HA|]); apply Forall_forall; intros v Hv; apply in_map_iff in Hv as (u & <- & Hu);
      rewrite Forall_forall in HB; now destruct (HB u Hu).
  - destruct H as ((HA & _) & HB). now split.
Qed.
Lemma trained_savable pr strtof p nk k n pre M c0 e0 us c e r : idle_sound N k n (c_loss c0) c0 e0 -> c_updated c0 = false ->
  loss_ok n (c_loss c0) -> storable N pr strtof p nk k c0 ->
  (n <> 2)%nat -> Z.of_nat n <= 2147483647 -> Forall (use_ok (lo_of k) n pre) us -> Forall (narrow pre M) us ->
  width_ok k M -> Z.of_nat (c_dim c0) <= M -> 0 <= c_iter c0 -> c_iter c0 + examples us <= 2147483647 ->
  1 <= cnt k e0 -> cnt k e0 + examples us <= 2147483647 ->
  session N (alg_of N k) pre us (c0, e0, true) = Some (c, e, r) -> savable N pr strtof p nk k c e.
Proof.
  intros Hi Hu Hl [S1 S2 S3 S4 S5 S6 S7 S8 S9] n2 nM HU HN HM Hd I0 HI C1 C2 H.
  pose proof (session_count _ _ _ _ _ _ _ _ _ H) as Hc.
  assert (HR : Z.of_nat (room k) <= M) by (destruct HM as (HM & _); unfold room; destruct (budget_of k); lia). apply proj2 in HM.
  pose proof (session_kept k n (c_loss c0) pre c0 e0 M Hl HR us _ Hi Hu C1 Hd HU HN H) as ((K1 & K2 & K3 & K4 & K5) & (W & Ln & Lo & P)).
  destruct K1 as (B1 & B2 & B3 & B4 & B5). destruct Hi as (_ & Ln0 & _).
  constructor; rewrite ?Ln, ?Lo, ?B1, ?B4, ?B5; auto; try lia.
  - rewrite <- Ln. now apply pre_extras.
  - intros Q. rewrite (K2 Q). auto.
  - intros m Q. rewrite <- Ln0. auto.
  - destruct k; auto. cbn [counter] in K5, C2. destruct S9 as (X1 & X2 & X3). split; [exact X1|]. split; [exact X2|]. split; [lia|exact X3].
Qed.
Lemma fresh_idle k n c0 : fresh N n c0 -> idle_sound N k n (c_loss c0) c0 (init_of N k n).
Proof.
  intros Hf. destruct (fresh_wf N n c0 Hf) as (Hc & Hn). destruct Hf as (_ & Hw & Hd & _ & Hu).
  split; [exact Hc|split; [exact Hn|split; [reflexivity|]]]. rewrite Hw, Hd. apply pre_init.
Qed.
Lemma cnt_init k n : cnt k (init_of N k n) = 1.
Proof. now destruct k. Qed.
Lemma tested_rest k pre us d s c e r : session N (alg_of N k) pre (us ++ [UTest d]) s = Some (c, e, r) -> c_updated c = false.
Proof.
  unfold session. rewrite foldM_app. intros H. dob H Q. destruct p as ((c1, e1), r1). cbn [foldM] in H. dob H Q1. injection H as ->.
  cbn [use_step] in Q1. dob Q1 Q2. destruct p as (((rows, errs), c2), e2). injection Q1 as <- <- <-. unfold test in Q2. dob Q2 Q3.
  destruct p as (c3, e3). dob Q2 Q4. injection Q2 as _ _ <- _. destruct (c_updated c1) eqn:U; [apply end_cfg in Q3; apply Q3|congruence].
Qed.

(** ** Loaded models can be trained *)
Lemma loaded_pre k (c : core (R:=R)) (e : state_of k) e' ws' : not_lazy k = true -> length ws' = length (c_ws c) ->
  restored_rest N k (c_iter c) e e' -> extras_shape (reset_thresh N k) e' (length (c_ws c)) (c_dim c) ->
  pre_of N False (reset_thresh N k) ws' (c_dim c) e'.
Proof.
  intros NL Lw T S. apply shape_extras in S. rewrite <- Lw in S.
  assert (HE : h_K heap_empty = O) by reflexivity.
  destruct k; try discriminate NL; cbn [reset_thresh pre_of inv_of restored_rest] in *; auto.
  - split; [left; now rewrite T|]. split; [intros []|]. intros _. now rewrite T.
  - split; [exact S|]. split; [left; now rewrite T|]. split; [intros []|]. intros _. now rewrite T.
  - split; [exact S|]. split; [left; now rewrite T|]. split; [intros []|]. intros _. now rewrite T.
  - destruct S as ((HA & HB) & (_ & HC)). rewrite map_length in HA. split; [exact HA|]. apply Forall_forall. intros u Hu. rewrite Forall_forall in HB, HC.
    split; [apply HB|apply HC]; now apply in_map.
  - destruct S as ((HA & HB) & (_ & HC)). rewrite map_length in HA. split; [exact HA|]. apply Forall_forall. intros u Hu. rewrite Forall_forall in HB, HC.
    split; [apply HB|apply HC]; now apply in_map.
  - destruct S as (HA & HB). split; [|exact HB]. split; [exact HA|]. split; [left; now rewrite T|]. split; [intros []|]. intros _. now rewrite T.
  - split; [left; now rewrite T|]. split; [intros []|]. intros _. now rewrite T.
Qed.
Lemma lo_reset (k : kind (R:=R)) : lo_of (reset_thresh N k) = lo_of k.
Proof. now destruct k. Qed.
Lemma resume_safe k n c (e : state_of k) loss us pre : wf_core c -> length (c_ws c) = n -> c_loss c = loss -> loss_ok n loss ->
  c_updated c = false -> pre_of N False k (c_ws c) (c_dim c) e -> Forall (use_ok (lo_of k) n pre) us ->
  exists c' e' r', session N (alg_of N k) pre us (c, e, true) = Some (c', e', r') /\ wf_core c' /\ length (c_ws c') = n.
Proof.
  intros W Ln Lo Hk Hu HP HU.
  assert (Hlo : 0 <= lo_of k) by (destruct k; cbn; lia).
  destruct (session_safe N (alg_of N k) (pre_of N False k) (inv_of N False k) (rel_of k) (lo_of k) n loss pre Hlo
    (gsafe_of N False k) (end_of N False k) (begin_of N False k) Hk us c e) with (c := c) (e := e) (r := true)
    as (c' & e' & r' & E1 & Hst); auto.
  - split; auto.
  - intros _. apply begin_again.
  - left. auto.
  - exists c', e', r'. split; [exact E1|]. destruct Hst as [(-> & -> & ->)|((Hc' & Hn' & Hl') & HI)]; auto.
Qed.
Lemma storable_again pr strtof p nk k c e ws' : n_le N one zero = false -> savable N pr strtof p nk k c e -> length ws' = length (c_ws c) ->
  storable N pr strtof p nk (reset_thresh N k) (reloaded_core N k c ws').
Proof.
  intros Z1 [W Ex Dm It Cl [Lo La] Pa Re [B0 B0p] Eta Act Cost Bi Al] Lw.
  constructor; cbn [reloaded_core c_loss c_b0 c_eta c_active c_cost c_ws].
  - destruct k; exact La.
  - destruct k; exact Pa.
  - destruct k; exact Re.
  - auto.
  - intros Q. assert (keeps_eta k = true) by (destruct k; exact Q). rewrite H. auto.
  - destruct (n_le N one (c_active c)) eqn:E; [auto|]. intros Q. congruence.
  - intros m Q. rewrite Lw. auto.
  - destruct k; exact Bi.
  - destruct k; try exact I. destruct Al as (? & ? & _ & ?). cbn [reset_thresh]. auto.
Qed.
Lemma counter_reset k (e : state_of k) e' t : restored_rest N k t e e' -> counter (reset_thresh N k) e' = counter k e.
Proof. destruct k; cbn; auto. Qed.
End P.
