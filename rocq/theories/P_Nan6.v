(** Numbers stay numbers: the end of training, training steps, sessions. *)
From Coq Require Import Reals Lra.
From Verif Require Import M_Base M_Num M_Expr M_Loss M_Online M_Olm M_OlmSel M_Heap M_Algs S_Expr S_Online S_Session
  S_Nan P_DataPoint P_Expr P_Online P_Predict P_Step P_Safe P_Session P_Session2 P_Inv P_Real P_Conf2 P_Nan P_Nan2 P_Nan3 P_Nan4 P_Nan5.
Local Open Scope R_scope.

Lemma kept_end th c c1 : kept c c1 -> kept c (linear_end (finalize_l1 Xnum th) c1).
Proof. intros (A & B). split; [now apply nums_end|exact B]. Qed.
Lemma kept_ws c ws : nums c -> Forall fins ws -> kept c (set_ws c ws).
Proof. intros A B. split; [now apply nums_ws|reflexivity]. Qed.
Lemma end_ok k loss c e c' e' : params_ok k loss -> nums c -> st_ok k e -> (0 <= c_iter c)%Z ->
  a_end (alg_of Xnum k) c e = Some (c', e') -> kept c c' /\ st_ok k e'.
Proof.
  intros HP Hc HS Hi E. pose proof (nums_bias _ Hc) as Hb.
  destruct k; cbn [alg_of] in E; try (cbn in E; injection E as <- <-; split; [split; [exact Hc|reflexivity]|exact HS]).
  - cbn [stg a_end] in E. unfold stg_end in E. dob E Q1. injection E as <- <-. split; [|exact HS]. destruct HP as (P1 & P2 & P3). apply kept_end, kept_ws; [exact Hc|]. destruct Hc as (A & B & C & D).
    eapply mapM_vals; [exact A| |exact Q1]. intros w w' Hw Ew. cbv beta in Ew. eapply assign_vals; [exact Hw| |exact Ew]. cbn [st_ok] in HS. vf.
  - cbn [fobos_l1 a_end] in E. unfold fobos_end in E. dob E Q1. injection E as <- <-. split; [|exact HS]. apply kept_end, kept_ws; [exact Hc|]. destruct HS as (S1 & S2 & S3). destruct Hc as (A & B & C & D).
    eapply mapM_vals; [exact A| |exact Q1]. intros w w' Hw Ew. cbv beta in Ew. dob Ew Q2. eapply upd0_fin; [| |exact Ew]; [|intros; cbv beta; auto with num].
    eapply assign_vals; [exact Hw| |exact Q2]. vf.
  - cbn [rda a_end] in E. unfold rda_end in E. cbv zeta in E. dob E Q1. injection E as <- <-. split; [|exact HS].
    assert (Ht : nz (n_mul Xnum (n_add Xnum (n_int Xnum (c_iter c)) (n_lit Xnum 1 (-20))) sigma)) by (apply pos_nz, pos_mul; [apply pos_t; lia|exact HP]).
    eapply rda_assign_fin in Q1; [exact Q1| |exact HS| |]; [apply nums_eta; [exact Hc|]; apply fin_div; auto with num|intros; vf|auto].
  - cbn [rda_l1 a_end] in E. unfold rda_l1_end in E. cbv zeta in E. dob E Q1. injection E as <- <-. split; [|exact HS]. destruct HP as (P1 & P2).
    assert (Ht0 : pos (n_add Xnum (n_int Xnum (c_iter c)) (n_lit Xnum 1 (-20)))) by (apply pos_t; lia). set (t := n_add Xnum _ _) in *.
    assert (Ht : nz (n_mul Xnum t sigma)) by (apply pos_nz, pos_mul; assumption). apply kept_end.
    eapply rda_assign_fin in Q1; [exact Q1| |exact HS| |]; [apply nums_eta; [exact Hc|]; apply fin_div; auto with num|intros; vf|intros; cbv beta; auto with num].
  - cbn [erda_l1 a_end] in E. unfold erda_l1_end in E. cbv zeta in E. dob E Q1. injection E as <- <-. split; [|exact HS]. destruct HP as (P1 & P2 & P3).
    assert (Ht0 : pos (n_add Xnum (n_int Xnum (c_iter c)) (n_lit Xnum 1 (-20)))) by (apply pos_t; lia). set (t := n_add Xnum _ _) in *.
    pose proof (pos_sqrt _ Ht0) as Ht1. assert (Ht : nz (n_mul Xnum (n_sqrt Xnum t) sigma)) by (apply pos_nz, pos_mul; assumption). apply kept_end.
    eapply rda_assign_fin in Q1; [exact Q1| |exact HS| |]; [apply nums_eta; [exact Hc|]; apply fin_div; auto with num|intros; vf; auto 8 with num|intros; auto 8 with num].
  - cbn [sop a_end] in E. unfold sop_end in E. destruct e as (X, v). dob E Q1. injection E as <- <-. split; [|exact HS]. destruct HS as (A & B). cbn [fst snd] in *.
    split; [|reflexivity]. apply nums_updated, nums_ws; [exact Hc|]. eapply (zip_class_vals fins fins); [apply Hc|exact B| |exact Q1]. intros w vc w' Hw Hv Ew. eapply assign_vals; [exact Hw| |exact Ew].
    two fin pos; [exact Hv| |intros; apply fin_div; auto; now apply pos_nz]. two pos (above 0); [exact HP|exact A|intros; now apply pos_add].
  - cbn [ada_fobos_l1 a_end] in E. unfold ada_fobos_l1_end in E. destruct e as (Hs, z). dob E Q1. injection E as <- <-. split; [|exact HS]. destruct HS as (S0 & S1 & S2 & S3). cbn [fst snd] in *.
    destruct HP as (P1 & P2). apply kept_end, kept_ws; [exact Hc|]. destruct Hc as (A & B & C & D).
    eapply (zip_class_vals fins (Forall (atleast delta))); [exact A|exact S0| |exact Q1]. intros w H w' Hw HH Ew. cbv beta in Ew. dob Ew Q2. dob Ew Q3.
    assert (Hh : nz x). { apply pos_nz. eapply atleast_pos; [exact P1|]. eapply (rd_vals (atleast delta)); [|eassumption]; assumption. }
    eapply upd0_fin; [| |exact Ew].
    + eapply assign_vals; [exact Hw| |exact Q2]. two fin fin; [vf| |intros; cbv beta; auto with num].
      two fin (atleast delta); [vf|exact HH|]. intros u v Hu Hv. apply fin_div; [exact Hu|]. apply pos_nz. eapply atleast_pos; eauto.
    + intros b Hb'. apply fin_trunc; [exact Hb'|]. apply fin_div; auto with num.
  - cbn [ada_rda a_end] in E. unfold ada_rda_end in E. dob E Q1. injection E as <- <-. split; [|exact HS]. split; [|reflexivity]. apply nums_updated, nums_ws; [exact Hc|]. destruct Hc as (A & B & C & D & _).
    eapply (zip_class_vals fins (Hu_ok delta)); [exact A|exact HS| |exact Q1]. intros w (H, u) w' Hw (HH & Hu) Ew. cbn [fst snd] in *. refine (ada_rda_assign_fin _ _ _ _ _ _ _ HP C D _ Hw HH Ew). vf.
  - cbn [ada_rda_l1 a_end] in E. unfold ada_rda_l1_end in E. cbv zeta in E. dob E Q1. injection E as <- <-. split; [|exact HS]. apply kept_end, kept_ws; [exact Hc|]. destruct Hc as (A & B & C & D & _). destruct HP as (P1 & P2).
    eapply (zip_class_vals fins (Hu_ok delta)); [exact A|exact HS| |exact Q1]. intros w (H, u) w' Hw (HH & Hu) Ew. cbn [fst snd] in *. refine (ada_rda_assign_fin _ _ _ _ _ _ _ P1 C D _ Hw HH Ew). vf.
  - cbn [ada_rda_ofs a_end] in E. unfold ada_rda_ofs_end in E. destruct e as (s, ut). dob E Q1. destruct HS as (S1 & S2). cbn [fst snd] in *.
    assert (Hw : Forall fins l).
    { destruct Hc as (A & B1 & C & D & _). eapply (zip_class_vals fins (Hu_ok delta)); [exact A|exact (combine_ok _ _ _ S1 S2)| |exact Q1]. intros w (H, u) w' Hw (HH & Hu) Ew. cbn [fst snd] in *.
      refine (ada_rda_assign_fin _ _ _ _ _ _ _ HP C D _ Hw HH Ew). vf. }
    destruct B as [|B].
    + injection E as <- <-. split; [|split; assumption]. split; [|reflexivity]. now apply nums_updated, nums_ws.
    + dob E Q2. destruct p as (h, ws'). injection E as <- <-. split; [|split; assumption]. split; [|reflexivity]. apply nums_updated, nums_ws; [exact Hc|]. eapply offer_ids_fin; [exact Hw|exact Q2].
Qed.

Lemma cost_nums c lab : nums c -> nums (cost_margin_step Xnum c lab).
Proof.
  intros Hc. unfold cost_margin_step. destruct (c_cost c) as [m|] eqn:Em; [|exact Hc]. apply nums_margin; [exact Hc|]. destruct (_ =? _)%Z; [|auto with num].
  destruct Hc as (_ & _ & _ & _ & _ & H). now apply H.
Qed.
Lemma cost_iter c lab : c_iter (cost_margin_step Xnum c lab) = c_iter c.
Proof. unfold cost_margin_step. now destruct (c_cost c). Qed.
Lemma predict_label c p lab ps : predict Xnum c p = Some (lab, ps) -> label_of Xnum ps = Some lab.
Proof. unfold predict. intros E. dob E Q1. dob E Q2. injection E as <- <-. exact Q2. Qed.
Lemma cw_is_hinge k loss a phi b : params_ok k loss -> k = KCW a phi b \/ k = KECCW a phi b -> is_hinge loss.
Proof. intros HP [->| ->]; destruct HP as (_ & _ & HP); unfold is_hinge; tauto. Qed.
Lemma start_next k (c c' : core (R:=xreal)) : (c_iter c <= c_iter c')%Z -> start_ok k c -> start_ok k c'.
Proof. destruct k; cbn; lia. Qed.

Section Session.
Variables (k : kind (R:=xreal)) (n : nat) (loss : loss_kind) (pre : point xreal -> option (point xreal)).
Hypothesis Hloss : loss_ok n loss.
Hypothesis HP : params_ok k loss.
Hypothesis Hn : (Z.of_nat n <= two64)%Z.
Definition numeric (c : core (R:=xreal)) (e : state_of k) : Prop := nums c /\ start_ok k c /\ st_ok k e.

Lemma iterate_numeric p rnd c e lab ps c' e' : wf_point (lo_of k) p -> label_ok n (p_label p) -> example_ok k p -> sound Xnum k n loss c e -> numeric c e ->
  iterate Xnum (alg_of Xnum k) p rnd c e = Some (lab, ps, c', e') -> numeric c' e'.
Proof.
  intros Hp Hl Hx Hs (HK1 & HK2 & HK3) E. pose proof Hx as (Hf & _).
  destruct (iterate_sound Xnum k n loss Hloss p rnd c e lab ps c' e' Hp Hl Hs E) as (e1 & e2 & c3 & e3 & q & H). cbv zeta in H.
  destruct H as (A1 & A2 & A3 & A4 & A5 & A6 & A7 & A8 & A9 & A10 & A11 & A12).
  assert (S1 : st_ok k e1) by (eapply grow_ok; eauto). assert (S2 : st_ok k e2) by (eapply reg_begin_ok; eauto).
  set (c1 := linear_update_dim Xnum (Z.to_nat (x_dim p)) c) in *. assert (N1 : nums c1) by now apply nums_dim.
  assert (I1 : c_iter c1 = c_iter c) by apply dim_iter.
  set (c2 := set_data (set_iter c1 (c_iter c1 + 1)) (c_data c1 + 1)) in *. assert (N2 : nums c2) by exact N1.
  assert (I2 : c_iter c2 = (c_iter c + 1)%Z) by (cbn; now rewrite I1).
  destruct (prep_ok k loss p c2 e2 c3 e3 HP N2 S2 Hf) as (N3 & S3); [|exact A5|].
  { eapply start_next; [|exact HK2]. cbn [set_iter c_iter]. rewrite I2. lia. }
  assert (I3 : c_iter c3 = (c_iter c + 1)%Z). { destruct A6 as (_ & _ & _ & _ & _ & _ & _ & _ & _ & A6). unfold same_counters in A6. rewrite <- I2. apply A6. }
  destruct A12 as [(_ & -> & ->)|(_ & r & e4 & B1 & B2 & B3 & B4 & B5 & B6)].
  - split; [exact N3|]. split; [|exact S3]. eapply start_next; [|exact HK2]. cbn [set_iter c_iter]. lia.
  - set (c4 := cost_margin_step Xnum c3 (p_label p)) in *. assert (N4 : nums c4) by now apply cost_nums. assert (I4 : c_iter c4 = c_iter c3) by apply cost_iter.
    assert (D4 : c_ws c4 = c_ws c3 /\ c_dim c4 = c_dim c3) by (unfold c4, cost_margin_step; destruct (c_cost c3); auto). destruct D4 as (W4 & D4).
    assert (D3 : c_dim c3 = c_dim c2) by apply A6.
    destruct A7 as (Hw3 & Hn3 & _ & HI).
    pose proof (predict_fin c3 p lab ps (proj1 N3) Hf A8) as Fps. pose proof N4 as (_ & G4 & _ & _ & M4 & _).
    assert (Lg : length (c_g c4) = length ps).
    { assert (Eg : c_g c4 = c_g c3) by (unfold c4, cost_margin_step; now destruct (c_cost c3)). rewrite Eg, A9, <- Hn3. apply Hw3. }
    destruct (gradient_fin loss (a_margin (alg_of Xnum k) c4 e3 p) (stored k) (p_label p) ps lab (c_g c4) (c_margin c4) r) as (R1 & R2 & R3 & R4 & R5); auto.
    + now rewrite A9.
    + exact (predict_label _ _ _ _ A8).
    + now rewrite A9.
    + intros f Ef g1 m v Ha Ev. eapply (margin_ok k loss _ p c4 e3 f g1 m v HP S3 Hx Hp); [|  |exact Ef|exact Ha|exact Ev].
      * rewrite W4, D4. exact HI.
      * rewrite D4, D3. exact A4.
    + set (c5 := set_lres c4 r) in *.
      assert (N5 : nums c5). { destruct N4 as (U1 & U2 & U3 & U4 & U5 & U6). repeat (split; [assumption|]). exact U6. }
      assert (V5 : forall a phi b, k = KCW a phi b \/ k = KECCW a phi b -> stored k (c_vt c5)).
      { intros a phi b Hk. destruct (R5 (cw_is_hinge k loss a phi b HP Hk)) as (_ & Hv).
        assert (Hm : exists f, a_margin (alg_of Xnum k) c4 e3 p = Some f).
        { clear -Hk. destruct Hk as [->| ->]; cbn; unfold cw_handler; eauto. }
        destruct Hm as (f & Ef). destruct (Hv f Ef) as (v & Er). specialize (R4 v Er). unfold c5, set_lres. cbn [c_vt]. rewrite Er. exact R4. }
      assert (N6 : nums c' /\ st_ok k e4 /\ c_iter c' = c_iter c3).
      { destruct B4 as [(B4 & B7 & B8)|(B4 & -> & ->)].
        - destruct (update_ok k loss p (l_loss r) (set_upd c5 (c_upd c5 + 1)) e3 c' e4 HP N5 S3 Hx Hp) as (U1 & U2); auto.
          + cbn. pose proof (lower_iter _ _ HK2). lia.
          + intros Hh. exact (proj1 (R5 Hh)).
          + split; [exact U1|]. split; [exact U2|]. destruct B8 as (_ & _ & _ & _ & _ & _ & _ & _ & _ & B8). unfold same_counters in B8. rewrite (proj1 B8). exact I4.
        - split; [exact N5|]. split; [exact S3|]. exact I4. }
      destruct N6 as (N6 & S6 & I6). split; [exact N6|]. split; [|eapply reg_end_ok; eauto]. eapply start_next; [|exact HK2]. lia.
Qed.
Lemma point_numeric p rnd x c e c' e' : pre p = Some x -> wf_point (lo_of k) x -> label_ok n (p_label x) -> example_ok k x -> sound Xnum k n loss c e -> numeric c e ->
  train_point Xnum (alg_of Xnum k) pre (p, rnd) c e = Some (c', e') -> numeric c' e'.
Proof.
  intros Ex Hx Hl HX Hs HK E. unfold train_point in E. rewrite Ex in E. cbn [bind] in E. dob E Q1. destruct p0 as (((lab, ps), c1), e1). injection E as <- <-.
  pose proof (iterate_numeric _ _ _ _ _ _ _ _ Hx Hl HX Hs HK Q1) as (A & B & C). destruct (lab =? p_label x)%Z; split; auto.
Qed.
Lemma session_numeric us c0 c e r : fresh Xnum n c0 -> c_loss c0 = loss -> fin_core c0 -> start_ok k c0 ->
  Forall (use_ok (lo_of k) n pre) us -> Forall (use_X pre (example_ok k)) us ->
  session Xnum (alg_of Xnum k) pre us (c0, init_of Xnum k n, true) = Some (c, e, r) -> numeric c e.
Proof.
  intros Hf Hl Hc Hst HU HX E.
  assert (HR : at_rest Xnum k n loss numeric (c, e, r)).
  { refine (session_inv Xnum k n loss pre Hloss numeric (example_ok k) _ _ _ _ us _ _ HU HX _ E).
    - intros c1 e1 b H. exact H.
    - intros c1 e1 c2 e2 _ (A & B & C) H. destruct (begin_ok k loss _ _ _ _ HP A C H) as ((D & F) & G). split; [exact D|]. split; [|exact G]. eapply start_next; [|exact B]. lia.
    - exact point_numeric.
    - intros c1 e1 c2 e2 _ (A & B & C) H. destruct (end_ok k loss _ _ _ _ HP A C (lower_iter _ _ B) H) as ((D & F) & G). split; [exact D|]. split; [|exact G]. eapply start_next; [|exact B]. lia.
    - apply fresh_rest; auto. destruct Hc as (A & B & C & D & F & G & H). split; [now repeat (split; [assumption|])|]. split; [exact Hst|]. eapply init_ok; eauto. }
  exact (proj1 HR).
Qed.
End Session.
