(** Confidences and scales over sessions. *)
From Coq Require Import Reals Lra Psatz Sorted.
From Verif Require Import M_Base M_Num M_Expr M_Loss M_Online M_Olm M_OlmSel M_Heap M_Algs S_Expr
  S_Real S_Online S_Session S_Learn P_DataPoint P_Expr P_Real P_Online P_Predict P_Step P_Safe P_SafeOlm P_SafeSel2
  P_Session P_Session2 P_Inv P_Conf P_Conf2.
Local Open Scope R_scope.

Lemma point_parts {E} (a : alg E) pre p rnd x c e c' e' : pre p = Some x -> train_point Rnum a pre (p, rnd) c e = Some (c', e') ->
  exists lab ps c1, iterate Rnum a x rnd c e = Some (lab, ps, c1, e') /\ c_upd c' = c_upd c1 /\ c_g c' = c_g c1 /\
    c_ws c' = c_ws c1 /\ c_dim c' = c_dim c1.
Proof.
  intros Ex H. unfold train_point in H. rewrite Ex in H. cbn [bind] in H. dob H Q1. destruct p0 as (((lab, ps), c1), e1).
  exists lab, ps, c1. injection H as <- <-. split; [first [exact Q1|reflexivity]|]. destruct (lab =? p_label x)%Z; auto.
Qed.
Lemma map_rep {A B} (f : A -> B) a m : map f (repeat a m) = repeat (f a) m.
Proof. induction m; simpl; congruence. Qed.
Lemma init_conf k n j i : conf k (init_of Rnum k n) j i = conf0 k.
Proof.
  assert (G : forall (v : list R) a, (forall b, In b v -> b = a) -> forall m, nth i (nth j (repeat v m) []) a = a).
  { intros v a Hv m. destruct (nth_in_or_default j (repeat v m) []) as [Hin|E].
    - apply repeat_spec in Hin. rewrite Hin. destruct (nth_in_or_default i v a); auto.
    - rewrite E. destruct i; reflexivity. }
  assert (G0 : forall a : R, nth i (nth j (@nil (list R)) []) a = a) by (intros; destruct j; destruct i; reflexivity).
  destruct k; unfold conf; cbn [confs conf0 init_of fst s_vecs]; try apply G0; try (apply G; intros b [<-|[]]; reflexivity).
  - destruct j as [|j]; [|destruct j; destruct i; reflexivity]. cbn [nth map]. destruct i as [|i]; cbn [nth]; [|destruct i; reflexivity].
    cbn. unfold Rdiv. now rewrite Rplus_0_r.
  - rewrite map_rep. cbn [fst]. apply G. intros b [<-|[]]. reflexivity.
  - rewrite map_rep. cbn [fst]. apply G. intros b [<-|[]]. reflexivity.
Qed.

Section Ses.
Variables (k : kind (R:=R)) (n : nat) (loss : loss_kind) (pre : point R -> option (point R)).
Hypothesis Hloss : loss_ok n loss.
Hypothesis Hk : second_order k.
(** A property of the numbers that one training step keeps. *)
Variable I : state_of k -> Prop.
Variable X : point R -> Prop.
Hypothesis Iext : forall e e', (forall j i, conf k e' j i = conf k e j i) -> I e -> I e'.
Hypothesis Istep : forall x rnd c e lab ps c' e', wf_point (lo_of k) x -> label_ok n (p_label x) -> X x -> sound Rnum k n loss c e -> I e ->
  iterate Rnum (alg_of Rnum k) x rnd c e = Some (lab, ps, c', e') -> I e'.
Lemma numbers_session us s s' : Forall (use_ok (lo_of k) n pre) us -> trained_on X pre us ->
  at_rest Rnum k n loss (fun _ => I) s -> session Rnum (alg_of Rnum k) pre us s = Some s' -> at_rest Rnum k n loss (fun _ => I) s'.
Proof.
  intros HU HX Hr H. eapply (session_inv Rnum k n loss pre Hloss (fun _ => I) X); eauto.
  - intros c e c' e' (_ & _ & _ & HI) Ie Hb. eapply Iext; [|exact Ie]. eapply conf_begin; eauto.
  - intros p rnd x c e c' e' Ex Hx Hlab HX' Hs Ie Hp. destruct (point_parts _ _ _ _ _ _ _ _ _ Ex Hp) as (lab & ps & c1 & Hi & _).
    eapply Istep; eauto.
  - intros c e c' e' _ Ie He. eapply Iext; [|exact Ie]. eapply conf_end; eauto.
Qed.
(** One more example. *)
Lemma one_more c e r p rnd x c' e' r' : at_rest Rnum k n loss (fun _ => I) (c, e, r) -> pre p = Some x -> wf_point (lo_of k) x ->
  label_ok n (p_label x) -> use_step Rnum (alg_of Rnum k) pre (UTrain [[(p, rnd)]]) (c, e, r) = Some (c', e', r') ->
  exists c1 e1 lab ps c2, (forall j i, conf k e1 j i = conf k e j i) /\ sound Rnum k n loss c1 e1 /\ I e1 /\
    iterate Rnum (alg_of Rnum k) x rnd c1 e1 = Some (lab, ps, c2, e').
Proof.
  intros (Ie & Hi & Hs) Ex Hx Hlab H. cbn [use_step] in H. dob H Q1. destruct p0 as (((c3, e3), dp3), evs3). injection H as <- <- <-.
  unfold train_batches in Q1. dob Q1 Q2. destruct p0 as (c1, e1).
  assert (A : sound Rnum k n loss c1 e1 /\ forall j i, conf k e1 j i = conf k e j i).
  { destruct r.
    - split; [eapply begin_sound; eauto|]. destruct Hi as (_ & _ & _ & Hi). eapply conf_begin; eauto.
    - injection Q2 as <- <-. auto. }
  destruct A as (A1 & A2). dob Q1 Q3. destruct p0 as (((c4, e4), dp4), evs4). injection Q1 as <- <- <- <-.
  cbn [foldM] in Q3. dob Q3 Q4. destruct p0 as (((c5, e5), dp5), evs5). injection Q3 as <- <- <- <-. dob Q4 Q5. injection Q4 as ->.
  unfold train_step in Q5. dob Q5 Q6. destruct p0 as (c6, e6).
  assert (e6 = e5) by (destruct (next_show _ <=? _)%Z; injection Q5; auto). subst e6.
  destruct (point_parts _ _ _ _ _ _ _ _ _ Ex Q6) as (lab & ps & c2 & Hit & _).
  exists c1, e1, lab, ps, c2. repeat split; auto; try apply A1. eapply Iext; eauto.
Qed.
End Ses.

(** ** The shrinking models *)
Section Shrink.
Variables (k : kind (R:=R)) (n : nat) (loss : loss_kind) (pre : point R -> option (point R)).
Hypothesis Hloss : loss_ok n loss.
Hypothesis Hk : shrinking k = true.
Hypothesis Hpar : conf_params k loss.
Lemma shrinking_2nd : second_order k.
Proof. unfold second_order. now rewrite Hk. Qed.
Lemma conf_in_ext e e' : (forall j i, conf k e' j i = conf k e j i) -> conf_in k n e -> conf_in k n e'.
Proof. intros H HI j i Hj. rewrite H. now apply HI. Qed.
Lemma conf_in_step x rnd c e lab ps c' e' : wf_point (lo_of k) x -> label_ok n (p_label x) -> conf_example k x -> sound Rnum k n loss c e -> conf_in k n e ->
  iterate Rnum (alg_of Rnum k) x rnd c e = Some (lab, ps, c', e') -> conf_in k n e'.
Proof.
  intros Hx Hl HX Hs HI H j i Hj. destruct (step_shrinks k n loss x rnd c e lab ps c' e' Hk Hpar Hloss Hx Hl HX Hs HI H j i Hj) as (A & _).
  specialize (HI j i Hj). lra.
Qed.
Lemma conf0_pos : 0 < conf0 k.
Proof.
  destruct k; try discriminate Hk; cbn in *; try lra. apply Rdiv_lt_0_compat; lra.
Qed.
Lemma shrink_rest c0 us s : fresh Rnum n c0 -> c_loss c0 = loss -> Forall (use_ok (lo_of k) n pre) us -> trained_on (conf_example k) pre us ->
  session Rnum (alg_of Rnum k) pre us (c0, init_of Rnum k n, true) = Some s -> at_rest Rnum k n loss (fun _ => conf_in k n) s.
Proof.
  intros Hf Hl HU HX H. eapply (numbers_session k n loss pre Hloss shrinking_2nd (conf_in k n) (conf_example k)); eauto using conf_in_ext, conf_in_step.
  apply fresh_rest; auto. intros j i Hj. rewrite init_conf. pose proof conf0_pos. lra.
Qed.
End Shrink.

(** ** The adaptive models *)
Section Adapt.
Variables (k : kind (R:=R)) (n : nat) (loss : loss_kind) (pre : point R -> option (point R)).
Hypothesis Hloss : loss_ok n loss.
Hypothesis Hk : adaptive k = true.
Hypothesis Hpar : 0 < conf0 k.
Definition scale_ok (e : state_of k) : Prop := forall j i, (j < n)%nat -> conf0 k <= conf k e j i.
Lemma adaptive_2nd : second_order k.
Proof. unfold second_order. rewrite Hk. now destruct (shrinking k). Qed.
Lemma step_adapts x rnd c e lab ps c' e' : wf_point (lo_of k) x -> label_ok n (p_label x) -> sound Rnum k n loss c e -> scale_ok e ->
  iterate Rnum (alg_of Rnum k) x rnd c e = Some (lab, ps, c', e') ->
  (c_upd c' = c_upd c \/ c_upd c' = (c_upd c + 1)%Z) /\
  forall j i, (j < n)%nat -> conf k e j i <= conf k e' j i /\
    let g := if (c_upd c' =? c_upd c)%Z then 0 else nth j (c_g c') 0 in
    (conf k e' j i - conf0 k) * (conf k e' j i - conf0 k) =
    (conf k e j i - conf0 k) * (conf k e j i - conf0 k) + g * xv (feats x) i * (g * xv (feats x) i) + (if (i =? 0)%nat then g * g else 0).
Proof.
  intros Hx Hl Hs HI H.
  assert (Hpos : forall j i, (j < n)%nat -> 0 < conf k e j i) by (intros j i Hj; specialize (HI j i Hj); lra).
  destruct (iterate_conf k n loss adaptive_2nd Hloss x rnd c e lab ps c' e' Hx Hl Hs Hpos H)
    as [(U & E)|(U & c4 & e3 & r & Gr & Hc4 & Hn4 & Sh & Hd & C3 & Eg & E)].
  - split; [now left|]. intros j i Hj. rewrite E by exact Hj. split; [lra|]. rewrite U, Z.eqb_refl. cbv zeta. destruct (i =? 0)%nat; ring.
  - split; [now right|]. intros j i Hj. rewrite E by exact Hj. replace (c_upd c' =? c_upd c)%Z with false by lia. rewrite Eg. cbv zeta.
    specialize (HI j i Hj). set (s := conf k e j i) in *. set (g := nth j (l_grad r) 0).
    assert (A : forall d, d = conf0 k -> s <= at_feature (feats x) i (adapted d g) (adapted d g 1) s /\
       (at_feature (feats x) i (adapted d g) (adapted d g 1) s - d) * (at_feature (feats x) i (adapted d g) (adapted d g 1) s - d) =
       (s - d) * (s - d) + g * xv (feats x) i * (g * xv (feats x) i) + (if (i =? 0)%nat then g * g else 0)).
    { intros d ->. now apply adapted_at. }
    assert (B : g = 0 -> s <= s /\ (s - conf0 k) * (s - conf0 k) = (s - conf0 k) * (s - conf0 k) + g * xv (feats x) i * (g * xv (feats x) i) + (if (i =? 0)%nat then g * g else 0)).
    { intros ->. split; [lra|]. destruct (i =? 0)%nat; ring. }
    destruct k; try discriminate Hk; cbn [cupd cstep conf0] in *; fold g; (destruct (Req_EM_T g 0); [now apply B|now apply A]).
Qed.
Lemma scale_ext e e' : (forall j i, conf k e' j i = conf k e j i) -> scale_ok e -> scale_ok e'.
Proof. intros H HI j i Hj. rewrite H. now apply HI. Qed.
Lemma scale_step x rnd c e lab ps c' e' : wf_point (lo_of k) x -> label_ok n (p_label x) -> True -> sound Rnum k n loss c e -> scale_ok e ->
  iterate Rnum (alg_of Rnum k) x rnd c e = Some (lab, ps, c', e') -> scale_ok e'.
Proof.
  intros Hx Hl _ Hs HI H j i Hj. destruct (step_adapts _ _ _ _ _ _ _ _ Hx Hl Hs HI H) as (_ & A). specialize (A j i Hj). specialize (HI j i Hj). lra.
Qed.
Lemma all_true us : trained_on (fun _ => True) pre us.
Proof. apply Forall_forall. intros [bs| |] _; auto. apply Forall_forall. intros. apply Forall_forall. auto. Qed.
Lemma adapt_rest c0 us s : fresh Rnum n c0 -> c_loss c0 = loss -> Forall (use_ok (lo_of k) n pre) us ->
  session Rnum (alg_of Rnum k) pre us (c0, init_of Rnum k n, true) = Some s -> at_rest Rnum k n loss (fun _ => scale_ok) s.
Proof.
  intros Hf Hl HU H. eapply (numbers_session k n loss pre Hloss adaptive_2nd scale_ok (fun _ => True)); eauto using scale_ext, scale_step, all_true.
  apply fresh_rest; auto. intros j i Hj. rewrite init_conf. lra.
Qed.
(** A stream of examples. *)
Lemma traced_sum ds : forall c e tr c' e', Forall (fun d => accepts (lo_of k) n pre (fst d)) ds -> sound Rnum k n loss c e -> scale_ok e ->
  traced k pre ds c e = Some (tr, c', e') -> scale_ok e' /\ forall j i, (j < n)%nat ->
  (conf k e' j i - conf0 k) * (conf k e' j i - conf0 k) = (conf k e j i - conf0 k) * (conf k e j i - conf0 k) + accumulated j i tr.
Proof.
  induction ds as [|(p, rnd) ds IH]; intros c e tr c' e' HA Hs HI H; cbn [traced] in H.
  - injection H as <- <- <-. split; [exact HI|]. intros. unfold accumulated. cbn. ring.
  - dob H Q1. destruct p0 as (c1, e1). cbn [fst] in H. inversion HA as [|? ? (x & Ex & Hx & Hl) HA']; subst. cbn [fst] in Ex. rewrite Ex in H. cbn [bind] in H.
    dob H Q2. destruct p0 as ((tr1, c2), e2). injection H as <- <- <-.
    destruct (point_parts _ _ _ _ _ _ _ _ _ Ex Q1) as (lab & ps & c3 & Hit & Eu & Eg & _).
    destruct (step_adapts _ _ _ _ _ _ _ _ Hx Hl Hs HI Hit) as (Hu & A).
    assert (Hs1 : sound Rnum k n loss c1 e1) by (eapply sound_point; eauto).
    assert (HI1 : scale_ok e1) by exact (scale_step _ _ _ _ _ _ _ _ Hx Hl Logic.I Hs HI Hit).
    destruct (IH _ _ _ _ _ HA' Hs1 HI1 Q2) as (B1 & B2). split; [exact B1|]. intros j i Hj. rewrite (B2 j i Hj). destruct (A j i Hj) as (_ & A2).
    rewrite A2. rewrite Eu. unfold accumulated. cbv zeta. destruct (c_upd c3 =? c_upd c)%Z.
    + cbv zeta. destruct (i =? 0)%nat; ring.
    + cbn [fold_right fst snd]. rewrite Eg. ring.
Qed.
(** [traced] is the training loop. *)
Lemma traced_train ds : forall c e dp evs c' e' dp' evs', Forall (fun d => exists x, pre (fst d) = Some x) ds ->
  foldM (train_step Rnum (alg_of Rnum k) pre) ds (c, e, dp, evs) = Some (c', e', dp', evs') -> exists tr, traced k pre ds c e = Some (tr, c', e').
Proof.
  induction ds as [|d ds IH]; intros c e dp evs c' e' dp' evs' HA H; cbn [foldM traced] in *.
  - injection H as <- <- <- <-. eauto.
  - dob H Q1. destruct p as (((c1, e1), dp1), evs1). inversion HA as [|? ? (x & Ex) HA']; subst. unfold train_step in Q1. dob Q1 Q2. destruct p as (c2, e2).
    assert (E : c2 = c1 /\ e2 = e1) by (destruct (next_show dp <=? c_data c2)%Z; injection Q1; auto). destruct E as (-> & ->).
    rewrite Ex. cbn [bind]. destruct (IH _ _ _ _ _ _ _ _ HA' H) as (tr & ->). cbn [bind]. eauto.
Qed.
Lemma accumulated_nonneg j i tr : 0 <= accumulated j i tr.
Proof.
  induction tr as [|q tr IH]; unfold accumulated in *; cbn [fold_right]; [lra|]. cbv zeta.
  pose proof (Rle_0_sqr (nth j (snd q) 0 * xv (feats (fst q)) i)). pose proof (Rle_0_sqr (nth j (snd q) 0)). unfold Rsqr in *.
  destruct (i =? 0)%nat; lra.
Qed.
End Adapt.
