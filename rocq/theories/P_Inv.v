(** Induction over sessions: a property of the state kept by BeginTrain, every training step and
    EndTrain holds after every session. *)
From Verif Require Import M_Base M_Num M_Expr M_Loss M_Online M_Olm M_OlmSel M_Heap M_Algs S_Expr
  S_Online S_Session P_DataPoint P_Expr P_Online P_Predict P_Step P_Safe P_Session P_Session2.

Section P.
Context {R : Type}.
Variable N : num R.

Lemma iterate_parts {E} (a : alg (R:=R) E) p rnd c e lab ps c' e' :
  iterate N a p rnd c e = Some (lab, ps, c', e') ->
  exists c1 e1 e2 c3 e3 q,
    a_grow a (Z.to_nat (x_dim p)) c e = Some (c1, e1) /\ a_reg_begin a p e1 = Some e2 /\
    a_prep a p (set_data (set_iter c1 (c_iter c1 + 1)) (c_data c1 + 1)) e2 = Some (c3, e3) /\
    predict N c3 p = Some (lab, ps) /\ queried N c3 ps lab rnd = Some q /\
    ((q = false /\ c' = set_iter c3 (c_iter c3 - 1) /\ e' = e3) \/
     (q = true /\ exists r e4,
        let c4 := cost_margin_step N c3 (p_label p) in
        let c5 := set_lres c4 r in
        gradient N (c_loss c4) (a_margin a c4 e3 p) (p_label p) ps lab (c_g c4) (c_margin c4) = Some r /\
        ((wants_update N c5 lab (p_label p) (l_loss r) = true /\
          a_update a p (l_loss r) (set_upd c5 (c_upd c5 + 1)) e3 = Some (c', e4)) \/
         (wants_update N c5 lab (p_label p) (l_loss r) = false /\ c' = c5 /\ e4 = e3)) /\
        a_reg_end a p (c_iter c') e4 = Some e')).
Proof.
  intros H. unfold iterate in H. dob H Q1. destruct p0 as (c1, e1). dob H Q2. dob H Q3. destruct p0 as (c3, e3).
  dob H Q4. destruct p0 as (lab0, ps0). dob H Q5.
  exists c1, e1, e0, c3, e3, b. destruct b.
  - dob H Q6. destruct p0 as (c4, e4). injection H as <- <- <- <-.
    repeat (split; [first [assumption|reflexivity]|]). right. split; [reflexivity|]. unfold learn in Q6. dob Q6 Q7.
    dob Q6 Q8. destruct p0 as (c6, e6). dob Q6 Q9. injection Q6 as <- <-.
    exists l, e6. cbv zeta. split; [exact Q7|]. split; [|exact Q9].
    destruct (wants_update _ _ _ _ _); [left|right]; split; auto. injection Q8 as <- <-. auto.
  - injection H as <- <- <- <-. repeat (split; [first [assumption|reflexivity]|]). left. auto.
Qed.

Lemma lo_nonneg (k : kind (R:=R)) : 0 <= lo_of k.
Proof. destruct k; cbn; lia. Qed.

Section Inv.
Variables (k : kind (R:=R)) (n : nat) (loss : loss_kind) (pre : point R -> option (point R)).
Hypothesis Hloss : loss_ok n loss.
(** The property, and what is known of the (preprocessed) training examples. *)
Variable K : core (R:=R) -> state_of k -> Prop.
Variable X : point R -> Prop.

(** Well-formed states of a model that has begun training. *)
Definition sound (c : core (R:=R)) (e : state_of k) : Prop :=
  wf_core c /\ length (c_ws c) = n /\ c_loss c = loss /\ inv_of N False k (c_ws c) (c_dim c) e.
Definition idle_sound (c : core (R:=R)) (e : state_of k) : Prop :=
  wf_core c /\ length (c_ws c) = n /\ c_loss c = loss /\ pre_of N False k (c_ws c) (c_dim c) e.
Lemma sound_idle c e : sound c e -> idle_sound c e.
Proof using. intros (A & B & C & D). repeat (split; [assumption|]). now apply inv_pre. Qed.

Hypothesis Kupd : forall c e b, K c e -> K (set_updated c b) e.
Hypothesis Kbegin : forall c e c' e', idle_sound c e -> K c e -> a_begin (alg_of N k) c e = Some (c', e') -> K c' e'.
Hypothesis Kpoint : forall p rnd x c e c' e', pre p = Some x -> wf_point (lo_of k) x -> label_ok n (p_label x) -> X x ->
  sound c e -> K c e -> train_point N (alg_of N k) pre (p, rnd) c e = Some (c', e') -> K c' e'.
Hypothesis Kend : forall c e c' e', sound c e -> K c e -> a_end (alg_of N k) c e = Some (c', e') -> K c' e'.

(** One training step of a sound state taken apart: growth (c1, e2), preparation (c3, e3), gradient
    (r), update; every intermediate state is sound. *)
Lemma iterate_sound p rnd c e lab ps c' e' : wf_point (lo_of k) p -> label_ok n (p_label p) -> sound c e ->
  iterate N (alg_of N k) p rnd c e = Some (lab, ps, c', e') ->
  exists e1 e2 c3 e3 q,
    let d := Z.to_nat (x_dim p) in
    let c1 := linear_update_dim N d c in
    let c2 := set_data (set_iter c1 (c_iter c1 + 1)) (c_data c1 + 1) in
    a_grow (alg_of N k) d c e = Some (c1, e1) /\ a_reg_begin (alg_of N k) p e1 = Some e2 /\ sound c1 e2 /\
    (d <= c_dim c1)%nat /\
    a_prep (alg_of N k) p c2 e2 = Some (c3, e3) /\ framed (rel_of k (p_idx p)) c2 c3 /\ sound c3 e3 /\
    predict N c3 p = Some (lab, ps) /\ length ps = n /\ label_ok n lab /\ queried N c3 ps lab rnd = Some q /\
    ((q = false /\ c' = set_iter c3 (c_iter c3 - 1) /\ e' = e3) \/
     (q = true /\ exists r e4,
        let c4 := cost_margin_step N c3 (p_label p) in
        let c5 := set_lres c4 r in
        gradient N loss (a_margin (alg_of N k) c4 e3 p) (p_label p) ps lab (c_g c4) (c_margin c4) = Some r /\
        length (l_grad r) = n /\ sound c5 e3 /\
        ((wants_update N c5 lab (p_label p) (l_loss r) = true /\
          a_update (alg_of N k) p (l_loss r) (set_upd c5 (c_upd c5 + 1)) e3 = Some (c', e4) /\
          framed (rel_of k (p_idx p)) (set_upd c5 (c_upd c5 + 1)) c') \/
         (wants_update N c5 lab (p_label p) (l_loss r) = false /\ c' = c5 /\ e4 = e3)) /\
        sound c' e4 /\ a_reg_end (alg_of N k) p (c_iter c') e4 = Some e')).
Proof using Hloss .
  clear Kupd Kbegin Kpoint Kend X K pre.
  intros Hp Hlab (Hc & Hn & Hl & HI) H.
  destruct (iterate_parts _ _ _ _ _ _ _ _ _ H) as (c1 & e1 & e2 & c3 & e3 & q & G1 & G2 & G3 & G4 & G5 & G6).
  destruct (gsafe_of N False k) as (HQ & Hgrow & Hprep & Hmar & Hupd & Hend).
  destruct (Hgrow p c e Hp Hc HI) as (f1 & f2 & E1 & E2 & HI2).
  rewrite G1 in E1. injection E1 as -> ->. rewrite G2 in E2. injection E2 as ->.
  destruct (wf_update_dim N (Z.to_nat (x_dim p)) c Hc) as (Hc1 & Hd1 & Hn1).
  set (d := Z.to_nat (x_dim p)) in *. set (c1 := linear_update_dim N d c) in *.
  set (c2 := set_data (set_iter c1 (c_iter c1 + 1)) (c_data c1 + 1)) in *.
  assert (Hl1 : c_loss c1 = loss).
  { unfold c1, linear_update_dim. destruct (_ <? _)%nat; cbn; congruence. }
  assert (S1 : sound c1 f2).
  { split; [exact Hc1|]. split; [congruence|]. split; [exact Hl1|]. rewrite Hd1. exact HI2. }
  assert (Hc2 : wf_core c2) by exact Hc1.
  assert (Hd2 : (d <= c_dim c2)%nat) by (cbn; lia).
  assert (HI2' : inv_of N False k (c_ws c2) (c_dim c2) f2) by (cbn; rewrite Hd1; exact HI2).
  destruct (Hprep p c2 f2 Hp Hc2 Hd2 HI2') as (c3' & e3' & E3 & F3 & HI3).
  rewrite G3 in E3. injection E3 as <- <-.
  destruct (framed_wf _ _ _ (HQ _) F3 Hc2) as (Hc3 & Hn3).
  pose proof F3 as (F3a & _ & F3g & _ & _ & _ & _ & _ & F3l & _).
  assert (S3 : sound c3 e3).
  { split; [exact Hc3|]. split; [rewrite Hn3; cbn; congruence|]. split; [rewrite F3l; exact Hl1|]. rewrite F3a. exact HI3. }
  destruct (predict_lengths N c3 p _ lab ps (lo_nonneg k) Hc3 Hp G4) as (Lps & Llab).
  assert (Hn3' : length (c_ws c3) = n) by (destruct S3 as (_ & ? & _); assumption).
  rewrite Hn3' in Lps, Llab. rename Lps into Lps'.
  exists f1, f2, c3, e3, q. cbv zeta. fold d c1 c2.
  split; [exact G1|]. split; [exact G2|]. split; [exact S1|]. split; [exact Hd2|]. split; [exact G3|].
  split; [exact F3|]. split; [exact S3|]. split; [exact G4|]. split; [exact Lps'|]. split; [exact Llab|].
  split; [exact G5|]. destruct G6 as [G6|(-> & r & e4 & G6)]; [now left|right]. split; [reflexivity|].
  cbv zeta in G6. destruct G6 as (A1 & A2 & A3).
  set (c4 := cost_margin_step N c3 (p_label p)) in *.
  destruct S3 as (S3a & S3b & S3c & S3d).
  assert (C4 : c_ws c4 = c_ws c3 /\ c_dim c4 = c_dim c3 /\ c_g c4 = c_g c3 /\ c_loss c4 = loss).
  { unfold c4, cost_margin_step. destruct (c_cost c3); cbn; auto. }
  destruct C4 as (C4a & C4b & C4c & C4d).
  assert (Hc4 : wf_core c4).
  { destruct S3a as (U1 & U2 & U3 & U4). split; [lia|]. rewrite C4a, C4b, C4c. auto. }
  assert (Hdc4 : (d <= c_dim c4)%nat) by (rewrite C4b, F3a; exact Hd2).
  assert (Hgr : exists r', gradient N (c_loss c4) (a_margin (alg_of N k) c4 e3 p) (p_label p) ps lab (c_g c4) (c_margin c4) = Some r' /\ length (l_grad r') = n).
  { assert (HI4 : inv_of N False k (c_ws c4) (c_dim c4) e3) by (rewrite C4a, C4b; exact S3d).
    pose proof (Hmar p c4 e3 Hp Hc4 Hdc4 HI4) as HM.
    apply gradient_some; auto.
    - destruct Hc4 as (_ & _ & _ & ?). congruence.
    - destruct Hc4 as (_ & Hne & _). rewrite C4a in Hne. destruct (c_ws c3); [easy|]. cbn in S3b. lia.
    - now rewrite C4d.
    - rewrite C4a, S3b in HM. exact HM. }
  destruct Hgr as (r' & Er & Lr). rewrite A1 in Er. injection Er as <-.
  assert (S5 : sound (set_lres c4 r) e3).
  { split; [|split; [cbn; congruence|split; [exact C4d|]]].
    - destruct Hc4 as (U1 & U2 & U3 & U4). split; [exact U1|]. split; [exact U2|]. split; [exact U3|]. cbn. congruence.
    - cbn. rewrite C4a, C4b. exact S3d. }
  exists r, e4. rewrite <- C4d. split; [exact A1|]. split; [exact Lr|]. split; [exact S5|].
  destruct S5 as (U1 & U2 & U3 & U4).
  destruct A2 as [(B1 & B2)|(B1 & -> & ->)].
  - set (c6 := set_upd (set_lres c4 r) (c_upd (set_lres c4 r) + 1)) in *.
    destruct (Hupd p (l_loss r) c6 e3 Hp U1 Hdc4 U4) as (c7 & e7 & E7 & F7 & HI7).
    rewrite B2 in E7. injection E7 as <- <-.
    destruct (framed_wf _ _ _ (HQ _) F7 U1) as (Hc7 & Hn7). pose proof F7 as (F7a & _ & _ & _ & _ & _ & _ & _ & F7l & _).
    split; [left; auto|]. split; [|exact A3]. split; [exact Hc7|]. split; [rewrite Hn7; exact U2|].
    split; [rewrite F7l; exact U3|]. rewrite F7a. exact HI7.
  - split; [right; auto|]. split; [|exact A3]. repeat (split; [assumption|]). assumption.
Qed.

Lemma sound_point p rnd x c e c' e' : pre p = Some x -> wf_point (lo_of k) x -> label_ok n (p_label x) ->
  sound c e -> train_point N (alg_of N k) pre (p, rnd) c e = Some (c', e') -> sound c' e'.
Proof using Hloss pre.
  clear Kupd Kbegin Kpoint Kend X K.
  intros Ex Hx Hlab (Hc & Hn & Hl & HI) H. unfold train_point in H. rewrite Ex in H. cbn [bind] in H.
  destruct (iterate_safe N (lo_of k) (alg_of N k) (inv_of N False k) (rel_of k) x rnd c e (lo_nonneg k) (gsafe_of N False k) Hx Hc HI)
    as (lab & ps & c1 & e1 & Ei & Hc' & HI' & Hn' & Hd' & Hl' & _).
  { now rewrite Hn, Hl. } { now rewrite Hn. }
  rewrite Ei in H. cbn [bind] in H. injection H as <- <-. destruct (lab =? p_label x);
    (split; [exact Hc'|split; [cbn; congruence|split; [cbn; congruence|exact HI']]]).
Qed.
(** The training examples of a use satisfy X. *)
Definition use_X (u : use (R:=R)) : Prop :=
  match u with
  | UTrain bs => Forall (Forall (fun d => forall x, pre (fst d) = Some x -> X x)) bs
  | _ => True
  end.
Lemma step_inv d c e dp evs c' e' dp' evs' : accepts (lo_of k) n pre (fst d) ->
  (forall x, pre (fst d) = Some x -> X x) -> sound c e -> K c e ->
  train_step N (alg_of N k) pre d (c, e, dp, evs) = Some (c', e', dp', evs') -> sound c' e' /\ K c' e'.
Proof.
  intros (x & Ex & Hx & Hlab) HX Hs HK H. destruct d as (p, rnd). cbn [fst] in *. unfold train_step in H. dob H Q1.
  destruct p0 as (c1, e1). assert (A : sound c1 e1 /\ K c1 e1).
  { split; [eapply sound_point; eauto|eapply Kpoint; eauto]. }
  destruct (next_show dp <=? c_data c1); injection H as <- <- <- <-; exact A.
Qed.
Lemma fold_inv b : forall c e dp evs c' e' dp' evs', Forall (fun d => accepts (lo_of k) n pre (fst d)) b ->
  Forall (fun d => forall x, pre (fst d) = Some x -> X x) b -> sound c e -> K c e ->
  foldM (train_step N (alg_of N k) pre) b (c, e, dp, evs) = Some (c', e', dp', evs') -> sound c' e' /\ K c' e'.
Proof.
  induction b as [|d b IH]; intros c e dp evs c' e' dp' evs' HA HX Hs HK H; cbn [foldM] in H.
  - injection H as <- <- <- <-. auto.
  - dob H Q1. destruct p as (((c1, e1), dp1), evs1). inversion HA; subst. inversion HX; subst.
    destruct (step_inv _ _ _ _ _ _ _ _ _ H2 H4 Hs HK Q1) as (Hs1 & HK1). eapply IH; eauto.
Qed.
Lemma batches_inv bs : forall c e dp evs c' e' dp' evs', Forall (Forall (fun d => accepts (lo_of k) n pre (fst d))) bs ->
  Forall (Forall (fun d => forall x, pre (fst d) = Some x -> X x)) bs -> sound c e -> K c e ->
  foldM (fun b st => foldM (train_step N (alg_of N k) pre) b st) bs (c, e, dp, evs) = Some (c', e', dp', evs') ->
  sound c' e' /\ K c' e'.
Proof.
  induction bs as [|d b IH]; intros c e dp evs c' e' dp' evs' HA HX Hs HK H; cbn [foldM] in H.
  - injection H as <- <- <- <-. auto.
  - dob H Q1. destruct p as (((c1, e1), dp1), evs1). inversion HA; subst. inversion HX; subst.
    destruct (fold_inv _ _ _ _ _ _ _ _ _ H2 H4 Hs HK Q1) as (Hs1 & HK1). eapply IH; eauto.
Qed.
Lemma begin_sound c e c' e' : idle_sound c e -> a_begin (alg_of N k) c e = Some (c', e') -> sound c' e'.
Proof using.
  intros (Hc & Hn & Hl & HI) H. destruct (begin_of N False k c e Hc HI) as (c1 & e1 & E1 & (A & B & C) & D).
  rewrite E1 in H. injection H as <- <-. split; [exact A|]. split; [congruence|]. split; [congruence|exact D].
Qed.
Lemma end_sound c e c' e' : sound c e -> a_end (alg_of N k) c e = Some (c', e') -> sound c' e'.
Proof using.
  intros (Hc & Hn & Hl & HI) H. destruct (end_of N False k c e Hc HI) as (c1 & e1 & E1 & (A & B & D & C) & HI').
  rewrite E1 in H. injection H as <- <-. split; [exact A|]. split; [congruence|]. split; [congruence|exact HI'].
Qed.
(** States of a session. *)
Definition at_rest (s : core (R:=R) * state_of k * bool) : Prop :=
  let '(c, e, r) := s in K c e /\ idle_sound c e /\ (r = false \/ c_updated c = true -> sound c e).
Lemma use_inv u s s' : use_ok (lo_of k) n pre u -> use_X u -> at_rest s ->
  use_step N (alg_of N k) pre u s = Some s' -> at_rest s'.
Proof.
  destruct s as ((c, e), r), s' as ((c', e'), r'). intros HU HX (HK & Hi & Hs) H. destruct u as [bs|data|]; cbn [use_step use_ok use_X] in *.
  - dob H Q1. destruct p as (((c1, e1), dp1), evs1). injection H as <- <- <-. unfold train_batches in Q1. dob Q1 Q2.
    destruct p as (c2, e2). dob Q1 Q3. destruct p as (((c3, e3), dp3), evs3). injection Q1 as <- <- <- <-.
    assert (A : sound c2 e2 /\ K c2 e2).
    { destruct r; [split; [eapply begin_sound; eauto|eapply Kbegin; eauto]|].
      injection Q2 as <- <-. auto. }
    destruct A as (A1 & A2). destruct (batches_inv _ _ _ _ _ _ _ _ _ HU HX A1 A2 Q3) as (B1 & B2).
    split; [now apply Kupd|]. split; [apply sound_idle|intros _]; exact B1.
  - dob H Q1. destruct p as (((rows, errs), c1), e1). injection H as <- <- <-. unfold test in Q1. dob Q1 Q2.
    destruct p as (c2, e2). dob Q1 Q3. injection Q1 as <- <- <- <-.
    destruct (c_updated c) eqn:Eu.
    + assert (A : sound c2 e2) by (eapply end_sound; eauto).
      split; [exact (Kend _ _ _ _ (Hs (or_intror eq_refl)) HK Q2)|]. split; [now apply sound_idle|auto].
    + injection Q2 as <- <-. split; [exact HK|]. split; [exact Hi|]. rewrite Eu. exact Hs.
  - injection H as <- <- <-. split; [exact HK|]. split; [exact Hi|]. intros [Hx|Hx]; [discriminate|]. auto.
Qed.
Lemma session_inv us : forall s s', Forall (use_ok (lo_of k) n pre) us -> Forall use_X us -> at_rest s ->
  session N (alg_of N k) pre us s = Some s' -> at_rest s'.
Proof.
  unfold session. induction us as [|u us IH]; intros s s' HU HX Hr H; cbn [foldM] in H.
  - injection H as <-. exact Hr.
  - dob H Q1. inversion HU; subst. inversion HX; subst. apply (IH _ _ H3 H5 (use_inv u s p H2 H4 Hr Q1) H).
Qed.
Lemma fresh_rest c0 : fresh N n c0 -> c_loss c0 = loss -> K c0 (init_of N k n) ->
  at_rest (c0, init_of N k n, true).
Proof.
  intros Hf Hl HK. destruct (fresh_wf N n c0 Hf) as (Hc & Hn). destruct Hf as (_ & Hw & Hd & _ & Hu).
  split; [exact HK|]. split; [split; [exact Hc|split; [exact Hn|split; [exact Hl|]]]|].
  - rewrite Hw, Hd. apply pre_init.
  - rewrite Hu. intros [|]; discriminate.
Qed.
End Inv.
End P.
