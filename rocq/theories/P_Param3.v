(** Programs of settings and trainings on one model. *)
From Coq Require Import String Lia.
From Verif Require Import M_Base M_Text M_Str M_Num M_Expr M_Loss M_Online M_Filter M_Save M_Param S_Param P_Param P_Param2.
Local Open Scope string_scope.
Local Open Scope list_scope.
Local Open Scope Z_scope.

Section P.
Context {R : Type}.
Variable N : num R.
Variable stof : list Z -> parsed R.
Variable files : list Z -> option (list Z).
Notation cfg := (cfg (R:=R)).
Notation setp := (set_parameter N stof files).
Notation vld := (valid N stof files).
Notation nws := (news N stof files).
Notation stp := (step N stof files).
Notation run := (steps N stof files).

Lemma steps_app k classes a b c : run k classes (a ++ b) c =
  match run k classes a c with
  | None => None
  | Some (l, c1) => match run k classes b c1 with None => None | Some (l', c2) => Some (l ++ l', c2) end
  end.
Proof.
  revert c. induction a as [|o a IH]; intros c; cbn.
  - destruct (run k classes b c) as [[l' c2]|]; reflexivity.
  - destruct (stp k classes o c) as [[r c1]|]; [|reflexivity]. cbn. rewrite IH.
    destruct (run k classes a c1) as [[l c2]|]; [|reflexivity]. cbn.
    destruct (run k classes b c2) as [[l' c3]|]; reflexivity.
Qed.

(** Training leaves the settings. *)
Definition cap_after (k : cls) (c : cfg) : list R := match captured N k c with [] => f_cap c | l => l end.
Lemma train_char k classes c r c' : stp k classes OTrain c = Some (r, c') ->
  (c' = c /\ (r = ROk -> f_reinit c = false)) \/
  (r = ROk /\ f_reinit c = true /\ c' = upd_cap (upd_reinit c false) (cap_after k c)).
Proof.
  cbn. destruct (f_reinit c) eqn:Er.
  - unfold begin_train. destruct (f_loss c) as [[i l]|] eqn:El.
    + destruct (f_cost c && negb (is_hinge l && loss_is_binary l)) eqn:Ec.
      * intros H. injection H as <- <-. left. split; congruence.
      * destruct k; try (destruct (hinge_valid (upd_reinit c false)); [|discriminate]); intros H; injection H as <- <-; right; auto.
    + destruct (f_cost c); [discriminate|]. intros H. injection H as <- <-. left; split; congruence.
  - destruct (f_loss c); [|discriminate]. intros H. injection H as <- <-. left; split; congruence.
Qed.
Lemma train_keeps k classes c r c' : stp k classes OTrain c = Some (r, c') ->
  f_r c' = f_r c /\ f_z c' = f_z c /\ f_dim c' = f_dim c /\ f_lazy c' = f_lazy c /\ f_cost c' = f_cost c /\ f_norm c' = f_norm c /\
  f_filter c' = f_filter c /\ f_loss c' = f_loss c /\ f_hinge c' = f_hinge c /\ f_next c' = f_next c /\ f_ws c' = f_ws c /\ f_conf c' = f_conf c.
Proof.
  intros H. apply train_char in H. destruct H as [(-> & _)|(_ & _ & ->)]; repeat split.
Qed.
Lemma set_frame k classes name value c r c' : stp k classes (OSet name value) c = Some (r, c') ->
  frame k name c c' /\
  (r = ROk <-> setp k classes name value c = Done c').
Proof.
  cbn. pose proof (exec_frame N stof files k classes name value c) as F.
  destruct (setp k classes name value c); intros H; try discriminate; injection H as <- <-; (split; [assumption|]); split; congruence.
Qed.

(** The last setting of a member counts. *)
Definition touches_r (k : cls) (m : rmem) (o : op) : bool := match o with OSet n _ => sets_r k n m | OTrain => false end.
Definition touches_z (k : cls) (m : zmem) (o : op) : bool := match o with OSet n _ => sets_z k n m | OTrain => false end.
Lemma keep_r k classes m os : forall c l c', run k classes os c = Some (l, c') -> existsb (touches_r k m) os = false -> f_r c' m = f_r c m.
Proof.
  induction os as [|o os IH]; intros c l c' H T; cbn in H, T.
  - now injection H as <- <-.
  - apply Bool.orb_false_elim in T. destruct T as (T1 & T2).
    destruct (stp k classes o c) as [[r c1]|] eqn:E; [|discriminate]. cbn in H.
    destruct (run k classes os c1) as [[l' c2]|] eqn:E2; [|discriminate]. injection H as <- <-.
    rewrite (IH _ _ _ E2 T2). destruct o as [n v|].
    + apply set_frame in E. now apply (fr_r _ _ _ _ (proj1 E)).
    + apply train_keeps in E. now rewrite (proj1 E).
Qed.
Lemma keep_z k classes m os : forall c l c', run k classes os c = Some (l, c') -> existsb (touches_z k m) os = false -> f_z c' m = f_z c m.
Proof.
  induction os as [|o os IH]; intros c l c' H T; cbn in H, T.
  - now injection H as <- <-.
  - apply Bool.orb_false_elim in T. destruct T as (T1 & T2).
    destruct (stp k classes o c) as [[r c1]|] eqn:E; [|discriminate]. cbn in H.
    destruct (run k classes os c1) as [[l' c2]|] eqn:E2; [|discriminate]. injection H as <- <-.
    rewrite (IH _ _ _ E2 T2). destruct o as [n v|].
    + apply set_frame in E. now apply (fr_z _ _ _ _ (proj1 E)).
    + apply train_keeps in E. now rewrite (proj1 (proj2 E)).
Qed.
Lemma split_run k classes pre o post c l c' : run k classes (pre ++ o :: post) c = Some (l, c') ->
  exists l1 c1 r c2 l2, run k classes pre c = Some (l1, c1) /\ stp k classes o c1 = Some (r, c2) /\
    run k classes post c2 = Some (l2, c') /\ l = l1 ++ r :: l2.
Proof.
  rewrite steps_app. destruct (run k classes pre c) as [[l1 c1]|]; [|discriminate]. cbn.
  destruct (stp k classes o c1) as [[r c2]|] eqn:E; [|discriminate]. cbn.
  destruct (run k classes post c2) as [[l2 c3]|] eqn:E2; [|discriminate]. intros H. injection H as <- <-.
  exists l1, c1, r, c2, l2. auto.
Qed.
Lemma valid_step k classes name value c r c' : 1 < classes -> vld k classes name value ->
  stp k classes (OSet name value) c = Some (r, c') -> r = ROk /\ setp k classes name value c = Done c'.
Proof.
  intros Hc V E. destruct (valid_done N stof files k classes name value c Hc V) as (c2 & Ed). cbn in E. rewrite Ed in E.
  injection E as <- <-. auto.
Qed.
Lemma last_r k classes m pre name value post c l c' : 1 < classes -> vld k classes name value ->
  run k classes (pre ++ OSet name value :: post) c = Some (l, c') ->
  sets_r k name m = true -> m <> MBinv -> m <> Msp1 -> existsb (touches_r k m) post = false ->
  Some (f_r c' m) = to_real stof value.
Proof.
  intros Hc V H S1 S2 S3 T. apply split_run in H. destruct H as (l1 & c1 & r & c2 & l2 & _ & E & E2 & _).
  destruct (valid_step _ _ _ _ _ _ _ Hc V E) as (_ & Ed). destruct (done_facts N stof files _ _ _ _ _ _ Hc Ed) as (_ & _ & W).
  rewrite (keep_r _ _ _ _ _ _ _ E2 T). now apply (nw_r _ _ _ _ _ _ _ _ _ W).
Qed.
Lemma last_z k classes m pre name value post c l c' : 1 < classes -> vld k classes name value ->
  run k classes (pre ++ OSet name value :: post) c = Some (l, c') ->
  sets_z k name m = true -> existsb (touches_z k m) post = false ->
  Some (f_z c' m) = option_map (fun v => match m with MB => u32 v | _ => v end) (to_int value).
Proof.
  intros Hc V H S1 T. apply split_run in H. destruct H as (l1 & c1 & r & c2 & l2 & _ & E & E2 & _).
  destruct (valid_step _ _ _ _ _ _ _ Hc V E) as (_ & Ed). destruct (done_facts N stof files _ _ _ _ _ _ Hc Ed) as (_ & _ & W).
  rewrite (keep_z _ _ _ _ _ _ _ E2 T). now apply (nw_z _ _ _ _ _ _ _ _ _ W).
Qed.

(** Usable models. *)
Definition usable (k : cls) (classes : Z) (c : cfg) : Prop :=
  exists i l, f_loss c = Some (i, l) /\ suits k classes l = true /\ (keeps k = true -> f_hinge c = Some i).
Lemma usable_create k classes : 1 < classes -> usable k classes (create N k classes).
Proof.
  intros Hc. exists 0%nat, (first_loss k classes). split; [reflexivity|].
  split; [|destruct k; cbn; congruence].
  unfold suits, first_loss. destruct k, (classes =? 2); reflexivity.
Qed.
Lemma usable_set k classes name value c r c' : 1 < classes -> usable k classes c -> (name = "loss" -> vld k classes name value) ->
  stp k classes (OSet name value) c = Some (r, c') -> usable k classes c'.
Proof.
  intros Hc U V E. destruct (string_dec name "loss") as [->|Hn].
  - destruct (valid_step _ _ _ _ _ _ _ Hc (V eq_refl) E) as (_ & Ed). destruct (done_facts N stof files _ _ _ _ _ _ Hc Ed) as (_ & _ & W).
    destruct (nw_loss _ _ _ _ _ _ _ _ _ W eq_refl) as (l & El & _ & Hs & _ & Hh). exists (f_next c), l. repeat split; [assumption..|].
    intros Hk. now rewrite Hk in Hh.
  - apply set_frame in E. destruct E as (F & _). destruct (fr_loss _ _ _ _ F Hn) as (E1 & E2 & _). unfold usable. now rewrite E1, E2.
Qed.
Lemma usable_train k classes c : usable k classes c ->
  exists r c', stp k classes OTrain c = Some (r, c') /\ usable k classes c' /\
    (r = ROk \/ r = RInvalid /\ f_cost c = true).
Proof.
  intros (i & l & El & Hs & Hh). cbn. destruct (f_reinit c) eqn:Er.
  - unfold begin_train. rewrite El. destruct (f_cost c && negb (is_hinge l && loss_is_binary l)) eqn:Ec.
    + exists RInvalid, c. split; [reflexivity|]. split; [exists i, l; auto|]. right. apply andb_prop in Ec. tauto.
    + assert (Hv : keeps k = true -> hinge_valid (upd_reinit c false) = true).
      { intros Hk. unfold hinge_valid. cbn. rewrite (Hh Hk), El. apply PeanoNat.Nat.eqb_refl. }
      destruct k; cbn in Hv; try rewrite (Hv eq_refl);
      (eexists ROk, _; split; [reflexivity|]; split; [exists i, l; cbn; auto|auto]).
  - rewrite El. exists ROk, c. split; [reflexivity|]. split; [exists i, l; auto|auto].
Qed.
Definition sane (k : cls) (classes : Z) (o : op) : Prop :=
  match o with
  | OSet name value => (name = "loss" -> vld k classes name value) /\ (name = "filter" -> load_presel (files value) <> SelUB)
  | OTrain => True
  end.
Lemma set_total k classes name value c : sane k classes (OSet name value) -> exists r c', stp k classes (OSet name value) c = Some (r, c').
Proof.
  intros (_ & Hf). cbn. pose proof (exec_frame N stof files k classes name value c) as F.
  destruct (setp k classes name value c); eauto. destruct F as (-> & E). now destruct (Hf eq_refl).
Qed.
Lemma usable_run k classes os : 1 < classes -> Forall (sane k classes) os -> forall c, usable k classes c ->
  exists l c', run k classes os c = Some (l, c') /\ usable k classes c' /\
    (f_cost c' = true -> f_cost c = true \/ exists v, In (OSet "cost_margin" v) os).
Proof.
  intros Hc H. induction H as [|o os Ho Hos IH]; intros c U.
  - exists [], c. auto.
  - assert (X : exists r c1, stp k classes o c = Some (r, c1) /\ usable k classes c1 /\
      (f_cost c1 = true -> f_cost c = true \/ exists v, o = OSet "cost_margin" v)).
    { destruct o as [n v|].
      - destruct (set_total k classes n v c Ho) as (r & c1 & E). exists r, c1. split; [exact E|].
        split; [apply (usable_set _ _ _ _ _ _ _ Hc U (proj1 Ho) E)|]. intros Hcost.
        destruct (string_dec n "cost_margin") as [->|Hn]; [eauto|]. apply set_frame in E.
        rewrite (fr_cost _ _ _ _ (proj1 E) Hn) in Hcost. auto.
      - destruct (usable_train k classes c U) as (r & c1 & E & U1 & _). exists r, c1. split; [exact E|]. split; [exact U1|].
        apply train_keeps in E. destruct E as (_ & _ & _ & _ & E & _). rewrite E. auto. }
    destruct X as (r & c1 & E & U1 & Hcost). destruct (IH c1 U1) as (l & c' & E2 & U2 & Hcost2).
    exists (r :: l), c'. split; [cbn; rewrite E; cbn; now rewrite E2|]. split; [exact U2|].
    intros Hx. destruct (Hcost2 Hx) as [Hy|(v & Hy)]; [|right; exists v; now right].
    destruct (Hcost Hy) as [Hz|(v & ->)]; [auto|]. right. exists v. now left.
Qed.

(** Fresh models: what BeginTrain stored belongs to the settings. *)
Definition fresh (k : cls) (c : cfg) : Prop := f_reinit c = false -> f_cap c = captured N k c.
Lemma captured_frame k name (c c' : cfg) : frame k name c c' -> k <> TFOFS -> restarts k name = false -> captured N k c' = captured N k c.
Proof.
  intros F Hk Hr.
  assert (Hs : forall s, names s (["loss"; "cost_margin"] ++ when (is_cw k) ["phi"; "bias_eta"] ++ when (is_alma k) ["p"; "alpha"; "k"]) = true -> name <> s).
  { intros s Hin ->. enough (restarts k s = true) by congruence. unfold restarts. apply names_In in Hin. cbn in Hin.
    destruct k; cbn in *; repeat (destruct Hin as [<-|Hin]; [reflexivity|]); destruct Hin. }
  destruct k; try congruence; cbn [captured]; try reflexivity; cbn in Hs.
  - rewrite (fr_r _ _ _ _ F Malpha), (fr_r _ _ _ _ F MBinv), (fr_r _ _ _ _ F Msp1), (fr_z _ _ _ _ F Mk); [reflexivity|..];
      unfold sets_r, sets_z; cbn;
      repeat match goal with |- context [String.eqb name ?s] => rewrite (proj2 (String.eqb_neq name s)) by (apply Hs; reflexivity) end; reflexivity.
  - rewrite (fr_r _ _ _ _ F MBias), (fr_r _ _ _ _ F MEta), (fr_r _ _ _ _ F Mphi); [reflexivity|..];
      unfold sets_r, sets_z; cbn;
      repeat match goal with |- context [String.eqb name ?s] => rewrite (proj2 (String.eqb_neq name s)) by (apply Hs; reflexivity) end; reflexivity.
  - rewrite (fr_r _ _ _ _ F MBias), (fr_r _ _ _ _ F MEta), (fr_r _ _ _ _ F Mphi); [reflexivity|..];
      unfold sets_r, sets_z; cbn;
      repeat match goal with |- context [String.eqb name ?s] => rewrite (proj2 (String.eqb_neq name s)) by (apply Hs; reflexivity) end; reflexivity.
Qed.
Lemma captured_train k classes c r c' : stp k classes OTrain c = Some (r, c') -> captured N k c' = captured N k c.
Proof. intros E. apply train_keeps in E. destruct E as (E1 & E2 & _). unfold captured. now rewrite E1, E2. Qed.
Definition accepted (k : cls) (classes : Z) (o : op) : Prop :=
  match o with OSet name value => vld k classes name value | OTrain => True end.
Lemma cap_nil k (c : cfg) : captured N k c = [] -> forall c2, captured N k c2 = [].
Proof. destruct k; cbn; intros H c2; try reflexivity; discriminate. Qed.
Lemma fresh_run k classes os : 1 < classes -> k <> TFOFS -> Forall (accepted k classes) os ->
  forall c l c', (captured N k c = [] -> f_cap c = []) -> fresh k c -> run k classes os c = Some (l, c') -> fresh k c'.
Proof.
  intros Hc Hk H. induction H as [|o os Ho Hos IH]; intros c l c' H0 Fr E.
  - cbn in E. now injection E as <- <-.
  - cbn in E. destruct (stp k classes o c) as [[r c1]|] eqn:E1; [|discriminate]. cbn in E.
    destruct (run k classes os c1) as [[l2 c2]|] eqn:E2; [|discriminate]. injection E as <- <-.
    refine (IH _ _ _ _ _ E2).
    + intros Hn. pose proof (cap_nil _ _ Hn c) as Hn0. specialize (H0 Hn0). destruct o as [n v|].
      * apply set_frame in E1. now rewrite (fr_cap _ _ _ _ (proj1 E1)).
      * apply train_char in E1. destruct E1 as [(-> & _)|(_ & _ & ->)]; [assumption|]. cbn. unfold cap_after. now rewrite Hn0.
    + destruct o as [n v|].
      * destruct (valid_step _ _ _ _ _ _ _ Hc Ho E1) as (_ & Ed). destruct (done_facts N stof files _ _ _ _ _ _ Hc Ed) as (_ & F & W).
        destruct (restarts k n) eqn:Rs.
        { unfold fresh. rewrite (nw_reinit _ _ _ _ _ _ _ _ _ W Rs). discriminate. }
        unfold fresh. rewrite (fr_reinit _ _ _ _ F Rs), (fr_cap _ _ _ _ F), (captured_frame _ _ _ _ F Hk Rs). exact Fr.
      * pose proof (captured_train _ _ _ _ _ E1) as Hcap.
        apply train_char in E1. destruct E1 as [(-> & _)|(_ & _ & ->)]; [assumption|]. intros _. rewrite Hcap. cbn. unfold cap_after.
        destruct (captured N k c) eqn:Ec; [now apply H0|reflexivity].
Qed.
Lemma fresh_create k classes : fresh k (create N k classes).
Proof. intros H. discriminate. Qed.

(** Accepted settings keep the members in range. *)
Lemma valid_real k classes name value m : vld k classes name value -> names name (real_names k m) = true ->
  exists x, to_real stof value = Some x /\ real_ok N m x.
Proof.
  intros V Hn. apply valid_slot in V. unfold valid_at in V. rewrite (slot_real _ _ _ Hn) in V. destruct V as (x & Hx & Hok & _). eauto.
Qed.
Lemma range_run k classes os : 1 < classes -> Forall (accepted k classes) os ->
  forall c l c' m, m <> MBinv -> m <> Msp1 -> m <> Mt0 -> run k classes os c = Some (l, c') -> f_r c' m = f_r c m \/ real_ok N m (f_r c' m).
Proof.
  intros Hc H. induction H as [|o os Ho Hos IH]; intros c l c' m M1 M2 M3 E.
  - cbn in E. injection E as <- <-. now left.
  - cbn in E. destruct (stp k classes o c) as [[r c1]|] eqn:E1; [|discriminate]. cbn in E.
    destruct (run k classes os c1) as [[l2 c2]|] eqn:E2; [|discriminate]. injection E as <- <-.
    destruct (IH _ _ _ _ M1 M2 M3 E2) as [->|Hok]; [|now right]. destruct o as [n v|].
    + destruct (sets_r k n m) eqn:Sr.
      * right. destruct (valid_step _ _ _ _ _ _ _ Hc Ho E1) as (_ & Ed). destruct (done_facts N stof files _ _ _ _ _ _ Hc Ed) as (_ & F & W).
        assert (Hn : names n (real_names k m) = true).
        { unfold sets_r in Sr. apply Bool.orb_true_iff in Sr. destruct Sr as [Sr|Sr]; [assumption|]. destruct m; congruence. }
        destruct (valid_real _ _ _ _ _ Ho Hn) as (x & Hx & Hok). pose proof (nw_r _ _ _ _ _ _ _ _ _ W m Sr M1 M2) as Hv.
        rewrite Hx in Hv. injection Hv as ->. assumption.
      * left. apply set_frame in E1. now apply (fr_r _ _ _ _ (proj1 E1)).
    + left. apply train_keeps in E1. now rewrite (proj1 E1).
Qed.
End P.
