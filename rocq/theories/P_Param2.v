(** Consequences of the description by member: order of settings, usability, freshness, ranges. *)
From Coq Require Import String.
From Verif Require Import M_Base M_Text M_Str M_Num M_Expr M_Loss M_Online M_Filter M_Save M_Param S_Param P_Str P_Param.
Local Open Scope string_scope.
Local Open Scope list_scope.
Local Open Scope Z_scope.

Lemma some_eq {A} (a b : A) : Some a = Some b -> a = b.
Proof. congruence. Qed.
Ltac ors := repeat match goal with H : _ \/ _ |- _ => destruct H | H : False |- _ => destruct H end.

Lemma sets_r_names k name m : sets_r k name m = true -> In name all_names.
Proof.
  unfold sets_r. intros H. apply orb_prop in H. destruct H as [H|H].
  - apply names_In in H. apply names_In. destruct k, m; cbn in H; ors; subst; reflexivity.
  - apply names_In. destruct m; try discriminate; apply andb_prop in H; destruct H as (_ & H); apply String.eqb_eq in H; subst; reflexivity.
Qed.
Lemma sets_r_clash k a b m : sets_r k a m = true -> sets_r k b m = true -> clash k a b = true.
Proof.
  unfold sets_r. intros Ha Hb.
  assert (G : forall s, names s (real_names k m) || match m with
    | MBinv => is_alma k && (s =? "alpha")%string | Msp1 => is_alma k && (s =? "p")%string
    | Mt0 => has_reg k RegLazy && (s =? "t")%string | _ => false end = true ->
    In s (real_names k m ++ match m with MBinv => when (is_alma k) ["alpha"] | Msp1 => when (is_alma k) ["p"] | Mt0 => when (has_reg k RegLazy) ["t"] | _ => [] end)).
  { intros s H. apply orb_prop in H. apply in_or_app. destruct H as [H|H]; [left; now apply names_In|right].
    destruct m; try discriminate; apply andb_prop in H; destruct H as (H1 & H2); rewrite H1; apply String.eqb_eq in H2; subst; left; reflexivity. }
  apply G in Ha, Hb. clear G. destruct k, m; cbn in Ha, Hb; ors; subst; reflexivity.
Qed.
Lemma sets_z_clash k a b m : sets_z k a m = true -> sets_z k b m = true -> clash k a b = true.
Proof.
  unfold sets_z. rewrite !names_In. intros Ha Hb. destruct k, m; cbn in Ha, Hb; ors; subst; reflexivity.
Qed.
Lemma clash_eq k a b : clash k a b = false -> a <> b.
Proof. intros H ->. unfold clash in H. rewrite String.eqb_refl in H. discriminate. Qed.
Lemma clash_sym k a b : clash k a b = clash k b a.
Proof.
  unfold clash. rewrite (String.eqb_sym a b). f_equal; [f_equal; [f_equal|]|].
  - apply andb_comm.
  - rewrite <- !andb_assoc. f_equal. apply andb_comm.
  - rewrite <- !andb_assoc. f_equal. apply andb_comm.
Qed.
Lemma clash_show k a b : clash k a b = false -> names a ["exp_show"; "step_show"] = true -> names b ["exp_show"; "step_show"] = false.
Proof.
  intros H Ha. destruct (names b ["exp_show"; "step_show"]) eqn:E; [|reflexivity]. unfold clash in H. rewrite Ha, E in H.
  cbn [andb] in H. rewrite orb_true_r in H. discriminate.
Qed.
Lemma fills_sets k name : fills k name = true -> (is_cw k = true /\ sets_r k name Ma = true) \/ (is_ada k = true /\ sets_r k name Mdelta = true).
Proof.
  unfold fills. intros H. apply orb_prop in H. destruct H as [H|H]; apply andb_prop in H; destruct H as (Hk & H); apply String.eqb_eq in H; subst; [left|right]; (split; [assumption|destruct k; try discriminate; reflexivity]).
Qed.
Lemma sets_fills k name : (is_cw k = true -> sets_r k name Ma = true -> fills k name = true) /\
  (is_ada k = true -> sets_r k name Mdelta = true -> fills k name = true).
Proof.
  split; intros Hk H; unfold sets_r in H; apply orb_prop in H; (destruct H as [H|H]; [|discriminate]); apply names_In in H;
    destruct k; try discriminate; cbn in H; ors; subst; reflexivity.
Qed.
Lemma fills_dim k : fills k "dim" = false.
Proof. destruct k; reflexivity. Qed.

Section P.
Context {R : Type}.
Variable N : num R.
Variable stof : list Z -> parsed R.
Variable files : list Z -> option (list Z).
Notation cfg := (cfg (R:=R)).
Notation setp := (set_parameter N stof files).
Notation vld := (valid N stof files).
Notation nws := (news N stof files).

Lemma done_facts k classes name value c c' : 1 < classes -> setp k classes name value c = Done c' ->
  vld k classes name value /\ frame k name c c' /\ nws k classes name value c c'.
Proof.
  intros Hc E. pose proof (set_done N stof files k classes name value c Hc) as H1.
  pose proof (exec_frame N stof files k classes name value c) as H2. rewrite E in H1, H2. tauto.
Qed.
Lemma valid_done k classes name value c : 1 < classes -> vld k classes name value -> exists c', setp k classes name value c = Done c'.
Proof.
  intros Hc V. pose proof (set_done N stof files k classes name value c Hc) as H1.
  destruct (setp k classes name value c); [eauto|contradiction..].
Qed.

Lemma conf_init_frame k name c c' : frame k name c c' -> fills k name = false -> conf_init N k c' = conf_init N k c.
Proof.
  intros F Hf. destruct (sets_fills k name) as (Sc & Sa).
  assert (Ea : is_cw k = true -> f_r c' Ma = f_r c Ma).
  { intros Hk. apply (fr_r _ _ _ _ F). destruct (sets_r k name Ma) eqn:E; [|reflexivity]. rewrite Sc in Hf by auto. discriminate. }
  assert (Ed : is_ada k = true -> f_r c' Mdelta = f_r c Mdelta).
  { intros Hk. apply (fr_r _ _ _ _ F). destruct (sets_r k name Mdelta) eqn:E; [|reflexivity]. rewrite Sa in Hf by auto. discriminate. }
  destruct k; cbn [conf_init is_cw is_ada] in *; auto.
Qed.
Lemma fill_grow (x i : R) n ws : map (map (fun _ : R => x)) (map (fun w => w ++ repeat i n) ws) =
  map (fun w => w ++ repeat x n) (map (map (fun _ : R => x)) ws).
Proof.
  rewrite !map_map. apply map_ext. intros w. rewrite map_app. f_equal. induction n; cbn; [reflexivity|now f_equal].
Qed.

(** One of two settings, applied second or first. *)
Section Two.
Variables (k : cls) (classes : Z) (n1 n2 : string) (v1 v2 : list Z) (c a b ab ba : cfg).
Hypothesis CL : clash k n1 n2 = false.
Hypothesis F1 : frame k n1 c a.
Hypothesis W1 : nws k classes n1 v1 c a.
Hypothesis F2 : frame k n2 c b.
Hypothesis W2 : nws k classes n2 v2 c b.
Hypothesis F12 : frame k n2 a ab.
Hypothesis W12 : nws k classes n2 v2 a ab.
Hypothesis F21 : frame k n1 b ba.
Hypothesis W21 : nws k classes n1 v1 b ba.

Lemma two_r m : f_r ab m = f_r ba m.
Proof.
  destruct (sets_r k n1 m) eqn:S1, (sets_r k n2 m) eqn:S2.
  - rewrite (sets_r_clash _ _ _ _ S1 S2) in CL. discriminate.
  - rewrite (fr_r _ _ _ _ F12 m S2).
    destruct (rmem_eq_dec m MBinv) as [->|Hb].
    { rewrite (nw_binv _ _ _ _ _ _ _ _ _ W1 S1), (nw_binv _ _ _ _ _ _ _ _ _ W21 S1). f_equal.
      assert (S3 : sets_r k n1 Malpha = true).
      { unfold sets_r in S1. cbn [real_names] in S1. cbn in S1. apply andb_prop in S1. destruct S1 as (Hk & He). apply String.eqb_eq in He. rewrite He.
        destruct k; try discriminate; reflexivity. }
      apply some_eq. rewrite (nw_r _ _ _ _ _ _ _ _ _ W1 Malpha S3), (nw_r _ _ _ _ _ _ _ _ _ W21 Malpha S3); congruence. }
    destruct (rmem_eq_dec m Msp1) as [->|Hp].
    { rewrite (nw_sp1 _ _ _ _ _ _ _ _ _ W1 S1), (nw_sp1 _ _ _ _ _ _ _ _ _ W21 S1). do 3 f_equal.
      assert (S3 : sets_z k n1 Mp = true).
      { unfold sets_r in S1. cbn [real_names] in S1. cbn in S1. apply andb_prop in S1. destruct S1 as (Hk & He). apply String.eqb_eq in He. rewrite He.
        destruct k; try discriminate; reflexivity. }
      apply some_eq. rewrite (nw_z _ _ _ _ _ _ _ _ _ W1 Mp S3), (nw_z _ _ _ _ _ _ _ _ _ W21 Mp S3). reflexivity. }
    apply some_eq. rewrite (nw_r _ _ _ _ _ _ _ _ _ W1 m S1), (nw_r _ _ _ _ _ _ _ _ _ W21 m S1); auto.
  - rewrite (fr_r _ _ _ _ F21 m S1).
    destruct (rmem_eq_dec m MBinv) as [->|Hb].
    { rewrite (nw_binv _ _ _ _ _ _ _ _ _ W2 S2), (nw_binv _ _ _ _ _ _ _ _ _ W12 S2). f_equal.
      assert (S3 : sets_r k n2 Malpha = true).
      { unfold sets_r in S2. cbn [real_names] in S2. cbn in S2. apply andb_prop in S2. destruct S2 as (Hk & He). apply String.eqb_eq in He. rewrite He.
        destruct k; try discriminate; reflexivity. }
      apply some_eq. rewrite (nw_r _ _ _ _ _ _ _ _ _ W2 Malpha S3), (nw_r _ _ _ _ _ _ _ _ _ W12 Malpha S3); congruence. }
    destruct (rmem_eq_dec m Msp1) as [->|Hp].
    { rewrite (nw_sp1 _ _ _ _ _ _ _ _ _ W2 S2), (nw_sp1 _ _ _ _ _ _ _ _ _ W12 S2). do 3 f_equal.
      assert (S3 : sets_z k n2 Mp = true).
      { unfold sets_r in S2. cbn [real_names] in S2. cbn in S2. apply andb_prop in S2. destruct S2 as (Hk & He). apply String.eqb_eq in He. rewrite He.
        destruct k; try discriminate; reflexivity. }
      apply some_eq. rewrite (nw_z _ _ _ _ _ _ _ _ _ W2 Mp S3), (nw_z _ _ _ _ _ _ _ _ _ W12 Mp S3). reflexivity. }
    apply some_eq. rewrite (nw_r _ _ _ _ _ _ _ _ _ W2 m S2), (nw_r _ _ _ _ _ _ _ _ _ W12 m S2); auto.
  - rewrite (fr_r _ _ _ _ F12 m S2), (fr_r _ _ _ _ F1 m S1), (fr_r _ _ _ _ F21 m S1), (fr_r _ _ _ _ F2 m S2). reflexivity.
Qed.
Lemma two_z m : f_z ab m = f_z ba m.
Proof.
  destruct (sets_z k n1 m) eqn:S1, (sets_z k n2 m) eqn:S2.
  - rewrite (sets_z_clash _ _ _ _ S1 S2) in CL. discriminate.
  - rewrite (fr_z _ _ _ _ F12 m S2). apply some_eq. now rewrite (nw_z _ _ _ _ _ _ _ _ _ W1 m S1), (nw_z _ _ _ _ _ _ _ _ _ W21 m S1).
  - rewrite (fr_z _ _ _ _ F21 m S1). apply some_eq. now rewrite (nw_z _ _ _ _ _ _ _ _ _ W2 m S2), (nw_z _ _ _ _ _ _ _ _ _ W12 m S2).
  - rewrite (fr_z _ _ _ _ F12 m S2), (fr_z _ _ _ _ F1 m S1), (fr_z _ _ _ _ F21 m S1), (fr_z _ _ _ _ F2 m S2). reflexivity.
Qed.
Lemma fills_clash : fills k n1 = true -> fills k n2 = true -> False.
Proof.
  intros H1 H2. apply fills_sets in H1, H2.
  assert (X : clash k n1 n2 = true); [|congruence].
  destruct H1 as [(K1 & H1)|(K1 & H1)], H2 as [(K2 & H2)|(K2 & H2)]; try (eapply sets_r_clash; eassumption); destruct k; discriminate.
Qed.
Lemma two_conf : f_dim ab = f_dim ba -> f_conf ab = f_conf ba.
Proof.
  intros Dim. assert (Hne : n1 <> n2) by now apply (clash_eq k).
  assert (G : forall n v (d d' : cfg), nws k classes n v d d' -> fills k n = true -> forall x, to_real stof v = Some x -> conf_init N k d' = x).
  { intros n v d d' W Hf x Hx. apply some_eq. rewrite <- Hx. apply fills_sets in Hf.
    destruct Hf as [(Hk & Hs)|(Hk & Hs)]; rewrite <- (nw_r _ _ _ _ _ _ _ _ _ W _ Hs) by discriminate; destruct k; try discriminate; reflexivity. }
  destruct (string_dec n1 "dim") as [E1|E1]; [assert (E2 : n2 <> "dim") by congruence|destruct (string_dec n2 "dim") as [E2|E2]].
  - destruct (nw_dim _ _ _ _ _ _ _ _ _ W1 E1) as (_ & _ & C1), (nw_dim _ _ _ _ _ _ _ _ _ W21 E1) as (_ & _ & C21).
    destruct (fr_dim _ _ _ _ F12 E2) as (D1 & _). destruct (fr_dim _ _ _ _ F2 E2) as (D2 & _).
    destruct (fills k n2) eqn:Ff.
    + destruct (nw_conf _ _ _ _ _ _ _ _ _ W12 Ff) as (x & Hx & ->). rewrite C21, C1, D2, <- Dim, D1.
      rewrite (G _ _ _ _ W2 Ff x Hx), fill_grow. f_equal.
      destruct (nw_conf _ _ _ _ _ _ _ _ _ W2 Ff) as (y & Hy & ->). assert (y = x) by congruence. subst y. reflexivity.
    + rewrite (fr_conf _ _ _ _ F12 E2 Ff), C1, C21, (fr_conf _ _ _ _ F2 E2 Ff), D2, <- Dim, D1.
      rewrite (conf_init_frame _ _ _ _ F2 Ff). reflexivity.
  - destruct (nw_dim _ _ _ _ _ _ _ _ _ W2 E2) as (_ & _ & C2), (nw_dim _ _ _ _ _ _ _ _ _ W12 E2) as (_ & _ & C12).
    destruct (fr_dim _ _ _ _ F21 E1) as (D1 & _). destruct (fr_dim _ _ _ _ F1 E1) as (D2 & _).
    destruct (fills k n1) eqn:Ff.
    + destruct (nw_conf _ _ _ _ _ _ _ _ _ W21 Ff) as (x & Hx & ->). rewrite C12, C2, D2, Dim, D1.
      rewrite (G _ _ _ _ W1 Ff x Hx), fill_grow. f_equal.
      destruct (nw_conf _ _ _ _ _ _ _ _ _ W1 Ff) as (y & Hy & ->). assert (y = x) by congruence. subst y. reflexivity.
    + rewrite (fr_conf _ _ _ _ F21 E1 Ff), C2, C12, (fr_conf _ _ _ _ F1 E1 Ff), D2, Dim, D1.
      rewrite (conf_init_frame _ _ _ _ F1 Ff). reflexivity.
  - destruct (fills k n1) eqn:Ff1, (fills k n2) eqn:Ff2.
    + exfalso. now apply fills_clash.
    + rewrite (fr_conf _ _ _ _ F12 E2 Ff2). destruct (nw_conf _ _ _ _ _ _ _ _ _ W1 Ff1) as (x & G1 & ->), (nw_conf _ _ _ _ _ _ _ _ _ W21 Ff1) as (y & G2 & ->).
      rewrite (fr_conf _ _ _ _ F2 E2 Ff2). assert (y = x) by congruence. subst y. reflexivity.
    + rewrite (fr_conf _ _ _ _ F21 E1 Ff1). destruct (nw_conf _ _ _ _ _ _ _ _ _ W2 Ff2) as (x & G1 & ->), (nw_conf _ _ _ _ _ _ _ _ _ W12 Ff2) as (y & G2 & ->).
      rewrite (fr_conf _ _ _ _ F1 E1 Ff1). assert (y = x) by congruence. subst y. reflexivity.
    + now rewrite (fr_conf _ _ _ _ F12 E2 Ff2), (fr_conf _ _ _ _ F1 E1 Ff1), (fr_conf _ _ _ _ F21 E1 Ff1), (fr_conf _ _ _ _ F2 E2 Ff2).
Qed.
Lemma two_same : same ab ba.
Proof.
  assert (Hne : n1 <> n2) by now apply (clash_eq k).
  assert (Dim : f_dim ab = f_dim ba).
  { destruct (string_dec n1 "dim") as [E1|E1].
    { assert (E2 : n2 <> "dim") by congruence.
      rewrite (proj1 (fr_dim _ _ _ _ F12 E2)). apply some_eq.
      rewrite (proj1 (nw_dim _ _ _ _ _ _ _ _ _ W1 E1)), (proj1 (nw_dim _ _ _ _ _ _ _ _ _ W21 E1)), (proj1 (fr_dim _ _ _ _ F2 E2)). reflexivity. }
    rewrite (proj1 (fr_dim _ _ _ _ F21 E1)). destruct (string_dec n2 "dim") as [E2|E2].
    - apply some_eq.
      rewrite (proj1 (nw_dim _ _ _ _ _ _ _ _ _ W2 E2)), (proj1 (nw_dim _ _ _ _ _ _ _ _ _ W12 E2)), (proj1 (fr_dim _ _ _ _ F1 E1)). reflexivity.
    - rewrite (proj1 (fr_dim _ _ _ _ F12 E2)), (proj1 (fr_dim _ _ _ _ F1 E1)), (proj1 (fr_dim _ _ _ _ F2 E2)). reflexivity. }
  constructor.
  - apply two_r.
  - apply two_z.
  - exact Dim.
  - destruct (string_dec n1 "lazy_update") as [E1|E1]; [assert (E2 : n2 <> "lazy_update") by congruence|destruct (string_dec n2 "lazy_update") as [E2|E2]].
    + rewrite (fr_lazy _ _ _ _ F12 E2). pose proof (nw_lazy _ _ _ _ _ _ _ _ _ W1 E1). pose proof (nw_lazy _ _ _ _ _ _ _ _ _ W21 E1).
      destruct (f_lazy a), (f_lazy ba); tauto || (exfalso; intuition discriminate) || reflexivity.
    + rewrite (fr_lazy _ _ _ _ F21 E1). pose proof (nw_lazy _ _ _ _ _ _ _ _ _ W2 E2). pose proof (nw_lazy _ _ _ _ _ _ _ _ _ W12 E2).
      destruct (f_lazy b), (f_lazy ab); tauto || (exfalso; intuition discriminate) || reflexivity.
    + now rewrite (fr_lazy _ _ _ _ F12 E2), (fr_lazy _ _ _ _ F1 E1), (fr_lazy _ _ _ _ F21 E1), (fr_lazy _ _ _ _ F2 E2).
  - destruct (string_dec n1 "cost_margin") as [E1|E1]; [assert (E2 : n2 <> "cost_margin") by congruence|destruct (string_dec n2 "cost_margin") as [E2|E2]].
    + rewrite (fr_cost _ _ _ _ F12 E2). now rewrite (nw_cost _ _ _ _ _ _ _ _ _ W1 E1), (nw_cost _ _ _ _ _ _ _ _ _ W21 E1).
    + rewrite (fr_cost _ _ _ _ F21 E1). now rewrite (nw_cost _ _ _ _ _ _ _ _ _ W2 E2), (nw_cost _ _ _ _ _ _ _ _ _ W12 E2).
    + now rewrite (fr_cost _ _ _ _ F12 E2), (fr_cost _ _ _ _ F1 E1), (fr_cost _ _ _ _ F21 E1), (fr_cost _ _ _ _ F2 E2).
  - destruct (restarts k n1) eqn:R1, (restarts k n2) eqn:R2.
    + now rewrite (nw_reinit _ _ _ _ _ _ _ _ _ W12 R2), (nw_reinit _ _ _ _ _ _ _ _ _ W21 R1).
    + rewrite (fr_reinit _ _ _ _ F12 R2). now rewrite (nw_reinit _ _ _ _ _ _ _ _ _ W1 R1), (nw_reinit _ _ _ _ _ _ _ _ _ W21 R1).
    + rewrite (fr_reinit _ _ _ _ F21 R1). now rewrite (nw_reinit _ _ _ _ _ _ _ _ _ W2 R2), (nw_reinit _ _ _ _ _ _ _ _ _ W12 R2).
    + now rewrite (fr_reinit _ _ _ _ F12 R2), (fr_reinit _ _ _ _ F1 R1), (fr_reinit _ _ _ _ F21 R1), (fr_reinit _ _ _ _ F2 R2).
  - destruct (string_dec n1 "norm") as [E1|E1]; [assert (E2 : n2 <> "norm") by congruence|destruct (string_dec n2 "norm") as [E2|E2]].
    + rewrite (fr_norm _ _ _ _ F12 E2). pose proof (nw_norm _ _ _ _ _ _ _ _ _ W1 E1) as G1. pose proof (nw_norm _ _ _ _ _ _ _ _ _ W21 E1) as G2.
      apply read_norm_word in G1, G2. congruence.
    + rewrite (fr_norm _ _ _ _ F21 E1). pose proof (nw_norm _ _ _ _ _ _ _ _ _ W2 E2) as G1. pose proof (nw_norm _ _ _ _ _ _ _ _ _ W12 E2) as G2.
      apply read_norm_word in G1, G2. congruence.
    + now rewrite (fr_norm _ _ _ _ F12 E2), (fr_norm _ _ _ _ F1 E1), (fr_norm _ _ _ _ F21 E1), (fr_norm _ _ _ _ F2 E2).
  - destruct (string_dec n1 "filter") as [E1|E1]; [assert (E2 : n2 <> "filter") by congruence|destruct (string_dec n2 "filter") as [E2|E2]].
    + rewrite (fr_filter _ _ _ _ F12 E2). destruct (nw_filter _ _ _ _ _ _ _ _ _ W1 E1) as (x & -> & ?). destruct (nw_filter _ _ _ _ _ _ _ _ _ W21 E1) as (y & -> & ?). congruence.
    + rewrite (fr_filter _ _ _ _ F21 E1). destruct (nw_filter _ _ _ _ _ _ _ _ _ W2 E2) as (x & -> & ?). destruct (nw_filter _ _ _ _ _ _ _ _ _ W12 E2) as (y & -> & ?). congruence.
    + now rewrite (fr_filter _ _ _ _ F12 E2), (fr_filter _ _ _ _ F1 E1), (fr_filter _ _ _ _ F21 E1), (fr_filter _ _ _ _ F2 E2).
  - destruct (string_dec n1 "loss") as [E1|E1]; [assert (E2 : n2 <> "loss") by congruence|destruct (string_dec n2 "loss") as [E2|E2]].
    + destruct (fr_loss _ _ _ _ F12 E2) as (-> & _). destruct (fr_loss _ _ _ _ F2 E2) as (_ & _ & Nx).
      destruct (nw_loss _ _ _ _ _ _ _ _ _ W1 E1) as (x & -> & ? & _). destruct (nw_loss _ _ _ _ _ _ _ _ _ W21 E1) as (y & -> & ? & _).
      assert (x = y) by (apply some_eq; rewrite <- (find_loss_name x), <- (find_loss_name y); congruence). congruence.
    + destruct (fr_loss _ _ _ _ F21 E1) as (-> & _). destruct (fr_loss _ _ _ _ F1 E1) as (_ & _ & Nx).
      destruct (nw_loss _ _ _ _ _ _ _ _ _ W2 E2) as (x & -> & ? & _). destruct (nw_loss _ _ _ _ _ _ _ _ _ W12 E2) as (y & -> & ? & _).
      assert (x = y) by (apply some_eq; rewrite <- (find_loss_name x), <- (find_loss_name y); congruence). congruence.
    + destruct (fr_loss _ _ _ _ F12 E2) as (-> & _), (fr_loss _ _ _ _ F1 E1) as (-> & _), (fr_loss _ _ _ _ F21 E1) as (-> & _), (fr_loss _ _ _ _ F2 E2) as (-> & _). reflexivity.
  - destruct (string_dec n1 "loss") as [E1|E1]; [assert (E2 : n2 <> "loss") by congruence|destruct (string_dec n2 "loss") as [E2|E2]].
    + destruct (fr_loss _ _ _ _ F12 E2) as (_ & -> & _). destruct (fr_loss _ _ _ _ F2 E2) as (_ & Hh & Nx).
      destruct (nw_loss _ _ _ _ _ _ _ _ _ W1 E1) as (x & _ & _ & _ & _ & ->). destruct (nw_loss _ _ _ _ _ _ _ _ _ W21 E1) as (y & _ & _ & _ & _ & ->).
      now rewrite Hh, Nx.
    + destruct (fr_loss _ _ _ _ F21 E1) as (_ & -> & _). destruct (fr_loss _ _ _ _ F1 E1) as (_ & Hh & Nx).
      destruct (nw_loss _ _ _ _ _ _ _ _ _ W2 E2) as (x & _ & _ & _ & _ & ->). destruct (nw_loss _ _ _ _ _ _ _ _ _ W12 E2) as (y & _ & _ & _ & _ & ->).
      now rewrite Hh, Nx.
    + destruct (fr_loss _ _ _ _ F12 E2) as (_ & -> & _), (fr_loss _ _ _ _ F1 E1) as (_ & -> & _), (fr_loss _ _ _ _ F21 E1) as (_ & -> & _), (fr_loss _ _ _ _ F2 E2) as (_ & -> & _). reflexivity.
  - destruct (string_dec n1 "loss") as [E1|E1]; [assert (E2 : n2 <> "loss") by congruence|destruct (string_dec n2 "loss") as [E2|E2]].
    + destruct (fr_loss _ _ _ _ F12 E2) as (_ & _ & ->). destruct (fr_loss _ _ _ _ F2 E2) as (_ & Hh & Nx).
      destruct (nw_loss _ _ _ _ _ _ _ _ _ W1 E1) as (x & _ & _ & _ & -> & _). destruct (nw_loss _ _ _ _ _ _ _ _ _ W21 E1) as (y & _ & _ & _ & -> & _).
      now rewrite Nx.
    + destruct (fr_loss _ _ _ _ F21 E1) as (_ & _ & ->). destruct (fr_loss _ _ _ _ F1 E1) as (_ & Hh & Nx).
      destruct (nw_loss _ _ _ _ _ _ _ _ _ W2 E2) as (x & _ & _ & _ & -> & _). destruct (nw_loss _ _ _ _ _ _ _ _ _ W12 E2) as (y & _ & _ & _ & -> & _).
      now rewrite Nx.
    + destruct (fr_loss _ _ _ _ F12 E2) as (_ & _ & ->), (fr_loss _ _ _ _ F1 E1) as (_ & _ & ->), (fr_loss _ _ _ _ F21 E1) as (_ & _ & ->), (fr_loss _ _ _ _ F2 E2) as (_ & _ & ->). reflexivity.
  - assert (Sn : forall s, names s ["exp_show"; "step_show"] = false -> s <> "exp_show" /\ s <> "step_show").
    { intros s H. split; intros ->; discriminate. }
    destruct (names n1 ["exp_show"; "step_show"]) eqn:H1.
    { pose proof (clash_show _ _ _ CL H1) as H2. destruct (Sn _ H2) as (A1 & A2). rewrite (fr_show _ _ _ _ F12 A1 A2).
      apply names_In in H1. destruct H1 as [E|[E|[]]]; symmetry in E.
      - destruct (nw_exp _ _ _ _ _ _ _ _ _ W1 E) as (x & G1 & ->), (nw_exp _ _ _ _ _ _ _ _ _ W21 E) as (y & G2 & ->). congruence.
      - destruct (nw_step _ _ _ _ _ _ _ _ _ W1 E) as (x & G1 & ->), (nw_step _ _ _ _ _ _ _ _ _ W21 E) as (y & G2 & ->). congruence. }
    destruct (Sn _ H1) as (B1 & B2). rewrite (fr_show _ _ _ _ F21 B1 B2).
    destruct (names n2 ["exp_show"; "step_show"]) eqn:H2.
    { apply names_In in H2. destruct H2 as [E|[E|[]]]; symmetry in E.
      - destruct (nw_exp _ _ _ _ _ _ _ _ _ W2 E) as (x & G1 & ->), (nw_exp _ _ _ _ _ _ _ _ _ W12 E) as (y & G2 & ->). congruence.
      - destruct (nw_step _ _ _ _ _ _ _ _ _ W2 E) as (x & G1 & ->), (nw_step _ _ _ _ _ _ _ _ _ W12 E) as (y & G2 & ->). congruence. }
    destruct (Sn _ H2) as (A1 & A2).
    now rewrite (fr_show _ _ _ _ F12 A1 A2), (fr_show _ _ _ _ F1 B1 B2), (fr_show _ _ _ _ F2 A1 A2).
  - destruct (string_dec n1 "dim") as [E1|E1]; [assert (E2 : n2 <> "dim") by congruence|destruct (string_dec n2 "dim") as [E2|E2]].
    + destruct (fr_dim _ _ _ _ F12 E2) as (D1 & ->). destruct (fr_dim _ _ _ _ F2 E2) as (D2 & D3).
      destruct (nw_dim _ _ _ _ _ _ _ _ _ W1 E1) as (_ & -> & _), (nw_dim _ _ _ _ _ _ _ _ _ W21 E1) as (_ & -> & _).
      now rewrite D2, D3, <- Dim, D1.
    + destruct (fr_dim _ _ _ _ F21 E1) as (D1 & ->). destruct (fr_dim _ _ _ _ F1 E1) as (D2 & D3).
      destruct (nw_dim _ _ _ _ _ _ _ _ _ W2 E2) as (_ & -> & _), (nw_dim _ _ _ _ _ _ _ _ _ W12 E2) as (_ & -> & _).
      now rewrite D2, D3, Dim, D1.
    + destruct (fr_dim _ _ _ _ F12 E2) as (_ & ->), (fr_dim _ _ _ _ F1 E1) as (_ & ->), (fr_dim _ _ _ _ F21 E1) as (_ & ->), (fr_dim _ _ _ _ F2 E2) as (_ & ->). reflexivity.
  - apply (two_conf Dim).
  - destruct (sets_r k n1 Mt0) eqn:S1, (sets_r k n2 Mt0) eqn:S2.
    + rewrite (sets_r_clash _ _ _ _ S1 S2) in CL. discriminate.
    + rewrite (fr_last _ _ _ _ F12 S2). destruct (nw_last _ _ _ _ _ _ _ _ _ W1 S1) as (x & G1 & ->), (nw_last _ _ _ _ _ _ _ _ _ W21 S1) as (y & G2 & ->).
      rewrite (fr_last _ _ _ _ F2 S2). assert (y = x) by congruence. subst y. reflexivity.
    + rewrite (fr_last _ _ _ _ F21 S1). destruct (nw_last _ _ _ _ _ _ _ _ _ W2 S2) as (x & G1 & ->), (nw_last _ _ _ _ _ _ _ _ _ W12 S2) as (y & G2 & ->).
      rewrite (fr_last _ _ _ _ F1 S1). assert (y = x) by congruence. subst y. reflexivity.
    + now rewrite (fr_last _ _ _ _ F12 S2), (fr_last _ _ _ _ F1 S1), (fr_last _ _ _ _ F21 S1), (fr_last _ _ _ _ F2 S2).
  - now rewrite (fr_cap _ _ _ _ F12), (fr_cap _ _ _ _ F1), (fr_cap _ _ _ _ F21), (fr_cap _ _ _ _ F2).
Qed.
End Two.
End P.
