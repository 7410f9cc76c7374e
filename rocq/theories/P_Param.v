(** Proofs about SetParameter. *)
From Coq Require Import String.
From Verif Require Import M_Base M_Text M_Str M_Num M_Expr M_Loss M_Online M_Filter M_Save M_Param S_Param P_Str.
Local Open Scope string_scope.
Local Open Scope list_scope.
Local Open Scope Z_scope.

(** The member a name belongs to. *)
Inductive slot : Set := SlR (m : rmem) | SlZ (m : zmem) | SlT | SlO | SlNone.
Definition all_r : list rmem :=
  [MBias; MActive; MCost; MEta; MEta0; MPower; MC; Ma; Mphi; Mr; Mdelta; Msigma; Mrou; Malpha; Mlambda; Mthresh; Mt0; MFlam].
Definition slot_of (k : cls) (name : string) : slot :=
  match find (fun m => names name (real_names k m)) all_r with
  | Some m => SlR m
  | None =>
    match find (fun m => names name (int_names k m)) [Mk; Mp; MB] with
    | Some m => SlZ m
    | None => if names name ["t"] then SlT else if names name other_names then SlO else SlNone
    end
  end.
Definition all_names : list string :=
  ["bias_eta"; "active_smoothness"; "cost_margin"; "eta"; "power_t"; "C"; "a"; "phi"; "r"; "delta"; "sigma"; "rou"; "alpha";
   "B"; "lambda"; "sparse_thresh"; "t0"; "k"; "p"; "t"] ++ other_names.

Lemma names_In name l : names name l = true <-> In name l.
Proof.
  unfold names. rewrite existsb_exists. split.
  - intros (s & Hin & E). apply String.eqb_eq in E. now subst.
  - intros H. exists name. split; [assumption|apply String.eqb_refl].
Qed.

Lemma slot_real k name m : names name (real_names k m) = true -> slot_of k name = SlR m.
Proof.
  rewrite names_In. destruct k, m; cbn; intros H;
    repeat match goal with H : _ \/ _ |- _ => destruct H | H : False |- _ => destruct H end; subst; reflexivity.
Qed.
Lemma slot_real_inv k name m : slot_of k name = SlR m -> names name (real_names k m) = true.
Proof.
  unfold slot_of. destruct (find _ all_r) as [m'|] eqn:E.
  - intros H. injection H as <-. apply find_some in E. tauto.
  - destruct (find _ [Mk; Mp; MB]); [discriminate|]. destruct (names name ["t"]); [discriminate|]. destruct (names name other_names); discriminate.
Qed.
Lemma slot_int k name m : names name (int_names k m) = true ->
  slot_of k name = match m with MInit | MIter => SlT | _ => SlZ m end.
Proof.
  rewrite names_In. destruct k, m; cbn; intros H;
    repeat match goal with H : _ \/ _ |- _ => destruct H | H : False |- _ => destruct H end; subst; reflexivity.
Qed.
Lemma slot_int_inv k name m : slot_of k name = SlZ m -> names name (int_names k m) = true.
Proof.
  unfold slot_of. destruct (find _ all_r) as [m'|] eqn:E; [discriminate|].
  destruct (find _ [Mk; Mp; MB]) as [m'|] eqn:E2.
  - intros H. injection H as <-. apply find_some in E2. tauto.
  - destruct (names name ["t"]); [discriminate|]. destruct (names name other_names); discriminate.
Qed.
Lemma slot_t k name : slot_of k name = SlT <-> name = "t".
Proof.
  split.
  - unfold slot_of. destruct (find _ all_r) as [m'|] eqn:E; [discriminate|].
    destruct (find _ [Mk; Mp; MB]) as [m'|] eqn:E2; [discriminate|].
    destruct (names name ["t"]) eqn:Et; [|destruct (names name other_names); discriminate].
    rewrite names_In in Et. cbn in Et. intros _. destruct Et as [->|[]]. reflexivity.
  - intros ->. destruct k; reflexivity.
Qed.
Lemma slot_o k name : slot_of k name = SlO <-> In name other_names.
Proof.
  split.
  - unfold slot_of. destruct (find _ all_r) as [m'|] eqn:E; [discriminate|].
    destruct (find _ [Mk; Mp; MB]) as [m'|] eqn:E2; [discriminate|].
    destruct (names name ["t"]) eqn:Et; [discriminate|].
    destruct (names name other_names) eqn:Eo; [|discriminate]. now rewrite names_In in Eo.
  - unfold other_names. cbn. intros H.
    repeat match goal with H : _ \/ _ |- _ => destruct H | H : False |- _ => destruct H end; subst; destruct k; reflexivity.
Qed.

Section P.
Context {R : Type}.
Variable N : num R.
Variable stof : list Z -> parsed R.
Variable files : list Z -> option (list Z).
Notation cfg := (cfg (R:=R)).
Notation outcome := (outcome (R:=R)).
Notation setp := (set_parameter N stof files).

Definition okb (m : rmem) (x : R) : bool :=
  match m with
  | MBias | MEta | MEta0 | MPower | Mrou | MFlam => ge0 N x
  | MActive | MCost | Mdelta | Msigma => gt0 N x
  | Malpha => gt0 N x && n_le N x (one N)
  | _ => true
  end.
Definition zokb (m : zmem) (v : Z) : bool :=
  match m with Mk => 0 <? v | MB => 0 <? u32 v | _ => true end.
Definition stored_r (m : rmem) (x : R) (c : cfg) : cfg :=
  match m with
  | Malpha => upd_r (upd_r c Malpha x) MBinv (n_div N (one N) x)
  | Mt0 => upd_last (upd_r c Mt0 x) (map (fun _ => x) (f_last c))
  | _ => upd_r c m x
  end.
Definition costed (m : rmem) (c : cfg) : cfg := match m with MCost => upd_cost c true | _ => c end.
Definition stored_z (m : zmem) (v : Z) (c : cfg) : cfg :=
  match m with
  | Mp => upd_r (upd_z c Mp v) Msp1 (n_sqrt N (n_int N (v - 1)))
  | MB => upd_z c MB (u32 v)
  | _ => upd_z c m v
  end.
(** What a call does, by member. *)
Definition exec_r (k : cls) (classes : Z) (name : string) (m : rmem) (value : list Z) (c : cfg) : outcome :=
  if (match m with MCost => negb (clf_of classes =? 1) | _ => false end) then Invalid c else
  with_real stof value c (fun x =>
    let c1 := stored_r m x c in
    if okb m x then
      let c2 := if fills k name then fill_conf c1 x else c1 in
      let c3 := costed m c2 in
      Done (if restarts k name then upd_reinit c3 true else c3)
    else Invalid (match m with MPower => c | _ => c1 end)).
Definition exec_z (k : cls) (name : string) (m : zmem) (value : list Z) (c : cfg) : outcome :=
  with_int value c (fun v =>
    let c1 := stored_z m v c in
    if zokb m v then Done (if restarts k name then upd_reinit c1 true else c1) else Invalid c1).
Definition exec_loss (k : cls) (classes : Z) (value : list Z) (c : cfg) : outcome :=
  match find_loss value with
  | None => Invalid (upd_loss c None (f_next c))
  | Some l =>
    let c1 := upd_loss c (Some (f_next c, l)) (S (f_next c)) in
    if (if clf_of classes =? 1 then loss_is_binary l else loss_is_multi l) then
      let c2 := upd_reinit c1 true in
      if (match k with TALMA2 | TAROW | TSOFS | TCW | TECCW => is_hinge l | TPerceptron | TSOP => is_bool l | _ => true end)
      then Done (if keeps k then upd_hinge c2 (Some (f_next c)) else c2) else Invalid c2
    else Invalid c1
  end.
Definition exec_norm (k : cls) (value : list Z) (c : cfg) : outcome :=
  match read_norm value with
  | Parsed n => if (if is_alma k then match n with NormL2 => true | _ => false end else true)
                then Done (upd_norm c n) else Invalid (upd_norm c n)
  | Rejected => Invalid c
  | Thrown => Range c
  end.
Definition exec (k : cls) (classes : Z) (name : string) (value : list Z) (c : cfg) : outcome :=
  match slot_of k name with
  | SlR m => exec_r k classes name m value c
  | SlZ m => exec_z k name m value c
  | SlT => set_online N stof files k classes "t" value c
  | SlO =>
    if String.eqb name "loss" then exec_loss k classes value c
    else if String.eqb name "norm" then exec_norm k value c
    else set_online N stof files k classes name value c
  | SlNone => Invalid c
  end.

Lemma exec_unknown k classes name value c :
  names name all_names = false -> setp k classes name value c = Invalid c /\ slot_of k name = SlNone.
Proof.
  intros H0.
  assert (Hs : forall s, names s all_names = true -> String.eqb name s = false).
  { intros s Hs. destruct (String.eqb_spec name s); [|reflexivity]. subst. congruence. }
  assert (Gn : forall l, forallb (fun s => names s all_names) l = true -> names name l = false).
  { intros l Hl. destruct (names name l) eqn:E; [|reflexivity]. exfalso.
    apply names_In in E. rewrite forallb_forall in Hl. specialize (Hs name (Hl _ E)). now rewrite String.eqb_refl in Hs. }
  split.
  - assert (Hon : forall kk, set_online N stof files kk classes name value c = Invalid c).
    { intros kk. unfold set_online, set_model, set_reg, set_lazy, set_l1, set_plain.
      rewrite !Hs by reflexivity. destruct (reg_of kk); reflexivity. }
    unfold setp, set_perceptron, set_pa1, set_ogd, set_stg, set_rda, set_erda, set_alma2, set_sop, set_arow, set_cw, set_ada,
      set_fofs, rename_B.
    destruct k; rewrite ?(Hs "B") by reflexivity; rewrite ?Hon; unfold set_ogd; rewrite ?Hs by reflexivity; rewrite ?Hon; try reflexivity;
      unfold set_rda; rewrite ?Hs by reflexivity; rewrite ?Hon; reflexivity.
  - unfold slot_of.
    assert (Fr : find (fun m => names name (real_names k m)) all_r = None).
    { destruct (find _ all_r) as [m|] eqn:E; [|reflexivity]. exfalso. apply find_some in E. destruct E as (_ & E).
      rewrite Gn in E; [discriminate|]. destruct k, m; reflexivity. }
    assert (Fz : find (fun m => names name (int_names k m)) [Mk; Mp; MB] = None).
    { destruct (find _ [Mk; Mp; MB]) as [m|] eqn:E; [|reflexivity]. exfalso. apply find_some in E. destruct E as (_ & E).
      rewrite Gn in E; [discriminate|]. destruct k, m; reflexivity. }
    rewrite Fr, Fz, !Gn; reflexivity.
Qed.

Lemma loss_exec k classes value c : setp k classes "loss" value c = exec_loss k classes value c.
Proof.
  destruct k; unfold exec_loss; cbn -[find_loss];
    (destruct (find_loss value) as [l|]; [destruct (clf_of classes =? 1), l; reflexivity|reflexivity]).
Qed.
Lemma norm_exec k classes value c : setp k classes "norm" value c = exec_norm k value c.
Proof.
  destruct k; unfold exec_norm; cbn -[read_norm]; destruct (read_norm value) as [[| |]| |]; reflexivity.
Qed.

(** The chain of overrides, by member. *)
Lemma set_exec k classes name value c : setp k classes name value c = exec k classes name value c.
Proof.
  destruct (names name all_names) eqn:Hin.
  2:{ destruct (exec_unknown k classes name value c Hin) as (E1 & E2). rewrite E1. unfold exec. now rewrite E2. }
  destruct (String.eqb_spec name "loss") as [->|Hl].
  { rewrite loss_exec. destruct k; reflexivity. }
  destruct (String.eqb_spec name "norm") as [->|Hm].
  { rewrite norm_exec. destruct k; reflexivity. }
  apply names_In in Hin. cbn [all_names other_names app In] in Hin.
  repeat (destruct Hin as [<-|Hin]; [try congruence; destruct k; try reflexivity|]); try contradiction.
  all: unfold exec, exec_r, exec_z; cbn; unfold set_online; cbn;
    unfold then_reinit, store_real, store_int, with_real, with_int, check; cbn;
    try (destruct (stof value); try reflexivity); try (destruct (stoi value); try reflexivity); cbn;
    repeat match goal with |- context [if ?b then _ else _] => destruct b end; reflexivity.
Qed.

(** Only the members of the parameter change, whether it is accepted or not. *)
Lemma rbeq a b : rmem_beq a b = true <-> a = b.
Proof. split; [apply internal_rmem_dec_bl|apply internal_rmem_dec_lb]. Qed.
Lemma zbeq a b : zmem_beq a b = true <-> a = b.
Proof. split; [apply internal_zmem_dec_bl|apply internal_zmem_dec_lb]. Qed.
Lemma rbeq_ne a b : a <> b -> rmem_beq a b = false.
Proof. intros H. destruct (rmem_beq a b) eqn:E; [apply rbeq in E; contradiction|reflexivity]. Qed.
Lemma zbeq_ne a b : a <> b -> zmem_beq a b = false.
Proof. intros H. destruct (zmem_beq a b) eqn:E; [apply zbeq in E; contradiction|reflexivity]. Qed.

Lemma frame_refl k name (c : cfg) : frame k name c c.
Proof. constructor; auto. Qed.

Lemma sets_slot k name m : slot_of k name = SlR m -> sets_r k name m = true.
Proof. intros H. apply slot_real_inv in H. unfold sets_r. now rewrite H. Qed.
Lemma alpha_slot k name : slot_of k name = SlR Malpha -> sets_r k name MBinv = true.
Proof.
  intros H. apply slot_real_inv in H. apply names_In in H. cbn in H. unfold when in H.
  destruct k; cbn in H; try contradiction; destruct H as [<-|[]]; reflexivity.
Qed.
Lemma p_slot k name : slot_of k name = SlZ Mp -> sets_r k name Msp1 = true.
Proof.
  intros H. apply slot_int_inv in H. apply names_In in H. cbn in H. unfold when in H.
  destruct k; cbn in H; try contradiction; destruct H as [<-|[]]; reflexivity.
Qed.
Lemma cost_slot k name : slot_of k name = SlR MCost -> name = "cost_margin".
Proof. intros H. apply slot_real_inv in H. apply names_In in H. destruct H as [<-|[]]. reflexivity. Qed.
Lemma has_reg_of k r : has_reg k r = match reg_of k, r with RegNone, RegNone | RegPlain, RegPlain | RegL1, RegL1 | RegLazy, RegLazy => true | _, _ => false end.
Proof. destruct k, r; reflexivity. Qed.
Lemma t_sets k : sets_z k "t" MInit = true /\ sets_z k "t" MIter = true /\ sets_r k "t" Mt0 = has_reg k RegLazy.
Proof. destruct k; auto. Qed.

Ltac fcbn := cbn [f_r f_z f_dim f_lazy f_cost f_reinit f_norm f_filter f_loss f_hinge f_next f_show f_ws f_conf f_last f_cap
  upd_r upd_z upd_lazy upd_cost upd_reinit upd_norm upd_filter upd_loss upd_hinge upd_show upd_conf upd_last upd_cap upd_dims fill_conf].
Ltac fr := constructor; fcbn; intros; try reflexivity; try tauto; try congruence.

Lemma exec_r_frame k classes name m value c : slot_of k name = SlR m ->
  match exec_r k classes name m value c with Done c' | Invalid c' | Range c' => frame k name c c' | Crash => False end.
Proof.
  intros Hs. pose proof (sets_slot _ _ _ Hs) as Hm.
  assert (Hb : m = Malpha -> sets_r k name MBinv = true) by (intros ->; now apply alpha_slot).
  assert (Hc : m = MCost -> name = "cost_margin") by (intros ->; eauto using cost_slot).
  assert (Hne : forall q, sets_r k name q = false -> rmem_beq q m = false).
  { intros q Hq. apply rbeq_ne. intros ->. congruence. }
  unfold exec_r. destruct (match m with MCost => _ | _ => false end); [apply frame_refl|].
  unfold with_real. destruct (stof value) as [x| |]; [|apply frame_refl|apply frame_refl].
  set (c1 := stored_r m x c).
  assert (F1 : frame k name c c1).
  { subst c1. destruct m; unfold stored_r, stored_z; fr; try (rewrite Hne by assumption; reflexivity).
    rewrite (Hne m H). destruct (rmem_beq m MBinv) eqn:E; [|reflexivity].
    apply rbeq in E. subst. rewrite (Hb eq_refl) in H. discriminate. }
  destruct (okb m x).
  - set (c2 := if fills k name then _ else _).
    assert (F2 : frame k name c c2).
    { subst c2. clearbody c1. destruct (fills k name) eqn:Ef; [|exact F1]. destruct F1. constructor; fcbn; auto; try congruence. }
    set (c3 := costed m c2).
    assert (F3 : frame k name c c3).
    { subst c3. clearbody c2. unfold costed. destruct m; try exact F2. destruct F2. specialize (Hc eq_refl). constructor; fcbn; auto; try congruence. }
    clearbody c3. destruct (restarts k name) eqn:Er; [|exact F3]. destruct F3. constructor; fcbn; auto; congruence.
  - destruct m; assumption || apply frame_refl.
Qed.
Lemma exec_z_frame k name m value c : slot_of k name = SlZ m ->
  match exec_z k name m value c with Done c' | Invalid c' | Range c' => frame k name c c' | Crash => False end.
Proof.
  intros Hs. pose proof (slot_int_inv _ _ _ Hs) as Hm.
  assert (Hb : m = Mp -> sets_r k name Msp1 = true) by (intros ->; now apply p_slot).
  assert (Hne : forall q, sets_z k name q = false -> zmem_beq q m = false).
  { intros q Hq. apply zbeq_ne. intros ->. unfold sets_z in Hq. congruence. }
  unfold exec_z, with_int. destruct (stoi value) as [v| |]; [|apply frame_refl|apply frame_refl].
  set (c1 := stored_z m (fst v) c).
  assert (F1 : frame k name c c1).
  { subst c1. destruct m; unfold stored_r, stored_z; fr; try (rewrite Hne by assumption; reflexivity).
    rewrite rbeq_ne; [reflexivity|]. intros ->. rewrite (Hb eq_refl) in H. discriminate. }
  destruct (zokb m (fst v)); [|assumption].
  clearbody c1. destruct (restarts k name) eqn:Er; [|exact F1]. destruct F1. constructor; fcbn; auto; congruence.
Qed.
Lemma exec_t_frame k classes value c :
  match set_online N stof files k classes "t" value c with
  | Done c' | Invalid c' | Range c' => frame k "t" c c' | Crash => False end.
Proof.
  unfold set_online. cbn. unfold with_int. destruct (stoi value) as [v| |]; [|apply frame_refl|apply frame_refl].
  destruct (t_sets k) as (T1 & T2 & T3).
  destruct (negb (0 <=? fst v)); [apply frame_refl|].
  set (c1 := upd_z _ MIter _).
  assert (F1 : frame k "t" c c1).
  { subst c1. fr. rewrite !zbeq_ne; [reflexivity|intros ->; congruence|intros ->; congruence]. }
  unfold set_reg, set_lazy, set_l1, set_plain. cbn. rewrite has_reg_of in T3.
  destruct (reg_of k) eqn:Er; try exact F1.
  unfold with_real. destruct (stof value) as [x| |]; [|exact F1|exact F1].
  destruct F1. constructor; fcbn; auto; intros; try congruence.
  rewrite rbeq_ne; [auto|intros ->; congruence].
Qed.
Lemma other_sets k name : In name other_names ->
  (forall m, sets_r k name m = false) /\ (forall m, sets_z k name m = false) /\ fills k name = false /\
  (restarts k name = true <-> name = "loss").
Proof.
  cbn. intros H.
  repeat match goal with H : _ \/ _ |- _ => destruct H | H : False |- _ => destruct H end; subst;
    (split; [intros m; destruct k, m; reflexivity|split; [intros m; destruct k, m; reflexivity|split; [destruct k; reflexivity|]]]);
    (split; intros H; [destruct k; (discriminate || reflexivity)|discriminate || (destruct k; reflexivity)]).
Qed.
Lemma grow_frame k d c : frame k "dim" c (grow_dim N k d c).
Proof. unfold grow_dim. destruct (f_dim c <? d); [|apply frame_refl]. fr. Qed.
Lemma exec_frame k classes name value c :
  match setp k classes name value c with
  | Done c' | Invalid c' | Range c' => frame k name c c'
  | Crash => name = "filter" /\ load_presel (files value) = SelUB
  end.
Proof.
  rewrite set_exec. unfold exec. destruct (slot_of k name) as [m|m| | |] eqn:Hs.
  - pose proof (exec_r_frame k classes name m value c Hs) as H. destruct (exec_r _ _ _ _ _ _); tauto.
  - pose proof (exec_z_frame k name m value c Hs) as H. destruct (exec_z _ _ _ _ _); tauto.
  - apply slot_t in Hs. subst. pose proof (exec_t_frame k classes value c) as H. destruct (set_online _ _ _ _ _ _ _ _); tauto.
  - apply slot_o in Hs. destruct (other_sets k name Hs) as (S1 & S2 & S3 & S4).
    assert (Hl : name = "loss" -> restarts k name = true) by tauto.
    cbn in Hs.
    repeat match goal with H : _ \/ _ |- _ => destruct H | H : False |- _ => destruct H end; subst; cbn.
    + unfold set_online, with_int; cbn. destruct (stoi value); [apply grow_frame|apply frame_refl|apply frame_refl].
    + unfold set_online; cbn. fr.
    + unfold set_online, with_int; cbn. destruct (stoi value); fr.
    + unfold set_online, with_int; cbn. destruct (stoi value); fr.
    + unfold set_online, set_model, check; cbn -[bytes]. destruct (str_eqb _ _); apply frame_refl.
    + unfold set_online, set_model, with_int, check; cbn. destruct (stoi value) as [v| |]; [destruct (fst v =? classes)| |]; apply frame_refl.
    + unfold set_online, set_model, with_int, check; cbn. destruct (stoi value) as [v| |]; [destruct (fst v =? clf_of classes)| |]; apply frame_refl.
    + unfold exec_loss. specialize (Hl eq_refl). destruct (find_loss value) as [l|]; [|fr].
      destruct (if clf_of classes =? 1 then loss_is_binary l else loss_is_multi l); [|fr].
      destruct (match k with TALMA2 => _ | _ => _ end); [destruct (keeps k)|]; fr.
    + unfold exec_norm. destruct (read_norm value) as [n| |]; [|apply frame_refl|apply frame_refl].
      destruct (if is_alma k then _ else true); fr.
    + unfold set_online, set_model; cbn -[load_presel]. destruct (load_presel (files value)) as [fl|io|[|]|]; fr.
  - apply frame_refl.
Qed.

(* ------------------------------------------------------------------ validity and effect *)
Notation vld := (valid N stof files).
Notation nws := (news N stof files).

Lemma find_loss_some value l : find_loss value = Some l -> value = loss_name l.
Proof. unfold find_loss. intros H. apply find_some in H. destruct H as (_ & H). apply str_eqb_eq in H. now symmetry. Qed.
Lemma find_loss_name l : find_loss (loss_name l) = Some l.
Proof. destruct l; vm_compute; reflexivity. Qed.
Lemma stoi_none : stoi (bytes "None") = Rejected. Proof. vm_compute. reflexivity. Qed.
Lemma stoi_l1 : stoi (bytes "L1") = Rejected. Proof. vm_compute. reflexivity. Qed.
Lemma stoi_l2 : stoi (bytes "L2") = Rejected. Proof. vm_compute. reflexivity. Qed.
Lemma read_norm_word value n : read_norm value = Parsed n <-> norm_word value n.
Proof.
  unfold norm_word. split.
  - unfold read_norm. destruct (stoi value) as [[v sz]| |] eqn:E; [| |discriminate].
    + destruct (str_eqb value (bytes "None")) eqn:E0.
      { apply str_eqb_eq in E0. subst. rewrite stoi_none in E. discriminate. }
      destruct (str_eqb value (bytes "L1")) eqn:E1.
      { apply str_eqb_eq in E1. subst. rewrite stoi_l1 in E. discriminate. }
      destruct (str_eqb value (bytes "L2")) eqn:E2.
      { apply str_eqb_eq in E2. subst. rewrite stoi_l2 in E. discriminate. }
      cbn [orb]. destruct (nth sz value 0 =? 0) eqn:Ez; [|discriminate]. apply Z.eqb_eq in Ez.
      destruct (Z.eqb_spec v 0); [subst; intros H; injection H as <-; right; eauto|].
      destruct (Z.eqb_spec v 1); [subst; intros H; injection H as <-; right; eauto|].
      destruct (Z.eqb_spec v 2); [subst; intros H; injection H as <-; right; eauto|discriminate].
    + destruct (str_eqb value (bytes "None")) eqn:E0.
      { apply str_eqb_eq in E0. intros H. injection H as <-. auto. }
      cbn [orb Z.eqb]. destruct (str_eqb value (bytes "L1")) eqn:E1.
      { apply str_eqb_eq in E1. intros H. injection H as <-. auto. }
      cbn [orb Z.eqb]. destruct (str_eqb value (bytes "L2")) eqn:E2; [|discriminate].
      apply str_eqb_eq in E2. intros H. injection H as <-. auto.
  - intros [->|(sz & E & Ez)]; [destruct n; vm_compute; reflexivity|].
    unfold read_norm. rewrite E, Ez. cbn [Z.eqb].
    destruct (str_eqb value (bytes "None")) eqn:E0.
    { apply str_eqb_eq in E0. subst. rewrite stoi_none in E. discriminate. }
    destruct (str_eqb value (bytes "L1")) eqn:E1.
    { apply str_eqb_eq in E1. subst. rewrite stoi_l1 in E. discriminate. }
    destruct (str_eqb value (bytes "L2")) eqn:E2.
    { apply str_eqb_eq in E2. subst. rewrite stoi_l2 in E. discriminate. }
    destruct n; reflexivity.
Qed.

Lemma clf_one classes : 1 < classes -> (clf_of classes =? 1) = (classes =? 2).
Proof. intros H. unfold clf_of. destruct (Z.eqb_spec classes 2); [reflexivity|]. apply Z.eqb_neq. lia. Qed.

(** Validity by member. *)
Definition valid_at (k : cls) (classes : Z) (name : string) (value : list Z) : Prop :=
  match slot_of k name with
  | SlR m => exists x, to_real stof value = Some x /\ real_ok N m x /\ (m = MCost -> classes = 2)
  | SlZ m => exists v, to_int value = Some v /\ int_ok m v
  | SlT => exists v, to_int value = Some v /\ 0 <= v /\ (has_reg k RegLazy = true -> to_real stof value <> None)
  | SlO =>
    (name = "dim" /\ to_int value <> None) \/ name = "lazy_update" \/ (name = "exp_show" /\ to_int value <> None) \/
    (name = "step_show" /\ to_int value <> None) \/ (name = "model" /\ value = bytes (cls_name k)) \/
    (name = "cls_num" /\ to_int value = Some classes) \/ (name = "clf_num" /\ to_int value = Some (if classes =? 2 then 1 else classes)) \/
    (name = "loss" /\ exists l, value = loss_name l /\ suits k classes l = true) \/
    (name = "norm" /\ exists n, norm_word value n /\ (k = TALMA2 -> n = NormL2)) \/
    (name = "filter" /\ exists fl, load_presel (files value) = SelOk fl)
  | SlNone => False
  end.
Lemma slot_o' k name : In name other_names -> slot_of k name = SlO.
Proof. apply slot_o. Qed.
Lemma valid_slot k classes name value : vld k classes name value <-> valid_at k classes name value.
Proof.
  unfold valid_at. split.
  - intros H. destruct H.
    + rewrite (slot_real _ _ _ H). eauto.
    + rewrite (slot_int _ _ _ H). destruct m; try (exists v; split; [assumption|]; cbn in *; auto).
    + rewrite slot_o' by (cbn; tauto). left. split; [reflexivity|congruence].
    + rewrite slot_o' by (cbn; tauto). tauto.
    + rewrite slot_o' by (cbn; tauto). right; right; left. split; [reflexivity|congruence].
    + rewrite slot_o' by (cbn; tauto). right; right; right; left. split; [reflexivity|congruence].
    + rewrite slot_o' by (cbn; tauto). tauto.
    + rewrite slot_o' by (cbn; tauto). tauto.
    + rewrite slot_o' by (cbn; tauto). tauto.
    + rewrite slot_o' by (cbn; tauto). do 7 right. left. eauto.
    + rewrite slot_o' by (cbn; tauto). do 8 right. left. eauto.
    + rewrite slot_o' by (cbn; tauto). do 9 right. eauto.
  - destruct (slot_of k name) as [m|m| | |] eqn:Hs.
    + intros (x & H1 & H2 & H3). apply slot_real_inv in Hs. eapply V_real; eauto.
    + intros (v & H1 & H2). pose proof (slot_int_inv _ _ _ Hs) as Hn. eapply V_int; eauto.
      intros Hm. exfalso. apply slot_int in Hn. rewrite Hs in Hn. destruct Hm; subst; discriminate.
    + intros (v & H1 & H2 & H3). apply slot_t in Hs. subst. eapply (V_int _ _ _ _ _ MInit); eauto.
    + intros H.
      repeat match goal with H : _ \/ _ |- _ => destruct H | H : _ /\ _ |- _ => destruct H | H : exists _, _ |- _ => destruct H end; subst.
      * destruct (to_int value) eqn:E; [|congruence]. eapply V_dim; eauto.
      * apply V_lazy.
      * destruct (to_int value) eqn:E; [|congruence]. eapply V_exp; eauto.
      * destruct (to_int value) eqn:E; [|congruence]. eapply V_step; eauto.
      * apply V_model.
      * now apply V_cls.
      * now apply V_clf.
      * now apply V_loss.
      * eapply V_norm; eauto.
      * eapply V_filter; eauto.
    + contradiction.
Qed.

Lemma okb_real_ok m x : okb m x = true <-> real_ok N m x.
Proof. destruct m; cbn; unfold ge0, gt0; try tauto. apply andb_true_iff. Qed.
Lemma zokb_int_ok m v : m <> MInit -> m <> MIter -> (zokb m v = true <-> int_ok m v).
Proof.
  intros H1 H2. destruct m; cbn; try congruence; try tauto.
  - apply Z.ltb_lt.
  - pose proof (Z.mod_pos_bound v two32 eq_refl). unfold u32. rewrite Z.ltb_lt. lia.
Qed.
Lemma real_names_uniq k name m m' : names name (real_names k m) = true -> names name (real_names k m') = true -> m = m'.
Proof. intros H1 H2. apply slot_real in H1, H2. congruence. Qed.

Ltac nofill := match goal with H : names _ _ = true |- _ => apply names_In in H; cbn in H end.

(** What the parameter of a slot sets. *)
Lemma slotr_facts k name m : slot_of k name = SlR m ->
  (forall q, sets_r k name q = true -> q = m \/ (q = MBinv /\ m = Malpha)) /\ (forall q, sets_z k name q = false) /\
  ~ In name other_names /\ (m = MCost <-> name = "cost_margin") /\ (fills k name = true -> m = Ma \/ m = Mdelta).
Proof.
  intros Hs. pose proof (slot_real_inv _ _ _ Hs) as Hn.
  assert (Hz : forall q, sets_z k name q = false).
  { intros q. unfold sets_z. destruct (names name (int_names k q)) eqn:E; [|reflexivity].
    apply slot_int in E. rewrite Hs in E. destruct q; discriminate. }
  assert (Ht : name <> "t").
  { intros ->. specialize (Hz MInit). discriminate. }
  assert (Hp : is_alma k = true -> name <> "p").
  { intros Hk ->. specialize (Hz Mp). unfold sets_z, int_names, when in Hz. rewrite Hk in Hz. discriminate. }
  split; [|split; [exact Hz|split; [|split; [split|]]]].
  - intros q Hq. unfold sets_r in Hq. apply orb_prop in Hq. destruct Hq as [Hq|Hq]; [left; eapply real_names_uniq; eauto|].
    destruct q; try discriminate; apply andb_prop in Hq; destruct Hq as (Hk & He); apply String.eqb_eq in He; subst; try congruence.
    + right. split; [reflexivity|]. eapply real_names_uniq; [exact Hn|]. unfold real_names, when. rewrite Hk. reflexivity.
    + exfalso. now apply Hp.
  - intros Ho. apply (slot_o k) in Ho. congruence.
  - intros ->. now apply cost_slot in Hs.
  - intros ->. eapply real_names_uniq; [exact Hn|reflexivity].
  - unfold fills. intros Hf. apply orb_prop in Hf. destruct Hf as [Hf|Hf]; apply andb_prop in Hf; destruct Hf as (Hk & He);
      apply String.eqb_eq in He; subst; [left|right]; eapply real_names_uniq; try exact Hn; destruct k; try discriminate; reflexivity.
Qed.
Lemma slotz_facts k name m : slot_of k name = SlZ m ->
  (forall q, sets_z k name q = true -> q = m) /\ (forall q, sets_r k name q = true -> q = Msp1 /\ m = Mp) /\
  ~ In name other_names /\ name <> "cost_margin" /\ fills k name = false.
Proof.
  intros Hs. pose proof (slot_int_inv _ _ _ Hs) as Hn.
  assert (Hr : forall q, names name (real_names k q) = false).
  { intros q. destruct (names name (real_names k q)) eqn:E; [|reflexivity]. apply slot_real in E. congruence. }
  assert (Ht : name <> "t") by (intros ->; rewrite (proj2 (slot_t k "t") eq_refl) in Hs; discriminate).
  split; [|split; [|split; [|split]]].
  - intros q Hq. apply slot_int in Hq. rewrite Hs in Hq. destruct q; congruence.
  - intros q Hq. unfold sets_r in Hq. rewrite Hr in Hq. cbn [orb] in Hq.
    destruct q; try discriminate; apply andb_prop in Hq; destruct Hq as (Hk & He); apply String.eqb_eq in He; subst; try congruence.
    + specialize (Hr Malpha). unfold real_names, when in Hr. rewrite Hk in Hr. discriminate.
    + split; [reflexivity|]. apply slot_int in Hn. destruct k; try discriminate. cbn in Hs. congruence.
  - intros Ho. apply (slot_o k) in Ho. congruence.
  - intros ->. specialize (Hr MCost). discriminate.
  - destruct (fills k name) eqn:Hf; [|reflexivity]. exfalso. unfold fills in Hf. apply orb_prop in Hf.
    destruct Hf as [Hf|Hf]; apply andb_prop in Hf; destruct Hf as (Hk & He); apply String.eqb_eq in He; subst.
    + specialize (Hr Ma). destruct k; discriminate.
    + specialize (Hr Mdelta). destruct k; discriminate.
Qed.

Lemma done_r k classes name m value c : 1 < classes -> slot_of k name = SlR m ->
  match exec_r k classes name m value c with
  | Done c' => valid_at k classes name value /\ nws k classes name value c c'
  | Invalid _ | Range _ => ~ valid_at k classes name value
  | Crash => False
  end.
Proof.
  intros Hc Hs. unfold valid_at. rewrite Hs.
  pose proof (slotr_facts _ _ _ Hs) as (Fr & Fz & Fo & Fc & Ff). pose proof (sets_slot _ _ _ Hs) as Fm.
  unfold exec_r. destruct (match m with MCost => _ | _ => false end) eqn:Ec.
  { intros (x & _ & _ & H). destruct m; try discriminate. rewrite clf_one, (H eq_refl) in Ec by assumption. discriminate. }
  unfold with_real, to_real. destruct (stof value) as [x| |] eqn:Ex; [|intros (? & ? & _); discriminate|intros (? & ? & _); discriminate].
  destruct (okb m x) eqn:Eo.
  2:{ intros (y & Hy & Hok & _). injection Hy as <-. apply okb_real_ok in Hok. congruence. }
  cbv zeta. split.
  { exists x. split; [reflexivity|]. split; [now apply okb_real_ok|]. intros ->. rewrite clf_one in Ec by assumption.
    destruct (Z.eqb_spec classes 2); [assumption|discriminate]. }
  assert (Hr : forall (b : bool) (d : cfg), f_r (if b then upd_reinit d true else d) = f_r d) by (intros [] d; reflexivity).
  assert (Hr2 : forall d : cfg, f_r (costed m d) = f_r d) by (intros d; destruct m; reflexivity).
  assert (Hr3 : forall d : cfg, f_r (if fills k name then fill_conf d x else d) = f_r d) by (intros d; destruct (fills k name); reflexivity).
  assert (No : forall s, In s other_names -> name <> s) by (intros s Hi ->; contradiction).
  constructor; intros;
    try (exfalso; match goal with H : name = _ |- _ => revert H; apply No; cbn; tauto end).
  - destruct (Fr _ H) as [->|(-> & _)]; [|congruence]. rewrite Hr, Hr2, Hr3. unfold to_real. rewrite Ex. f_equal.
    unfold stored_r. destruct m; cbn; reflexivity.
  - destruct (Fr _ H) as [He|(_ & ->)]; [|rewrite Hr, Hr2, Hr3; reflexivity].
    exfalso. subst m. apply slot_real_inv in Hs. cbn in Hs. congruence.
  - destruct (Fr _ H) as [He|(HH & _)]; [|discriminate]. exfalso. subst m. apply slot_real_inv in Hs. cbn in Hs. congruence.
  - rewrite Fz in H. discriminate.
  - apply Fc in H. subst. destruct (restarts k name); reflexivity.
  - rewrite H. reflexivity.
  - rewrite H. exists x. unfold to_real. rewrite Ex. split; [reflexivity|].
    destruct (Ff H); subst m; destruct (restarts k name); reflexivity.
  - destruct (Fr _ H) as [He|(HH & _)]; [|discriminate]. subst m. exists x. unfold to_real. rewrite Ex. split; [reflexivity|].
    destruct (fills k name) eqn:Ef; [destruct (Ff eq_refl); discriminate|]. destruct (restarts k name); reflexivity.
Qed.
Lemma done_z k classes name m value c : slot_of k name = SlZ m ->
  match exec_z k name m value c with
  | Done c' => valid_at k classes name value /\ nws k classes name value c c'
  | Invalid _ | Range _ => ~ valid_at k classes name value
  | Crash => False
  end.
Proof.
  intros Hs. unfold valid_at. rewrite Hs.
  pose proof (slotz_facts _ _ _ Hs) as (Fz & Fr & Fo & Fc & Ff). pose proof (slot_int_inv _ _ _ Hs) as Fm.
  assert (Hm : m <> MInit /\ m <> MIter).
  { pose proof (slot_int _ _ _ Fm) as H. rewrite Hs in H. split; intros ->; discriminate. }
  unfold exec_z, with_int, to_int. destruct (stoi value) as [v| |] eqn:Ev; [|intros (? & ? & _); discriminate|intros (? & ? & _); discriminate].
  cbv zeta. destruct (zokb m (fst v)) eqn:Eo.
  2:{ intros (y & Hy & Hok). injection Hy as <-. apply zokb_int_ok in Hok; try tauto. congruence. }
  split.
  { exists (fst v). split; [reflexivity|]. apply zokb_int_ok; tauto. }
  assert (No : forall s, In s other_names -> name <> s) by (intros s Hi ->; contradiction).
  constructor; intros;
    try (exfalso; match goal with H : name = _ |- _ => revert H; apply No; cbn; tauto end); try congruence.
  - destruct (Fr _ H); congruence.
  - destruct (Fr _ H); discriminate.
  - destruct (Fr _ H) as (_ & ->). destruct (restarts k name); reflexivity.
  - rewrite (Fz _ H). unfold to_int. rewrite Ev. cbn [option_map]. f_equal.
    destruct m; try tauto; destruct (restarts k name); reflexivity.
  - rewrite H. reflexivity.
  - destruct (Fr _ H); discriminate.
Qed.
Lemma done_t k classes value c :
  match set_online N stof files k classes "t" value c with
  | Done c' => valid_at k classes "t" value /\ nws k classes "t" value c c'
  | Invalid _ | Range _ => ~ valid_at k classes "t" value
  | Crash => False
  end.
Proof.
  unfold valid_at. rewrite (proj2 (slot_t k "t") eq_refl).
  destruct (t_sets k) as (T1 & T2 & T3).
  assert (Rm : forall m, sets_r k "t" m = true -> m = Mt0) by (intros m H; destruct k, m; try discriminate; reflexivity).
  assert (Zm : forall m, sets_z k "t" m = true -> m = MInit \/ m = MIter) by (intros m H; destruct k, m; try discriminate; auto).
  assert (Rs : restarts k "t" = false) by (destruct k; reflexivity).
  assert (Fl : fills k "t" = false) by (destruct k; reflexivity).
  unfold set_online. cbn [String.eqb Ascii.eqb Bool.eqb]. unfold with_int, to_int.
  destruct (stoi value) as [v| |] eqn:Ev; [|intros (? & ? & _); discriminate|intros (? & ? & _); discriminate].
  destruct (0 <=? fst v) eqn:Eo; cbn [negb].
  2:{ intros (y & Hy & Hok & _). injection Hy as <-. lia. }
  cbv zeta. set (c1 := upd_z _ MIter _).
  assert (G : forall c' : cfg, f_z c' = f_z c1 -> (forall x, has_reg k RegLazy = true -> to_real stof value = Some x -> f_r c' Mt0 = x /\ f_last c' = map (fun _ => x) (f_last c)) ->
     (has_reg k RegLazy = true -> to_real stof value <> None) ->
     (exists v0, Some (fst v) = Some v0 /\ 0 <= v0 /\ (has_reg k RegLazy = true -> to_real stof value <> None)) /\ nws k classes "t" value c c').
  { intros c' Hz Hr Hp. split; [exists (fst v); split; [reflexivity|split; [lia|exact Hp]]|].
    constructor; intros; try discriminate; try congruence.
    - rewrite (Rm _ H). rewrite (Rm _ H) in H. rewrite T3 in H. destruct (to_real stof value) as [x|] eqn:Ex; [|now elim (Hp H)].
      destruct (Hr x H eq_refl) as (-> & _). reflexivity.
    - apply Rm in H. discriminate.
    - apply Rm in H. discriminate.
    - rewrite Hz. unfold to_int. rewrite Ev. cbn [option_map]. f_equal. subst c1. destruct (Zm _ H) as [->| ->]; reflexivity.
    - rewrite T3 in H. destruct (to_real stof value) as [x|] eqn:Ex; [|now elim (Hp H)].
      exists x. split; [reflexivity|]. now destruct (Hr x H eq_refl). }
  unfold set_reg, set_lazy, set_l1, set_plain. cbn [String.eqb Ascii.eqb Bool.eqb]. rewrite has_reg_of in G |- *.
  destruct (reg_of k) eqn:Er; try (apply G; [reflexivity|discriminate|discriminate]).
  unfold with_real. destruct (stof value) as [x| |] eqn:Ex.
  - apply G; [reflexivity| |].
    + intros y _ Hy. unfold to_real in Hy. rewrite Ex in Hy. injection Hy as <-. split; reflexivity.
    + intros _. unfold to_real. rewrite Ex. discriminate.
  - intros (v0 & _ & _ & H). apply (H eq_refl). unfold to_real. now rewrite Ex.
  - intros (v0 & _ & _ & H). apply (H eq_refl). unfold to_real. now rewrite Ex.
Qed.

Ltac vo := unfold valid_at; rewrite slot_o' by (cbn; tauto).
Ltac novo := vo; intros H;
  repeat match goal with H : _ \/ _ |- _ => destruct H | H : _ /\ _ |- _ => destruct H | H : exists _, _ |- _ => destruct H end;
  try discriminate; try congruence.
Ltac newo S1 S2 S3 S4 := constructor; intros; try discriminate; try congruence;
  try (match goal with H : sets_r _ _ _ = true |- _ => rewrite S1 in H; discriminate | H : sets_z _ _ _ = true |- _ => rewrite S2 in H; discriminate
       | H : restarts _ _ = true |- _ => apply S4 in H; discriminate end).

Lemma done_o k classes name value c : 1 < classes -> In name other_names ->
  match exec k classes name value c with
  | Done c' => valid_at k classes name value /\ nws k classes name value c c'
  | _ => ~ valid_at k classes name value
  end.
Proof.
  intros Hc Hs. unfold exec. rewrite (slot_o' k name Hs). destruct (other_sets k name Hs) as (S1 & S2 & S3 & S4).
  cbn in Hs.
  repeat match goal with H : _ \/ _ |- _ => destruct H | H : False |- _ => destruct H end; subst; cbn [String.eqb Ascii.eqb Bool.eqb].
  - unfold set_online, with_int; cbn [String.eqb Ascii.eqb Bool.eqb]. destruct (stoi value) as [v| |] eqn:Ev;
      [|novo; unfold to_int in *; rewrite Ev in *; congruence|novo; unfold to_int in *; rewrite Ev in *; congruence].
    split; [vo; left; split; [reflexivity|unfold to_int; rewrite Ev; discriminate]|].
    newo S1 S2 S3 S4. unfold grow_dim, to_int. rewrite Ev. cbn [option_map].
    destruct (Z.ltb_spec (f_dim c) (u32 (fst v))).
    + fcbn. split; [f_equal; lia|]. split; reflexivity.
    + split; [f_equal; lia|]. rewrite Z.sub_diag. cbn [Z.to_nat repeat]. split; symmetry; erewrite map_ext; try apply map_id; intros; apply app_nil_r.
  - unfold set_online; cbn [String.eqb Ascii.eqb Bool.eqb]. split; [vo; tauto|]. newo S1 S2 S3 S4. fcbn. apply str_eqb_eq.
  - unfold set_online, with_int; cbn [String.eqb Ascii.eqb Bool.eqb]. destruct (stoi value) as [v| |] eqn:Ev;
      [|novo; unfold to_int in *; rewrite Ev in *; congruence|novo; unfold to_int in *; rewrite Ev in *; congruence].
    split; [vo; right; right; left; split; [reflexivity|unfold to_int; rewrite Ev; discriminate]|].
    newo S1 S2 S3 S4. exists (fst v). unfold to_int. rewrite Ev. split; reflexivity.
  - unfold set_online, with_int; cbn [String.eqb Ascii.eqb Bool.eqb]. destruct (stoi value) as [v| |] eqn:Ev;
      [|novo; unfold to_int in *; rewrite Ev in *; congruence|novo; unfold to_int in *; rewrite Ev in *; congruence].
    split; [vo; right; right; right; left; split; [reflexivity|unfold to_int; rewrite Ev; discriminate]|].
    newo S1 S2 S3 S4. exists (fst v). unfold to_int. rewrite Ev. split; reflexivity.
  - unfold set_online, set_model, check; cbn [String.eqb Ascii.eqb Bool.eqb]. destruct (str_eqb value _) eqn:E.
    + apply str_eqb_eq in E. split; [vo; tauto|]. newo S1 S2 S3 S4.
    + novo. subst. rewrite (proj2 (str_eqb_eq _ _) eq_refl) in E. discriminate.
  - unfold set_online, set_model, with_int, check; cbn [String.eqb Ascii.eqb Bool.eqb]. destruct (stoi value) as [v| |] eqn:Ev;
      [|novo; unfold to_int in *; rewrite Ev in *; congruence|novo; unfold to_int in *; rewrite Ev in *; congruence].
    destruct (Z.eqb_spec (fst v) classes).
    + split; [vo; do 5 right; left; split; [reflexivity|unfold to_int; rewrite Ev; congruence]|]. newo S1 S2 S3 S4.
    + novo; unfold to_int in *; rewrite Ev in *; congruence.
  - unfold set_online, set_model, with_int, check; cbn [String.eqb Ascii.eqb Bool.eqb]. destruct (stoi value) as [v| |] eqn:Ev;
      [|novo; unfold to_int in *; rewrite Ev in *; congruence|novo; unfold to_int in *; rewrite Ev in *; congruence].
    unfold clf_of. destruct (Z.eqb_spec (fst v) (if classes =? 2 then 1 else classes)).
    + split; [vo; do 6 right; left; split; [reflexivity|unfold to_int; rewrite Ev; congruence]|]. newo S1 S2 S3 S4.
    + novo; unfold to_int in *; rewrite Ev in *; congruence.
  - unfold exec_loss. destruct (find_loss value) as [l|] eqn:El.
    2:{ novo. subst. rewrite find_loss_name in El. discriminate. }
    pose proof (find_loss_some _ _ El) as Hv. rewrite (clf_one _ Hc).
    assert (Hsu : suits k classes l = (if classes =? 2 then loss_is_binary l else loss_is_multi l) &&
       (match k with TALMA2 | TAROW | TSOFS | TCW | TECCW => is_hinge l | TPerceptron | TSOP => is_bool l | _ => true end)) by (unfold suits; destruct k, (classes =? 2), l; reflexivity).
    assert (Hno : suits k classes l = false -> ~ valid_at k classes "loss" value).
    { intros Hf. clear Hv Hsu. novo. match goal with H : value = loss_name ?y |- _ => rewrite H, find_loss_name in El end. congruence. }
    destruct (if classes =? 2 then loss_is_binary l else loss_is_multi l); [|apply Hno; rewrite Hsu; reflexivity].
    destruct (match k with TALMA2 => _ | _ => _ end); [|apply Hno; rewrite Hsu; reflexivity].
    split; [vo; do 7 right; left; eauto|].
    newo S1 S2 S3 S4.
    + destruct (keeps k); reflexivity.
    + exists l. destruct (keeps k); repeat split; auto.
  - unfold exec_norm. destruct (read_norm value) as [n| |] eqn:En.
    + pose proof (proj1 (read_norm_word _ _) En) as Hw.
      destruct (if is_alma k then match n with NormL2 => true | _ => false end else true) eqn:Ea.
      * split; [vo; do 8 right; left; split; [reflexivity|]; exists n; split; [assumption|intros ->; cbn in Ea; now destruct n]|].
        newo S1 S2 S3 S4. assumption.
      * novo. apply read_norm_word in H0. rewrite En in H0. injection H0 as <-.
        destruct k; try discriminate. rewrite (H1 eq_refl) in Ea. discriminate.
    + novo. apply read_norm_word in H0. congruence.
    + novo. apply read_norm_word in H0. congruence.
  - unfold set_online, set_model; cbn -[load_presel]. destruct (load_presel (files value)) as [fl|io|[|]|] eqn:Ef; try (novo; congruence).
    split; [vo; do 9 right; eauto|]. newo S1 S2 S3 S4. exists fl. split; [reflexivity|assumption].
Qed.

Lemma set_done k classes name value c : 1 < classes ->
  match setp k classes name value c with
  | Done c' => vld k classes name value /\ nws k classes name value c c'
  | _ => ~ vld k classes name value
  end.
Proof.
  intros Hc. pose proof (valid_slot k classes name value) as V. rewrite set_exec. unfold exec. destruct (slot_of k name) as [m|m| | |] eqn:Hs.
  - pose proof (done_r k classes name m value c Hc Hs) as H. destruct (exec_r _ _ _ _ _ _); tauto.
  - pose proof (done_z k classes name m value c Hs) as H. destruct (exec_z _ _ _ _ _); tauto.
  - apply slot_t in Hs. subst. pose proof (done_t k classes value c) as H. destruct (set_online _ _ _ _ _ _ _ _); tauto.
  - apply slot_o in Hs. pose proof (done_o k classes name value c Hc Hs) as H. unfold exec in H. rewrite (slot_o' k name Hs) in H.
    match goal with |- match ?o with _ => _ end => destruct o end; tauto.
  - unfold valid_at in V. rewrite Hs in V. tauto.
Qed.
End P.
