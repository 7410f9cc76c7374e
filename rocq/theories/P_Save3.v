(** Proofs about saving and loading, part 3: the state. *)
From Coq Require Import String QArith.
From Verif Require Import M_Base M_Num M_Expr M_Loss M_Online M_Olm M_OlmSel M_Heap M_Algs M_Text S_Text P_Parse P_PrintG
  M_Str P_Str S_Online P_Predict P_SafeOlm M_Save S_Save P_Save P_Save2.
Local Open Scope string_scope.
Local Open Scope list_scope.
Local Open Scope Z_scope.

Section P.
Context {R : Type}.
Variable N : num R.
Variable pr : R -> printed.
Variable strtof : Z -> Z -> option R.
Local Notation zero := (zero N).
Local Notation one := (one N).
Local Notation rb := (reads_back pr strtof).
Local Notation exact := (exact pr strtof).

(* ------------------------------------------------------------ vectors of a new model *)
Definition vec_count (k : kind (R:=R)) (n : nat) : nat :=
  match k with
  | KRDA _ | KRDA_L1 _ _ _ | KERDA_L1 _ _ _ _ | KAROW _ | KCW _ _ _ | KECCW _ _ _ | KSOFS _ _
  | KAdaFOBOS _ | KAdaFOBOS_L1 _ _ _ | KAdaFOBOS_OFS _ _ => n
  | KSOP _ => S n
  | KAdaRDA _ | KAdaRDA_L1 _ _ _ | KAdaRDA_OFS _ _ => n + n
  | _ => 0
  end.
Lemma vec_count_reset k n : vec_count (reset_thresh N k) n = vec_count k n.
Proof. now destruct k. Qed.
Ltac blocks := repeat match goal with H : Forall _ (_ :: _) |- _ => inversion H; clear H; subst end.
Lemma extras_count k e n d : extras_shape k e n d -> length (extras k e) = vec_count k n.
Proof.
  intros [_ B]. unfold extras. destruct k; cbn [extra_blocks map concat block_vecs vec_count] in *; blocks;
    rewrite ?app_nil_r, ?app_length; cbn [length app]; rewrite ?app_nil_r; auto; lia.
Qed.

Lemma all_len d vs : Forall (fun v : list R => length v = d) vs -> forall us, Forall (fun v : list R => length v = d) us ->
  length us = length vs -> Forall2 same_size us vs.
Proof.
  induction 1; intros us U L; destruct us; try discriminate; constructor; inversion U; subst; auto.
Qed.

(** A new model, grown to the saved dimension. *)
Lemma shape_extras k e n d : extras_shape k e n d <->
  match k return state_of k -> Prop with
  | KRDA _ | KRDA_L1 _ _ _ | KERDA_L1 _ _ _ _ | KAROW _ | KCW _ _ _ | KECCW _ _ _ | KAdaFOBOS _ => fun vs => shape (R:=R) n d vs
  | KSOP _ => fun s => length (fst s) = d /\ shape (R:=R) n d (snd s)
  | KSOFS _ _ | KAdaFOBOS_OFS _ _ => fun s => shape (R:=R) n d (s_vecs s)
  | KAdaFOBOS_L1 _ _ _ => fun s => shape (R:=R) n d (fst s)
  | KAdaRDA _ | KAdaRDA_L1 _ _ _ => fun s => shape (R:=R) n d (map fst s) /\ shape (R:=R) n d (map snd s)
  | KAdaRDA_OFS _ _ => fun s => shape (R:=R) n d (s_vecs (fst s)) /\ shape (R:=R) n d (snd s)
  | _ => fun _ => True
  end e.
Proof.
  unfold extras_shape, extras, shape.
  destruct k; cbn [extra_blocks map concat block_vecs]; rewrite ?app_nil_r; rewrite ?Forall_app; split; intros H;
  repeat match goal with H : _ /\ _ |- _ => destruct H end; blocks; repeat split; auto;
  repeat (constructor; auto); try (apply Forall_app; auto).
Qed.

Lemma shape_repeat n (x : R) : shape n 1 (repeat [x] n).
Proof. split; [apply repeat_length|]. apply Forall_forall. intros v H. now apply repeat_spec in H; subst. Qed.
Lemma map_rep {A B} (f : A -> B) x n : map f (repeat x n) = repeat (f x) n.
Proof. induction n; cbn; congruence. Qed.

Lemma new_grow k n d c : wf_core c -> c_dim c = 1%nat -> length (c_ws c) = n -> (1 <= d)%nat ->
  exists e1, a_grow (alg_of N k) d c (init_of N k n) = Some (linear_update_dim N d c, e1) /\ extras_shape k e1 n d /\
  match k return state_of k -> Prop with
  | KALMA2 _ _ _ => fun i => i = 1
  | KFOBOS_L1 _ _ l t => fun z => z = mklazy l t zero [zero]
  | KAdaFOBOS_L1 _ l t => fun s => snd s = mklazy l t zero [zero]
  | KPET _ _ _ | KFOFS _ _ => fun s => snd s = heap_empty
  | KSOFS _ _ | KAdaFOBOS_OFS _ _ => fun s => s_heap s = heap_empty
  | KAdaRDA_OFS _ _ => fun s => s_heap (fst s) = heap_empty
  | _ => fun _ => True end e1.
Proof.
  intros W D L Hd. set (c' := linear_update_dim N d c).
  assert (Dm : Nat.max (c_dim c) d = d) by lia.
  assert (G : forall a x, exists vs, sigma_grow N a d c (repeat [x] n) = Some (c', vs) /\ shape n d vs).
  { intros a x. unfold sigma_grow. destruct (lin_grow_shape N d c (repeat [x] n) a W) as (e1 & H & S).
    - rewrite L, D. apply shape_repeat.
    - rewrite L, Dm in S. eauto. }
  assert (GS : forall a x, exists s', sel2_grow N a d c (mksel2 (repeat [x] n) [] heap_empty) = Some (c', s') /\ shape n d (s_vecs s') /\ s_heap s' = heap_empty).
  { intros a x. destruct (G a x) as (vs & E & S). unfold sel2_grow, sigma_grow in *. cbn [s_vecs s_sum s_heap] in *.
    destruct (c_dim c <? d)%nat; cbn [bind]; [|injection E as E1 E2; rewrite E1; eexists; split; [reflexivity|split; [cbn [s_vecs]; congruence|reflexivity]]].
    injection E as E2. cbn. eexists. split; [reflexivity|]. cbn [s_vecs]. split; [congruence|reflexivity]. }
  assert (GN : forall E (e : E), grow_none N d c e = Some (c', e)) by reflexivity.
  assert (GA : forall a, exists s', ada_rda_grow N a d c (repeat ([a], [zero]) n) = Some (c', s') /\ shape n d (map fst s') /\ shape n d (map snd s')).
  { intros a. assert (P1 : shape n d (map fst (if (1 <? d)%nat then map (fun Hu : list R * list R => (grow 1 d a (fst Hu), grow 1 d zero (snd Hu))) (repeat ([a], [zero]) n) else repeat ([a], [zero]) n)) /\
        shape n d (map snd (if (1 <? d)%nat then map (fun Hu : list R * list R => (grow 1 d a (fst Hu), grow 1 d zero (snd Hu))) (repeat ([a], [zero]) n) else repeat ([a], [zero]) n))).
    { pose proof (shape_grow n 1 d a _ (shape_repeat n a)) as H1. pose proof (shape_grow n 1 d zero _ (shape_repeat n zero)) as H2.
      replace (Nat.max 1 d) with d in * by lia. destruct (1 <? d)%nat; rewrite ?map_rep in *; cbn [fst snd] in *; now split. }
    unfold ada_rda_grow. rewrite D in *. destruct (1 <? d)%nat eqn:E1; [eauto|].
    exists (repeat ([a], [zero]) n). split; [|exact P1]. unfold c', linear_update_dim. now rewrite D, E1. }
  assert (G1 : exists s', sel1_grow N d c ([], heap_empty) = Some (c', s') /\ snd s' = heap_empty).
  { unfold sel1_grow, c', linear_update_dim. destruct (c_dim c <? d)%nat; cbn; eauto. }
  destruct k; cbn [alg_of init_of a_grow perceptron pa pa1 pa2 ogd stg fobos_l1 pet rda rda_l1 erda_l1 alma2 sop arow sofs cw eccw
      ada_fobos ada_fobos_l1 ada_fobos_ofs ada_rda ada_rda_l1 ada_rda_ofs fofs];
    try solve [eexists; split; [reflexivity|split; [now apply shape_extras|reflexivity || exact I]]].
  all: try solve [edestruct G as (vs & E & S); eexists; split; [exact E|split; [now apply shape_extras|exact I]]].
  all: try solve [edestruct GS as (vs & E & S & Hh); eexists; split; [exact E|split; [now apply shape_extras|exact Hh]]].
  all: try solve [destruct G1 as (vs & E & Hh); eexists; split; [exact E|split; [now apply shape_extras|exact Hh]]].
  - unfold stg_grow, c', linear_update_dim. destruct (c_dim c <? d)%nat; (eexists; split; [reflexivity|split; [now apply shape_extras|exact I]]).
  - destruct (G zero zero) as (vs & E & S). destruct (lin_grow_shape1 N d c [zero] zero W) as (x1 & E1 & S1); [now rewrite D|].
    rewrite Dm in S1. unfold sop_grow, sigma_grow in *. destruct (c_dim c <? d)%nat.
    + apply (f_equal (option_map snd)) in E, E1. cbn in E, E1. injection E as E. injection E1 as E1.
      eexists; split; [reflexivity|split; [|exact I]]. apply (shape_extras (KSOP a)). cbn [fst snd]. rewrite E, E1. now split.
    + pose proof (f_equal (option_map fst) E) as E0. apply (f_equal (option_map snd)) in E, E1. cbn in E, E1, E0. injection E as E. injection E1 as E1. injection E0 as E0.
      exists ([zero], repeat [zero] n). split; [now rewrite E0|split; [|exact I]]. apply (shape_extras (KSOP a)). cbn [fst snd]. rewrite E, E1. now split.
  - cbn [fst snd]. destruct (G delta delta) as (vs & E & S). rewrite E. cbn [bind]. eexists. split; [reflexivity|]. split; [|reflexivity].
    now apply (shape_extras (KAdaFOBOS_L1 delta lam thresh)).
  - destruct (GA delta) as (e1 & E & S). exists e1. split; [exact E|split; [now apply (shape_extras (KAdaRDA delta))|exact I]].
  - destruct (GA delta) as (e1 & E & S). exists e1. split; [exact E|split; [now apply (shape_extras (KAdaRDA_L1 delta lam thresh))|exact I]].
  - destruct (GS delta delta) as (s' & E & S & Hh). unfold ada_rda_ofs_grow. rewrite E. cbn [bind]. eexists. split; [reflexivity|split; [|exact Hh]].
    apply (shape_extras (KAdaRDA_OFS delta B)). cbn [fst snd]. split; [exact S|]. rewrite D. pose proof (shape_grow n 1 d zero _ (shape_repeat n zero)) as H.
    replace (Nat.max 1 d) with d in H by lia. exact H.
Qed.

(** Reading the vectors into a state puts exactly them there. *)
Lemma map_fst_combine {A B} (a : list A) : forall b : list B, length a = length b -> map fst (combine a b) = a.
Proof. induction a; intros [|y b] H; cbn in *; try discriminate; [reflexivity|]. f_equal. apply IHa. lia. Qed.
Lemma map_snd_combine {A B} (a : list A) : forall b : list B, length a = length b -> map snd (combine a b) = b.
Proof. induction a; intros [|y b] H; cbn in *; try discriminate; [reflexivity|]. f_equal. apply IHa. lia. Qed.
Lemma set_extra_ok k e n d xs : extras_shape k e n d -> length xs = vec_count k n -> extras k (set_extra k xs e) = xs.
Proof.
  intros S L. apply shape_extras in S. unfold extras.
  destruct k; cbn [extra_blocks set_extra map concat block_vecs vec_count app fst snd s_vecs] in *; rewrite ?app_nil_r;
    try reflexivity; try (now destruct xs).
  - destruct S as [[S1 _] _]. rewrite map_length in S1. rewrite S1. rewrite map_fst_combine, map_snd_combine; [apply firstn_skipn| |]; rewrite firstn_length, skipn_length; lia.
  - destruct S as [[S1 _] _]. rewrite map_length in S1. rewrite S1. rewrite map_fst_combine, map_snd_combine; [apply firstn_skipn| |]; rewrite firstn_length, skipn_length; lia.
  - apply firstn_skipn.
Qed.

(* ------------------------------------------------------------------- the document *)
Lemma set_info_ok p nk k c e : savable N pr strtof p nk k c e ->
  exists e2, set_info N strtof (get_info N pr p nk k c e) =
    Some (mkmodel (reset_thresh N k) nk
      (reloaded_core N k c (c_ws (linear_update_dim N (c_dim c) (mkcore (repeat [zero] (length (c_ws c))) (c_g c) 1 one zero 0 0 0 0 0 false zero None (c_loss c) one zero false)))) e2) /\
    extras_shape (reset_thresh N k) e2 (length (c_ws c)) (c_dim c) /\ restored_rest N k (c_iter c) e e2.
Proof.
  intros [W Ex Dm It Cl [Lo La] Pa Re [B0 B0p] Eta Act Cost Bi Al].
  set (n := length (c_ws c)) in *.
  assert (n1 : (1 <= n)%nat) by (destruct W as (_ & Hne & _); unfold n; destruct (c_ws c); [congruence|cbn; lia]).
  unfold set_info, get_info. cbn [i_cls i_clf i_online i_model i_loss i_norm i_lambda]. fold n.
  set (l := online_info N pr c ++ own_info pr p c k e).
  assert (Hcls : (if Z.of_nat n =? 1 then 2 else Z.of_nat n) <? 2 = false) by (destruct (Z.eqb_spec (Z.of_nat n) 1); lia).
  assert (Hn : (if (if Z.of_nat n =? 1 then 2 else Z.of_nat n) =? 2 then 1%nat else Z.to_nat (if Z.of_nat n =? 1 then 2 else Z.of_nat n)) = n).
  { destruct (Z.eqb_spec (Z.of_nat n) 1); [cbn; lia|]. destruct (Z.eqb_spec (Z.of_nat n) 2); lia. }
  rewrite Hcls, Hn, Z.eqb_refl. cbn [negb].
  (* lambda *)
  assert (HL : exists lam, (match option_map (jnum pr) (reg_lambda N k) with None => Some zero | Some v => as_real strtof v end) = Some lam /\
     forall x, reg_lambda N k = Some x -> lam = x).
  { destruct (reg_lambda N k) as [x|] eqn:Ek; cbn [option_map].
    - exists x. split; [|intros ? H; congruence]. apply as_real_exact. rewrite Forall_forall in Re. apply Re.
      destruct k; cbn in Ek; try discriminate; injection Ek as <-; cbn; auto.
    - exists zero. split; [reflexivity|]. discriminate. }
  destruct HL as (lam & EL & HL). rewrite EL. cbn [bind].
  assert (M0 : member (bytes "bias_eta") l = Some (jnum pr (c_b0 c))) by reflexivity.
  rewrite (param_real pr strtof (nonneg N) "bias_eta" zero l (c_b0 c) M0 B0 B0p). cbn [bind].
  unfold l at 1. rewrite (load_kind_ok N pr strtof p c k e lam) by (auto; destruct k; tauto).
  cbn [bind]. rewrite load_loss_ok by auto. cbn [bind]. rewrite load_norm_ok by (destruct k; tauto). cbn [bind].
  assert (HE : (match reset_thresh N k with
                 | KFOFS _ _ | KAdaFOBOS _ | KAdaFOBOS_L1 _ _ _ | KAdaFOBOS_OFS _ _
                 | KAdaRDA _ | KAdaRDA_L1 _ _ _ | KAdaRDA_OFS _ _ => param (as_real strtof) (nonneg N) "eta" one l
                 | _ => Some one
                 end) = Some (if keeps_eta k then c_eta c else one)).
  { destruct k; cbn [reset_thresh keeps_eta] in *; try reflexivity; destruct (Eta eq_refl) as [E1 E2];
      apply (param_real pr); auto; unfold l, online_info; destruct (n_le N one _); destruct (c_cost _); reflexivity. }
  rewrite HE. cbn [bind].
  assert (HA : param (as_real strtof) (positive N) "active_smoothness" zero l = Some (if n_le N one (c_active c) then c_active c else zero)).
  { destruct (n_le N one (c_active c)) eqn:EA.
    - destruct (Act eq_refl). apply (param_real pr); auto. unfold l, online_info. rewrite EA. reflexivity.
    - unfold param. replace (member (bytes "active_smoothness") l) with (@None jval); [reflexivity|].
      unfold l, online_info. rewrite EA. destruct (c_cost c); destruct k; reflexivity. }
  rewrite HA. cbn [bind].
  assert (HC : (match member (bytes "cost_margin") l with
                  | None => Some None
                  | Some v => if negb (n =? 1)%nat then None
                              else do m <- as_real strtof v; if positive N m then Some (Some m) else None
                  end) = Some (c_cost c)).
  { destruct (c_cost c) as [m|] eqn:EC.
    - destruct (Cost m eq_refl) as (C1 & C2 & C3).
      replace (member (bytes "cost_margin") l) with (Some (jnum pr m)) by (unfold l, online_info; rewrite EC; destruct (n_le N one _); reflexivity).
      fold n in C3. rewrite C3. cbn [Nat.eqb negb]. rewrite as_real_exact by auto. cbn [bind]. unfold positive. now rewrite C2.
    - replace (member (bytes "cost_margin") l) with (@None jval); [reflexivity|].
      unfold l, online_info. rewrite EC. destruct (n_le N one _); destruct k; reflexivity. }
  rewrite HC. cbn [bind].
  rewrite (param_int strtof any "dim" 1 l (Z.of_nat (c_dim c))) by (reflexivity || (unfold is_i32; lia)). cbn [bind].
  rewrite (param_int strtof (fun t => 0 <=? t) "t" 0 l (c_iter c)) by (reflexivity || (unfold is_i32; lia) || lia). cbn [bind].
  replace (match member (bytes "lazy_update") l with Some (JStr s) => str_eqb s (bytes "true") | _ => false end) with (c_lazy c)
    by (change (member (bytes "lazy_update") l) with (Some (JStr (if c_lazy c then bytes "true" else bytes "false"))); destruct (c_lazy c); reflexivity).
  cbv zeta. rewrite Nat2Z.id.
  match goal with |- context [a_grow _ _ ?c0 _] => set (c0v := c0) end.
  assert (W0 : wf_core c0v).
  { unfold c0v, wf_core. cbn. repeat split; auto; [|apply Forall_forall; intros v H; now apply repeat_spec in H; subst|now rewrite !repeat_length].
    destruct n; [lia|discriminate]. }
  destruct (new_grow (reset_thresh N k) n (c_dim c) c0v W0 eq_refl) as (e1 & E1 & S1 & T1); [apply repeat_length|destruct W; lia|].
  rewrite E1. cbn [bind].
  assert (HT : exists e2, set_time N (reset_thresh N k) (c_iter c) l e1 = Some e2 /\ extras_shape (reset_thresh N k) e2 n (c_dim c) /\ restored_rest N k (c_iter c) e e2).
  { destruct k; cbn [reset_thresh set_time restored_rest] in *; try (eexists; split; [reflexivity|split; [assumption|exact I || assumption]]).
    - subst e1. cbn. eexists. split; [reflexivity|]. split; [apply shape_extras; exact I|reflexivity].
    - destruct Al as (_ & _ & Ki & _). rewrite (param_int strtof (fun k => 0 <? k) "k" e1 l e); [|unfold l, online_info; destruct (n_le N one _); destruct (c_cost _); reflexivity|unfold is_i32; lia|lia].
      eexists. split; [reflexivity|]. split; [apply shape_extras; exact I|reflexivity].
    - destruct e1 as [H z]. cbn [snd fst] in *. subst z. cbn. eexists. split; [reflexivity|]. split; [|reflexivity].
      apply shape_extras in S1. now apply (shape_extras (KAdaFOBOS_L1 delta lam0 (thresh0 N))). }
  destruct HT as (e2 & E2 & S2 & T2). rewrite E2. cbn [bind]. exists e2. split; [|split; assumption].
  f_equal. unfold c0v, reloaded_core, linear_update_dim. cbn [c_dim]. fold n.
  destruct W as (Hd1 & _). destruct (Nat.ltb_spec 1 (c_dim c)); cbn; [reflexivity|].
  now replace (c_dim c) with 1%nat by lia.
Qed.
End P.
