(** Every algorithm of M_Olm is safe: its functions never leave their arrays, and (except ALMA2)
    they change only the bias and the weights of features of the example. *)
From Verif Require Import M_Base M_Num M_Expr M_Loss M_Online M_Olm S_Expr S_Online
  P_DataPoint P_Expr P_Online P_Predict P_Step P_Safe.
From Coq Require Import Sorted.

Section P.
Context {R : Type}.
Variable N : num R.
Local Notation zero := (zero N).
Local Notation one := (one N).
Local Notation len_is d := (fun w : list R => length w = d).

(** One vector of size d per class. *)
Definition shape (n d : nat) (vs : list (list R)) : Prop :=
  length vs = n /\ Forall (len_is d) vs.

Lemma shape_grow n d d' v vs : shape n d vs -> shape n (Nat.max d d')
  (if (d <? d')%nat then map (grow d d' v) vs else vs).
Proof.
  intros (L & F). destruct (Nat.ltb_spec d d').
  - split; [now rewrite map_length|]. rewrite Forall_forall in *. intros w Hw.
    apply in_map_iff in Hw as (u & <- & Hu). rewrite (grow_length d d') by (auto; lia). lia.
  - replace (Nat.max d d') with d by lia. split; auto.
Qed.
Lemma wf_len c w : wf_core (R:=R) c -> In w (c_ws c) -> length w = c_dim c /\ (1 <= length w)%nat.
Proof.
  intros (Hd & _ & Hw & _) Hin. rewrite Forall_forall in Hw. rewrite Hw by auto. lia.
Qed.
Lemma shape_in n d vs v : shape n d vs -> In v vs -> length v = d.
Proof. intros (_ & F) H. rewrite Forall_forall in F. auto. Qed.
Lemma wf_glen c : wf_core (R:=R) c -> length (c_g c) = length (c_ws c).
Proof. intros (_ & _ & _ & H). exact H. Qed.
Lemma fs p : wf_point (R:=R) 0 p -> sorted_ix (feats p).
Proof. intros H. eapply feats_sorted; eauto. lia. Qed.
Lemma ff p : wf_point (R:=R) 0 p -> map fst (feats p) = p_idx p.
Proof. intros (H & _). now apply feats_fst. Qed.
Lemma local_if idx (b : bool) (w w' : list R) : local idx w w' -> local idx w (if b then w else w').
Proof. destruct b; auto using local_refl. Qed.
Lemma len_if (b : bool) (w w' : list R) : length w' = length w -> length (if b then w else w') = length w.
Proof. destruct b; auto. Qed.

Lemma linear_grow_eq d c : (d <= c_dim c)%nat -> linear_update_dim N d c = c.
Proof. unfold linear_update_dim. destruct (Nat.ltb_spec (c_dim c) d); [lia|reflexivity]. Qed.

Lemma Forall2_map (Q : list R -> list R -> Prop) f ws : (forall w, In w ws -> Q w (f w)) ->
  Forall2 Q ws (map f ws).
Proof.
  induction ws as [|w ws IH]; intros H; simpl; constructor.
  - apply H. now left.
  - apply IH. intros. apply H. now right.
Qed.

(** Grow and regulariser begin for algorithms without regulariser. *)
Lemma begin_plain {E} (e : E) (p : point R) c : exists e1 e2 : E,
  grow_none N (Z.to_nat (x_dim p)) c e = Some (linear_update_dim N (Z.to_nat (x_dim p)) c, e1) /\
  reg_begin_none p e1 = Some e2 /\ True.
Proof. exists e, e. repeat split. Qed.

Lemma plain_safe upd :
  (forall p loss c, wf_point 0 p -> wf_core c -> (Z.to_nat (x_dim p) <= c_dim c)%nat ->
     exists c', upd p loss c = Some c' /\ framed (local (p_idx p)) c c') ->
  safe N 0 (plain N upd) (fun _ _ _ => True) local.
Proof.
  intros H. split; [intros; apply wrel_local|]. split; [intros; apply begin_plain|]. split.
  { intros. exists c, e. repeat split. apply framed_refl, wrel_local. }
  split; [intros; exact I|]. split.
  - intros p loss c e Hp Hc Hd _. destruct (H p loss c Hp Hc Hd) as (c' & E & F).
    exists c', e. unfold plain. cbn [a_update]. rewrite E. auto.
  - intros. exists e. auto.
Qed.

Lemma grad_steps_ok p c : wf_point 0 p -> wf_core c ->
  exists c', grad_steps N (feats p) c = Some c' /\ framed (local (p_idx p)) c c'.
Proof.
  intros Hp Hc. unfold grad_steps.
  rewrite (each_class_spec N _ (fun g w => pstep N (fun _ a v => n_sub N a (n_mul N (n_mul N (c_eta c) g) v))
    (fun b => n_sub N b (n_mul N (bias_eta N c) g)) (feats p) w)).
  - cbn [bind]. eexists. split; [reflexivity|]. apply framed_set_ws. apply Forall2_zipc.
    + now apply wf_glen.
    + intros g w Hw. apply local_if. rewrite <- ff by auto. apply local_pstep.
  - now apply wf_glen.
  - intros g w Hw. destruct (wf_len c w Hc Hw). apply grad_step_spec; auto using fs.
Qed.
Lemma grad_steps_eta p c eta : wf_point 0 p -> wf_core c ->
  exists c', grad_steps N (feats p) (set_eta c eta) = Some c' /\ framed (local (p_idx p)) c c'.
Proof.
  intros Hp Hc. destruct (grad_steps_ok p (set_eta c eta) Hp Hc) as (c' & E & F).
  exists c'. split; auto.
Qed.

Lemma perceptron_upd_ok p loss c : wf_point 0 p -> wf_core c ->
  exists c', perceptron_update N p loss c = Some c' /\ framed (local (p_idx p)) c c'.
Proof.
  intros Hp Hc. unfold perceptron_update. cbv zeta. cbn [c_g c_ws set_eta].
  erewrite (each_class_spec N).
  - cbn [bind]. eexists. split; [reflexivity|].
    eapply framed_trans; [apply wrel_local|apply framed_set_eta, wrel_local|].
    apply framed_set_ws. cbn [c_ws set_eta]. apply Forall2_zipc.
    + now apply wf_glen.
    + intros g w Hw. apply local_if.
      instantiate (1 := fun g w => pstep N _ _ (feats p) w). cbv beta.
      rewrite <- ff by auto. apply local_pstep.
  - now apply wf_glen.
  - intros g w Hw. destruct (wf_len c w Hc Hw). apply perceptron_step_spec; auto using fs.
Qed.
Lemma safe_perceptron : safe N 0 (perceptron N) (fun _ _ _ => True) local.
Proof. apply plain_safe. intros. now apply perceptron_upd_ok. Qed.

Lemma norm2_feats p : wf_point 0 p -> exists n, norm2 N (ESparse (feats p)) = Some n.
Proof. intros Hp. rewrite (norm2_sparse N zero) by now apply fs. eauto. Qed.
Lemma safe_pa : safe N 0 (pa N) (fun _ _ _ => True) local.
Proof.
  apply plain_safe. intros p loss c Hp Hc _. unfold pa_update, pa_eta.
  destruct (norm2_feats p Hp) as (n & ->). cbn [bind]. now apply grad_steps_eta.
Qed.
Lemma safe_pa1 C : safe N 0 (pa1 N C) (fun _ _ _ => True) local.
Proof.
  apply plain_safe. intros p loss c Hp Hc _. unfold pa1_update, pa_eta.
  destruct (norm2_feats p Hp) as (n & ->). cbn [bind]. now apply grad_steps_eta.
Qed.
Lemma safe_pa2 C : safe N 0 (pa2 N C) (fun _ _ _ => True) local.
Proof.
  apply plain_safe. intros p loss c Hp Hc _. unfold pa2_update, pa_eta.
  destruct (norm2_feats p Hp) as (n & ->). cbn [bind]. now apply grad_steps_eta.
Qed.
Lemma ogd_upd_ok eta0 power_t p loss c : wf_point 0 p -> wf_core c ->
  exists c', ogd_update N eta0 power_t p loss c = Some c' /\ framed (local (p_idx p)) c c'.
Proof. intros. now apply grad_steps_eta. Qed.
Lemma safe_ogd eta0 power_t : safe N 0 (ogd N eta0 power_t) (fun _ _ _ => True) local.
Proof. apply plain_safe. intros. now apply ogd_upd_ok. Qed.

(** ** STG *)
Lemma stg_trunc_ok k alpha t idx : forall w last d,
  (forall i, In i idx -> 0 <= i < Z.of_nat d) -> length w = d -> length last = d ->
  exists w' last', stg_trunc N k alpha t idx w last = Some (w', last') /\
    local idx w w' /\ length last' = d.
Proof.
  induction idx as [|i idx IH]; intros w last d Hi Hw Hl.
  - exists w, last. split; [reflexivity|]. split; auto using local_refl.
  - cbn [stg_trunc]. assert (Hi0 : 0 <= i < Z.of_nat d) by (apply Hi; now left).
    unfold rd. rewrite (nth_error_nth' last zero) by lia. cbn [bind].
    set (li := nth (Z.to_nat i) last zero). set (step := n_toint N (n_sub N (n_int N t) li)).
    destruct (step <? k).
    + destruct (IH w last d) as (w' & last' & E & (L1 & L2) & L); auto.
      { intros. apply Hi. now right. }
      exists w', last'. split; [exact E|]. split; auto. split; auto. intros j Hj Hni.
      apply L2; auto. intros Hin. apply Hni. now right.
    + cbv zeta. rewrite (nth_error_nth' w zero) by lia. cbn [bind].
      rewrite wr_upd by lia. cbn [bind]. rewrite wr_upd by lia. cbn [bind].
      match goal with |- context [stg_trunc N k alpha t idx ?a ?b] =>
        destruct (IH a b d) as (w' & last' & E & (L1 & L2) & L) end.
      { intros. apply Hi. now right. }
      { now rewrite upd_length. }
      { now rewrite upd_length. }
      exists w', last'. split; [exact E|]. split; auto. rewrite upd_length in L1. split; [lia|].
      intros j Hj Hni. rewrite L2 by (auto; intros Hin; apply Hni; now right).
      destruct (lt_dec j (length w)).
      * rewrite !(nth_error_nth' _ zero) by (rewrite ?upd_length; lia). rewrite nth_upd by lia.
        destruct (Nat.eqb_spec j (Z.to_nat i)); auto. exfalso. apply Hni. left. lia.
      * rewrite !(proj2 (nth_error_None _ _)); rewrite ?upd_length; auto; lia.
Qed.
Lemma stg_classes_ok k alpha lam bias t idx ws : forall last d, (1 <= d)%nat ->
  (forall i, In i idx -> 0 <= i < Z.of_nat d) -> Forall (len_is d) ws -> length last = d ->
  exists ws' last', stg_classes N k alpha lam bias t idx ws last = Some (ws', last') /\
    Forall2 (local idx) ws ws' /\ length last' = d.
Proof.
  induction ws as [|w ws IH]; intros last d Hd Hi Hw Hl.
  - exists [], last. auto.
  - inversion Hw; subst. cbn [stg_classes].
    destruct (stg_trunc_ok k alpha t idx w last (length last)) as (w1 & last1 & E1 & L1 & Ll); auto.
    rewrite E1. cbn [bind]. pose proof (proj1 L1) as Lw.
    rewrite (upd0_spec N) by lia. cbn [bind]. rewrite wr_upd by lia. cbn [bind].
    match goal with |- context [stg_classes N k alpha lam bias t idx ws ?b] =>
        destruct (IH b (length last)) as (ws' & last' & E & F & L) end; auto.
    { now rewrite upd_length. }
    rewrite E. cbn [bind]. eexists _, _. split; [reflexivity|]. split; auto. constructor; auto.
    eapply local_trans; [exact L1|]. apply (local_upd0 N).
Qed.
Lemma idx_range p c : wf_point (R:=R) 0 p -> (Z.to_nat (x_dim p) <= c_dim c)%nat ->
  forall i, In i (p_idx p) -> 0 <= i < Z.of_nat (c_dim (R:=R) c).
Proof. intros Hp Hd i Hi. pose proof (x_dim_below 0 p i ltac:(lia) Hp Hi). lia. Qed.

Lemma lin_grow_shape1 d c (last : list R) v : wf_core c -> length last = c_dim c ->
  exists e1, (if (c_dim c <? d)%nat
   then Some (linear_update_dim N d c, grow (c_dim c) d v last) else Some (c, last))
   = Some (linear_update_dim N d c, e1) /\ length e1 = Nat.max (c_dim c) d.
Proof.
  intros Hc Hl. destruct (Nat.ltb_spec (c_dim c) d).
  - eexists. split; [reflexivity|]. rewrite (grow_length (c_dim c) d) by (auto; lia). lia.
  - rewrite linear_grow_eq by lia. eexists. split; [reflexivity|]. lia.
Qed.
Lemma lin_grow_shape d c vs v : wf_core c -> shape (length (c_ws c)) (c_dim c) vs ->
  exists e1, (if (c_dim c <? d)%nat
   then Some (linear_update_dim N d c, map (grow (c_dim c) d v) vs) else Some (c, vs))
   = Some (linear_update_dim N d c, e1) /\ shape (length (c_ws c)) (Nat.max (c_dim c) d) e1.
Proof.
  intros Hc Hs. pose proof (shape_grow _ _ d v _ Hs) as Hg.
  destruct (Nat.ltb_spec (c_dim c) d); [eauto|]. rewrite linear_grow_eq by lia. eauto.
Qed.

Lemma safe_stg eta0 power_t lam thresh k :
  safe N 0 (stg N eta0 power_t lam thresh k) (fun _ d last => length last = d) local.
Proof.
  split; [intros; apply wrel_local|]. split.
  { intros p c e Hp Hc He. unfold stg. cbn [a_grow a_reg_begin]. unfold stg_grow.
    destruct (lin_grow_shape1 (Z.to_nat (x_dim p)) c e (n_int N (c_t0 c)) Hc He) as (e1 & -> & L).
    exists e1, e1. auto. }
  split.
  { intros p c e Hp Hc Hd He. unfold stg. cbn [a_prep]. unfold stg_prep.
    destruct (stg_classes_ok k (n_mul N (c_eta c) lam) lam (bias_eta N c) (c_iter c - 1) (p_idx p)
      (c_ws c) e (c_dim c)) as (ws & last & E & F & L); auto.
    { apply Hc. }
    { now apply idx_range. }
    { apply Hc. }
    rewrite E. cbn [bind]. eexists _, _. split; [reflexivity|]. split; auto.
    now apply framed_set_ws. }
  split; [intros; exact I|]. split.
  { intros p loss c e Hp Hc Hd He. unfold stg. cbn [a_update].
    destruct (ogd_upd_ok eta0 power_t p loss c Hp Hc) as (c' & -> & F). cbn [bind].
    exists c', e. auto. }
  intros. exists e. auto.
Qed.

(** ** FOBOS with lazy l1 *)
Lemma upd0_len (f : R -> R) l : (1 <= length l)%nat -> exists l', upd0 f l = Some l' /\ length l' = length l.
Proof. intros H. rewrite (upd0_spec N) by auto. eexists. split; [reflexivity|]. apply upd_length. Qed.
Lemma lazy_begin_len p (z : lazy_l1 (R:=R)) :
  length (z_last (lazy_begin p z)) = Nat.max (length (z_last z)) (Z.to_nat (x_dim p)).
Proof.
  unfold lazy_begin. pose proof (x_dim_nonneg p).
  destruct (Z.ltb_spec (Z.of_nat (length (z_last z))) (x_dim p)).
  - cbn. rewrite (grow_length (length (z_last z))) by (auto; lia). lia.
  - lia.
Qed.
Lemma set_all_ok idx (v : R) : forall l, (forall i, In i idx -> 0 <= i < Z.of_nat (length l)) ->
  exists l', set_all idx v l = Some l' /\ length l' = length l.
Proof.
  induction idx as [|i idx IH]; intros l Hi; [eexists; split; reflexivity|].
  cbn [set_all]. assert (0 <= i < Z.of_nat (length l)) by (apply Hi; now left).
  rewrite wr_upd by lia. cbn [bind]. destruct (IH (upd (Z.to_nat i) v l)) as (l' & E & L).
  - rewrite upd_length. intros. apply Hi. now right.
  - rewrite upd_length in L. eauto.
Qed.
Lemma lazy_end_ok p it (z : lazy_l1 (R:=R)) d : wf_point 0 p -> (1 <= d)%nat ->
  (Z.to_nat (x_dim p) <= d)%nat -> length (z_last z) = d ->
  exists z', lazy_end N p it z = Some z' /\ length (z_last z') = d.
Proof.
  intros Hp Hd Hx Hl. unfold lazy_end. cbv zeta.
  destruct (set_all_ok (p_idx p) (n_int N (it - 1)) (z_last z)) as (l' & -> & L).
  { intros i Hi. pose proof (x_dim_below 0 p i ltac:(lia) Hp Hi). lia. }
  cbn [bind]. rewrite wr_upd by lia. cbn [bind]. eexists. split; [reflexivity|].
  cbn [z_last]. rewrite upd_length. lia.
Qed.
Lemma fobos_trunc_spec eta lam t x last w : sorted_ix x -> length last = length w ->
  fobos_trunc N eta lam t x last w =
  Some (smap (fun i a v => op_trunc N (nth i w zero)
    (n_mul N (n_mul N eta lam) (n_sub N t (nth i last zero)))) x w).
Proof.
  intros Hs Hl. unfold fobos_trunc. rewrite (calc_sparse zero _ x); [reflexivity| | | |]; simpl; auto.
  repeat split; auto. lia.
Qed.
Lemma safe_fobos_l1 eta0 power_t :
  safe N 0 (fobos_l1 N eta0 power_t) (fun _ d z => length (z_last z) = d) local.
Proof.
  split; [intros; apply wrel_local|]. split.
  { intros p c e Hp Hc He. exists e, (lazy_begin p e). split; [reflexivity|]. split; [reflexivity|].
    rewrite lazy_begin_len, He. reflexivity. }
  split.
  { intros p c e Hp Hc Hd He. unfold fobos_l1. cbn [a_prep]. unfold fobos_prep.
    set (F := fun w => let w1 := smap (fun i a v => op_trunc N (nth i w zero)
        (n_mul N (n_mul N (c_eta c) (z_lambda e))
          (n_sub N (n_int N (c_iter c - 1)) (nth i (z_last e) zero)))) (feats p) w in
        upd 0 (op_trunc N (nth 0 w1 zero) (n_mul N (bias_eta N c) (z_lambda e))) w1).
    rewrite (mapM_spec _ F).
    - cbn [bind]. eexists _, _. split; [reflexivity|]. split; auto. apply framed_set_ws.
      apply Forall2_map. intros w _. unfold F. cbv zeta.
      eapply local_trans; [|apply (local_upd0 N)]. rewrite <- ff by auto. apply (local_smap N).
    - intros w Hw. destruct (wf_len c w Hc Hw). unfold F.
      rewrite fobos_trunc_spec by (auto using fs; lia). cbn [bind].
      rewrite (upd0_spec N) by (rewrite smap_length; lia). reflexivity. }
  split; [intros; exact I|]. split.
  { intros p loss c e Hp Hc Hd He. unfold fobos_l1. cbn [a_update].
    destruct (ogd_upd_ok eta0 power_t p loss c Hp Hc) as (c' & -> & F). cbn [bind].
    exists c', e. auto. }
  intros p it n d e Hp Hd Hx He. now apply lazy_end_ok.
Qed.

(** ** RDA family *)
Lemma rda_update_ok p loss c ut : wf_point 0 p -> wf_core c ->
  shape (length (c_ws c)) (c_dim c) ut ->
  exists ut', rda_update N p loss c ut = Some (c, ut') /\ shape (length (c_ws c)) (c_dim c) ut'.
Proof.
  intros Hp Hc (L & F). unfold rda_update.
  rewrite (each_class_spec N _ (fun g u => pstep N (fun _ a v => n_add N a (n_mul N g v))
     (fun b => n_add N b g) (feats p) u)).
  - cbn [bind]. eexists. split; [reflexivity|].
    split; [rewrite zipc_length; auto; rewrite (wf_glen c Hc); auto|].
    apply Forall_zipc. intros g u _ Hu. rewrite Forall_forall in F. rewrite len_if; auto.
    apply pstep_length.
  - rewrite (wf_glen c Hc). auto.
  - intros g u Hu. rewrite Forall_forall in F. apply ut_step_spec; auto using fs.
    rewrite F by auto. apply Hc.
Qed.
Lemma rda_assign_ok p c e (F : list R -> nat -> R -> R) f ut : wf_point 0 p -> wf_core c ->
  shape (length (c_ws c)) (c_dim c) ut ->
  (forall w u, length w = length u -> (1 <= length w)%nat ->
     calc assign w (emul N (EScalar (n_opp N (c_eta c))) (e u)) =
     Some (smap (fun i _ v => F u i v) (feats p) w)) ->
  exists c', rda_assign N c e f ut = Some c' /\ framed (local (p_idx p)) c c'.
Proof.
  intros Hp Hc (L & Fu) He. unfold rda_assign.
  rewrite (zip_class_spec _ (fun w u => upd 0 (n_mul N (n_opp N (bias_eta N c)) (f (nth 0 u zero)))
     (smap (fun i _ v => F u i v) (feats p) w))).
  - cbn [bind]. eexists. split; [reflexivity|]. apply framed_set_ws. apply Forall2_zipc'; auto.
    intros w u _ _. eapply local_trans; [|apply (local_upd0 N)]. rewrite <- ff by auto.
    apply (local_smap N).
  - auto.
  - intros w u Hw Hu. destruct (wf_len c w Hc Hw) as (Lw & L1). rewrite Forall_forall in Fu.
    pose proof (Fu u Hu) as Lu.
    rewrite He by (auto; congruence). cbn [bind]. rewrite (rd0 N) by lia.
    cbn [bind]. rewrite wr_upd by (rewrite smap_length; lia). reflexivity.
Qed.
Lemma rda_grow_ok p c ut : wf_core c -> shape (length (c_ws c)) (c_dim c) ut ->
  exists e1, rda_grow N (Z.to_nat (x_dim (R:=R) p)) c ut
     = Some (linear_update_dim N (Z.to_nat (x_dim p)) c, e1) /\
   shape (length (c_ws c)) (Nat.max (c_dim c) (Z.to_nat (x_dim p))) e1.
Proof. intros. now apply lin_grow_shape. Qed.

Lemma rda_like_safe prep endf :
  (forall p c ut, wf_point 0 p -> wf_core c -> shape (length (c_ws c)) (c_dim c) ut ->
     exists c', prep p c ut = Some (c', ut) /\ framed (local (p_idx p)) c c') ->
  safe N 0 (mkalg (rda_grow N) begin_none reg_begin_none prep margin_none (rda_update N) reg_end_none endf)
    shape local.
Proof.
  intros Hprep. split; [intros; apply wrel_local|]. split.
  { intros p c e Hp Hc He. destruct (rda_grow_ok p c e Hc He) as (e1 & E & S1).
    exists e1, e1. auto. }
  split.
  { intros p c e Hp Hc Hd He. destruct (Hprep p c e Hp Hc He) as (c' & E & F). exists c', e. auto. }
  split; [intros; exact I|]. split.
  { intros p loss c e Hp Hc Hd He. destruct (rda_update_ok p loss c e Hp Hc He) as (ut' & E & S1).
    exists c, ut'. split; [exact E|]. split; auto. apply framed_refl, wrel_local. }
  intros. exists e. auto.
Qed.
Ltac solve_sparse p :=
  intros w u Hlw H1; rewrite (calc_sparse zero _ (feats p)); [reflexivity| | | |];
  [simpl; auto | reflexivity | now apply fs | simpl; repeat split; auto; lia].
Lemma safe_rda sigma : safe N 0 (rda N sigma) shape local.
Proof.
  apply rda_like_safe. intros p c ut Hp Hc Hs. unfold rda_prep. cbv zeta.
  match goal with |- context [rda_assign N ?c1 ?e ?f ut] =>
    destruct (rda_assign_ok p c1 e (fun u i v => n_mul N (n_opp N (c_eta c1)) (nth i u zero)) f ut Hp Hc Hs)
      as (c' & E & F) end.
  - solve_sparse p.
  - rewrite E. cbn [bind]. exists c'. split; [reflexivity|]. exact F.
Qed.
Lemma safe_rda_l1 sigma lam thresh : safe N 0 (rda_l1 N sigma lam thresh) shape local.
Proof.
  apply rda_like_safe. intros p c ut Hp Hc Hs. unfold rda_l1_prep. cbv zeta.
  match goal with |- context [rda_assign N ?c1 (fun u => etrunc N _ (EScalar ?th)) ?f ut] =>
    destruct (rda_assign_ok p c1 (fun u => etrunc N (eslice u (feats p)) (EScalar th))
       (fun u i v => n_mul N (n_opp N (c_eta c1)) (op_trunc N (nth i u zero) th)) f ut Hp Hc Hs)
      as (c' & E & F) end.
  - solve_sparse p.
  - rewrite E. cbn [bind]. exists c'. split; [reflexivity|]. exact F.
Qed.
Lemma safe_erda_l1 sigma lam rou thresh : safe N 0 (erda_l1 N sigma lam rou thresh) shape local.
Proof.
  apply rda_like_safe. intros p c ut Hp Hc Hs. unfold erda_l1_prep. cbv zeta.
  match goal with |- context [rda_assign N ?c1 (fun u => etrunc N _ (EScalar ?th)) ?f ut] =>
    destruct (rda_assign_ok p c1 (fun u => etrunc N (eslice u (feats p)) (EScalar th))
       (fun u i v => n_mul N (n_opp N (c_eta c1)) (op_trunc N (nth i u zero) th)) f ut Hp Hc Hs)
      as (c' & E & F) end.
  - solve_sparse p.
  - rewrite E. cbn [bind]. exists c'. split; [reflexivity|]. exact F.
Qed.

(** ** ALMA2 *)
Lemma alma_step_ok eta bias x g w : sorted_ix x -> (1 <= length w)%nat ->
  exists w', alma_step N eta bias x g w = Some w' /\ length w' = length w.
Proof.
  intros Hs Hl. unfold alma_step. rewrite (grad_step_spec N) by auto. cbn [bind].
  rewrite (norm2_dense N zero). cbn [bind]. cbv zeta. destruct (n_lt N one _).
  - rewrite (calc_dense zero) by (simpl; auto). eexists. split; [reflexivity|].
    rewrite imap_length. apply pstep_length.
  - eexists. split; [reflexivity|]. apply pstep_length.
Qed.
Lemma each_class_ok (f : R -> list R -> option (list R)) gs ws :
  length gs = length ws ->
  (forall g w, In w ws -> exists w', f g w = Some w' /\ length w' = length w) ->
  exists ws', each_class N f gs ws = Some ws' /\ Forall2 same_len ws ws'.
Proof.
  revert gs. induction ws as [|w ws IH]; intros [|g gs] Hl Hf; simpl in *; try lia; eauto.
  destruct (Hf g w (or_introl eq_refl)) as (w' & E & L). destruct (IH gs) as (ws' & E' & F); [lia|auto|].
  destruct (n_eq N g zero); rewrite ?E; cbn [bind]; rewrite E'; cbn [bind]; eexists;
    (split; [reflexivity|]); constructor; auto; reflexivity.
Qed.
Lemma safe_alma2 alpha C sp1 : safe N 0 (alma2 N alpha C sp1) (fun _ _ _ => True) (fun _ => same_len).
Proof.
  split; [intros; apply wrel_len|]. split; [intros; apply begin_plain|]. split.
  { intros. exists c, e. repeat split. apply Forall2_refl. reflexivity. }
  split; [intros; exact I|]. split.
  { intros p loss c e Hp Hc Hd _. unfold alma2. cbn [a_update]. unfold alma_update. cbv zeta.
    match goal with |- context [each_class N ?f ?g ?ws] =>
      destruct (each_class_ok f g ws) as (ws' & E & F) end.
    - cbn. now apply wf_glen.
    - intros g w Hw. cbn in Hw. destruct (wf_len c w Hc Hw). apply alma_step_ok; auto using fs.
    - rewrite E. cbn [bind]. eexists _, _. split; [reflexivity|]. split; auto.
      repeat split. exact F. }
  intros. exists e. auto.
Qed.

(** ** SOP *)
Lemma each_class_shape (f : R -> list R -> option (list R)) F gs vs n d :
  length gs = n -> shape n d vs ->
  (forall g v, In v vs -> f g v = Some (F g v) /\ length (F g v) = length v) ->
  exists vs', each_class N f gs vs = Some vs' /\ shape n d vs'.
Proof.
  intros Hg (L & Fv) H. rewrite (each_class_spec N f F) by (try lia; intros; apply H; auto).
  eexists. split; [reflexivity|]. split; [rewrite zipc_length; lia|].
  apply Forall_zipc. intros g v _ Hv. rewrite len_if by (apply H; auto).
  rewrite Forall_forall in Fv. auto.
Qed.
Lemma sop_prep_ok a p c X v : wf_point 0 p -> wf_core c -> length X = c_dim c ->
  shape (length (c_ws c)) (c_dim c) v ->
  exists c', sop_prep N a p c (X, v) = Some (c', (X, v)) /\ framed (local (p_idx p)) c c'.
Proof.
  intros Hp Hc HX (L & Fv). unfold sop_prep.
  rewrite (zip_class_spec _ (fun w vc => smap (fun i _ xv => n_div N (nth i vc zero)
     (n_add N (n_add N a (nth i X zero)) (n_mul N xv xv))) (feats p) w)).
  - cbn [bind]. eexists. split; [reflexivity|]. apply framed_set_ws. apply Forall2_zipc'; auto.
    intros w u _ _. rewrite <- ff by auto. apply (local_smap N).
  - auto.
  - intros w u Hw Hu. destruct (wf_len c w Hc Hw) as (Lw & L1). rewrite Forall_forall in Fv.
    rewrite (calc_sparse zero _ (feats p)); [reflexivity| | | |];
      [simpl; auto | reflexivity | now apply fs | simpl; pose proof (Fv u Hu); repeat split; auto; lia].
Qed.
Lemma safe_sop a : safe N 0 (sop N a) (fun n d s => length (fst s) = d /\ shape n d (snd s)) local.
Proof.
  split; [intros; apply wrel_local|]. split.
  { intros p c (X, v) Hp Hc (HX & Hv). cbn in HX, Hv. unfold sop. cbn [a_grow a_reg_begin].
    unfold sop_grow.
    pose proof (shape_grow _ _ (Z.to_nat (x_dim p)) zero _ Hv) as Hg.
    destruct (Nat.ltb_spec (c_dim c) (Z.to_nat (x_dim p))); [|rewrite linear_grow_eq by lia].
    - eexists _, _. split; [reflexivity|]. split; [reflexivity|]. cbn. split; auto.
      rewrite (grow_length (c_dim c)) by (auto; lia). lia.
    - eexists _, _. split; [reflexivity|]. split; [reflexivity|]. cbn. split; auto. lia. }
  split.
  { intros p c (X, v) Hp Hc Hd (HX & Hv). cbn in HX, Hv.
    destruct (sop_prep_ok a p c X v Hp Hc HX Hv) as (c' & E & F). exists c', (X, v). auto. }
  split; [intros; exact I|]. split.
  { intros p loss c (X, v) Hp Hc Hd (HX & Hv). cbn in HX, Hv. unfold sop. cbn [a_update].
    unfold sop_update. cbv zeta. cbn [c_g set_eta].
    edestruct (each_class_shape (perceptron_step N (bias_eta N (set_eta c one)) (feats p))
      (fun g w => pstep N (fun _ a v => n_sub N a (n_mul N g v))
         (fun b => n_sub N b (n_mul N (bias_eta N (set_eta c one)) g)) (feats p) w) (c_g c) v) as (v' & E & Hv').
    { apply wf_glen; eauto. }
    { exact Hv. }
    { intros g u Hu. split; [|apply pstep_length]. apply perceptron_step_spec; auto using fs.
      rewrite (shape_in _ _ _ _ Hv Hu). apply Hc. }
    rewrite E. cbn [bind]. rewrite (calc_sparse zero _ (feats p));
      [|simpl; auto|reflexivity|now apply fs|simpl; auto].
    cbn [bind]. eexists _, _. split; [reflexivity|]. split.
    - apply framed_set_eta, wrel_local.
    - cbn. rewrite smap_length. auto. }
  intros. exists e. auto.
Qed.

(** ** Confidence-weighted family and adaptive subgradient *)
Lemma variance_ok x bo gs : forall Ss acc, sorted_ix x -> (length gs <= length Ss)%nat ->
  Forall (fun s : list R => (1 <= length s)%nat) Ss -> exists v, variance N x bo gs Ss acc = Some v.
Proof.
  induction gs as [|g gs IH]; intros [|Sg Ss] acc Hs Hl HF; simpl in Hl; try lia; cbn [variance];
    eauto. inversion HF; subst.
  destruct (n_eq N g zero); [apply IH; auto; lia|]. cbv zeta.
  rewrite (dotmul_spec N zero Sg (eL2 N (ESparse x)) x) by (simpl; auto). cbn [bind].
  destruct bo.
  - rewrite (rd0 N) by auto. cbn [bind]. apply IH; auto; lia.
  - cbn [bind]. apply IH; auto; lia.
Qed.
Lemma shape_pos n d vs : (1 <= d)%nat -> shape n d vs ->
  Forall (fun s : list R => (1 <= length s)%nat) vs.
Proof. intros Hd (_ & F). eapply Forall_impl; [|exact F]. simpl. intros. lia. Qed.

Lemma each_class2_ok {A} (f : R -> list R -> A -> option (list R * A)) (J : A -> Prop) idx gs ws es :
  length gs = length ws -> length es = length ws -> Forall J es ->
  (forall g w e, In w ws -> In e es -> exists w' e', f g w e = Some (w', e') /\ local idx w w' /\ J e') ->
  exists ws' es', each_class2 N f gs ws es = Some (ws', es') /\ Forall2 (local idx) ws ws' /\
    length es' = length ws /\ Forall J es'.
Proof.
  revert gs es. induction ws as [|w ws IH]; intros [|g gs] [|e es] Hl He HJ Hf; simpl in *; try lia.
  - eexists _, _. split; [reflexivity|]. auto.
  - inversion HJ; subst.
    destruct (Hf g w e (or_introl eq_refl) (or_introl eq_refl)) as (w' & e' & E & L & J').
    destruct (IH gs es) as (ws' & es' & E' & F & L' & FJ); [lia|lia|auto|auto|].
    destruct (n_eq N g zero); rewrite ?E; cbn [bind]; rewrite E'; cbn [bind]; eexists _, _;
      (split; [reflexivity|]); repeat split; try constructor; simpl; auto using local_refl.
Qed.
Lemma sigma_grow_ok a p c Ss : wf_core c -> shape (length (c_ws c)) (c_dim c) Ss ->
  exists e1, sigma_grow N a (Z.to_nat (x_dim (R:=R) p)) c Ss
     = Some (linear_update_dim N (Z.to_nat (x_dim p)) c, e1) /\
   shape (length (c_ws c)) (Nat.max (c_dim c) (Z.to_nat (x_dim p))) e1.
Proof. intros. now apply lin_grow_shape. Qed.

Lemma arow_step_ok r eta bias p c g w Sg : wf_point 0 p -> wf_core c -> In w (c_ws c) ->
  length Sg = c_dim c ->
  exists w' Sg', arow_step N r eta bias (feats p) g w Sg = Some (w', Sg') /\
    local (p_idx p) w w' /\ length Sg' = c_dim c.
Proof.
  intros Hp Hc Hw HS. destruct (wf_len c w Hc Hw) as (Lw & L1). unfold arow_step.
  rewrite (sigma_w_step_spec N) by (auto using fs; lia). cbn [bind].
  rewrite (arow_sigma_spec N) by (auto using fs; lia). cbn [bind]. eexists _, _.
  split; [reflexivity|]. rewrite <- ff by auto. split; [apply local_pstep|].
  now rewrite pstep_length.
Qed.
Lemma cw_step_ok tmp eta bias p c g w Sg : wf_point 0 p -> wf_core c -> In w (c_ws c) ->
  length Sg = c_dim c ->
  exists w' Sg', cw_step N tmp eta bias (feats p) g w Sg = Some (w', Sg') /\
    local (p_idx p) w w' /\ length Sg' = c_dim c.
Proof.
  intros Hp Hc Hw HS. destruct (wf_len c w Hc Hw) as (Lw & L1). unfold cw_step.
  rewrite (sigma_w_step_spec N) by (auto using fs; lia). cbn [bind].
  rewrite (cw_sigma_spec N) by (auto using fs; lia). cbn [bind]. eexists _, _.
  split; [reflexivity|]. rewrite <- ff by auto. split; [apply local_pstep|].
  now rewrite pstep_length.
Qed.
Lemma ada_fobos_step_ok delta eta bias p c g w H : wf_point 0 p -> wf_core c -> In w (c_ws c) ->
  length H = c_dim c ->
  exists w' H', ada_fobos_step N delta eta bias (feats p) g w H = Some (w', H') /\
    local (p_idx p) w w' /\ length H' = c_dim c.
Proof.
  intros Hp Hc Hw HS. destruct (wf_len c w Hc Hw) as (Lw & L1). unfold ada_fobos_step.
  rewrite (ada_H_spec N) by (auto using fs; lia). cbn [bind].
  rewrite (ada_w_step_spec N) by (auto using fs; rewrite ?pstep_length; lia). cbn [bind].
  eexists _, _. split; [reflexivity|]. rewrite <- ff by auto. split; [apply local_pstep|].
  now rewrite pstep_length.
Qed.

(** The update loop over classes with one extra vector each. *)
Lemma conf_update_ok f (p : point R) c c1 Ss : wf_point 0 p -> wf_core c ->
  c_ws c1 = c_ws c -> c_g c1 = c_g c -> framed (local (p_idx p)) c c1 ->
  shape (length (c_ws c)) (c_dim c) Ss ->
  (forall g w Sg, In w (c_ws c) -> length Sg = c_dim c ->
     exists w' Sg', f g w Sg = Some (w', Sg') /\ local (p_idx p) w w' /\ length Sg' = c_dim c) ->
  exists c' Ss', (do (ws, Ss') <- each_class2 N f (c_g c1) (c_ws c1) Ss; Some (set_ws c1 ws, Ss'))
      = Some (c', Ss') /\ framed (local (p_idx p)) c c' /\ shape (length (c_ws c)) (c_dim c) Ss'.
Proof.
  intros Hp Hc W1 G1 F1 (L & FS) Hf.
  destruct (each_class2_ok f (len_is (c_dim c)) (p_idx p) (c_g c1) (c_ws c1) Ss)
    as (ws' & Ss' & E & F & L' & FJ).
  - rewrite W1, G1. now apply wf_glen.
  - now rewrite W1.
  - exact FS.
  - intros g w Sg Hw HSg. rewrite W1 in Hw. apply Hf; auto. rewrite Forall_forall in FS. auto.
  - rewrite E. cbn [bind]. eexists _, _. split; [reflexivity|]. split.
    + eapply framed_trans; [apply wrel_local|exact F1|]. now apply framed_set_ws.
    + split; auto. now rewrite L', W1.
Qed.

Lemma arow_update_ok r p loss c Ss : wf_point 0 p -> wf_core c ->
  shape (length (c_ws c)) (c_dim c) Ss ->
  exists c' Ss', arow_update N r p loss c Ss = Some (c', Ss') /\
    framed (local (p_idx p)) c c' /\ shape (length (c_ws c)) (c_dim c) Ss'.
Proof.
  intros Hp Hc He. unfold arow_update, arow_eta.
  destruct (variance_ok (feats p) (negb (n_eq N (c_b0 c) zero)) (c_g c) Ss zero) as (v & ->).
  { now apply fs. }
  { rewrite (wf_glen c Hc). destruct He as (L & _). lia. }
  { apply (shape_pos _ _ _ (proj1 Hc) He). }
  cbn [bind]. cbv zeta.
  eapply conf_update_ok; try apply framed_set_eta, wrel_local; eauto.
  intros. now apply arow_step_ok.
Qed.
Lemma conf_safe a h upd :
  (forall p c Ss, wf_point 0 p -> wf_core c -> shape (length (c_ws c)) (c_dim c) Ss ->
     handler_ok (length (c_ws c)) (h c Ss p)) ->
  (forall p loss c Ss, wf_point 0 p -> wf_core c -> shape (length (c_ws c)) (c_dim c) Ss ->
    exists c' Ss', upd p loss c Ss = Some (c', Ss') /\
    framed (local (p_idx p)) c c' /\ shape (length (c_ws c)) (c_dim c) Ss') ->
  safe N 0 (mkalg (sigma_grow N a) begin_none reg_begin_none prep_none h upd reg_end_none end_none)
    shape local.
Proof.
  intros Hh Hu. split; [intros; apply wrel_local|]. split.
  { intros p c e Hp Hc He. destruct (sigma_grow_ok a p c e Hc He) as (e1 & E & S1).
    exists e1, e1. auto. }
  split.
  { intros. exists c, e. repeat split; auto; try apply H2. apply Forall2_refl, local_refl. }
  split; [intros; now apply Hh|]. split.
  { intros p loss c e Hp Hc Hd He. now apply Hu. }
  intros. exists e. auto.
Qed.
Lemma safe_arow r : safe N 0 (arow N r) shape local.
Proof. apply conf_safe; [intros; exact I|]. intros. now apply arow_update_ok. Qed.
Lemma cw_handler_ok phi bo p c Ss : wf_point 0 p -> wf_core c ->
  shape (length (c_ws c)) (c_dim c) Ss -> handler_ok (length (c_ws c)) (cw_handler N phi bo c Ss p).
Proof.
  intros Hp Hc He g Hg.
  destruct (variance_ok (feats p) bo g Ss zero) as (v & ->).
  { now apply fs. }
  { destruct He as (L & _). lia. }
  { apply (shape_pos _ _ _ (proj1 Hc) He). }
  cbn [bind]. eauto.
Qed.
Lemma safe_cw a phi bo : safe N 0 (cw N a phi bo) shape local.
Proof.
  apply conf_safe; [intros; now apply cw_handler_ok|]. intros. unfold cw_update. cbv zeta.
  eapply conf_update_ok; try apply framed_set_eta, wrel_local; eauto.
  intros. now apply cw_step_ok.
Qed.
Lemma safe_eccw a phi bo : safe N 0 (eccw N a phi bo) shape local.
Proof.
  apply conf_safe; [intros; now apply cw_handler_ok|]. intros. unfold eccw_update. cbv zeta.
  eapply conf_update_ok; try apply framed_set_eta, wrel_local; eauto.
  intros. now apply cw_step_ok.
Qed.
Lemma ada_fobos_update_ok delta p loss c Ss : wf_point 0 p -> wf_core c ->
  shape (length (c_ws c)) (c_dim c) Ss ->
  exists c' Ss', ada_fobos_update N delta p loss c Ss = Some (c', Ss') /\
    framed (local (p_idx p)) c c' /\ shape (length (c_ws c)) (c_dim c) Ss'.
Proof.
  intros. unfold ada_fobos_update.
  eapply conf_update_ok; try apply framed_refl, wrel_local; eauto.
  intros. now apply ada_fobos_step_ok.
Qed.
Lemma safe_ada_fobos delta : safe N 0 (ada_fobos N delta) shape local.
Proof. apply conf_safe; [intros; exact I|]. intros. now apply ada_fobos_update_ok. Qed.

Lemma ada_fobos_l1_prep_ok p c Hs z : wf_point 0 p -> wf_core c ->
  shape (length (c_ws c)) (c_dim c) Hs -> length (z_last z) = c_dim c ->
  exists c', ada_fobos_l1_prep N p c (Hs, z) = Some (c', (Hs, z)) /\ framed (local (p_idx p)) c c'.
Proof.
  intros Hp Hc (L & FH) Hz. unfold ada_fobos_l1_prep.
  rewrite (zip_class_spec _ (fun w H =>
     let w1 := smap (fun i _ _ => op_trunc N (nth i w zero)
       (n_div N (n_mul N (n_mul N (c_eta c) (z_lambda z))
          (n_sub N (n_int N (c_iter c - 1)) (nth i (z_last z) zero))) (nth i H zero))) (feats p) w in
     upd 0 (op_trunc N (nth 0 w1 zero)
        (n_div N (n_mul N (bias_eta N c) (z_lambda z)) (nth 0 H zero))) w1)).
  - cbn [bind]. eexists. split; [reflexivity|]. apply framed_set_ws. apply Forall2_zipc'; auto.
    intros w u _ _. cbv zeta. eapply local_trans; [|apply (local_upd0 N)]. rewrite <- ff by auto.
    apply (local_smap N).
  - auto.
  - intros w u Hw Hu. destruct (wf_len c w Hc Hw) as (Lw & L1). rewrite Forall_forall in FH.
    pose proof (FH u Hu) as Lu.
    rewrite (calc_sparse zero _ (feats p));
      [|simpl; auto | reflexivity | now apply fs | simpl; repeat split; auto; try lia].
    cbn [bind]. rewrite (rd0 N) by lia. cbn [bind].
    rewrite (upd0_spec N) by (rewrite smap_length; lia). reflexivity.
Qed.
Lemma safe_ada_fobos_l1 delta : safe N 0 (ada_fobos_l1 N delta)
  (fun n d s => shape n d (fst s) /\ length (z_last (snd s)) = d) local.
Proof.
  split; [intros; apply wrel_local|]. split.
  { intros p c (Hs, z) Hp Hc (HS & Hz). cbn in HS, Hz.
    destruct (sigma_grow_ok delta p c Hs Hc HS) as (e1 & E & S1).
    unfold ada_fobos_l1. cbn [a_grow a_reg_begin fst snd]. rewrite E. cbn [bind].
    eexists _, _. split; [reflexivity|]. split; [reflexivity|]. cbn. split; auto.
    rewrite lazy_begin_len, Hz. reflexivity. }
  split.
  { intros p c (Hs, z) Hp Hc Hd (HS & Hz). cbn in HS, Hz.
    destruct (ada_fobos_l1_prep_ok p c Hs z Hp Hc HS Hz) as (c' & E & F). exists c', (Hs, z). auto. }
  split; [intros; exact I|]. split.
  { intros p loss c (Hs, z) Hp Hc Hd (HS & Hz). cbn in HS, Hz.
    destruct (ada_fobos_update_ok delta p loss c Hs Hp Hc HS) as (c' & Hs' & E & F & S1).
    unfold ada_fobos_l1. cbn [a_update fst snd]. rewrite E. cbn [bind]. exists c', (Hs', z). auto. }
  intros p it n d (Hs, z) Hp Hd Hx (HS & Hz). cbn in HS, Hz.
  destruct (lazy_end_ok p it z d Hp Hd Hx Hz) as (z' & E & L).
  unfold ada_fobos_l1. cbn [a_reg_end fst snd]. rewrite E. cbn [bind]. exists (Hs, z'). auto.
Qed.

(** ** AdaRDA *)
Definition shape2 (n d : nat) (s : list (list R * list R)) : Prop :=
  length s = n /\ Forall (fun Hu => length (fst Hu) = d /\ length (snd Hu) = d) s.
Lemma ada_rda_grow_ok delta p c s : wf_core c -> shape2 (length (c_ws c)) (c_dim c) s ->
  exists e1, ada_rda_grow N delta (Z.to_nat (x_dim (R:=R) p)) c s
     = Some (linear_update_dim N (Z.to_nat (x_dim p)) c, e1) /\
   shape2 (length (c_ws c)) (Nat.max (c_dim c) (Z.to_nat (x_dim p))) e1.
Proof.
  intros Hc (L & F). unfold ada_rda_grow. set (d := Z.to_nat (x_dim p)).
  destruct (Nat.ltb_spec (c_dim c) d); [|rewrite linear_grow_eq by lia].
  - eexists. split; [reflexivity|]. split; [now rewrite map_length|].
    rewrite Forall_forall in *. intros Hu Hin. apply in_map_iff in Hin as (x & <- & Hin).
    destruct (F x Hin). cbn. rewrite !(grow_length (c_dim c)) by (auto; lia). lia.
  - eexists. split; [reflexivity|]. replace (Nat.max (c_dim c) d) with (c_dim c) by lia. split; auto.
Qed.
Lemma ada_rda_step_ok delta eta b0 p c g w s : wf_point 0 p -> wf_core c -> In w (c_ws c) ->
  length (fst s) = c_dim c /\ length (snd s) = c_dim c ->
  exists w' s', ada_rda_step N delta eta b0 (feats p) g w s = Some (w', s') /\
    local (p_idx p) w w' /\ length (fst s') = c_dim c /\ length (snd s') = c_dim c.
Proof.
  intros Hp Hc Hw (L1 & L2). destruct s as (H, u). cbn in L1, L2.
  destruct (wf_len c w Hc Hw) as (Lw & L). unfold ada_rda_step.
  rewrite (ada_H_spec N) by (auto using fs; lia). cbn [bind].
  rewrite (ut_step_spec N) by (auto using fs; lia). cbn [bind].
  rewrite (ada_rda_assign_spec N) by (auto using fs; rewrite ?pstep_length; lia). cbn [bind].
  eexists _, _. split; [reflexivity|]. rewrite <- ff by auto. split; [apply local_pstep|].
  cbn [fst snd]. rewrite !pstep_length. auto.
Qed.
Lemma ada_rda_update_ok delta p loss c s : wf_point 0 p -> wf_core c ->
  shape2 (length (c_ws c)) (c_dim c) s ->
  exists c' s', ada_rda_update N delta p loss c s = Some (c', s') /\
    framed (local (p_idx p)) c c' /\ shape2 (length (c_ws c)) (c_dim c) s'.
Proof.
  intros Hp Hc (L & FS). unfold ada_rda_update.
  destruct (each_class2_ok (ada_rda_step N delta (c_eta c) (c_b0 c) (feats p))
    (fun Hu => length (fst Hu) = c_dim c /\ length (snd Hu) = c_dim c) (p_idx p) (c_g c) (c_ws c) s)
    as (ws' & s' & E & F & L' & FJ); auto.
  - now apply wf_glen.
  - intros g w e Hw Hin. rewrite Forall_forall in FS. now apply ada_rda_step_ok; auto.
  - rewrite E. cbn [bind]. eexists _, _. split; [reflexivity|]. split.
    + now apply framed_set_ws.
    + split; auto.
Qed.
Lemma ada_rda_like_safe delta prep endf :
  (forall p c s, wf_point 0 p -> wf_core c -> shape2 (length (c_ws c)) (c_dim c) s ->
     exists c', prep p c s = Some (c', s) /\ framed (local (p_idx p)) c c') ->
  safe N 0 (mkalg (ada_rda_grow N delta) begin_none reg_begin_none prep margin_none
     (ada_rda_update N delta) reg_end_none endf) shape2 local.
Proof.
  intros Hprep. split; [intros; apply wrel_local|]. split.
  { intros p c e Hp Hc He. destruct (ada_rda_grow_ok delta p c e Hc He) as (e1 & E & S1).
    exists e1, e1. auto. }
  split.
  { intros p c e Hp Hc Hd He. destruct (Hprep p c e Hp Hc He) as (c' & E & F). exists c', e. auto. }
  split; [intros; exact I|]. split.
  { intros p loss c e Hp Hc Hd He. now apply ada_rda_update_ok. }
  intros. exists e. auto.
Qed.
Lemma safe_ada_rda delta : safe N 0 (ada_rda N delta) shape2 local.
Proof.
  apply ada_rda_like_safe. intros. exists c. split; [reflexivity|]. apply framed_refl, wrel_local.
Qed.
Lemma safe_ada_rda_l1 delta lam thresh : safe N 0 (ada_rda_l1 N delta lam thresh) shape2 local.
Proof.
  apply ada_rda_like_safe. intros p c s Hp Hc (L & FS). unfold ada_rda_l1_prep. cbv zeta.
  set (th := n_mul N lam (n_int N (c_iter c))).
  rewrite (zip_class_spec _ (fun w Hu =>
     upd 0 (n_div N (n_mul N (n_opp N (bias_eta N c)) (op_trunc N (nth 0 (snd Hu) zero) th))
             (nth 0 (fst Hu) zero))
       (smap (fun i _ _ => n_div N (n_mul N (n_opp N (c_eta c)) (op_trunc N (nth i (snd Hu) zero) th))
          (nth i (fst Hu) zero)) (feats p) w))).
  - cbn [bind]. eexists. split; [reflexivity|]. apply framed_set_ws. apply Forall2_zipc'; auto.
    intros w u _ _. eapply local_trans; [|apply (local_upd0 N)]. rewrite <- ff by auto.
    apply (local_smap N).
  - auto.
  - intros w u Hw Hu. destruct (wf_len c w Hc Hw) as (Lw & L1). rewrite Forall_forall in FS.
    destruct (FS u Hu) as (Lu1 & Lu2).
    rewrite (calc_sparse zero _ (feats p));
      [|simpl; auto | reflexivity | now apply fs | simpl; repeat split; auto; try lia].
    cbn [bind]. rewrite (rd0 N) by lia. cbn [bind]. rewrite (rd0 N) by lia. cbn [bind].
    rewrite wr_upd by (rewrite smap_length; lia). reflexivity.
Qed.
End P.
