(** Numbers stay numbers: the update of one class, per model. *)
From Coq Require Import Reals Lra.
From Verif Require Import M_Base M_Num M_Expr M_Loss M_Online M_Olm M_OlmSel M_Algs S_Expr S_Online S_Session
  S_Nan P_DataPoint P_Expr P_Online P_Predict P_Step P_Safe P_Real P_Conf2 P_Nan P_Nan2.
Local Open Scope R_scope.

Notation fins := (Forall fin).
Notation xfin := (Forall (fun q : Z * xreal => fin (snd q))).
Definition within (a s : xreal) : Prop := exists x y, a = Some y /\ s = Some x /\ 0 < x <= y.
Definition atleast (d h : xreal) : Prop := exists x y, d = Some y /\ h = Some x /\ y <= x.
Lemma within_pos a s : within a s -> pos s. Proof. intros (x & y & _ & -> & H). exists x. split; [reflexivity|lra]. Qed.
Lemma within_self a : pos a -> within a a. Proof. intros (x & -> & H). exists x, x. repeat split; lra. Qed.
Lemma within_div a s d : within a s -> above 1 d -> within a (n_div Xnum s d).
Proof.
  intros (x & y & -> & -> & H) (z & -> & Hz). cbn. destruct (Req_EM_T z 0); [lra|]. exists (x / z), y. split; [reflexivity|]. split; [reflexivity|].
  assert (Hi : 0 < / z <= 1). { split; [apply Rinv_0_lt_compat; lra|]. rewrite <- Rinv_1. apply Rinv_le_contravar; lra. }
  unfold Rdiv. split; [apply Rmult_lt_0_compat; lra|]. nra.
Qed.
Lemma one_plus a : above 0 a -> above 1 (n_add Xnum (one Xnum) a).
Proof. intros (x & -> & H). exists (1 + x). split; [reflexivity|lra]. Qed.
Lemma atleast_pos d h : pos d -> atleast d h -> pos h.
Proof. intros (x & -> & H) (y & z & E & -> & H'). injection E as ->. exists y. split; [reflexivity|lra]. Qed.
Lemma atleast_self d : pos d -> atleast d d. Proof. intros (x & -> & H). exists x, x. repeat split; lra. Qed.
Lemma atleast_add d s : pos d -> above 0 s -> atleast d (n_add Xnum s d).
Proof. intros (x & -> & H) (y & -> & H'). exists (y + x), x. repeat split; lra. Qed.
Lemma nn_square a : fin a -> above 0 (op_square Xnum a). Proof. apply nn_sq. Qed.
Lemma fin_abs_nn a : fin a -> fin (op_square Xnum a). Proof. intros. now apply above_fin with 0, nn_square. Qed.
Global Hint Resolve fin_abs_nn : num.

Ltac two P Q := exists P, Q; split; [|split].
Ltac vf := repeat match goal with
  | |- vals fin (EScalar _) => cbn [vals]; auto with num
  | |- vals fin (EDense _) => cbn [vals]; assumption
  | |- vals fin (ESparse _) => cbn [vals]; assumption
  | |- vals fin (eslice _ _) => two fin fin; [ | |intros; cbn [op_left]; assumption]
  | |- vals fin (eL2 _ _) => exists fin; split; [|intros; cbv beta; auto with num]
  | |- vals fin (eL1 _ _) => exists fin; split; [|intros; cbv beta; auto with num]
  | |- vals fin (ediv _ _ _) => fail 1
  | |- vals fin _ => two fin fin; [ | |intros; cbv beta; auto with num]
  end.

Lemma upd0_fin f l l' : fins l -> (forall b, fin b -> fin (f b)) -> upd0 f l = Some l' -> fins l'.
Proof. apply upd0_vals. Qed.
Lemma assign_vals (P : xreal -> Prop) l e l' : Forall P l -> vals P e -> calc assign l e = Some l' -> Forall P l'.
Proof. intros Hl He E. eapply calc_vals; [exact Hl|exact He| |exact E]. intros. assumption. Qed.

(* ------------------------------------------------------------- first order *)
Lemma grad_step_fin eta bias x g w w' : fin eta -> fin bias -> fin g -> fins w -> xfin x ->
  grad_step Xnum eta bias x g w = Some w' -> fins w'.
Proof.
  intros He Hb Hg Hw Hx E. unfold grad_step in E. dob E Q1. eapply upd0_fin; [| |exact E]; [|intros; cbv beta; auto with num].
  eapply (calc_vals fin fin); [exact Hw| | |exact Q1]; [vf|intros; cbv beta; auto with num].
Qed.
Lemma perceptron_step_fin bias x g w w' : fin bias -> fin g -> fins w -> xfin x ->
  perceptron_step Xnum bias x g w = Some w' -> fins w'.
Proof.
  intros Hb Hg Hw Hx E. unfold perceptron_step in E. dob E Q1. eapply upd0_fin; [| |exact E]; [|intros; cbv beta; auto with num].
  eapply (calc_vals fin fin); [exact Hw| | |exact Q1]; [vf|intros; cbv beta; auto with num].
Qed.
Lemma ut_step_fin x g u u' : fin g -> fins u -> xfin x -> ut_step Xnum x g u = Some u' -> fins u'.
Proof.
  intros Hg Hw Hx E. unfold ut_step in E. dob E Q1. eapply upd0_fin; [| |exact E]; [|intros; cbv beta; auto with num].
  eapply (calc_vals fin fin); [exact Hw| | |exact Q1]; [vf|intros; cbv beta; auto with num].
Qed.
Lemma norm2_nn e n : vals fin e -> norm2 Xnum e = Some n -> above 0 n.
Proof.
  intros He E. unfold norm2 in E. eapply (reduce_vals Xnum (above 0) (above 0)); [| | |exact E].
  - exists fin. split; [exact He|]. intros. now apply nn_square.
  - apply nn_zero.
  - intros. now apply nn_add.
Qed.
Lemma alma_step_fin eta bias x g w w' : fin eta -> fin bias -> fin g -> fins w -> xfin x ->
  alma_step Xnum eta bias x g w = Some w' -> fins w'.
Proof.
  intros He Hb Hg Hw Hx E. unfold alma_step in E. dob E Q1. assert (H1 : fins l) by exact (grad_step_fin _ _ _ _ _ _ He Hb Hg Hw Hx Q1). dob E Q2.
  assert (Hn : above 0 x0) by (eapply norm2_nn; [|exact Q2]; exact H1). apply nn_sqrt in Hn as (s & Es & Hs). rewrite Es in E.
  destruct (n_lt Xnum (one Xnum) (Some s)) eqn:El; [|now injection E as <-]. apply Xlt in El.
  assert (Hz : nz (Some s)) by (exists s; split; [reflexivity|lra]).
  apply (calc_vals fin (fun y => y = Some s) (n_div Xnum) l (EScalar (Some s)) w' H1 eq_refl); [|exact E]. intros a b Ha ->. now apply fin_div.
Qed.
Lemma fofs_step_fin lam eta bias x g w w' : pos lam -> fin eta -> fin bias -> fin g -> fins w -> xfin x ->
  fofs_step Xnum lam eta bias x g w = Some w' -> fins w'.
Proof.
  intros Hl He Hb Hg Hw Hx E. unfold fofs_step in E. cbv zeta in E. dob E Q0.
  assert (H0 : fins l). { eapply (calc_vals fin fin); [exact Hw| | |exact Q0]; [|intros; cbv beta; auto with num]. cbn [vals]. auto with num. }
  dob E Q1. assert (H1 : fins l0) by (eapply grad_step_fin; [| | | | |exact Q1]; assumption). dob E Q2.
  match type of E with (if n_lt _ ?cf _ then _ else _) = _ => set (coeff := cf) in *; destruct (n_lt Xnum coeff (one Xnum)) eqn:El end; [|now injection E as <-].
  assert (Hc : fin coeff). { destruct coeff as [z|]; [now exists z|discriminate]. }
  apply (calc_vals fin fin (n_mul Xnum) l0 (EScalar coeff) w' H1 Hc); [|exact E]. intros; cbv beta; auto with num.
Qed.
Lemma ogd_pow_nz t it : fin t -> (1 <= it)%Z -> nz (ogd_pow Xnum t it).
Proof.
  intros (x & ->) Hi. unfold ogd_pow. destruct (n_eq _ _ _); [apply nz_one|]. destruct (n_eq _ _ _); [apply pos_nz, pos_sqrt, pos_int; lia|].
  destruct (n_eq _ _ _); [apply pos_nz, pos_int; lia|]. cbn. destruct (Rle_dec (IZR it) 0) as [Hc|_].
  - apply IZR_le in Hi. lra.
  - eexists. split; [reflexivity|]. unfold Rpower. apply Rgt_not_eq, exp_pos.
Qed.

(* ------------------------------------------------------------- truncation *)
Lemma stg_trunc_fin k alpha t idx : forall w last w' last', fin alpha -> fins w -> fins last ->
  stg_trunc Xnum k alpha t idx w last = Some (w', last') -> fins w' /\ fins last'.
Proof.
  induction idx as [|i idx IH]; intros w last w' last' Ha Hw Hl E; cbn [stg_trunc] in E; [injection E as <- <-; auto|].
  dob E Q1. cbv zeta in E. destruct (_ <? k)%Z; [eauto|]. dob E Q2. dob E Q3. dob E Q4.
  apply (IH _ _ _ _ Ha) in E; auto.
  - eapply wr_vals; [exact Hw| |exact Q3]. apply fin_trunc; [eapply (rd_vals fin); [|eassumption]; assumption|auto with num].
  - eapply wr_vals; [exact Hl| |exact Q4]. apply fin_add; [eapply (rd_vals fin); [|eassumption]; assumption|auto with num].
Qed.
Lemma stg_classes_fin k alpha lam bias t idx : fin alpha -> fin lam -> fin bias -> forall ws last ws' last', Forall fins ws -> fins last ->
  stg_classes Xnum k alpha lam bias t idx ws last = Some (ws', last') -> Forall fins ws' /\ fins last'.
Proof.
  intros Ha Hm Hb. induction ws as [|w ws IH]; intros last ws' last' Hw Hl E; cbn [stg_classes] in E; [injection E as <- <-; auto|].
  dob E Q1. destruct p as (w1, l1). dob E Q2. dob E Q3. dob E Q4. destruct p as (r, l3). injection E as <- <-. inversion Hw; subst.
  destruct (stg_trunc_fin _ _ _ _ _ _ _ _ Ha H1 Hl Q1) as (A & B).
  assert (C : fins l). { eapply upd0_fin; [exact A| |exact Q2]. intros; cbv beta; auto with num. }
  assert (D : fins l0). { eapply wr_vals; [exact B| |exact Q3]. auto with num. }
  destruct (IH _ _ _ H2 D Q4) as (F & G). split; auto.
Qed.
Lemma fin_set_all idx v : forall l l', fin v -> fins l -> set_all idx v l = Some l' -> fins l'.
Proof.
  induction idx as [|i idx IH]; intros l l' Hv Hl E; cbn [set_all] in E; [now injection E as <-|]. dob E Q1.
  eapply IH; [exact Hv| |exact E]. eapply wr_vals; eauto.
Qed.
Definition lazy_ok (z : lazy_l1 (R:=xreal)) : Prop := fin (z_lambda z) /\ fin (z_t0 z) /\ fins (z_last z).
Lemma lazy_begin_ok p z : lazy_ok z -> lazy_ok (lazy_begin p z).
Proof.
  intros (A & B & C). unfold lazy_begin. destruct (_ <? _)%Z; split; auto. split; auto. cbn. now apply grow_vals.
Qed.
Lemma lazy_end_ok p it z z' : lazy_ok z -> lazy_end Xnum p it z = Some z' -> lazy_ok z'.
Proof.
  intros (A & B & C) E. unfold lazy_end in E. cbv zeta in E. dob E Q1. dob E Q2. injection E as <-. split; [exact A|]. split; [exact B|]. cbn [z_last].
  eapply wr_vals; [|apply fin_int|exact Q2]. eapply fin_set_all; [|exact C|exact Q1]. auto with num.
Qed.
Lemma finalize_fin th w : fins w -> fins (finalize_l1 Xnum th w).
Proof. intros H. unfold finalize_l1. rewrite Forall_map. eapply Forall_impl; [|exact H]. intros a Ha. cbn beta. destruct (_ && _)%bool; auto with num. Qed.

(* ------------------------------------------------------------- second order *)
Lemma sigma_w_step_fin a eta bias x g w Sg w' : fin eta -> fin bias -> fin g -> fins w -> Forall (within a) Sg -> xfin x ->
  sigma_w_step Xnum eta bias x g w Sg = Some w' -> fins w'.
Proof.
  intros He Hb Hg Hw HS Hx E. assert (HS' : fins Sg) by (eapply Forall_impl; [|exact HS]; intros s Hs; apply pos_fin; eapply within_pos; eauto).
  unfold sigma_w_step in E. dob E Q1. dob E Q2. assert (Hs0 : fin x0) by (eapply (rd_vals fin); [|eassumption]; assumption).
  eapply upd0_fin; [| |exact E]; [|intros; cbv beta; auto with num]. eapply (calc_vals fin fin); [exact Hw| | |exact Q1]; [vf|intros; cbv beta; auto with num].
Qed.
Lemma arow_sigma_ok a r x g Sg Sg' : pos r -> fin g -> Forall (within a) Sg -> xfin x ->
  arow_sigma Xnum r x g Sg = Some Sg' -> Forall (within a) Sg'.
Proof.
  intros Hr Hg HS Hx E. unfold arow_sigma in E. cbv zeta in E. dob E Q1.
  assert (Hr1 : above 0 (n_div Xnum (n_mul Xnum g g) r)).
  { destruct Hr as (y & -> & Hy). destruct Hg as (u & ->). cbn. destruct (Req_EM_T y 0); [lra|]. eexists. split; [reflexivity|].
    apply Rmult_le_pos; [nra|]. left. now apply Rinv_0_lt_compat. }
  assert (Hs : forall s, within a s -> above 0 s) by (intros s Hs; apply pos_above; eapply within_pos; eauto).
  eapply upd0_vals; [| |exact E].
  - eapply (calc_vals (within a) (above 1)); [exact HS| | |exact Q1]; [|intros; now apply within_div].
    two (fun y => y = one Xnum) (above 0); [reflexivity| |intros u v -> Hv; now apply one_plus].
    two (above 0) (above 0); [|exact Hr1|intros; now apply nn_mul].
    two (within a) (above 0); [exact HS| |intros u v Hu Hv; apply nn_mul; auto].
    exists fin. split; [exact Hx|]. intros; now apply nn_square.
  - intros b Hb. apply within_div; [exact Hb|]. apply one_plus. apply nn_mul; auto.
Qed.
Lemma cw_sigma_ok a t x Sg Sg' : above 0 t -> Forall (within a) Sg -> xfin x ->
  cw_sigma Xnum t x Sg = Some Sg' -> Forall (within a) Sg'.
Proof.
  intros Ht HS Hx E. unfold cw_sigma in E. dob E Q1.
  assert (Hs : forall s, within a s -> above 0 s) by (intros s Hs; apply pos_above; eapply within_pos; eauto).
  eapply upd0_vals; [| |exact E].
  - eapply (calc_vals (within a) (above 1)); [exact HS| | |exact Q1]; [|intros; now apply within_div].
    two (fun y => y = one Xnum) (above 0); [reflexivity| |intros u v -> Hv; now apply one_plus].
    two (above 0) (above 0); [| |intros; now apply nn_mul].
    + two (above 0) (within a); [exact Ht|exact HS|intros u v Hu Hv; apply nn_mul; auto].
    + exists fin. split; [exact Hx|]. intros; now apply nn_square.
  - intros b Hb. apply within_div; [exact Hb|]. apply one_plus. apply nn_mul; auto.
Qed.
Lemma ada_H_ok d x g H H' : pos d -> fin g -> Forall (atleast d) H -> xfin x -> ada_H Xnum d x g H = Some H' -> Forall (atleast d) H'.
Proof.
  intros Hd Hg HH Hx E. unfold ada_H in E. dob E Q1.
  assert (Hs : forall s, atleast d s -> fin s) by (intros s Hs; apply pos_fin; eapply atleast_pos; eauto).
  eapply upd0_vals; [| |exact E].
  - eapply assign_vals; [exact HH| |exact Q1].
    two (above 0) (fun y => y = d); [|reflexivity|intros u v Hu ->; now apply atleast_add].
    exists (above 0). split; [|intros; now apply nn_sqrt].
    two (above 0) (above 0); [| |intros; now apply nn_add].
    + exists fin. split; [|intros; now apply nn_square]. two (atleast d) (fun y => y = d); [exact HH|reflexivity|intros u v Hu ->; apply fin_sub; auto with num].
    + exists fin. split; [|intros; now apply nn_square]. vf.
  - intros b Hb. apply atleast_add; [exact Hd|]. apply nn_sqrt, nn_add; apply nn_sq; auto with num.
Qed.
Lemma ada_w_step_fin d eta bias x g w H w' : pos d -> fin eta -> fin bias -> fin g -> fins w -> Forall (atleast d) H -> xfin x ->
  ada_w_step Xnum eta bias x g w H = Some w' -> fins w'.
Proof.
  intros Hd He Hb Hg Hw HH Hx E. unfold ada_w_step in E. dob E Q1. dob E Q2.
  assert (Hh : nz x0). { apply pos_nz. eapply atleast_pos; [exact Hd|]. eapply (rd_vals (atleast d)); [|eassumption]; assumption. }
  eapply upd0_fin; [| |exact E].
  - eapply (calc_vals fin fin); [exact Hw| | |exact Q1]; [|intros; cbv beta; auto with num].
    two fin (atleast d); [vf|exact HH|]. intros u v Hu Hv. apply fin_div; [exact Hu|]. apply pos_nz. eapply atleast_pos; eauto.
  - intros b Hb'. apply fin_sub; [exact Hb'|]. apply fin_div; auto with num.
Qed.
Lemma ada_rda_assign_fin d eta b0 e w H w' : pos d -> fin eta -> fin b0 -> vals fin e -> fins w -> Forall (atleast d) H ->
  ada_rda_assign Xnum eta b0 e w H = Some w' -> fins w'.
Proof.
  intros Hd He Hb Hv Hw HH E. unfold ada_rda_assign in E. dob E Q1. eapply upd0_fin; [| |exact E]; [|intros; cbv beta; auto with num].
  eapply assign_vals; [exact Hw| |exact Q1]. two fin (atleast d); [|exact HH|].
  - two fin fin; [cbn [vals]; auto with num|exact Hv|intros; cbv beta; auto with num].
  - intros u v Hu Hv'. apply fin_div; [exact Hu|]. apply pos_nz. eapply atleast_pos; eauto.
Qed.

(* ------------------------------------------------------------- variance *)
Lemma drop_ge_suffix {A} n (l : list (Z * A)) : exists t, l = t ++ drop_ge n l.
Proof. induction l as [|(i, v) l (t & IH)]; [now exists []|]. cbn. destruct (_ <=? _)%Z; [exists ((i, v) :: t); cbn; congruence|now exists []]. Qed.
Lemma trim_prefix {A} n (l : list (Z * A)) : exists t, l = trim_tail n l ++ t.
Proof.
  unfold trim_tail. destruct (drop_ge_suffix n (rev l)) as (t & E). exists (rev t). rewrite <- rev_app_distr, <- E. now rewrite rev_involutive.
Qed.
Lemma drop_ge_map {A B} n (f : A -> B) (l : list (Z * A)) :
  drop_ge n (map (fun q => (fst q, f (snd q))) l) = map (fun q => (fst q, f (snd q))) (drop_ge n l).
Proof. induction l as [|(i, v) l IH]; [reflexivity|]. cbn. destruct (_ <=? _)%Z; auto. Qed.
Lemma trim_map {A B} n (f : A -> B) (l : list (Z * A)) :
  trim_tail n (map (fun q => (fst q, f (snd q))) l) = map (fun q => (fst q, f (snd q))) (trim_tail n l).
Proof. unfold trim_tail. now rewrite <- map_rev, drop_ge_map, map_rev. Qed.
Lemma trim_all {A} n (l : list (Z * A)) : Forall (fun q => fst q < Z.of_nat n)%Z l -> trim_tail n l = l.
Proof.
  intros H. unfold trim_tail. apply Forall_rev in H. rewrite <- (rev_involutive l) at 2. f_equal.
  destruct (rev l) as [|(i, v) r]; [reflexivity|]. cbn. inversion H; subst. cbn in *. destruct (Z.leb_spec (Z.of_nat n) i); [lia|reflexivity].
Qed.
Lemma sq_sum_app l m : sq_sum (l ++ m) = sq_sum l + sq_sum m.
Proof. induction l as [|a l IH]; unfold sq_sum in *; cbn [app fold_right]; [lra|]. rewrite IH. lra. Qed.
Lemma dot_sq_loop a Sg : Forall (within (Some a)) Sg -> forall xs v0 r, xfin xs ->
  dot_loop Xnum (n_mul Xnum) (EDense Sg) (Some v0) (map (fun q => (fst q, Some (op_square Xnum (snd q)))) xs) = Some r ->
  exists v, r = Some v /\ v0 <= v /\ (0 < a -> v <= v0 + a * sq_sum (map snd xs)) /\ (Exists (fun q => nz (snd q)) xs -> v0 < v).
Proof.
  intros HS. induction xs as [|(i, y) xs IH]; intros v0 r Hx E; cbn [map dot_loop] in E.
  - injection E as <-. exists v0. split; [reflexivity|]. split; [lra|]. split; [cbn; lra|]. intros H; inversion H.
  - cbn [fst snd] in E. dob E Q1. cbn [bind] in E. inversion Hx; subst. cbn [snd] in *. destruct H1 as (u & ->).
    cbn [at_] in Q1. pose proof (rd_vals _ _ _ _ HS Q1) as (s & a' & Ea & -> & Hs). injection Ea as <-.
    change (dot_loop Xnum (n_mul Xnum) (EDense Sg) (Some (v0 + s * (u * u))) (map (fun q => (fst q, Some (op_square Xnum (snd q)))) xs) = Some r) in E.
    destruct (IH (v0 + s * (u * u)) r H2 E) as (v & -> & B1 & B2 & B3). exists v. split; [reflexivity|].
    assert (Hu : 0 <= u * u) by nra. split; [nra|]. split.
    + intros Ha. specialize (B2 Ha). unfold sq_sum in *. cbn [map fold_right snd]. assert (s * (u * u) <= a * (u * u)) by nra. lra.
    + intros He. inversion He; subst; [|specialize (B3 H0); nra]. destruct H0 as (u' & Eu & Hu'). cbn in Eu. injection Eu as <-.
      assert (0 < u * u) by nra. assert (0 < s * (u * u)) by (apply Rmult_lt_0_compat; lra). lra.
Qed.
Lemma dot_bounds a Sg x d : 0 < a -> Forall (within (Some a)) Sg -> xfin x -> dotmul Xnum Sg (eL2 Xnum (ESparse x)) = Some d ->
  exists v, d = Some v /\ 0 <= v <= a * sq_sum (map snd x) /\
    (Exists (fun q => nz (snd q)) x -> Forall (fun q => fst q < Z.of_nat (length Sg))%Z x -> 0 < v).
Proof.
  intros Ha HS Hx E. unfold dotmul, dot_sparse in E. dob E Q1. dob E Q2.
  assert (El : l = map (fun q => (fst q, Some (op_square Xnum (snd q)))) x).
  { unfold eL2 in Q2. cbn [sparse_items bind] in Q2. apply some_inj in Q2. rewrite <- Q2, map_map. apply map_ext. now intros (i, v). }
  rewrite El, (trim_map _ (fun v => Some (op_square Xnum v))) in E. clear El Q2.
  assert (Hn : forall n, xfin (trim_tail n x)).
  { intros m. destruct (trim_prefix m x) as (t & Et). rewrite Et in Hx. now apply Forall_app in Hx. }
  cbn in Q1. injection Q1 as <-.
  destruct (dot_sq_loop a Sg HS _ 0 d (Hn _) E) as (v & -> & B1 & B2 & B3). exists v. split; [reflexivity|]. split.
  - split; [exact B1|]. specialize (B2 Ha). destruct (trim_prefix (length Sg) x) as (t & Et).
    assert (sq_sum (map snd (trim_tail (length Sg) x)) <= sq_sum (map snd x)).
    { rewrite Et at 2. rewrite map_app, sq_sum_app. pose proof (sq_sum_nonneg (map snd t)). lra. }
    nra.
  - intros He Hb. rewrite trim_all in B3 by exact Hb. auto.
Qed.
Lemma variance_bounds a x b : 0 < a -> xfin x -> forall gs Ss acc v0 v, Forall (Forall (within (Some a))) Ss -> fins gs ->
  acc = Some v0 -> variance Xnum x b gs Ss acc = Some v ->
  exists v1, v = Some v1 /\ v0 <= v1 <= v0 + a * (sq_sum (map snd x) + 1) * sq_sum gs /\
    (Exists nz gs -> (b = true \/ Exists (fun q => nz (snd q)) x) -> Forall (fun Sg => Forall (fun q => fst q < Z.of_nat (length Sg))%Z x) Ss -> v0 < v1).
Proof.
  intros Ha Hx. pose proof (sq_sum_nonneg (map snd x)) as Hq. induction gs as [|g gs IH]; intros Ss acc v0 v HS Hg Hv E; cbn [variance] in E.
  - injection E as <-. exists v0. split; [exact Hv|]. split; [cbn; lra|]. intros H; inversion H.
  - destruct Ss as [|Sg Ss]; [discriminate|]. inversion HS; subst. inversion Hg; subst. destruct H3 as (g1 & ->).
    assert (Hg2 : 0 <= g1 * g1) by nra.
    assert (Hs : sq_sum (Some g1 :: gs) = g1 * g1 + sq_sum gs) by reflexivity.
    destruct (n_eq Xnum (Some g1) (zero Xnum)) eqn:Eg.
    + cbn in Eg. destruct (Req_EM_T g1 0) as [->|]; [|discriminate].
      destruct (IH _ _ _ _ H2 H4 eq_refl E) as (v1 & -> & B1 & B2). exists v1. split; [reflexivity|]. split; [unfold sq_sum in *; cbn [fold_right]; nra|].
      intros He Hb HF. inversion He; subst; [destruct H0 as (u & Eu & Hu); injection Eu as <-; lra|]. inversion HF; subst. auto.
    + cbn in Eg. destruct (Req_EM_T g1 0) as [|Hnz]; [discriminate|]. assert (Hg3 : 0 < g1 * g1) by nra. cbv zeta in E. dob E Q1.
      destruct (dot_bounds a Sg x x0 Ha H1 Hx Q1) as (d & -> & D1 & D2).
      dob E Q2.
      assert (exists w, x0 = Some w /\ v0 <= w <= v0 + a * (sq_sum (map snd x) + 1) * (g1 * g1) /\
        ((b = true \/ Exists (fun q => nz (snd q)) x) -> Forall (fun q => fst q < Z.of_nat (length Sg))%Z x -> v0 < w)) as (w & -> & W1 & W2).
      { assert (Hd : 0 <= d * (g1 * g1) <= a * sq_sum (map snd x) * (g1 * g1)) by (split; [apply Rmult_le_pos; lra|apply Rmult_le_compat_r; lra]).
        destruct b.
        - dob Q2 Q3. injection Q2 as <-. pose proof (rd_vals _ _ _ _ H1 Q3) as (s0 & a' & Ea & -> & Hs0). injection Ea as <-.
          eexists. split; [reflexivity|]. assert (0 < s0 * (g1 * g1) <= a * (g1 * g1)) by (split; [apply Rmult_lt_0_compat; lra|apply Rmult_le_compat_r; lra]).
          split; [lra|]. intros _ _. lra.
        - injection Q2 as <-. eexists. split; [reflexivity|]. assert (0 < a * (g1 * g1)) by (apply Rmult_lt_0_compat; lra). split; [lra|].
          intros [|He] Hb; [discriminate|]. specialize (D2 He Hb). assert (0 < d * (g1 * g1)) by (apply Rmult_lt_0_compat; lra). lra. }
      destruct (IH _ _ _ _ H2 H4 eq_refl E) as (v1 & -> & B1 & B2). exists v1. split; [reflexivity|]. split; [unfold sq_sum in *; cbn [fold_right]; lra|].
      intros He Hb HF. inversion HF; subst. specialize (W2 Hb H3). lra.
Qed.
