(** Numbers stay numbers: the operations, scores and losses. *)
From Coq Require Import Reals Lra.
From Verif Require Import M_Base M_Num M_Expr M_Loss M_Online M_Olm M_OlmSel M_Algs S_Expr S_Online S_Session
  S_Nan P_DataPoint P_Expr P_Online P_Predict P_Step P_Safe P_Nan.
Local Open Scope R_scope.

Definition nz (a : xreal) : Prop := exists x, a = Some x /\ x <> 0.

(* ------------------------------------------------------------- operations *)
Lemma fin_add a b : fin a -> fin b -> fin (n_add Xnum a b).
Proof. intros (x & ->) (y & ->). eexists. reflexivity. Qed.
Lemma fin_sub a b : fin a -> fin b -> fin (n_sub Xnum a b).
Proof. intros (x & ->) (y & ->). eexists. reflexivity. Qed.
Lemma fin_mul a b : fin a -> fin b -> fin (n_mul Xnum a b).
Proof. intros (x & ->) (y & ->). eexists. reflexivity. Qed.
Lemma fin_opp a : fin a -> fin (n_opp Xnum a).
Proof. intros (x & ->). eexists. reflexivity. Qed.
Lemma fin_exp a : fin a -> fin (n_exp Xnum a).
Proof. intros (x & ->). eexists. reflexivity. Qed.
Lemma fin_div a b : fin a -> nz b -> fin (n_div Xnum a b).
Proof. intros (x & ->) (y & -> & Hy). cbn. destruct (Req_EM_T y 0); [contradiction|]. eexists. reflexivity. Qed.
Lemma fin_sqrt a : above 0 a -> fin (n_sqrt Xnum a).
Proof. intros (x & -> & Hx). cbn. destruct (Rlt_dec x 0); [lra|]. eexists. reflexivity. Qed.
Lemma fin_some x : fin (Some x).
Proof. now exists x. Qed.
Lemma fin_int z : fin (n_int Xnum z).
Proof. eexists. reflexivity. Qed.
Lemma fin_lit m e : fin (n_lit Xnum m e).
Proof. eexists. reflexivity. Qed.
Lemma fin_zero : fin (zero Xnum). Proof. apply fin_int. Qed.
Lemma fin_one : fin (one Xnum). Proof. apply fin_int. Qed.
Lemma fin_fmax : fin (n_fmax Xnum). Proof. eexists. reflexivity. Qed.
Lemma pos_fin a : pos a -> fin a. Proof. intros (x & -> & _). now exists x. Qed.
Lemma pos_nz a : pos a -> nz a. Proof. intros (x & -> & H). exists x. split; [reflexivity|lra]. Qed.
Lemma pos_above a : pos a -> above 0 a. Proof. intros (x & -> & H). exists x. split; [reflexivity|lra]. Qed.
Lemma nz_fin a : nz a -> fin a. Proof. intros (x & -> & _). now exists x. Qed.
Lemma above_fin lo a : above lo a -> fin a. Proof. intros (x & -> & _). now exists x. Qed.
Lemma above_pos lo a : 0 < lo -> above lo a -> pos a.
Proof. intros H (x & -> & Hx). exists x. split; [reflexivity|lra]. Qed.
Lemma pos_add a b : pos a -> above 0 b -> pos (n_add Xnum a b).
Proof. intros (x & -> & Hx) (y & -> & Hy). exists (x + y). split; [reflexivity|lra]. Qed.
Lemma pos_add' a b : above 0 a -> pos b -> pos (n_add Xnum a b).
Proof. intros (x & -> & Hx) (y & -> & Hy). exists (x + y). split; [reflexivity|lra]. Qed.
Lemma pos_mul a b : pos a -> pos b -> pos (n_mul Xnum a b).
Proof. intros (x & -> & Hx) (y & -> & Hy). exists (x * y). split; [reflexivity|nra]. Qed.
Lemma pos_div a b : pos a -> pos b -> pos (n_div Xnum a b).
Proof.
  intros (x & -> & Hx) (y & -> & Hy). cbn. destruct (Req_EM_T y 0); [lra|]. eexists. split; [reflexivity|]. now apply Rdiv_lt_0_compat.
Qed.
Lemma nn_add a b : above 0 a -> above 0 b -> above 0 (n_add Xnum a b).
Proof. intros (x & -> & Hx) (y & -> & Hy). exists (x + y). split; [reflexivity|lra]. Qed.
Lemma nn_mul a b : above 0 a -> above 0 b -> above 0 (n_mul Xnum a b).
Proof. intros (x & -> & Hx) (y & -> & Hy). exists (x * y). split; [reflexivity|nra]. Qed.
Lemma nn_sq a : fin a -> above 0 (n_mul Xnum a a).
Proof. intros (x & ->). exists (x * x). split; [reflexivity|nra]. Qed.
Lemma pos_sqrt a : pos a -> pos (n_sqrt Xnum a).
Proof. intros (x & -> & Hx). cbn. destruct (Rlt_dec x 0); [lra|]. eexists. split; [reflexivity|]. now apply sqrt_lt_R0. Qed.
Lemma nn_sqrt a : above 0 a -> above 0 (n_sqrt Xnum a).
Proof. intros (x & -> & Hx). cbn. destruct (Rlt_dec x 0); [lra|]. eexists. split; [reflexivity|]. apply sqrt_pos. Qed.
Lemma pos_one : pos (one Xnum). Proof. exists 1. split; [reflexivity|lra]. Qed.
Lemma nn_zero : above 0 (zero Xnum). Proof. exists 0. split; [reflexivity|lra]. Qed.
Lemma pos_int z : (0 < z)%Z -> pos (n_int Xnum z).
Proof. intros H. exists (IZR z). split; [reflexivity|]. now apply IZR_lt. Qed.
Lemma nn_int z : (0 <= z)%Z -> above 0 (n_int Xnum z).
Proof. intros H. exists (IZR z). split; [reflexivity|]. now apply IZR_le. Qed.
Lemma pos_lit m e : (0 < m)%Z -> pos (n_lit Xnum m e).
Proof.
  intros H. eexists. split; [reflexivity|]. unfold R_of_dec. apply Rmult_lt_0_compat; [now apply IZR_lt|].
  destruct e; cbn; [lra|apply pow_lt; lra|]. apply Rinv_0_lt_compat. apply pow_lt. lra.
Qed.
Lemma fin_trunc a b : fin a -> fin b -> fin (op_trunc Xnum a b).
Proof. intros Ha Hb. unfold op_trunc. repeat (match goal with |- context [if ?c then _ else _] => destruct c end); auto using fin_add, fin_sub, fin_zero. Qed.
Lemma fin_abs a : fin a -> fin (op_abs Xnum a).
Proof. intros Ha. unfold op_abs. destruct (n_lt _ _ _); auto using fin_opp. Qed.
Lemma fin_max a b : fin a -> fin b -> fin (std_max Xnum a b).
Proof. intros Ha Hb. unfold std_max. now destruct (n_lt _ _ _). Qed.
Lemma max_nn a : fin a -> above 0 (std_max Xnum (zero Xnum) a).
Proof.
  intros (x & ->). unfold std_max. cbn. destruct (Rlt_dec 0 x); [exists x; split; [reflexivity|lra]|apply nn_zero].
Qed.
Lemma some_inj {A} (a b : A) : Some a = Some b -> a = b.
Proof. now injection 1. Qed.
Create HintDb num.
Global Hint Resolve fin_some fin_add fin_sub fin_mul fin_opp fin_exp fin_int fin_lit fin_zero fin_one fin_fmax fin_trunc fin_abs fin_max pos_fin nz_fin : num.

(* ------------------------------------------------------------- expressions *)
Lemma feats_vals (P : xreal -> Prop) (p : point xreal) : Forall P (p_val p) -> Forall (fun q => P (snd q)) (feats p).
Proof.
  unfold feats. generalize (p_idx p). induction (p_val p) as [|v l IH]; intros [|i idx] H; try constructor; inversion H; subst; cbn; auto.
Qed.
Ltac bin Pa Pb := exists Pa, Pb; split; [|split].
Lemma vals_grad P e c x : fin c -> Forall (fun q => fin (snd q)) x -> P = fin -> e = emul Xnum (EScalar c) (ESparse x) -> vals P e.
Proof. intros Hc Hx -> ->. bin fin fin; auto. intros; auto with num. Qed.

(* ------------------------------------------------------------- prediction *)
Lemma score_fin x w s : Forall fin w -> Forall (fun q => fin (snd q)) x -> score Xnum x w = Some s -> fin s.
Proof.
  intros Hw Hx E. unfold score in E. dob E Q1. dob E Q2. injection E as <-. apply fin_add; [|eapply (rd_vals fin); [|eassumption]; assumption].
  eapply (dotmul_vals Xnum fin fin fin); [exact Hw| | | |exact Q1]; auto with num. 
Qed.
Lemma predict_fin c p lab ps : Forall (Forall fin) (c_ws c) -> fin_point p -> predict Xnum c p = Some (lab, ps) -> Forall fin ps.
Proof.
  intros Hw Hp E. unfold predict in E. dob E Q1. dob E Q2. injection E as <- <-.
  eapply mapM_vals; [exact Hw| |exact Q1]. intros w s Hw1 Es. exact (score_fin _ _ _ Hw1 (feats_vals fin p Hp) Es).
Qed.
Lemma Xlt a b : n_lt Xnum (Some a) (Some b) = true <-> a < b.
Proof. cbn. destruct (Rlt_dec a b); split; auto; discriminate. Qed.
Lemma Xle a b : n_le Xnum (Some a) (Some b) = true <-> a <= b.
Proof. cbn. destruct (Rle_dec a b); split; auto; discriminate. Qed.
Lemma X_first_max l : l <> [] -> Forall fin l -> first_max Xnum l (max_element Xnum l).
Proof.
  intros Hn Hl. apply max_element_spec with (P := fin); auto.
  - intros a (x & ->). destruct (n_lt _ _ _) eqn:E; auto. apply Xlt in E. lra.
  - intros a b c (x & ->) (y & ->) (z & ->) H1 H2. apply Xlt in H1, H2. apply Xlt. lra.
  - intros a b c (x & ->) (y & ->) (z & ->) H1. apply Xlt in H1. destruct (Rlt_dec x z); [left|right]; apply Xlt; lra.
Qed.

(* ------------------------------------------------------------- losses *)
Lemma wrz_vals (P : xreal -> Prop) l i v l' : Forall P l -> P v -> wrz l i v = Some l' -> Forall P l'.
Proof. unfold wrz. intros Hl Hv E. destruct (_ <? _)%Z; [discriminate|]. eapply wr_vals; eauto. Qed.
Lemma rdz_vals {A} (P : A -> Prop) l i v : Forall P l -> rdz l i = Some v -> P v.
Proof. unfold rdz. intros Hl E. destruct (_ <? _)%Z; [discriminate|]. eapply rd_vals; eassumption. Qed.
Lemma zeros_fin g : Forall fin (zeros Xnum g).
Proof. unfold zeros. induction g; cbn; constructor; auto with num. Qed.
Lemma wr_In {A} (l : list A) : forall i v l', wr l i v = Some l' -> In v l'.
Proof. induction l as [|x l IH]; intros [|i] v l' E; cbn in E; try discriminate; [injection E as <-; now left|]. dob E Q. injection E as <-. right. eauto. Qed.
Lemma wr_len {A} (l : list A) : forall i v l', wr l i v = Some l' -> length l' = length l.
Proof. induction l as [|x l IH]; intros [|i] v l' E; cbn in E; try discriminate; [now injection E as <-|]. dob E Q. injection E as <-. cbn. f_equal. eauto. Qed.
Lemma wrz_len {A} (l : list A) i v l' : wrz l i v = Some l' -> length l' = length l.
Proof. unfold wrz. destruct (_ <? _)%Z; [discriminate|]. apply wr_len. Qed.
Lemma wrz_In {A} (l : list A) i v l' : wrz l i v = Some l' -> In v l'.
Proof. unfold wrz. destruct (_ <? _)%Z; [discriminate|]. apply wr_In. Qed.
Lemma sq_sum_nonneg l : 0 <= sq_sum l.
Proof. induction l as [|[x|] l IH]; unfold sq_sum in *; cbn [fold_right]; [lra|nra|lra]. Qed.
Lemma sq_sum_wr l : forall i v l', wr l i (Some v) = Some l' -> sq_sum l' <= sq_sum l + v * v.
Proof.
  induction l as [|x l IH]; intros [|i] v l' E; cbn in E; try discriminate.
  - injection E as <-. unfold sq_sum. cbn [fold_right]. destruct x; nra.
  - dob E Q. injection E as <-. specialize (IH _ _ _ Q). unfold sq_sum in *. cbn [fold_right]. lra.
Qed.
Lemma sq_sum_zeros g : sq_sum (zeros Xnum g) = 0.
Proof. induction g; [reflexivity|]. unfold zeros, sq_sum in *. cbn [map fold_right]. rewrite IHg. unfold zero. cbn. lra. Qed.

Lemma two_grad_fin g rv lab a b g' : fin a -> fin b -> two_grad Xnum g rv lab a b = Some g' -> Forall fin g' /\ length g' = length g /\ In b g'.
Proof.
  intros Ha Hb E. unfold two_grad in E. dob E Q1. split; [|split].
  - eapply wrz_vals; [|exact Hb|exact E]. eapply wrz_vals; [|exact Ha|exact Q1]. apply zeros_fin.
  - rewrite (wrz_len _ _ _ _ E), (wrz_len _ _ _ _ Q1). unfold zeros. now rewrite map_length.
  - eapply wrz_In; eauto.
Qed.
Lemma two_grad_sq g rv lab g' : two_grad Xnum g rv lab (one Xnum) (n_opp Xnum (one Xnum)) = Some g' -> sq_sum g' <= 2.
Proof.
  intros E. unfold two_grad, wrz in E. destruct (rv <? 0)%Z; [discriminate|]. destruct (lab <? 0)%Z; [dob E Q1; discriminate|]. dob E Q1.
  apply sq_sum_wr in Q1. apply sq_sum_wr in E. rewrite sq_sum_zeros in Q1. unfold one in *. cbn in *. lra.
Qed.
Lemma uniform_grad_fin own alpha ps : fin alpha -> Forall fin (uniform_grad Xnum own alpha ps).
Proof. intros Ha. unfold uniform_grad. induction ps; cbn; constructor; auto; destruct (test2 _ own a); auto with num. Qed.
Lemma rival_fin label ps plabel rv riv : Forall fin ps -> rival Xnum label ps plabel = Some rv -> rdz ps rv = Some riv -> fin riv.
Proof. intros. eapply (rdz_vals fin); [|eassumption]; assumption. Qed.
Lemma hinge_nn v : fin v -> above 0 (hinge_of Xnum v).
Proof. apply max_nn. Qed.
Lemma nz_one : nz (one Xnum). Proof. apply pos_nz, pos_one. Qed.
Lemma nz_mone : nz (n_opp Xnum (one Xnum)).
Proof. exists (-1). split; [unfold one; cbn; f_equal; ring|lra]. Qed.
Lemma pos_1exp z : fin z -> pos (n_add Xnum (one Xnum) (n_exp Xnum z)).
Proof. intros (x & ->). apply pos_add; [apply pos_one|]. eexists. split; [reflexivity|]. left. apply exp_pos. Qed.
Lemma fin_log a : pos a -> fin (n_log Xnum a).
Proof. intros (x & -> & Hx). cbn. destruct (Rle_dec x 0); [lra|]. eexists. reflexivity. Qed.
Lemma false_scan_fin own ps : forall a n, Forall fin ps -> fin a -> pos n ->
  fin (fst (false_scan Xnum own ps (a, n))) /\ pos (snd (false_scan Xnum own ps (a, n))) /\
  (In own ps -> fin own -> exists x y, snd (false_scan Xnum own ps (a, n)) = Some x /\ n = Some y /\ y + 1 <= x) /\
  (exists x y, snd (false_scan Xnum own ps (a, n)) = Some x /\ n = Some y /\ y <= x).
Proof.
  induction ps as [|p ps IH]; intros a n Hp Ha Hn; cbn.
  - split; [exact Ha|]. split; [exact Hn|]. split; [easy|]. destruct Hn as (y & -> & Hy). exists y, y. split; [reflexivity|]. split; [reflexivity|lra].
  - inversion Hp; subst. destruct (test2 _ own p) eqn:E.
    + assert (Hn1 : pos (n_add Xnum n (one Xnum))) by (apply pos_add; [exact Hn|apply pos_above, pos_one]).
      destruct (IH (n_add Xnum a p) (n_add Xnum n (one Xnum)) H2 (fin_add _ _ Ha H1) Hn1) as (A & B & C & D).
      cbn in A, B, D |- *. split; [exact A|]. split; [exact B|]. destruct Hn as (y & -> & Hy). destruct D as (u & v & D1 & D2 & D3).
      unfold one in D2. cbn in D2. injection D2 as <-. split; [intros _ _|]; exists u, y; (split; [exact D1|]); (split; [reflexivity|lra]).
    + destruct (IH a n H2 Ha Hn) as (A & B & C & D). split; [exact A|]. split; [exact B|]. split; [|exact D].
      intros [->|Hin] Ho; [|now apply C]. destruct Ho as (x & ->). cbn in E. destruct (Rle_dec x x); [discriminate|lra].
Qed.
Lemma false_stats_fin own ps fp fn : Forall fin ps -> In own ps -> false_stats Xnum own ps = (fp, fn) -> fin fp /\ pos fn.
Proof.
  intros Hp Hin E. unfold false_stats in E. cbv zeta in E. apply pair_equal_spec in E as (<- & <-).
  assert (Ho : fin own) by (rewrite Forall_forall in Hp; auto).
  destruct (false_scan_fin own ps (zero Xnum) (n_lit Xnum 1 (-12)) Hp fin_zero (pos_lit 1 (-12) ltac:(lia))) as (A & B & C & _).
  split; [now apply fin_sub|]. destruct (C Hin Ho) as (x & y & E1 & E2 & E3). rewrite E1. unfold one. cbn. exists (x - 1). split; [reflexivity|].
  destruct (pos_lit 1 (-12) ltac:(lia)) as (y' & E4 & Hy). rewrite E4 in E2. injection E2 as <-. lra.
Qed.
Lemma rdz_In {A} (l : list A) i v : rdz l i = Some v -> In v l.
Proof. unfold rdz, rd. destruct (_ <? _)%Z; [discriminate|]. apply nth_error_In. Qed.
Lemma rd_In {A} (l : list A) i v : rd l i = Some v -> In v l.
Proof. apply nth_error_In. Qed.
Lemma count_two (f : xreal -> bool) l i j a b : i <> j -> nth_error l i = Some a -> nth_error l j = Some b -> f a = true -> f b = true ->
  (2 <= length (filter f l))%nat.
Proof.
  revert i j. induction l as [|x l IH]; intros i j Hij Hi Hj Ha Hb; [destruct i; discriminate|].
  assert (One : forall k c, nth_error l k = Some c -> f c = true -> (1 <= length (filter f l))%nat).
  { clear. induction l as [|y l IH]; intros [|k] c H Hc; cbn in H; try discriminate; cbn.
    - injection H as ->. rewrite Hc. cbn. lia.
    - destruct (f y); cbn; [lia|]. eauto. }
  destruct i as [|i], j as [|j]; cbn in Hi, Hj; [easy| | |].
  - injection Hi as ->. cbn. rewrite Ha. cbn. specialize (One _ _ Hj Hb). lia.
  - injection Hj as ->. cbn. rewrite Hb. cbn. specialize (One _ _ Hi Ha). lia.
  - cbn. assert (i <> j) by congruence. specialize (IH i j H Hi Hj Ha Hb). destruct (f x); cbn; lia.
Qed.
Definition is_hinge (k : loss_kind) : Prop := k = LHinge \/ k = LMaxHinge \/ k = LUniHinge.
(** What is passed to a margin handler. *)
Definition asked (k : loss_kind) (n : nat) (g : list xreal) : Prop :=
  length g = n /\ Forall fin g /\ Exists nz g /\ (k = LUniHinge \/ sq_sum g <= 2).
Lemma Exists_In_nz g v : In v g -> nz v -> Exists nz g.
Proof. intros. apply Exists_exists. eauto. Qed.
Lemma gradient_fin k h (Pv : xreal -> Prop) label ps plabel g margin r :
  loss_ok (length ps) k -> label_of Xnum ps = Some plabel -> length g = length ps -> (Z.of_nat (length ps) <= two64)%Z ->
  Forall fin ps -> Forall fin g -> fin margin ->
  (forall f, h = Some f -> forall g1 m v, asked k (length g) g1 -> f g1 = Some (m, v) -> fin m /\ Pv v) ->
  gradient Xnum k h label ps plabel g margin = Some r ->
  fin (l_loss r) /\ Forall fin (l_grad r) /\ fin (l_margin r) /\ (forall v, l_vt r = Some v -> Pv v) /\
  (is_hinge k -> above 0 (l_loss r) /\ (forall f, h = Some f -> exists v, l_vt r = Some v)).
Proof.
  intros Hk Hlab Lg H64 Hp Hg Hm Hh E.
  destruct k; cbn [gradient] in E.
  - cbv zeta in E. dob E Q1. injection E as <-. cbn. split; [destruct (_ =? _)%Z; auto with num|]. split; [eapply wr_vals; [exact Hg| |exact Q1]; destruct (n_lt _ _ _); auto with num|].
    split; [exact Hm|]. split; [discriminate|]. intros [|[|]]; discriminate.
  - cbv zeta in E. assert (Hl : fin (if (plabel =? label)%Z then zero Xnum else one Xnum)) by (destruct (_ =? _)%Z; auto with num).
    destruct (n_lt _ _ _).
    + dob E Q1. injection E as <-. cbn. split; [exact Hl|]. split; [now apply two_grad_fin in Q1; auto with num|]. split; [exact Hm|]. split; [discriminate|]. intros [|[|]]; discriminate.
    + injection E as <-. cbn. split; [exact Hl|]. split; [exact Hg|]. split; [exact Hm|]. split; [discriminate|]. intros [|[|]]; discriminate.
  - cbv zeta in E. assert (Hl : fin (if (plabel =? label)%Z then zero Xnum else one Xnum)) by (destruct (_ =? _)%Z; auto with num).
    destruct (Z.eqb_spec plabel label) as [El|Hne].
    + replace (n_lt Xnum (zero Xnum) (zero Xnum)) with false in E.
      2:{ unfold zero. cbn. destruct (Rlt_dec 0 0); [lra|reflexivity]. }
      injection E as <-. cbn. split; [exact Hl|]. split; [exact Hg|]. split; [exact Hm|]. split; [discriminate|]. intros [|[|]]; discriminate.
    + destruct (n_lt _ _ _).
      2:{ injection E as <-. cbn. split; [exact Hl|]. split; [exact Hg|]. split; [exact Hm|]. split; [discriminate|]. intros [|[|]]; discriminate. }
      dob E Q1. dob E Q2. injection E as <-. cbn [l_loss l_grad l_margin l_vt]. split; [exact Hl|].
      split; [|split; [exact Hm|split; [discriminate|intros [|[|]]; discriminate]]].
      eapply wrz_vals; [|apply nz_fin, nz_mone|exact Q2]. apply uniform_grad_fin. apply fin_div; [auto with num|].
      assert (Hn2 : (length ps <> 1)%nat). { intros E1. destruct Hk as (Hk & _). specialize (Hk E1). discriminate. }
      unfold rdz in Q1. destruct (label <? 0)%Z eqn:E0; [discriminate|]. unfold rd in Q1. apply Z.ltb_ge in E0.
      assert (Hps : ps <> []) by (intros ->; destruct (Z.to_nat label); discriminate).
      assert (Epl : plabel = Z.of_nat (max_element Xnum ps)).
      { destruct ps as [|a [|b ps']]; [easy|easy|]. cbn [label_of] in Hlab. injection Hlab as <-. reflexivity. }
      destruct (X_first_max ps Hps Hp) as (b & B1 & B2 & _). 
      assert (Ho : fin x) by (rewrite Forall_forall in Hp; apply Hp; eapply nth_error_In; eauto).
      assert (Hb : fin b) by (rewrite Forall_forall in Hp; apply Hp; eapply nth_error_In; eauto).
      destruct Ho as (o & ->). destruct Hb as (b' & ->).
      assert (L2 : (2 <= length (filter (n_le Xnum (Some o)) ps))%nat).
      { eapply (count_two _ _ (max_element Xnum ps) (Z.to_nat label)); [lia|exact B1|exact Q1| |].
        - apply Xle. specialize (B2 _ _ Q1). destruct (Rle_dec o b'); [assumption|]. exfalso. assert (b' < o) by lra. apply Xlt in H. congruence.
        - apply Xle. lra. }
      assert (L3 : (length (filter (n_le Xnum (Some o)) ps) <= length ps)%nat).
      { clear. induction ps; cbn [filter length]; [lia|]. destruct (n_le _ _ _); cbn [length]; lia. }
      assert (Hu : (1 <= u64 (Z.of_nat (length (filter (n_le Xnum (Some o)) ps)) - 1))%Z).
      { unfold u64. rewrite Z.mod_small by lia. lia. }
      apply pos_nz, pos_int. lia.
  - dob E Q1. dob E Q2. destruct p as ((g1, m1), vt). dob E Q3. injection E as <-. cbn [l_loss l_grad l_margin l_vt].
    assert (Hx : fin x) by (eapply (rd_vals fin); [|eassumption]; assumption).
    assert (A : fin m1 /\ Forall fin g1 /\ (forall v, vt = Some v -> Pv v) /\ (forall f, h = Some f -> exists v, vt = Some v)).
    { destruct h as [f|].
      - dob Q2 Q4. dob Q2 Q5. destruct p as (m2, v2). injection Q2 as <- <- <-.
        assert (Hl1 : Forall fin l0) by (eapply wr_vals; [exact Hg| |exact Q4]; auto with num).
        assert (Hn1 : length ps = 1%nat).
        { destruct (Nat.eq_dec (length ps) 1) as [|Hn]; auto. destruct Hk as (_ & Hk). specialize (Hk Hn). discriminate. }
        assert (Hask : asked LHinge (length g) l0).
        { split; [eapply wr_len; eauto|]. split; [exact Hl1|]. split; [eapply Exists_In_nz; [eapply wr_In; eauto|apply nz_one]|right].
          destruct g as [|g0 [|]]; cbn in Lg; try lia. cbn in Q4. injection Q4 as <-. unfold one. cbn. lra. }
        destruct (Hh f eq_refl l0 m2 v2 Hask Q5) as (A1 & A2). split; [exact A1|]. split; [exact Hl1|]. split; [intros v [= <-]; exact A2|eauto].
      - injection Q2 as <- <- <-. repeat split; auto; discriminate. }
    destruct A as (A1 & A2 & A3 & A4).
    assert (Hl : above 0 (hinge_of Xnum (n_sub Xnum m1 (n_mul Xnum x (n_int Xnum label))))) by (apply hinge_nn; auto with num).
    split; [now apply above_fin in Hl|]. split; [eapply wr_vals; [exact A2| |exact Q3]; destruct (n_lt _ _ _); auto with num|]. split; [exact A1|]. split; [exact A3|]. intros _. split; [exact Hl|exact A4].
  - dob E Q1. dob E Q2. dob E Q3. assert (Ho : fin x) by (eapply (rdz_vals fin); [|eassumption]; assumption). assert (Hr : fin x0) by (eapply (rdz_vals fin); [|eassumption]; assumption).
    destruct h as [f|].
    + dob E Q4. dob E Q5. destruct p as (m2, v2). apply two_grad_fin in Q4 as Q4'; auto with num. destruct Q4' as (B1 & B2 & B3).
      assert (Hask : asked LMaxHinge (length g) l).
      { split; [exact B2|]. split; [exact B1|]. split; [eapply Exists_In_nz; [exact B3|apply nz_mone]|right]. eapply two_grad_sq; eauto. }
      destruct (Hh f eq_refl l m2 v2 Hask Q5) as (A1 & A2). cbv zeta in E.
      assert (Hl : above 0 (hinge_of Xnum (n_add Xnum (n_sub Xnum m2 x) x0))) by (apply hinge_nn; auto with num).
      destruct (n_le _ _ _).
      * dob E Q6. dob E Q7. injection E as <-. cbn [l_loss l_grad l_margin l_vt]. split; [now apply above_fin in Hl|].
        split; [eapply wrz_vals; [eapply wrz_vals; [exact B1| |exact Q6]| |exact Q7]; auto with num|]. split; [exact A1|]. split; [intros v [= <-]; exact A2|]. intros _. split; [exact Hl|eauto].
      * injection E as <-. cbn [l_loss l_grad l_margin l_vt]. split; [now apply above_fin in Hl|]. split; [exact B1|]. split; [exact A1|]. split; [intros v [= <-]; exact A2|]. intros _. split; [exact Hl|eauto].
    + cbv zeta in E. assert (Hl : above 0 (hinge_of Xnum (n_add Xnum (n_sub Xnum margin x) x0))) by (apply hinge_nn; auto with num).
      destruct (n_lt _ _ _).
      * dob E Q4. injection E as <-. cbn [l_loss l_grad l_margin l_vt]. split; [now apply above_fin in Hl|]. split; [apply two_grad_fin in Q4; auto with num; tauto|]. split; [exact Hm|]. split; [discriminate|]. intros _. split; [exact Hl|discriminate].
      * injection E as <-. cbn [l_loss l_grad l_margin l_vt]. split; [now apply above_fin in Hl|]. split; [exact Hg|]. split; [exact Hm|]. split; [discriminate|]. intros _. split; [exact Hl|discriminate].
  - dob E Q1. destruct (false_stats Xnum x ps) as (fp, fn) eqn:Ef. assert (Ho : fin x) by (eapply (rdz_vals fin); [|eassumption]; assumption).
    destruct (false_stats_fin _ _ _ _ Hp (rdz_In _ _ _ Q1) Ef) as (F1 & F2). cbv zeta in E.
    assert (Ha : fin (n_div Xnum (one Xnum) fn)) by (apply fin_div; auto with num; now apply pos_nz).
    destruct h as [f|].
    + dob E Q4. dob E Q5. destruct p as (m2, v2).
      assert (B1 : Forall fin l) by (eapply wrz_vals; [|apply nz_fin, nz_mone|exact Q4]; now apply uniform_grad_fin).
      assert (Hask : asked LUniHinge (length g) l).
      { split; [|split; [exact B1|split; [eapply Exists_In_nz; [eapply wrz_In; eauto|apply nz_mone]|now left]]].
        rewrite (wrz_len _ _ _ _ Q4). unfold uniform_grad. rewrite map_length. congruence. }
      destruct (Hh f eq_refl l m2 v2 Hask Q5) as (A1 & A2). injection E as <-. cbn [l_loss l_grad l_margin l_vt].
      split; [auto with num|]. split; [match goal with |- Forall _ (if ?b then _ else _) => destruct b end; [apply zeros_fin|exact B1]|]. split; [exact A1|]. split; [intros v [= <-]; exact A2|]. intros _. split; [apply nn_zero|eauto].
    + destruct (n_lt _ _ _).
      * dob E Q4. injection E as <-. cbn [l_loss l_grad l_margin l_vt]. split; [auto with num|]. split; [eapply wrz_vals; [|apply nz_fin, nz_mone|exact Q4]; now apply uniform_grad_fin|].
        split; [exact Hm|]. split; [discriminate|]. intros _. split; [apply nn_zero|discriminate].
      * injection E as <-. cbn [l_loss l_grad l_margin l_vt]. split; [auto with num|]. split; [exact Hg|]. split; [exact Hm|]. split; [discriminate|]. intros _. split; [apply nn_zero|discriminate].
  - dob E Q1. cbv zeta in E. dob E Q2. injection E as <-. cbn [l_loss l_grad l_margin l_vt]. assert (Hx : fin x) by (eapply (rd_vals fin); [|eassumption]; assumption).
    assert (Hz : fin (n_mul Xnum (n_opp Xnum x) (n_int Xnum label))) by auto with num.
    split. { unfold logistic_of. destruct (n_lt _ _ _); [exact Hz|]. destruct (n_lt _ _ _); [auto with num|]. now apply fin_log, pos_1exp. }
    split. { eapply wr_vals; [exact Hg| |exact Q2]. destruct (n_lt _ _ _); [auto with num|]. destruct (n_lt _ _ _); [auto with num|]. apply fin_div; [auto with num|]. apply pos_nz, pos_1exp. auto with num. }
    split; [exact Hm|]. split; [discriminate|]. intros [|[|]]; discriminate.
  - dob E Q1. dob E Q2. dob E Q3. assert (Hr : fin x) by (eapply (rdz_vals fin); [|eassumption]; assumption). assert (Ho : fin x0) by (eapply (rdz_vals fin); [|eassumption]; assumption). cbv zeta in E.
    assert (Hz : fin (n_sub Xnum x x0)) by auto with num. set (zz := n_sub Xnum x x0) in *.
    destruct (n_lt _ _ _); [|destruct (n_lt _ _ _)].
    + dob E Q4. injection E as <-. cbn [l_loss l_grad l_margin l_vt]. split; [exact Hz|]. split; [apply two_grad_fin in Q4; auto with num; tauto|]. split; [exact Hm|]. split; [discriminate|]. intros [|[|]]; discriminate.
    + dob E Q4. injection E as <-. cbn [l_loss l_grad l_margin l_vt]. split; [auto with num|]. split; [apply two_grad_fin in Q4; auto with num; tauto|]. split; [exact Hm|]. split; [discriminate|]. intros [|[|]]; discriminate.
    + dob E Q4. dob E Q5. dob E Q6. injection E as <-. cbn [l_loss l_grad l_margin l_vt].
      assert (Ha : fin (n_div Xnum (one Xnum) (n_add Xnum (one Xnum) (n_exp Xnum (n_opp Xnum zz))))) by (apply fin_div; [auto with num|]; apply pos_nz, pos_1exp; auto with num).
      assert (B1 : Forall fin l) by (eapply wrz_vals; [|exact Ha|exact Q4]; apply zeros_fin).
      split; [now apply fin_log, pos_1exp|]. split; [eapply wrz_vals; [exact B1| |exact Q6]; apply fin_opp; eapply (rdz_vals fin); [|eassumption]; assumption|]. split; [exact Hm|]. split; [discriminate|]. intros [|[|]]; discriminate.
  - dob E Q1. destruct (false_stats Xnum x ps) as (fp, fn) eqn:Ef. assert (Ho : fin x) by (eapply (rdz_vals fin); [|eassumption]; assumption).
    destruct (false_stats_fin _ _ _ _ Hp (rdz_In _ _ _ Q1) Ef) as (F1 & F2). cbv zeta in E. apply pos_nz in F2 as F3.
    assert (Hz : fin (n_sub Xnum (n_div Xnum fp fn) x)) by (apply fin_sub; auto; now apply fin_div).
    set (zz := n_sub Xnum (n_div Xnum fp fn) x) in *.
    destruct (n_lt _ _ _); [|destruct (n_lt _ _ _)].
    + dob E Q4. injection E as <-. cbn [l_loss l_grad l_margin l_vt]. split; [exact Hz|].
      split; [eapply wrz_vals; [|apply nz_fin, nz_mone|exact Q4]; apply uniform_grad_fin; apply fin_div; auto with num|]. split; [exact Hm|]. split; [discriminate|]. intros [|[|]]; discriminate.
    + injection E as <-. cbn [l_loss l_grad l_margin l_vt]. split; [auto with num|]. split; [apply zeros_fin|]. split; [exact Hm|]. split; [discriminate|]. intros [|[|]]; discriminate.
    + dob E Q4. injection E as <-. cbn [l_loss l_grad l_margin l_vt].
      assert (Ha : fin (n_div Xnum (one Xnum) (n_add Xnum (one Xnum) (n_exp Xnum (n_opp Xnum zz))))) by (apply fin_div; [auto with num|]; apply pos_nz, pos_1exp; auto with num).
      split; [now apply fin_log, pos_1exp|]. split; [eapply wrz_vals; [|apply fin_opp; exact Ha|exact Q4]; apply uniform_grad_fin; now apply fin_div|]. split; [exact Hm|]. split; [discriminate|]. intros [|[|]]; discriminate.
  - dob E Q1. cbv zeta in E. dob E Q2. apply some_inj in E. rewrite <- E. clear E. cbn [l_loss l_grad l_margin l_vt]. assert (Hx : fin x) by (eapply (rd_vals fin); [|eassumption]; assumption).
    split; [auto 6 with num|]. split; [eapply wr_vals; [exact Hg| |exact Q2]; auto with num|]. split; [exact Hm|]. split; [discriminate|]. intros [|[|]]; discriminate.
Qed.
