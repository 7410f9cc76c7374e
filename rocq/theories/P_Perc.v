(** The perceptron mistake bound. *)
From Coq Require Import Reals Lra Psatz Sorted.
From Verif Require Import M_Base M_Num M_Expr M_Loss M_Online M_Olm M_OlmSel M_Heap M_Algs S_Expr
  S_Real S_Loss S_Online S_Session S_Learn P_DataPoint P_Expr P_Real P_Online P_Predict P_Step P_Safe P_SafeOlm P_SafeSel2
  P_Session P_Session2 P_Inv P_Loss P_Loss2 P_Conf P_Conf2.
Local Open Scope R_scope.

Lemma rsum_sumsq D u : rsum D (fun i => nth i u 0 * nth i u 0) <= sumsq u.
Proof.
  revert D. induction u as [|a u IH]; intros D.
  - rewrite (rsum_ext _ _ (fun _ => 0)), rsum_zero; [cbn; lra|]. intros [|i] _; cbn; ring.
  - assert (H0 : forall m, rsum (S m) (fun i => nth i (a :: u) 0 * nth i (a :: u) 0) = a * a + rsum m (fun i => nth i u 0 * nth i u 0)).
    { induction m as [|m IHm]; [cbn; ring|]. cbn [rsum]. cbn [rsum] in IHm. rewrite IHm. cbn [nth]. ring. }
    cbn [sumsq fold_right]. pose proof (Rle_0_sqr a) as Ha. unfold Rsqr in Ha. destruct D as [|D].
    + cbn [rsum]. pose proof (sumsq_nonneg u) as Hu. unfold sumsq in *. lra.
    + rewrite H0. specialize (IH D). unfold sumsq in *. lra.
Qed.
Lemma inner_rsum u x D : sorted_ix x -> below D x -> inner u x = rsum D (fun i => nth i u 0 * xv x i).
Proof.
  intros Hs Hb. rewrite <- (fold_entries D (fun i v => nth i u 0 * v) x Hs Hb (fun i => Rmult_0_r _)). unfold inner. clear.
  assert (G : forall a, fold_left (fun a p => a + nth (Z.to_nat (fst p)) u 0 * snd p) x a = a + fold_right (fun q s => nth (Z.to_nat (fst q)) u 0 * snd q + s) 0 x).
  { induction x as [|q x IH]; intros a; cbn [fold_left fold_right]; [lra|]. rewrite IH. lra. }
  rewrite G. lra.
Qed.
(** Cauchy-Schwarz for families. *)
Lemma rsum_cs2 n D f g :
  rsum n (fun j => rsum D (fun i => f j i * g j i)) * rsum n (fun j => rsum D (fun i => f j i * g j i))
  <= rsum n (fun j => rsum D (fun i => f j i * f j i)) * rsum n (fun j => rsum D (fun i => g j i * g j i)).
Proof.
  set (A := fun j => rsum D (fun i => f j i * f j i)). set (B := fun j => rsum D (fun i => g j i * g j i)). set (P := fun j => rsum D (fun i => f j i * g j i)).
  assert (HA : forall j, 0 <= A j) by (intros; apply rsum_nonneg; intros; apply Rle_0_sqr).
  assert (HB : forall j, 0 <= B j) by (intros; apply rsum_nonneg; intros; apply Rle_0_sqr).
  assert (HP : forall j, Rabs (P j) <= sqrt (A j) * sqrt (B j)).
  { intros j. rewrite <- sqrt_mult by auto. rewrite <- sqrt_Rsqr_abs. apply sqrt_le_1_alt. apply rsum_cs. }
  pose proof (rsum_cs n (fun j => sqrt (A j)) (fun j => sqrt (B j))) as C. cbv beta in C.
  rewrite (rsum_ext n (fun j => sqrt (A j) * sqrt (A j)) A) in C by (intros; apply sqrt_sqrt; auto).
  rewrite (rsum_ext n (fun j => sqrt (B j) * sqrt (B j)) B) in C by (intros; apply sqrt_sqrt; auto).
  eapply Rle_trans; [|exact C].
  assert (U : Rabs (rsum n P) <= rsum n (fun j => sqrt (A j) * sqrt (B j))).
  { clear - HP. induction n as [|n IH]; cbn [rsum]; [rewrite Rabs_R0; lra|]. eapply Rle_trans; [apply Rabs_triang|]. specialize (HP n). lra. }
  change (Rsqr (rsum n P) <= Rsqr (rsum n (fun j => sqrt (A j) * sqrt (B j)))). rewrite (Rsqr_abs (rsum n P)).
  apply Rsqr_incr_1; [exact U|apply Rabs_pos|]. apply Rle_trans with (2 := U). apply Rabs_pos.
Qed.

(** Gradients that move the true class up by one, and classes scored at least as high down. *)
Definition pushes (n y : nat) (ps g : list R) : Prop :=
  (y < n)%nat /\ nth y g 0 = -1 /\ rsum n (fun j => nth j g 0) = 0 /\
  forall j, (j < n)%nat -> j <> y -> 0 <= nth j g 0 <= 1 /\ (nth j g 0 <> 0 -> nth y ps 0 <= nth j ps 0).
(** What an update needs of the gradients: [s] are the scores, any separating values [t]. *)
Definition good_grad (n : nat) (gamma G : R) (t : nat -> R) (ps g : list R) : Prop :=
  0 <= rsum n (fun j => nth j g 0 * nth j ps 0) /\ rsum n (fun j => nth j g 0 * nth j g 0) <= G /\
  rsum n (fun j => nth j g 0 * t j) <= - gamma.
Lemma pushes_good n y ps g gamma t : pushes n y ps g -> (forall j, (j < n)%nat -> j <> y -> gamma <= t y - t j) ->
  good_grad n gamma 2 t ps g.
Proof.
  intros (Hy & Gy & Gs & Gj) Ht. set (a := fun j => nth j g 0) in *.
  (* a weighted sum is the weighted sum of the differences to class y *)
  assert (D : forall v : nat -> R, rsum n (fun j => a j * v j) = rsum n (fun j => a j * (v j - v y))).
  { intros v. rewrite (rsum_ext n (fun j => a j * (v j - v y)) (fun j => a j * v j - v y * a j)) by (intros; ring).
    rewrite rsum_minus, rsum_scal. rewrite Gs. ring. }
  assert (P1 : rsum n (fun j => if (j =? y)%nat then 0 else a j) = 1).
  { rewrite (rsum_at n y _ a) by first [exact Hy | intros i Hi Hn; destruct (Nat.eqb_spec i y); [easy|reflexivity]].
    rewrite Nat.eqb_refl, Gs. fold (a y) in Gy. rewrite Gy. ring. }
  split; [|split].
  - rewrite D. apply rsum_nonneg. intros j Hj. destruct (Nat.eq_dec j y) as [->|Hn]; [right; ring|].
    destruct (Gj j Hj Hn) as (A & B). fold (a j) in A, B. destruct (Req_dec (a j) 0) as [E|E]; [right; rewrite E; ring|].
    specialize (B E). apply Rmult_le_pos; lra.
  - rewrite (rsum_at n y _ (fun j => if (j =? y)%nat then 0 else a j * a j)) by first [exact Hy | intros i Hi Hn; destruct (Nat.eqb_spec i y); [easy|reflexivity]].
    rewrite Nat.eqb_refl. fold (a y) in Gy. change (nth y g 0) with (a y). rewrite Gy.
    assert (rsum n (fun j => if (j =? y)%nat then 0 else a j * a j) <= 1); [|lra].
    rewrite <- P1. apply rsum_le. intros j Hj. destruct (Nat.eqb_spec j y); [lra|]. destruct (Gj j Hj ltac:(auto)) as (A & _). fold (a j) in A. nra.
  - rewrite D. replace (- gamma) with (- gamma * 1) by ring. rewrite <- P1, <- rsum_scal. apply rsum_le. intros j Hj.
    destruct (Nat.eqb_spec j y) as [->|Hn]; [right; ring|]. destruct (Gj j Hj Hn) as (A & _). fold (a j) in A. specialize (Ht j Hj Hn).
    replace (- gamma * a j) with (a j * - gamma) by ring. apply Rmult_le_compat_l; lra.
Qed.
Lemma opposes_pushes n y m ps g : (y < n)%nat -> (m < n)%nat -> m <> y -> opposes n y m 1 g -> nth y ps 0 <= nth m ps 0 -> pushes n y ps g.
Proof.
  intros Hy Hm Hn Ho Hs. pose proof Ho as (L & H). pose proof (opposes_balanced n y m 1 g Hy Hm ltac:(auto) Ho) as B.
  assert (N1 : forall i, (i < n)%nat -> nth i g 0 = (if Nat.eqb i m then 1 else if Nat.eqb i y then - (1) else 0)) by (intros; apply nth_error_nth; auto).
  split; [exact Hy|]. split; [rewrite N1 by auto; destruct (Nat.eqb_spec y m); [congruence|]; rewrite Nat.eqb_refl; ring|].
  split; [rewrite lsum_rsum, L in B; exact B|]. intros j Hj Hjy. rewrite N1 by auto. destruct (Nat.eqb_spec j m) as [->|Hjm].
  - split; [lra|auto].
  - destruct (Nat.eqb_spec j y); [easy|]. split; [lra|]. easy.
Qed.
Lemma spreads_pushes y own ps g : (y < length ps)%nat -> nth_error ps y = Some own -> (1 <= rivals ps own)%nat ->
  spreads ps y own (/ INR (rivals ps own)) 1 g -> lsum g = 0 -> pushes (length ps) y ps g.
Proof.
  intros Hy Ho Hr (L & H) B. set (b := / INR (rivals ps own)) in *.
  assert (Hb : 0 <= b <= 1).
  { unfold b. assert (1 <= INR (rivals ps own)) by (apply (le_INR 1); exact Hr). split; [left; apply Rinv_0_lt_compat; lra|].
    rewrite <- Rinv_1. apply Rinv_le_contravar; lra. }
  assert (N1 : forall i, (i < length ps)%nat -> nth i g 0 = (if Nat.eqb i y then - (1) else if Rle_dec own (nth i ps 0) then b else 0)).
  { intros i Hi. apply nth_error_nth. apply H. now apply nth_error_nth'. }
  split; [exact Hy|]. split; [rewrite N1 by auto; rewrite Nat.eqb_refl; ring|].
  split; [rewrite lsum_rsum, L in B; exact B|]. intros j Hj Hjy. rewrite N1 by auto. destruct (Nat.eqb_spec j y); [easy|].
  rewrite (nth_error_nth ps y 0 Ho). destruct (Rle_dec own (nth j ps 0)); [split; auto|]. split; [lra|easy].
Qed.

Section Pot.
Variables (n : nat) (b0 gamma G rad2 : R) (ss : list (list R * R)).
Hypothesis Hb0 : 0 <= b0.
Definition xt (x : list (Z * R)) (i : nat) : R := if (i =? 0)%nat then sqrt b0 else xv x i.
Definition Wt (om : nat -> R) (ws : list (list R)) (j i : nat) : R := if (i =? 0)%nat then om j else nth i (nth j ws []) 0.
Definition Ut (j i : nat) : R := if (i =? 0)%nat then snd (nth j ss ([], 0)) else nth i (fst (nth j ss ([], 0))) 0.
(** After E updates. *)
Definition potential (d : nat) (ws : list (list R)) (E : R) : Prop := exists om,
  (forall j, (j < n)%nat -> nth 0 (nth j ws []) 0 = sqrt b0 * om j) /\
  forall D, (d <= D)%nat ->
    E * gamma <= rsum n (fun j => rsum D (fun i => Ut j i * Wt om ws j i)) /\
    rsum n (fun j => rsum D (fun i => Wt om ws j i * Wt om ws j i)) <= E * (G * rad2).

Lemma score_Wt om (w : list R) x D : sorted_ix x -> ~ In 0%Z (map fst x) -> (1 <= length w)%nat -> (length w <= D)%nat ->
  nth 0 w 0 = sqrt b0 * om -> rsum (length w) (fun i => dv w i * xv x i) + nth 0 w 0 = rsum D (fun i => (if (i =? 0)%nat then om else nth i w 0) * xt x i).
Proof.
  intros Hs H0 Hl HD Hom.
  assert (X0 : xv x 0 = 0) by (apply xv_notin; exact H0).
  assert (E : rsum D (fun i => dv w i * xv x i) = rsum (length w) (fun i => dv w i * xv x i)).
  { clear - HD. induction HD as [|m Hm IH]; [reflexivity|]. cbn [rsum]. rewrite IH. unfold dv. rewrite nth_overflow by lia. ring. }
  rewrite <- E. rewrite (rsum_at D 0 (fun i => (if (i =? 0)%nat then om else nth i w 0) * xt x i) (fun i => dv w i * xv x i)).
  - cbn [Nat.eqb xt]. unfold xt. cbn [Nat.eqb]. rewrite X0, Hom. ring.
  - lia.
  - intros i Hi Hn. unfold xt. destruct (Nat.eqb_spec i 0); [easy|reflexivity].
Qed.
Lemma sq_xt x D : sorted_ix x -> ~ In 0%Z (map fst x) -> below D x -> (1 <= D)%nat -> rsum D (fun i => xt x i * xt x i) = sqnorm x + b0.
Proof.
  intros Hs H0 Hb HD. rewrite <- (sqnorm_rsum D x Hs Hb).
  rewrite (rsum_at D 0 (fun i => xt x i * xt x i) (fun i => xv x i * xv x i)); [|lia|].
  - unfold xt. cbn [Nat.eqb]. rewrite (xv_notin x 0) by exact H0. rewrite sqrt_sqrt by exact Hb0. ring.
  - intros i Hi Hn. unfold xt. destruct (Nat.eqb_spec i 0); [easy|reflexivity].
Qed.
Lemma value_Ut x D j : sorted_ix x -> ~ In 0%Z (map fst x) -> below D x -> (1 <= D)%nat ->
  rsum D (fun i => Ut j i * xt x i) = value b0 (nth j ss ([], 0)) x.
Proof.
  intros Hs H0 Hb HD. unfold value. rewrite (inner_rsum _ x D Hs Hb).
  rewrite (rsum_at D 0 (fun i => Ut j i * xt x i) (fun i => nth i (fst (nth j ss ([], 0))) 0 * xv x i)); [|lia|].
  - unfold xt, Ut. cbn [Nat.eqb]. rewrite (xv_notin x 0) by exact H0. ring.
  - intros i Hi Hn. unfold xt, Ut. destruct (Nat.eqb_spec i 0); [easy|reflexivity].
Qed.
(** One update. *)
Lemma potential_step d ws ws' E x (g ps : list R) : sorted_ix x -> ~ In 0%Z (map fst x) -> below d x -> (1 <= d)%nat ->
  (forall j, (j < n)%nat -> length (nth j ws []) = d /\ nth j ps 0 = rsum d (fun i => dv (nth j ws []) i * xv x i) + nth 0 (nth j ws []) 0) ->
  (forall j i, (j < n)%nat -> nth i (nth j ws' []) 0 = nth i (nth j ws []) 0 - nth j g 0 * (if (i =? 0)%nat then b0 else xv x i)) ->
  good_grad n gamma G (fun j => value b0 (nth j ss ([], 0)) x) ps g -> sqnorm x + b0 <= rad2 -> 0 <= G -> potential d ws E -> potential d ws' (E + 1).
Proof.
  intros Hs H0 Hb Hd Hps Hw' (G1 & G2 & G3) Hx HG (om & Hom & HK).
  exists (fun j => om j - nth j g 0 * sqrt b0). split.
  { intros j Hj. rewrite Hw', Hom by exact Hj. cbn [Nat.eqb]. rewrite <- (sqrt_sqrt b0 Hb0) at 2. ring. }
  intros D HD. destruct (HK D HD) as (A & B).
  assert (Hb' : below D x) by (eapply below_le; eauto).
  set (om' := fun j => om j - nth j g 0 * sqrt b0).
  assert (St : forall j i, (j < n)%nat -> Wt om' ws' j i = Wt om ws j i - nth j g 0 * xt x i).
  { intros j i Hj. unfold Wt, xt, om'. destruct (Nat.eqb_spec i 0) as [->|Hi]; [reflexivity|]. rewrite Hw' by exact Hj. destruct (Nat.eqb_spec i 0); [easy|reflexivity]. }
  assert (Sc : forall j, (j < n)%nat -> rsum D (fun i => Wt om ws j i * xt x i) = nth j ps 0).
  { intros j Hj. destruct (Hps j Hj) as (L & Ep). rewrite Ep. rewrite <- L. symmetry. apply score_Wt; auto; lia. }
  split.
  - rewrite (rsum_ext n _ (fun j => rsum D (fun i => Ut j i * Wt om ws j i) - nth j g 0 * value b0 (nth j ss ([], 0)) x)).
    + rewrite rsum_minus. lra.
    + intros j Hj. rewrite <- (value_Ut x D j Hs H0 Hb') by lia. rewrite <- rsum_scal, <- rsum_minus. apply rsum_ext. intros i _. rewrite St by exact Hj. ring.
  - rewrite (rsum_ext n _ (fun j => rsum D (fun i => Wt om ws j i * Wt om ws j i) - 2 * (nth j g 0 * nth j ps 0) + nth j g 0 * nth j g 0 * (sqnorm x + b0))).
    + rewrite rsum_plus, rsum_minus, rsum_scal.
      rewrite (rsum_ext n (fun i => nth i g 0 * nth i g 0 * (sqnorm x + b0)) (fun i => (sqnorm x + b0) * (nth i g 0 * nth i g 0))) by (intros; ring).
      rewrite rsum_scal. set (g2 := rsum n (fun i => nth i g 0 * nth i g 0)) in *.
      assert (N2 : 0 <= g2) by (apply rsum_nonneg; intros; apply Rle_0_sqr). pose proof (sqnorm_nonneg x).
      assert ((sqnorm x + b0) * g2 <= rad2 * G) by (apply Rmult_le_compat; lra). lra.
    + intros j Hj. rewrite <- (Sc j Hj), <- (sq_xt x D Hs H0 Hb') by lia. rewrite <- !rsum_scal, <- rsum_minus, <- rsum_plus. apply rsum_ext. intros i _. rewrite St by exact Hj. ring.
Qed.
Lemma Ut_size D : length ss = n -> rsum n (fun j => rsum D (fun i => Ut j i * Ut j i)) <= size2 ss.
Proof.
  intros <-. assert (G0 : rsum (length ss) (fun j => sumsq (fst (nth j ss ([], 0))) + snd (nth j ss ([], 0)) * snd (nth j ss ([], 0))) = size2 ss).
  { clear. rewrite <- (rev_involutive ss). induction (rev ss) as [|a l IH]; [reflexivity|]. cbn [rev].
    rewrite app_length. cbn [length]. rewrite Nat.add_comm. cbn [Nat.add rsum]. rewrite (rsum_ext _ _ (fun j => sumsq (fst (nth j (rev l) ([], 0))) + snd (nth j (rev l) ([], 0)) * snd (nth j (rev l) ([], 0)))) by (intros; now rewrite app_nth1).
    rewrite IH, app_nth2, Nat.sub_diag by lia. cbn [nth]. clear. induction (rev l) as [|b m IH]; cbn [app size2 fold_right].
    - lra.
    - unfold size2 in *. rewrite <- IH. ring. }
  rewrite <- G0. apply rsum_le. intros j Hj. set (s := nth j ss ([], 0)). destruct D as [|D].
  { cbn [rsum]. pose proof (sumsq_nonneg (fst s)). pose proof (Rle_0_sqr (snd s)) as Q. unfold Rsqr in Q. lra. }
  rewrite (rsum_at (S D) 0 (fun i => Ut j i * Ut j i) (fun i => nth i (fst s) 0 * nth i (fst s) 0)); [|lia|].
  - unfold Ut. cbn [Nat.eqb]. fold s. pose proof (rsum_sumsq (S D) (fst s)). pose proof (Rle_0_sqr (nth 0 (fst s) 0)) as Q. unfold Rsqr in Q. lra.
  - intros i Hi Hn. unfold Ut. destruct (Nat.eqb_spec i 0); [easy|reflexivity].
Qed.
Lemma potential_bound d ws E : length ss = n -> size2 ss <= 1 -> 0 <= E -> 0 < gamma -> 0 <= G * rad2 -> potential d ws E -> E * (gamma * gamma) <= G * rad2.
Proof.
  intros Hn Hu HE Hg HR (om & _ & HK). destruct (HK d (le_n _)) as (A & B).
  pose proof (rsum_cs2 n d Ut (Wt om ws)) as C. pose proof (Ut_size d Hn) as U.
  set (p := rsum n (fun j => rsum d (fun i => Ut j i * Wt om ws j i))) in *. set (uu := rsum n (fun j => rsum d (fun i => Ut j i * Ut j i))) in *.
  set (ww := rsum n (fun j => rsum d (fun i => Wt om ws j i * Wt om ws j i))) in *.
  assert (W0 : 0 <= ww) by (apply rsum_nonneg; intros; apply rsum_nonneg; intros; apply Rle_0_sqr).
  destruct (Req_dec E 0) as [->|HE0]; [lra|].
  assert (0 <= E * gamma) by (apply Rmult_le_pos; lra).
  assert (C1 : E * gamma * (E * gamma) <= p * p) by (apply Rmult_le_compat; lra).
  assert (C2 : uu * ww <= 1 * ww) by (apply Rmult_le_compat_r; lra).
  apply Rmult_le_reg_l with E; [lra|]. nra.
Qed.
End Pot.

Lemma potential_ext n b0 gamma G rad2 ss d d' ws ws' E : (d <= d')%nat -> (forall j i, (j < n)%nat -> nth i (nth j ws' []) 0 = nth i (nth j ws []) 0) ->
  potential n b0 gamma G rad2 ss d ws E -> potential n b0 gamma G rad2 ss d' ws' E.
Proof.
  intros Hd Hw (om & Hom & HK). exists om. split; [intros; rewrite Hw; auto|]. intros D HD. destruct (HK D ltac:(lia)) as (A & B).
  assert (St : forall j i, (j < n)%nat -> Wt om ws' j i = Wt om ws j i) by (intros; unfold Wt; destruct (_ =? _)%nat; auto).
  split; (erewrite rsum_ext; [first [exact A|exact B]|]); intros j Hj; cbv beta; apply rsum_ext; intros; now rewrite !St by exact Hj.
Qed.
Definition bool_loss (loss : loss_kind) : Prop := loss = LBool \/ loss = LMaxBool \/ loss = LUniBool.
(** The gradients of the boolean losses on a mistake. *)
Lemma bool_good n loss b0 gamma ss (p : point R) ps lab h g m r : bool_loss loss -> loss_ok n loss -> length ps = n -> length g = n -> length ss = n ->
  (Z.of_nat n < 2 ^ 64)%Z -> (1 <= n)%nat -> label_ok n (p_label p) -> label_of Rnum ps = Some lab -> separates b0 gamma ss p ->
  gradient Rnum loss h (p_label p) ps lab g m = Some r ->
  (l_loss r = 0 /\ lab = p_label p) \/
  (l_loss r = 1 /\ lab <> p_label p /\ good_grad n gamma (if (n =? 1)%nat then 1 else 2) (fun j => value b0 (nth j ss ([], 0)) (feats p)) ps (l_grad r)).
Proof.
  intros Hbl Hlo Lps Lg Lss H64 Hn1 Hlab Elab Hsep H. destruct (Nat.eqb_spec n 1) as [->|Hn].
  - destruct Hlo as (Hlo & _). specialize (Hlo eq_refl). destruct Hbl as [->|[->| ->]]; try discriminate Hlo. cbn [gradient] in H. cbv zeta in H. dob H Q. injection H as <-. cbn [l_loss l_grad].
    destruct ps as [|s [|? ?]]; try discriminate Lps. destruct g as [|g0 [|? ?]]; try discriminate Lg. destruct ss as [|u [|? ?]]; try discriminate Lss.
    cbn [label_of] in Elab. apply Some_inj in Elab. cbn [separates] in Hsep. destruct Hsep as (Hy & Hsep). unfold sign in Elab.
    destruct (Z.eqb_spec lab (p_label p)) as [E|E]; [left; auto|right]. split; [reflexivity|]. split; [exact E|].
    match type of Q with wr _ _ (if ?b then _ else _) = _ => replace b with true in Q by (symmetry; apply Rlt_b; unfold zero, one; cbn; lra) end.
    cbn in Q. apply Some_inj in Q. subst. unfold good_grad. cbn [rsum nth]. rewrite opp_IZR.
    assert (Hs : IZR (p_label p) * s <= 0 /\ IZR (p_label p) * IZR (p_label p) = 1).
    { destruct (n_le Rnum (zero Rnum) s) eqn:El; [apply Rle_b in El|apply Rle_b_false in El]; unfold zero in El; cbn in El; destruct Hy as [Hy|Hy]; rewrite Hy in *; try congruence; split; lra. }
    destruct Hs. split; [lra|split; lra].
  - assert (Hl : (0 <= p_label p < Z.of_nat n)%Z) by (destruct Hlab; [lia|auto]).
    assert (Hss : forall j, (j < n)%nat -> j <> Z.to_nat (p_label p) -> gamma <= value b0 (nth (Z.to_nat (p_label p)) ss ([], 0)) (feats p) - value b0 (nth j ss ([], 0)) (feats p)).
    { unfold separates in Hsep. destruct ss as [|s1 [|s2 ss']]; cbn in Lss; [lia|lia|]. intros j Hj. apply Hsep. cbn. lia. }
    destruct Hlo as (_ & Hlo). specialize (Hlo Hn). destruct Hbl as [->|[->| ->]]; try discriminate Hlo.
    + destruct (max_bool_gradient h (p_label p) ps lab g m r) as [(A & B)|(A & B & k & Hb & Ek & Hk & Ho)]; try congruence; try lia; [left; auto|right].
      split; [exact A|]. split; [exact B|]. rewrite Lps in *. apply (pushes_good n (Z.to_nat (p_label p))); [|exact Hss]. apply (opposes_pushes n _ k); auto; try lia.
      assert (Hne : ps <> []) by (destruct ps; [cbn in Lps; lia|discriminate]).
      destruct (first_max_best ps _ (R_first_max ps Hne)) as (v & Hv & H1 & _).
      assert (Hm : max_element Rnum ps = k). { destruct ps as [|a [|a' ps']]; cbn in Lps; try lia. cbn [label_of] in Elab. apply Some_inj in Elab. lia. }
      rewrite Hm in Hv. rewrite (nth_error_nth ps k 0 Hv). apply (H1 (Z.to_nat (p_label p))). apply nth_error_nth'. lia.
    + destruct (uni_bool_gradient h (p_label p) ps lab g m r) as [(A & B)|(A & B & own & Ho & Hr & Hs & Hsum)]; try congruence; try lia; [left; auto|right].
      split; [exact A|]. split; [exact B|]. apply (pushes_good n (Z.to_nat (p_label p))); [|exact Hss]. rewrite <- Lps. eapply spreads_pushes; eauto. lia.
Qed.

(** The scores of a prediction, over the reals. *)
Lemma predict_real c p lo lab ps : (0 <= lo)%Z -> wf_core c -> wf_point lo p -> predict Rnum c p = Some (lab, ps) ->
  label_of Rnum ps = Some lab /\ length ps = length (c_ws c) /\
  forall j, (j < length (c_ws c))%nat ->
    nth j ps 0 = rsum (c_dim c) (fun i => dv (nth j (c_ws c) []) i * xv (feats p) i) + nth 0 (nth j (c_ws c) []) 0.
Proof.
  intros Hlo Hc Hp H. unfold predict in H. dob H Q. dob H Q2. injection H as -> ->. split; [exact Q2|].
  rewrite (mapM_spec _ (fun w => rsum (length w) (fun i => dv w i * xv (feats p) i) + nth 0 w 0)) in Q.
  - apply Some_inj in Q. subst ps. split; [apply map_length|]. intros j Hj. destruct Hc as (_ & _ & Hw & _). rewrite Forall_forall in Hw.
    rewrite <- (Hw (nth j (c_ws c) [])) by now apply nth_In.
    pose proof (map_nth (fun w => rsum (length w) (fun i => dv w i * xv (feats p) i) + nth 0 w 0) (c_ws c) [] j) as M. cbv beta in M. rewrite <- M. apply nth_any. now rewrite map_length.
  - intros w Hin. destruct Hc as (Hd & _ & Hw & _). rewrite Forall_forall in Hw. specialize (Hw w Hin). unfold score. rewrite dotmul_real by (eapply feats_sorted; eauto). cbn [bind].
    rewrite (rd0 Rnum) by lia. reflexivity.
Qed.
Lemma no_zero (p : point R) lo : wf_point lo p -> Forall (fun i => (1 <= i)%Z) (p_idx p) -> ~ In 0%Z (map fst (feats p)).
Proof. intros (L & _) H Hin. rewrite feats_fst in Hin by exact L. rewrite Forall_forall in H. specialize (H _ Hin). lia. Qed.

Section Perc.
Variables (n : nat) (loss : loss_kind) (pre : point R -> option (point R)) (b0 gamma rad2 act : R) (ss : list (list R * R)) (U0 E0 : Z).
Hypothesis Hloss : loss_ok n loss.
Hypothesis Hbl : bool_loss loss.
Hypothesis Hb0 : 0 <= b0.
Hypothesis Hss : length ss = n.
Hypothesis H64 : (Z.of_nat n < 2 ^ 64)%Z.
Definition Gn : R := if (n =? 1)%nat then 1 else 2.
Definition Kperc (c : core (R:=R)) (e : unit) : Prop :=
  c_b0 c = b0 /\ c_active c = act /\ (U0 <= c_upd c)%Z /\ potential n b0 gamma Gn rad2 ss (c_dim c) (c_ws c) (IZR (c_upd c - U0)) /\
  (act <= 0 -> (c_err c - E0 = c_upd c - U0)%Z).
Definition Xperc (p : point R) : Prop := separates b0 gamma ss p /\ bounded b0 rad2 p.

Lemma perc_point p rnd x c e c' e' : pre p = Some x -> wf_point (lo_of (R:=R) KPerceptron) x -> label_ok n (p_label x) -> Xperc x ->
  sound Rnum KPerceptron n loss c e -> Kperc c e -> train_point Rnum (alg_of Rnum KPerceptron) pre (p, rnd) c e = Some (c', e') -> Kperc c' e'.
Proof.
  intros Ex Hx Hlab (Hsep & Hno & Hrad) Hs (K1 & K2 & K3 & K4 & K5) H. unfold train_point in H. rewrite Ex in H. cbn [bind] in H. dob H Q. destruct p0 as (((lab, ps), c1), e1).
  injection H as <- <-.
  destruct (iterate_sound Rnum KPerceptron n loss Hloss x rnd c e lab ps c1 e1 Hx Hlab Hs Q)
    as (ea & eb & c3 & e3 & q & G1 & G2 & S1 & Hd & G3 & F3 & S3 & G4 & Lps & _ & Gq & G6).
  cbn [a_prep alg_of perceptron plain prep_none] in G3. unfold prep_none in G3. apply Some_inj in G3. injection G3 as <- <-.
  set (d := Z.to_nat (x_dim x)) in *. set (cg := linear_update_dim Rnum d c) in *.
  assert (CG : c_b0 cg = b0 /\ c_active cg = act /\ c_upd cg = c_upd c /\ c_err cg = c_err c).
  { unfold cg, linear_update_dim. destruct (_ <? _)%nat; cbn; auto. }
  destruct CG as (CG1 & CG2 & CG3 & CG4).
  assert (Hn : length (c_ws cg) = n) by apply S1.
  assert (P3 : potential n b0 gamma Gn rad2 ss (c_dim cg) (c_ws cg) (IZR (c_upd c - U0))).
  { eapply potential_ext; [| |exact K4].
    - unfold cg, linear_update_dim. destruct (Nat.ltb_spec (c_dim c) d); cbn; lia.
    - intros j i Hj. unfold cg, linear_update_dim. destruct (Nat.ltb_spec (c_dim c) d); cbn; [|reflexivity].
      destruct Hs as ((_ & _ & Hw & _) & Hl & _). destruct (nth_grows n (c_dim c) d 0 (c_ws c) j i) as [E|E]; [split; auto|exact E|lia]. }
  destruct (predict_real _ x 0 lab ps ltac:(lia) (proj1 S3) Hx G4) as (Elab & _ & Hps). cbn [c_ws set_data set_iter c_dim] in Hps. rewrite Hn in Hps.
  destruct G6 as [(-> & -> & ->)|(-> & r & e4 & G6)].
  - (* not queried: active learning is on *)
    assert (Ha : 0 < act).
    { unfold queried in Gq. destruct (n_lt Rnum (zero Rnum) _) eqn:Ea; [|discriminate]. apply Rlt_b in Ea. unfold zero in Ea. cbn in Ea. now rewrite <- CG2. }
    destruct (lab =? p_label x)%Z; (split; [exact CG1|split; [exact CG2|split; [cbn; lia|split; [cbn; rewrite CG3; exact P3|lra]]]]).
  - cbv zeta in G6. destruct G6 as (Gr & Lr & S5 & Up & S' & Re).
    set (c2 := set_data (set_iter cg (c_iter cg + 1)) (c_data cg + 1)) in *.
    set (c4 := cost_margin_step Rnum c2 (p_label x)) in *.
    assert (W4 : c_ws c4 = c_ws cg /\ c_dim c4 = c_dim cg /\ c_b0 c4 = b0 /\ c_active c4 = act /\ c_upd c4 = c_upd c /\ c_err c4 = c_err c /\ c_g c4 = c_g cg /\ c_lazy c4 = c_lazy cg).
    { unfold c4, cost_margin_step. destruct (c_cost c2); cbn; auto 10. }
    destruct W4 as (W1 & W2 & W3 & W4 & W5 & W6 & W7 & W8).
    assert (Hn1 : (1 <= n)%nat). { destruct S1 as ((_ & Hne & _) & _). destruct (c_ws cg); [easy|]. cbn in Hn. lia. }
    assert (Lg : length (c_g c4) = n) by (destruct S1 as ((_ & _ & _ & ?) & _); congruence).
    destruct (bool_good n loss b0 gamma ss x ps lab _ (c_g c4) (c_margin c4) r Hbl Hloss Lps Lg Hss H64 Hn1 Hlab Elab Hsep Gr) as [(A & ->)|(A & B & GG)].
    + (* no mistake *)
      destruct Up as [(Wu & _)|(Wu & -> & ->)].
      { exfalso. unfold wants_update in Wu. rewrite Z.eqb_refl in Wu. cbn [negb] in Wu. destruct (c_lazy _); [discriminate|]. apply Rlt_b in Wu. rewrite A in Wu. unfold zero in Wu. cbn in Wu. lra. }
      rewrite Z.eqb_refl. unfold Kperc. cbn [c_b0 c_active c_upd c_err c_dim c_ws set_lres]. rewrite W1, W2, W3, W4, W5, W6. auto 10.
    + destruct Up as [(Wu & Up & F')|(Wu & _)].
      2: { exfalso. unfold wants_update in Wu. destruct (Z.eqb_spec lab (p_label x)); [easy|]. cbn [negb] in Wu. destruct (c_lazy _); [discriminate|]. apply Rlt_b_false in Wu. rewrite A in Wu. unfold zero in Wu. cbn in Wu. lra. }
      destruct (Z.eqb_spec lab (p_label x)); [easy|].
      cbn [a_update alg_of perceptron plain] in Up. dob Up Q2. apply Some_inj in Up. injection Up as -> <-. unfold perceptron_update in Q2. cbv zeta in Q2. dob Q2 Q3. apply Some_inj in Q2. subst c1.
      cbn [c_g c_ws set_eta set_upd set_lres] in Q3. rewrite W1 in Q3.
      set (bias := bias_eta Rnum _) in Q3.
      assert (Hbias : bias = b0). { unfold bias, bias_eta. cbn [c_b0 c_eta set_eta set_upd set_lres]. rewrite W3. unfold one. cbn. ring. }
      assert (Hw : Forall (fun w => length w = c_dim cg) (c_ws cg)) by apply S1. rewrite Forall_forall in Hw.
      assert (Hd1 : (1 <= c_dim cg)%nat) by apply S1.
      assert (Hso : sorted_ix (feats x)) by (eapply feats_sorted; [|exact Hx]; cbn; lia).
      assert (Hbel : below (c_dim cg) (feats x)) by (eapply feats_bel; [|exact Hx|exact Hd]; cbn; lia).
      rewrite (each_class_spec Rnum _ (fun g w => pstep Rnum (fun _ a v => a - g * v) (fun b => b - bias * g) (feats x) w)) in Q3.
      2: congruence.
      2: { intros g w Hin. apply perceptron_step_spec; [exact Hso|]. rewrite (Hw w Hin). exact Hd1. }
      apply Some_inj in Q3. subst l. unfold Kperc. cbn [c_b0 c_active c_upd c_err c_dim c_ws set_lres set_err set_ws set_eta set_upd]. rewrite W2, W3, W4, W5, W6.
      split; [reflexivity|]. split; [reflexivity|]. split; [lia|]. split; [|intros Ha; specialize (K5 Ha); lia].
      replace (c_upd c + 1 - U0)%Z with (c_upd c - U0 + 1)%Z by lia. rewrite plus_IZR.
      eapply (potential_step n b0 gamma Gn rad2 ss Hb0 (c_dim cg) (c_ws cg) _ _ (feats x) (l_grad r) ps); auto.
      * eapply no_zero; eauto.
      * intros j Hj. split; [|apply Hps; exact Hj]. apply Hw, nth_In. congruence.
      * intros j i Hj. assert (Hj' : (j < length (c_ws cg))%nat) by congruence. assert (Hg : (j < length (l_grad r))%nat) by congruence.
        rewrite (nth_error_nth (zipc _ (l_grad r) (c_ws cg)) j [] (x := (if n_eq Rnum (nth j (l_grad r) 0) (zero Rnum) then nth j (c_ws cg) [] else pstep Rnum (fun _ a v => a - nth j (l_grad r) 0 * v) (fun b => b - bias * nth j (l_grad r) 0) (feats x) (nth j (c_ws cg) [])))).
        2: { rewrite nth_error_zipc, (nth_error_nth' _ 0 Hg), (nth_error_nth' _ [] Hj'). reflexivity. }
        destruct (n_eq Rnum (nth j (l_grad r) 0) (zero Rnum)) eqn:Eg.
        { apply Req_b in Eg. rewrite Eg. unfold zero. cbn. ring. }
        set (w := nth j (c_ws cg) []). assert (Lw : length w = c_dim cg) by (apply Hw, nth_In; exact Hj').
        destruct (lt_dec i (length w)) as [Hi|Hi].
        { pose proof (pstep_nth Rnum (fun _ a v => a - nth j (l_grad r) 0 * v) (fun b => b - bias * nth j (l_grad r) 0) (feats x) w i Hi) as P. cbv zeta in P. unfold zero in P. cbn [n_int Rnum] in P. change (IZR 0) with 0 in P. rewrite P. clear P.
          destruct (Nat.eqb_spec i 0) as [->|Hi0].
          - assert (N0 : lookup (feats x) 0 = None) by (apply lookup_None; eapply no_zero; eauto). rewrite N0, Hbias. ring.
          - unfold xv. destruct (lookup (feats x) i); ring. }
        rewrite !nth_overflow by (rewrite ?pstep_length; lia). destruct (Nat.eqb_spec i 0); [lia|]. rewrite (xv_above (c_dim cg)) by (auto; lia). ring.
      * unfold Gn. destruct (_ =? _)%nat; lra.
Qed.
Lemma perc_session c0 us s : fresh Rnum n c0 -> c_loss c0 = loss -> c_b0 c0 = b0 -> c_active c0 = act -> c_upd c0 = U0 -> c_err c0 = E0 ->
  Forall (use_ok (lo_of (R:=R) KPerceptron) n pre) us -> trained_on Xperc pre us ->
  session Rnum (alg_of Rnum KPerceptron) pre us (c0, init_of Rnum KPerceptron n, true) = Some s -> at_rest Rnum KPerceptron n loss Kperc s.
Proof.
  intros Hf Hl B0 A0 Eu Ee HU HX H. eapply (session_inv Rnum KPerceptron n loss pre Hloss Kperc Xperc); eauto.
  - intros c e c' e' _ HK Hb. apply Some_inj in Hb. injection Hb as <- <-. exact HK.
  - apply perc_point.
  - intros c e c' e' _ HK He. apply Some_inj in He. injection He as <- <-. exact HK.
  - apply fresh_rest; auto. destruct Hf as (_ & Hw & Hd & _). unfold Kperc. rewrite Eu, Ee, Hw, Hd, B0, A0, !Z.sub_diag. repeat split; auto; try lia.
    assert (W0 : forall j i, nth i (nth j (repeat [zero Rnum] n) []) 0 = 0).
    { intros j i. destruct (nth_in_or_default j (repeat [zero Rnum] n) []) as [Hin|E]; [apply repeat_spec in Hin; rewrite Hin|rewrite E]; destruct i as [|[|i]]; reflexivity. }
    exists (fun _ => 0). split; [intros; rewrite W0; ring|]. intros D HD.
    assert (W : forall j i, Wt (fun _ => 0) (repeat [zero Rnum] n) j i = 0) by (intros; unfold Wt; destruct (_ =? _)%nat; auto).
    split.
    + rewrite (rsum_ext n _ (fun _ => 0)), rsum_zero; [lra|]. intros j _. rewrite (rsum_ext D _ (fun _ => 0)), rsum_zero; [lra|]. intros i _. rewrite W. ring.
    + rewrite (rsum_ext n _ (fun _ => 0)), rsum_zero; [lra|]. intros j _. rewrite (rsum_ext D _ (fun _ => 0)), rsum_zero; [lra|]. intros i _. rewrite W. ring.
Qed.
End Perc.
