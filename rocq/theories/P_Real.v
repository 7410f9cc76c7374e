(** Sums over the reals; the reductions of the code in exact arithmetic. *)
From Verif Require Import M_Base M_Num M_Expr S_Expr S_Real P_DataPoint P_Expr.
From Coq Require Import Reals Lra Sorted.
Local Open Scope R_scope.

Lemma rsum_ext n f g : (forall i, (i < n)%nat -> f i = g i) -> rsum n f = rsum n g.
Proof.
  induction n as [|n IH]; intros H; [reflexivity|]. simpl.
  rewrite IH, H by (try intros; try apply H; lia). reflexivity.
Qed.
Lemma rsum_plus n f g : rsum n (fun i => f i + g i) = rsum n f + rsum n g.
Proof. induction n; simpl; [lra|]. rewrite IHn. lra. Qed.
Lemma rsum_minus n f g : rsum n (fun i => f i - g i) = rsum n f - rsum n g.
Proof. induction n; simpl; [lra|]. rewrite IHn. lra. Qed.
Lemma rsum_scal n a f : rsum n (fun i => a * f i) = a * rsum n f.
Proof. induction n; simpl; [lra|]. rewrite IHn. lra. Qed.
Lemma rsum_zero n : rsum n (fun _ => 0) = 0.
Proof. induction n; simpl; lra. Qed.
Lemma rsum_nonneg n f : (forall i, (i < n)%nat -> 0 <= f i) -> 0 <= rsum n f.
Proof.
  induction n as [|n IH]; intros H; simpl; [lra|].
  assert (0 <= rsum n f) by (apply IH; intros; apply H; lia).
  assert (0 <= f n) by (apply H; lia). lra.
Qed.
Lemma rsum_le n f g : (forall i, (i < n)%nat -> f i <= g i) -> rsum n f <= rsum n g.
Proof.
  induction n as [|n IH]; intros H; simpl; [lra|].
  assert (rsum n f <= rsum n g) by (apply IH; intros; apply H; lia).
  assert (f n <= g n) by (apply H; lia). lra.
Qed.
Lemma rsum_zero_all n f : (forall i, (i < n)%nat -> 0 <= f i) -> rsum n f = 0 ->
  forall i, (i < n)%nat -> f i = 0.
Proof.
  induction n as [|n IH]; intros H Hs i Hi; [lia|]. simpl in Hs.
  assert (0 <= rsum n f) by (apply rsum_nonneg; intros; apply H; lia).
  assert (0 <= f n) by (apply H; lia).
  destruct (Nat.eq_dec i n); [subst; lra|]. apply IH; try lra; try lia.
  intros; apply H; lia.
Qed.
Lemma rsum_elem_le n f i : (forall i, (i < n)%nat -> 0 <= f i) -> (i < n)%nat -> f i <= rsum n f.
Proof.
  induction n as [|n IH]; intros H Hi; [lia|]. simpl.
  assert (0 <= rsum n f) by (apply rsum_nonneg; intros; apply H; lia).
  assert (0 <= f n) by (apply H; lia).
  destruct (Nat.eq_dec i n); [subst; lra|].
  assert (f i <= rsum n f) by (apply IH; [intros; apply H; lia|lia]). lra.
Qed.
(** Splitting off one position. *)
Lemma rsum_at n j f g : (j < n)%nat -> (forall i, (i < n)%nat -> i <> j -> f i = g i) ->
  rsum n f = rsum n g - g j + f j.
Proof.
  induction n as [|n IH]; intros Hj H; [lia|]. simpl.
  destruct (Nat.eq_dec j n).
  - subst. rewrite (rsum_ext n f g) by (intros; apply H; lia). lra.
  - rewrite IH by (try lia; intros; apply H; lia). rewrite (H n) by lia. lra.
Qed.

(** Cauchy-Schwarz. *)
Lemma rsum_cs n f g :
  rsum n (fun i => f i * g i) * rsum n (fun i => f i * g i)
  <= rsum n (fun i => f i * f i) * rsum n (fun i => g i * g i).
Proof.
  set (A := rsum n (fun i => f i * f i)). set (B := rsum n (fun i => g i * g i)).
  set (C := rsum n (fun i => f i * g i)).
  assert (HA : 0 <= A) by (apply rsum_nonneg; intros; apply Rle_0_sqr).
  assert (HB : 0 <= B) by (apply rsum_nonneg; intros; apply Rle_0_sqr).
  assert (H : forall t, 0 <= A * (t * t) - 2 * t * C + B).
  { intros t.
    replace (A * (t * t) - 2 * t * C + B)
      with (rsum n (fun i => (t * f i - g i) * (t * f i - g i))).
    - apply rsum_nonneg. intros. apply Rle_0_sqr.
    - unfold A, B, C. transitivity
        (rsum n (fun i => (t * t * (f i * f i) + g i * g i) - 2 * t * (f i * g i))).
      + apply rsum_ext. intros. lra.
      + rewrite rsum_minus, rsum_plus, !rsum_scal. lra. }
  destruct (Rle_lt_or_eq_dec _ _ HA) as [HA'|HA'].
  - specialize (H (C / A)).
    replace (A * (C / A * (C / A)) - 2 * (C / A) * C + B) with ((A * B - C * C) / A) in H
      by (field; lra).
    assert (0 <= (A * B - C * C) / A * A) by (apply Rmult_le_pos; lra).
    replace ((A * B - C * C) / A * A) with (A * B - C * C) in H0 by (field; lra). lra.
  - rewrite <- HA' in *.
    assert (C = 0).
    { unfold C. rewrite (rsum_ext n _ (fun _ => 0)); [apply rsum_zero|]. intros i Hi.
      assert (Hf : f i * f i = 0).
      { symmetry in HA'. unfold A in HA'.
        apply (rsum_zero_all n (fun i => f i * f i)); auto. intros; apply Rle_0_sqr. }
      assert (f i = 0) by (apply Rmult_integral in Hf; tauto). rewrite H0. lra. }
    rewrite H0. lra.
Qed.

Lemma xv_cons j v x i :
  xv ((j, v) :: x) i = if (j =? Z.of_nat i)%Z then v else xv x i.
Proof. unfold xv. simpl. destruct (j =? Z.of_nat i)%Z; reflexivity. Qed.
Lemma xv_notin x i : ~ In (Z.of_nat i) (map fst x) -> xv x i = 0.
Proof. intros H. unfold xv. apply lookup_None in H. rewrite H. reflexivity. Qed.
Lemma xv_above n x i : below n x -> (n <= i)%nat -> xv x i = 0.
Proof.
  intros Hb Hi. apply xv_notin. intros Hin. unfold below in Hb. rewrite Forall_forall in Hb.
  specialize (Hb _ Hin). lia.
Qed.
Lemma below_le n m x : below n x -> (n <= m)%nat -> below m x.
Proof. unfold below. intros H Hm. eapply Forall_impl; [|exact H]. simpl. intros. lia. Qed.

Lemma fold_left_Rplus {A} (f : A -> R) l a :
  fold_left (fun s x => s + f x) l a = a + fold_left (fun s x => s + f x) l 0.
Proof.
  revert a. induction l as [|y l IH]; intros a; simpl; [lra|].
  rewrite IH, (IH (0 + f y)). lra.
Qed.

(** A sum over the entries of a sorted sparse vector, as a sum over all positions. *)
Lemma fold_entries n (F : nat -> R -> R) x : sorted_ix x -> below n x ->
  (forall i, F i 0 = 0) ->
  fold_left (fun a p => a + F (Z.to_nat (fst p)) (snd p)) x 0 = rsum n (fun i => F i (xv x i)).
Proof.
  intros Hs Hb HF. induction x as [|(j, v) x IH].
  - simpl. symmetry. rewrite (rsum_ext n _ (fun _ => 0)); [apply rsum_zero|].
    intros. unfold xv. simpl. apply HF.
  - destruct (sorted_ix_tail _ _ _ Hs) as (Hs' & Hj & _ & Hni).
    unfold below in Hb. simpl in Hb. inversion Hb; subst.
    simpl. rewrite fold_left_Rplus. cbn [fst snd]. rewrite IH by auto.
    rewrite (rsum_at n (Z.to_nat j) (fun i => F i (xv ((j, v) :: x) i)) (fun i => F i (xv x i))).
    + rewrite xv_cons, Z2Nat.id by lia. rewrite Z.eqb_refl.
      assert (H0 : xv x (Z.to_nat j) = 0) by (apply xv_notin; now rewrite Z2Nat.id by lia).
      rewrite H0, HF. lra.
    + lia.
    + intros i _ Hne. rewrite xv_cons.
      destruct (Z.eqb_spec j (Z.of_nat i)); [lia|reflexivity].
Qed.

Lemma fold_left_ext {A B} (f g : A -> B -> A) l : forall a, (forall a b, f a b = g a b) ->
  fold_left f l a = fold_left g l a.
Proof. induction l; simpl; intros; auto. rewrite H. auto. Qed.

Lemma xv_filter n x i : (i < n)%nat -> xv (filter (fun p => (fst p <? Z.of_nat n)%Z) x) i = xv x i.
Proof. intros. unfold xv. rewrite lookup_filter by lia. reflexivity. Qed.
Lemma below_filter n x : below n (filter (fun p => (fst p <? Z.of_nat n)%Z) x).
Proof.
  unfold below. rewrite Forall_forall. intros j Hj. apply in_map_iff in Hj as ((j', u) & <- & Hin).
  apply filter_In in Hin as [_ Hin]. simpl in *. lia.
Qed.

Lemma fdot_real l f x : sorted_ix x -> (forall i, f i 0 = 0) ->
  fdot Rnum 0 Rmult l f x 0 = rsum (length l) (fun i => dv l i * f i (xv x i)).
Proof.
  intros Hs Hf. unfold fdot. cbn [n_add Rnum].
  rewrite (fold_left_ext _ (fun a p => a + (fun i v => dv l i * f i v) (Z.to_nat (fst p)) (snd p)))
    by (intros a (i, v); reflexivity).
  rewrite (fold_entries (length l) (fun i v => dv l i * f i v)).
  - apply rsum_ext. intros. now rewrite xv_filter.
  - now apply sorted_filter.
  - apply below_filter.
  - intros. rewrite Hf. lra.
Qed.

Lemma dotmul_real l x : sorted_ix x ->
  dotmul Rnum l (ESparse x) = Some (rsum (length l) (fun i => dv l i * xv x i)).
Proof.
  intros Hs. rewrite (dotmul_spec Rnum 0 l (ESparse x) x); simpl; auto. f_equal.
  apply (fdot_real l (fun _ v => v)); auto.
Qed.
Lemma norm2_sparse_real n x : sorted_ix x -> below n x ->
  norm2 Rnum (ESparse x) = Some (rsum n (fun i => xv x i * xv x i)).
Proof.
  intros Hs Hb. rewrite (norm2_sparse Rnum 0) by auto. cbn [Rnum n_add n_mul]. f_equal.
  unfold zero. cbn [Rnum n_int].
  rewrite (fold_left_ext _ (fun a p => a + (fun (i : nat) v => v * v) (Z.to_nat (fst p)) (snd p)))
    by (intros a (i, v); reflexivity).
  apply (fold_entries n (fun _ v => v * v)); auto. intros. lra.
Qed.
Lemma op_abs_real a : op_abs Rnum a = Rabs a.
Proof.
  unfold op_abs, zero. cbn [Rnum n_lt n_opp n_int]. destruct (Rlt_dec 0 a).
  - rewrite Rabs_pos_eq; lra.
  - rewrite Rabs_left1; lra.
Qed.
Lemma norm1_sparse_real n x : sorted_ix x -> below n x ->
  norm1 Rnum (ESparse x) = Some (rsum n (fun i => Rabs (xv x i))).
Proof.
  intros Hs Hb. rewrite (norm1_sparse Rnum 0) by auto. f_equal. unfold zero. cbn [Rnum n_add n_int].
  rewrite (fold_left_ext _ (fun a p => a + (fun (i : nat) v => Rabs v) (Z.to_nat (fst p)) (snd p)))
    by (intros a (i, v); rewrite op_abs_real; reflexivity).
  apply (fold_entries n (fun _ v => Rabs v)); auto. intros. apply Rabs_R0.
Qed.
Lemma fold_left_rsum l : forall (F : R -> R),
  fold_left (fun a v => a + F v) l 0 = rsum (length l) (fun i => F (dv l i)).
Proof.
  intros F. induction l as [|a l IH] using rev_ind; [reflexivity|].
  rewrite fold_left_app, app_length. simpl. rewrite Nat.add_1_r. cbn [rsum].
  rewrite IH. f_equal.
  - apply rsum_ext. intros i Hi. unfold dv. now rewrite app_nth1.
  - unfold dv. rewrite app_nth2, Nat.sub_diag by lia. reflexivity.
Qed.
Lemma norm2_dense_real l :
  norm2 Rnum (EDense l) = Some (rsum (length l) (fun i => dv l i * dv l i)).
Proof.
  rewrite (norm2_dense Rnum 0). cbn [Rnum n_add n_mul n_int]. f_equal. unfold zero. cbn [Rnum n_int].
  apply (fold_left_rsum l (fun v => v * v)).
Qed.

(** Comparisons of exact arithmetic. *)
Lemma Rlt_b a b : n_lt Rnum a b = true <-> a < b.
Proof. cbn. destruct (Rlt_dec a b); split; auto; try discriminate; tauto. Qed.
Lemma Rlt_b_false a b : n_lt Rnum a b = false <-> b <= a.
Proof. cbn. destruct (Rlt_dec a b); split; auto; try discriminate; lra. Qed.
Lemma Rle_b a b : n_le Rnum a b = true <-> a <= b.
Proof. cbn. destruct (Rle_dec a b); split; auto; try discriminate; tauto. Qed.
Lemma Rle_b_false a b : n_le Rnum a b = false <-> b < a.
Proof. cbn. destruct (Rle_dec a b); split; auto; try discriminate; lra. Qed.
Lemma Req_b a b : n_eq Rnum a b = true <-> a = b.
Proof. cbn. destruct (Req_EM_T a b); split; auto; try discriminate; tauto. Qed.
Lemma Req_b_false a b : n_eq Rnum a b = false <-> a <> b.
Proof. cbn. destruct (Req_EM_T a b); split; auto; try discriminate; tauto. Qed.
Lemma std_max_real a b : std_max Rnum a b = Rmax a b.
Proof. unfold std_max. cbn. destruct (Rlt_dec a b); [rewrite Rmax_right|rewrite Rmax_left]; lra. Qed.
Lemma std_min_real a b : std_min Rnum a b = Rmin a b.
Proof. unfold std_min. cbn. destruct (Rlt_dec b a); [rewrite Rmin_right|rewrite Rmin_left]; lra. Qed.
