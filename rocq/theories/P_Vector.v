From Verif Require Import M_Base M_Vector S_Vector P_DataPoint.
Ltac Zify.zify_post_hook ::= Z.div_mod_to_equations.

Section P.
Context {A : Type} (zero : A).

Lemma grow_ok fuel : forall alloc n, 0 <= alloc < n -> n < 2 ^ 62 -> n - alloc < Z.of_nat fuel ->
  exists a, grow fuel alloc n = Some a /\ n <= a.
Proof.
  change (2 ^ 62) with 4611686018427387904.
  induction fuel as [|f IH]; intros alloc n Ha Hn Hf; [lia|].
  cbn [grow]. set (a' := u64 _).
  assert (Ea : alloc + 3 <= a').
  { subst a'. unfold u64, two64. destruct (alloc <? 1073741824) eqn:?; rewrite Z.mod_small; lia. }
  clearbody a'. destruct (Z.ltb_spec a' n).
  - apply IH; lia.
  - eauto.
Qed.

Lemma storage_resize_length n s : length (storage_resize zero n s) = Nat.max n (length s).
Proof.
  unfold storage_resize. destruct (Nat.ltb_spec (length s) n); [|lia].
  rewrite app_length, repeat_length. lia.
Qed.

Lemma storage_resize_prefix n s k : (k <= length s)%nat ->
  firstn k (storage_resize zero n s) = firstn k s.
Proof.
  intros Hk. unfold storage_resize. destruct (_ <? _)%nat; [|reflexivity].
  rewrite firstn_app. replace (k - length s)%nat with O by lia. cbn. apply app_nil_r.
Qed.

Definition vinv (v : vec A) : Prop := (v_size v <= length (v_store v))%nat.

Lemma contents_length v : vinv v -> length (vec_contents v) = v_size v.
Proof. intros H. unfold vec_contents. rewrite firstn_length. unfold vinv in H. lia. Qed.

Lemma vec_resize_spec n v : vinv v -> Z.of_nat n < 2 ^ 62 ->
  exists v', vec_resize zero n v = Some v' /\ vinv v' /\ v_size v' = n /\
    (length (v_store v) <= length (v_store v'))%nat /\
    firstn (length (v_store v)) (v_store v') = v_store v.
Proof.
  intros Hv Hn. unfold vec_resize. destruct (Nat.ltb_spec (length (v_store v)) n) as [Hlt|Hge].
  - destruct (grow_ok (S n) (Z.of_nat (length (v_store v))) (Z.of_nat n)) as (a & E & Ha); try lia.
    rewrite E. cbn [bind]. eexists. split; [reflexivity|]. unfold vinv. cbn [v_store v_size].
    rewrite storage_resize_length. repeat split; try lia.
    rewrite storage_resize_prefix by lia. apply firstn_all.
  - eexists. split; [reflexivity|]. unfold vinv; cbn. repeat split; try lia. apply firstn_all.
Qed.

Lemma vec_resize_step n v v' : vinv v -> vec_resize zero n v = Some v' ->
  Z.of_nat n < 2 ^ 62 -> seq_step (vec_contents v) (VResize n) (vec_contents v').
Proof.
  intros Hv E Hn. destruct (vec_resize_spec n v Hv Hn) as (w & E' & Hw & Hs & Hl & Hf).
  assert (w = v') by congruence; subst w. pose proof (contents_length v Hv) as Lc.
  destruct (Nat.le_gt_cases n (v_size v)) as [Hle|Hgt].
  - replace (vec_contents v') with (firstn n (vec_contents v)).
    + apply ss_shrink. lia.
    + unfold vec_contents. rewrite Hs, firstn_firstn. rewrite Nat.min_l by lia.
      rewrite <- Hf. rewrite firstn_firstn. unfold vinv in Hv. now rewrite Nat.min_l by lia.
  - assert (Hpre : firstn (v_size v) (vec_contents v') = vec_contents v).
    { unfold vec_contents. rewrite Hs, firstn_firstn, Nat.min_l by lia.
      rewrite <- Hf at 1. rewrite firstn_firstn. unfold vinv in Hv. now rewrite Nat.min_l by lia. }
    rewrite <- (firstn_skipn (v_size v) (vec_contents v')), Hpre.
    apply ss_grow. rewrite skipn_length, !contents_length by assumption. lia.
Qed.

Lemma upd_app_mid (l1 l2 : list A) y x : upd (length l1) x (l1 ++ y :: l2) = l1 ++ x :: l2.
Proof. induction l1 as [|z l1 IH]; cbn; auto. now rewrite IH. Qed.

Lemma firstn_upd n i x (l : list A) : (i < n)%nat -> firstn n (upd i x l) = upd i x (firstn n l).
Proof.
  revert n l; induction i as [|i IH]; intros [|n] [|y l] H; cbn; try lia; auto.
  now rewrite IH by lia.
Qed.

Lemma vec_set_step i x v : vinv v -> (i < v_size v)%nat ->
  exists v', vec_set i x v = Some v' /\ vinv v' /\ v_size v' = v_size v /\
    vec_contents v' = upd i x (vec_contents v).
Proof.
  intros Hv Hi. unfold vec_set, vinv in *. rewrite wr_upd by lia. cbn [bind].
  eexists. split; [reflexivity|]. unfold vec_contents; cbn. rewrite upd_length.
  repeat split; [lia|]. now apply firstn_upd.
Qed.

Lemma split_at (l : list A) i : (i < length l)%nat ->
  exists l1 y l2, l = l1 ++ y :: l2 /\ length l1 = i.
Proof.
  intros Hi. exists (firstn i l). destruct (skipn i l) as [|y l2] eqn:E.
  - pose proof (skipn_length i l) as H. rewrite E in H. cbn in H. lia.
  - exists y, l2. split; [now rewrite <- E, firstn_skipn|]. rewrite firstn_length. lia.
Qed.

Lemma vec_step_ok v o : vinv v -> op_ok (v_size v) o ->
  exists v', vec_step zero v o = Some v' /\ vinv v' /\ v_size v' = op_size (v_size v) o /\
             seq_step (vec_contents v) o (vec_contents v').
Proof.
  intros Hv Hok. destruct o as [n|x| | |n|i x|f st]; cbn [vec_step op_ok op_size] in *.
  - destruct (vec_resize_spec n v Hv Hok) as (v' & E & H1 & H2 & _).
    exists v'. repeat split; auto. now apply vec_resize_step.
  - unfold vec_push.
    destruct (vec_resize_spec (S (v_size v)) v Hv ltac:(lia)) as (v1 & E & H1 & H2 & _).
    rewrite E. cbn [bind].
    destruct (vec_set_step (v_size v1 - 1) x v1 H1 ltac:(lia)) as (v2 & E2 & H3 & H4 & H5).
    exists v2. split; [exact E2|]. split; [exact H3|]. split; [lia|].
    pose proof (vec_resize_step _ _ _ Hv E ltac:(lia)) as Hs.
    pose proof (contents_length v Hv) as Lv.
    inversion Hs as [l n ext Hl Heq1 Heq2 Heq3|l n Hl Heq1 Heq2 Heq3| | | | | | |]; subst; [|lia].
    rewrite H5, <- Heq3.
    destruct ext as [|y [|z ext]]; cbn [length] in Hl; try lia.
    replace (v_size v1 - 1)%nat with (length (vec_contents v)) by lia.
    rewrite upd_app_mid. constructor.
  - unfold vec_pop. destruct (Nat.eqb_spec (v_size v) 0) as [H0|H0].
    + cbn [bind]. exists v. rewrite H0. repeat split; auto.
      assert (vec_contents v = []) as -> by (unfold vec_contents; now rewrite H0). constructor.
    + unfold vec_resize. unfold vinv in Hv.
      replace (_ <? _)%nat with false by lia. cbn [bind].
      eexists. split; [reflexivity|]. unfold vinv; cbn. split; [lia|]. split; [lia|].
      unfold vec_contents; cbn [v_size v_store].
      destruct (split_at (v_store v) (v_size v - 1) ltac:(lia)) as (l1 & y & l2 & E & El).
      rewrite E. replace (v_size v) with (length (l1 ++ [y])) at 1 by (rewrite app_length; cbn; lia).
      replace (l1 ++ y :: l2) with ((l1 ++ [y]) ++ l2) at 1 by now rewrite <- app_assoc.
      rewrite firstn_app, firstn_all, Nat.sub_diag. cbn [firstn]. rewrite app_nil_r.
      replace (v_size v - 1)%nat with (length l1).
      rewrite firstn_app, firstn_all, Nat.sub_diag. cbn [firstn]. rewrite app_nil_r. constructor.
  - unfold vec_resize. cbn. eexists. split; [reflexivity|]. unfold vinv; cbn.
    split; [lia|]. split; [lia|]. constructor.
  - eexists. split; [reflexivity|]. unfold vinv, vec_reserve; cbn.
    rewrite storage_resize_length. unfold vinv in Hv. split; [lia|]. split; [lia|].
    unfold vec_contents; cbn. rewrite storage_resize_prefix by lia. constructor.
  - destruct (vec_set_step i x v Hv Hok) as (v' & E & H1 & H2 & H3).
    exists v'. repeat split; auto. rewrite H3.
    destruct (split_at (vec_contents v) i) as (l1 & y & l2 & E1 & <-);
      [rewrite contents_length by assumption; lia|].
    rewrite E1, upd_app_mid. constructor.
  - unfold vec_slice_op. unfold vinv in Hv.
    replace (v_size v <? st)%nat with false by lia.
    replace (length (v_store v) <? v_size v)%nat with false by lia.
    eexists. split; [reflexivity|]. unfold vinv; cbn [v_store v_size].
    assert (Hlen : length (firstn (v_size v - st) (skipn st (v_store v))) = (v_size v - st)%nat)
      by (rewrite firstn_length, skipn_length; lia).
    split; [rewrite !app_length, map_length, Hlen, firstn_length, skipn_length; lia|]. split; [reflexivity|].
    unfold vec_contents; cbn [v_store v_size].
    assert (E : firstn (v_size v) (v_store v) =
                firstn st (v_store v) ++ firstn (v_size v - st) (skipn st (v_store v))).
    { rewrite <- (firstn_skipn st (v_store v)) at 1.
      rewrite firstn_app, firstn_firstn, firstn_length.
      rewrite Nat.min_r by lia. rewrite Nat.min_l by lia. reflexivity. }
    rewrite E. set (a := firstn st (v_store v)) in *. set (b := firstn _ (skipn st _)) in *.
    assert (La : length a = st) by (subst a; rewrite firstn_length; lia).
    rewrite app_assoc. replace (v_size v) with (length (a ++ map f b)) at 1
      by (rewrite app_length, map_length; lia).
    rewrite firstn_app, firstn_all, Nat.sub_diag. cbn [firstn]. rewrite app_nil_r.
    rewrite <- La. constructor.
Qed.

Lemma vec_run_ok ops : forall v, vinv v -> ops_ok (v_size v) ops ->
  exists v', vec_run zero ops v = Some v' /\ vinv v' /\
             seq_run ops (vec_contents v) (vec_contents v').
Proof.
  induction ops as [|o r IH]; intros v Hv Hok; cbn [vec_run ops_ok] in *.
  - exists v. repeat split; auto. constructor.
  - destruct Hok as [H1 H2]. destruct (vec_step_ok v o Hv H1) as (v1 & -> & Hv1 & Hs & Hst).
    cbn [bind]. rewrite <- Hs in H2. destruct (IH v1 Hv1 H2) as (v2 & E & Hv2 & Hr).
    exists v2. repeat split; auto. econstructor; eassumption.
Qed.

(** Reading an element in range returns the element of the sequence. *)
Lemma vec_get_ok v i : vinv v -> (i < v_size v)%nat -> vec_get i v = nth_error (vec_contents v) i.
Proof.
  intros Hv Hi. unfold vec_get, rd, vec_contents. symmetry.
  revert i Hi. generalize (v_size v) as n, (v_store v) as s.
  induction n as [|n IH]; intros s i Hi; [lia|]. destruct s as [|x s]; [now destruct i|].
  destruct i; cbn; auto. apply IH; lia.
Qed.
End P.

Lemma vec_history_l : forall (A : Type) (zero : A) ops, ops_ok 0 ops ->
  exists v, vec_run zero ops vec_empty = Some v /\ (v_size v <= length (v_store v))%nat /\
            seq_run ops [] (vec_contents v) /\
            forall i, (i < v_size v)%nat -> vec_get i v = nth_error (vec_contents v) i.
Proof.
  intros A zero ops H.
  destruct (vec_run_ok zero ops vec_empty) as (v & E & Hv & Hr); [unfold vinv; cbn; lia|exact H|].
  exists v. split; [exact E|]. split; [exact Hv|]. split; [exact Hr|].
  intros i Hi. now apply vec_get_ok.
Qed.
