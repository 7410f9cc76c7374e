(** Proofs about the readers of in-memory matrices. *)
From Coq Require Import Permutation Sorted Lia.
From Verif Require Import M_Base M_DataPoint M_Array S_Array P_DataPoint.
Ltac Zify.zify_post_hook ::= Z.div_mod_to_equations.

(** A reader whose states are numbered. *)
Lemma read_k_all {R V} (next : R -> point V -> option (status * point V * R)) (at_ : nat -> R) (n : nat)
  (Q : nat -> point V -> Prop) st :
  (forall i dst, (i < n)%nat -> exists p, next (at_ i) dst = Some (Status_OK, p, at_ (S i)) /\ Q i p) ->
  (forall dst, next (at_ n) dst = Some (st, dst, at_ n)) -> st <> Status_OK ->
  forall k i dst, (i + k = n)%nat -> exists ps, read_k next (S k) (at_ i) dst = Some (ps, st, at_ n) /\ length ps = k /\
    forall j p, nth_error ps j = Some p -> Q (i + j)%nat p.
Proof.
  intros H1 H2 Hst. induction k as [|k IH]; intros i dst Hi.
  - replace i with n by lia. exists []. cbn [read_k]. rewrite H2. cbn [bind]. split; [destruct st; congruence|]. split; [reflexivity|]. intros [|j]; discriminate.
  - destruct (H1 i dst ltac:(lia)) as (p & E & Qp). destruct (IH (S i) p ltac:(lia)) as (ps & E2 & L & Qs).
    exists (p :: ps). remember (S k) as k1 eqn:Ek. cbn [read_k]. rewrite E. cbn [bind]. rewrite E2. cbn [bind]. split; [reflexivity|]. split; [cbn; lia|].
    intros [|j] q Hq; cbn in Hq.
    + injection Hq as <-. now rewrite Nat.add_0_r.
    + rewrite Nat.add_succ_r. exact (Qs j q Hq).
Qed.

Section P.
Context {D V : Type}.
Variables (nonzero : D -> bool) (to_real : D -> V) (to_label : D -> option Z).

Lemma read_label_ok y i l : row_label to_label y i l -> read_label to_label y (Z.of_nat i) = Some l.
Proof.
  unfold row_label, read_label. destruct y as [ys|]; [|intros ->; reflexivity]. intros (v & E & F). unfold rd. rewrite Nat2Z.id, E. exact F.
Qed.

Lemma combine_snoc {A B} (a : list A) (b : list B) x y : length a = length b -> combine (a ++ [x]) (b ++ [y]) = combine a b ++ [(x, y)].
Proof. revert b; induction a as [|z a IH]; intros [|w b] H; try discriminate; cbn; [reflexivity|]. f_equal. apply IH. cbn in H. lia. Qed.
Lemma dp_add_combine (p : point V) i v : length (p_idx p) = length (p_val p) ->
  length (p_idx (dp_add p i v)) = length (p_val (dp_add p i v)) /\ combine (p_idx (dp_add p i v)) (p_val (dp_add p i v)) = combine (p_idx p) (p_val p) ++ [(i, v)].
Proof. intros H. unfold dp_add. cbn [p_idx p_val]. rewrite !app_length. split; [cbn; lia|]. now apply combine_snoc. Qed.

Lemma numpy_cols_spec row : forall x j off p, length (p_idx p) = length (p_val p) ->
  (forall k v, nth_error row k = Some v -> x (off + 8 * Z.of_nat k) = Some v) ->
  exists q, numpy_cols nonzero to_real (length row) x (Z.of_nat j) off p = Some q /\ p_label q = p_label p /\
    length (p_idx q) = length (p_val q) /\
    combine (p_idx q) (p_val q) = combine (p_idx p) (p_val p) ++
      map (fun jv => (Z.of_nat (fst jv) + 1, to_real (snd jv))) (filter (fun jv => nonzero (snd jv)) (combine (seq j (length row)) row)).
Proof.
  induction row as [|v row IH]; intros x j off p Hp Hx; cbn [numpy_cols length seq combine filter map].
  - exists p. now rewrite app_nil_r.
  - assert (E := Hx O v eq_refl). replace (off + 8 * Z.of_nat 0) with off in E by lia. rewrite E. cbn [bind snd fst].
    replace (Z.of_nat j + 1) with (Z.of_nat (S j)) by lia.
    assert (Hx' : forall k w, nth_error row k = Some w -> x (off + 8 + 8 * Z.of_nat k) = Some w).
    { intros k w Hk. replace (off + 8 + 8 * Z.of_nat k) with (off + 8 * Z.of_nat (S k)) by lia. now apply Hx. }
    destruct (nonzero v).
    + destruct (dp_add_combine p (Z.of_nat (S j)) (to_real v) Hp) as (L & C).
      destruct (IH x (S j) (off + 8) _ L Hx') as (q & Eq & Lq & Hq & Cq). exists q. rewrite Eq. split; [reflexivity|]. split; [exact Lq|]. split; [exact Hq|].
      rewrite Cq, C, <- app_assoc. cbn [app map fst snd]. replace (Z.of_nat j + 1) with (Z.of_nat (S j)) by lia. reflexivity.
    + destruct (IH x (S j) (off + 8) p Hp Hx') as (q & Eq & Lq & Hq & Cq). exists q. auto.
Qed.

Definition numpy_at (r : numpy (D := D)) (i : nat) : numpy := mknumpy (np_x r) (np_y r) (np_n r) (np_cols r) (np_stride r) (Z.of_nat i).

Lemma numpy_reads rows cols r dst :
  laid_out rows cols (np_stride r) (np_x r) -> np_n r = Z.of_nat (length rows) -> np_cols r = Z.of_nat cols ->
  (forall i, (i < length rows)%nat -> exists l, row_label to_label (np_y r) i l) ->
  (forall i, (i < length rows)%nat -> is_i32 (Z.of_nat i * np_stride r)) ->
  exists ps, read_k (numpy_next nonzero to_real to_label) (S (length rows)) (numpy_rewind r) dst =
    Some (ps, if (0 <? length rows)%nat then Status_EndOfFile else Status_IO_Error, numpy_at r (length rows)) /\
    length ps = length rows /\
    forall i p, nth_error ps i = Some p -> row_label to_label (np_y r) i (p_label p) /\ length (p_idx p) = length (p_val p) /\
      exists row, nth_error rows i = Some row /\ combine (p_idx p) (p_val p) = dense_feats nonzero to_real row.
Proof.
  intros (L1 & L2) Hn Hc Hy Hs. change (numpy_rewind r) with (numpy_at r 0).
  apply (read_k_all (numpy_next nonzero to_real to_label) (numpy_at r) (length rows)
    (fun i p => row_label to_label (np_y r) i (p_label p) /\ length (p_idx p) = length (p_val p) /\
      exists row, nth_error rows i = Some row /\ combine (p_idx p) (p_val p) = dense_feats nonzero to_real row)
    (if (0 <? length rows)%nat then Status_EndOfFile else Status_IO_Error)) with (i := O).
  - intros i d Hi. destruct (nth_error rows i) as [row|] eqn:Er; [|apply nth_error_None in Er; lia].
    unfold numpy_next, numpy_at. cbn [np_idx np_n np_y np_stride np_cols np_x]. replace (Z.of_nat i =? np_n r) with false by lia.
    destruct (Hy i Hi) as (l & Hl). rewrite (read_label_ok _ _ _ Hl). cbn [bind].
    unfold int_ok. specialize (Hs i Hi). unfold is_i32 in Hs. replace ((-2147483648 <=? Z.of_nat i * np_stride r) && (Z.of_nat i * np_stride r <? 2147483648)) with true by lia. cbn [bind].
    rewrite Hc, Nat2Z.id. rewrite Forall_forall in L1. rewrite <- (L1 row (nth_error_In _ _ Er)).
    destruct (numpy_cols_spec row (np_x r) 0 (Z.of_nat i * np_stride r) (mkpt l [] []) eq_refl) as (q & Eq & Lq & Hq & Cq).
    { intros k v Hk. exact (L2 i k row v Er Hk). }
    change (Z.of_nat 0) with 0 in Eq. rewrite Eq. cbn [bind]. exists q. split.
    + do 4 f_equal. lia.
    + cbn in Lq. rewrite Lq. split; [exact Hl|]. split; [exact Hq|]. exists row. split; [reflexivity|]. exact Cq.
  - intros d. unfold numpy_next, numpy_at. cbn [np_idx np_n]. rewrite Hn, Z.eqb_refl. do 3 f_equal.
    destruct rows; [reflexivity|]. cbn [length]. replace (0 <? Z.of_nat (S (length rows))) with true by lia. reflexivity.
  - destruct (0 <? length rows)%nat; discriminate.
  - reflexivity.
Qed.

(* --------------------------------------------------------------------- csr *)
Lemma csr_feats_spec row : forall idx fts at_ p, length (p_idx p) = length (p_val p) -> 0 <= at_ ->
  Forall (fun e : Z * D => 0 <= fst e < 2147483647) row ->
  (forall k e, nth_error row k = Some e -> nth_error idx (Z.to_nat at_ + k) = Some (fst e) /\ nth_error fts (Z.to_nat at_ + k) = Some (snd e)) ->
  exists q, csr_feats to_real (length row) idx fts at_ p = Some q /\ p_label q = p_label p /\
    length (p_idx q) = length (p_val q) /\
    combine (p_idx q) (p_val q) = combine (p_idx p) (p_val p) ++ map (fun e => (fst e + 1, to_real (snd e))) row.
Proof.
  induction row as [|e row IH]; intros idx fts at_ p Hp Hat Hf Hx; cbn [csr_feats length map].
  - exists p. now rewrite app_nil_r.
  - destruct (Hx O e eq_refl) as (E1 & E2). rewrite Nat.add_0_r in E1, E2. replace (at_ <? 0) with false by lia.
    unfold rd. rewrite E1, E2. cbn [bind]. inversion Hf; subst. unfold int_ok.
    replace ((-2147483648 <=? fst e + 1) && (fst e + 1 <? 2147483648)) with true by lia. cbn [bind].
    destruct (dp_add_combine p (u32 (fst e + 1)) (to_real (snd e)) Hp) as (L & C).
    destruct (IH idx fts (at_ + 1) _ L ltac:(lia) H2) as (q & Eq & Lq & Hq & Cq).
    { intros k w Hk. replace (Z.to_nat (at_ + 1) + k)%nat with (Z.to_nat at_ + S k)%nat by lia. now apply Hx. }
    exists q. split; [exact Eq|]. split; [exact Lq|]. split; [exact Hq|]. rewrite Cq, C, <- app_assoc. cbn [app]. do 3 f_equal. unfold u32, two32. rewrite Z.mod_small by lia. reflexivity.
Qed.
Lemma nth_concat {A} (ls : list (list A)) i l k e : nth_error ls i = Some l -> nth_error l k = Some e ->
  nth_error (concat ls) (length (concat (firstn i ls)) + k) = Some e.
Proof.
  revert i; induction ls as [|x ls IH]; intros [|i] H1 H2; try discriminate; cbn [concat firstn].
  - cbn in H1. injection H1 as ->. cbn [length Nat.add]. rewrite nth_error_app1; [exact H2|]. apply nth_error_Some. congruence.
  - cbn in H1. rewrite app_length, nth_error_app2 by lia. replace (length x + length (concat (firstn i ls)) + k - length x)%nat with (length (concat (firstn i ls)) + k)%nat by lia. now apply IH.
Qed.
Lemma len_concat_S {A} (ls : list (list A)) i l : nth_error ls i = Some l -> length (concat (firstn (S i) ls)) = (length (concat (firstn i ls)) + length l)%nat.
Proof.
  revert i; induction ls as [|x ls IH]; intros [|i] H; try discriminate; cbn in H.
  - injection H as ->. cbn. rewrite app_nil_r. reflexivity.
  - change (firstn (S (S i)) (x :: ls)) with (x :: firstn (S i) ls). change (firstn (S i) (x :: ls)) with (x :: firstn i ls). cbn [concat]. rewrite !app_length, (IH i H). lia.
Qed.
Lemma len_concat_le {A} (ls : list (list A)) i : (length (concat (firstn i ls)) <= length (concat ls))%nat.
Proof. revert i; induction ls as [|x ls IH]; intros [|i]; cbn; try lia. rewrite !app_length. specialize (IH i). lia. Qed.

Definition csr_at (r : csr (D := D)) (i : nat) : csr := mkcsr (cs_indices r) (cs_indptr r) (cs_feats r) (cs_y r) (cs_n r) (Z.of_nat i).

Lemma combine_split_eq {A B} (a : list A) : forall (b : list B) c d, length a = length b -> length c = length d -> combine a b = combine c d -> a = c /\ b = d.
Proof.
  induction a as [|x a IH]; intros [|y b] [|z c] [|w d] H1 H2 E; try discriminate; [auto|]. cbn in *. injection E as -> -> E.
  destruct (IH b c d) as (-> & ->); auto.
Qed.

Lemma csr_reads base rows r dst :
  csr_arrays base rows (cs_indices r) (cs_indptr r) (cs_feats r) -> cs_n r = Z.of_nat (length rows) ->
  Forall (Forall (fun e : Z * D => 0 <= fst e < 2147483647)) rows -> Z.of_nat (length (concat rows)) < 2147483648 ->
  (forall i, (i < length rows)%nat -> exists l, row_label to_label (cs_y r) i l) ->
  exists ps, read_k (csr_next to_real to_label) (S (length rows)) (csr_rewind r) dst =
    Some (ps, if (0 <? length rows)%nat then Status_EndOfFile else Status_IO_Error, csr_at r (length rows)) /\
    length ps = length rows /\
    forall i p, nth_error ps i = Some p -> row_label to_label (cs_y r) i (p_label p) /\
      exists row, nth_error rows i = Some row /\ sparse_example to_real row p.
Proof.
  intros (A1 & A2 & A3 & A4) Hn Hf Hb Hy. change (csr_rewind r) with (csr_at r 0).
  apply (read_k_all (csr_next to_real to_label) (csr_at r) (length rows)
    (fun i p => row_label to_label (cs_y r) i (p_label p) /\ exists row, nth_error rows i = Some row /\ sparse_example to_real row p)
    (if (0 <? length rows)%nat then Status_EndOfFile else Status_IO_Error)) with (i := O).
  - intros i d Hi. destruct (nth_error rows i) as [row|] eqn:Er; [|apply nth_error_None in Er; lia].
    unfold csr_next, csr_at. cbn [cs_idx cs_n cs_y cs_indptr cs_indices cs_feats]. replace (Z.of_nat i =? cs_n r) with false by lia.
    destruct (Hy i Hi) as (l & Hl). rewrite (read_label_ok _ _ _ Hl). cbn [bind]. unfold rd.
    replace (Z.to_nat (Z.of_nat i + 1)) with (S i) by lia. rewrite Nat2Z.id. rewrite (A4 (S i)), (A4 i), (A4 0%nat) by lia. cbn [bind].
    change (length (concat (firstn 0 rows))) with 0%nat.
    assert (LS := len_concat_S rows i row Er). assert (LL := len_concat_le rows (S i)).
    match goal with |- context [int_ok ?e] => replace e with (Z.of_nat (length row)) by lia end.
    unfold int_ok at 1. replace ((-2147483648 <=? Z.of_nat (length row)) && (Z.of_nat (length row) <? 2147483648)) with true by lia. cbn [bind].
    match goal with |- context [int_ok ?e] => replace e with (Z.of_nat (length (concat (firstn i rows)))) by lia end.
    set (o := length (concat (firstn i rows))) in *. unfold int_ok. replace ((-2147483648 <=? Z.of_nat o) && (Z.of_nat o <? 2147483648)) with true by lia. cbn [bind].
    rewrite Nat2Z.id. destruct (csr_feats_spec row (cs_indices r) (cs_feats r) (Z.of_nat o) (mkpt l [] []) eq_refl) as (q & Eq & Lq & Hq & Cq).
    { lia. }
    { rewrite Forall_forall in Hf. apply Hf. eapply nth_error_In; eauto. }
    { intros k e Hk. rewrite Nat2Z.id. assert (X := nth_concat rows i row k e Er Hk). rewrite A1, A2, !nth_error_map. unfold o. rewrite X. auto. }
    rewrite Eq. cbn [bind]. destruct (dp_sort_spec q Hq) as (s & Es & Ls & Hs & Ss & Ps & Is). rewrite Es. cbn [bind].
    exists s. split; [do 4 f_equal; lia|]. cbn in Lq, Cq. rewrite Ls, Lq. split; [exact Hl|]. exists row. split; [reflexivity|].
    unfold sparse_example. split; [exact Hs|]. split; [exact Ss|]. split; [now rewrite <- Cq|]. intros Sr. rewrite Is; [exact Cq|].
    assert (Ei : p_idx q = map (fun i => i + 1) (map fst row)).
    { assert (X : map fst (combine (p_idx q) (p_val q)) = p_idx q).
      { clear -Hq. revert Hq. generalize (p_val q). induction (p_idx q) as [|x a IH]; intros [|y b] H; try discriminate; cbn in *; [reflexivity|]. f_equal. apply IH. lia. }
      rewrite <- X, Cq, !map_map. reflexivity. }
    rewrite Ei. clear -Sr. induction Sr as [|x l S IH F]; cbn; constructor; [exact IH|]. rewrite Forall_forall in F |- *. intros y Hy. apply in_map_iff in Hy. destruct Hy as (z & <- & Hz). specialize (F z Hz). lia.
  - intros d. unfold csr_next, csr_at. cbn [cs_idx cs_n]. rewrite Hn, Z.eqb_refl. do 3 f_equal.
    destruct rows; [reflexivity|]. cbn [length]. replace (0 <? Z.of_nat (S (length rows))) with true by lia. reflexivity.
  - destruct (0 <? length rows)%nat; discriminate.
  - reflexivity.
Qed.
End P.
