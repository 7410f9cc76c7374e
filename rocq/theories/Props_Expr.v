(** Property C50: vector expressions evaluate element-wise. *)
From Coq Require Import Reals.
From Verif Require Import M_Base M_Num M_Expr S_Expr S_Real P_Expr P_Real.

(** C50: assigning (or adding, ...) an expression over dense vectors and scalars treats every
    element on its own.  [op] is the assignment operator, [d] any default element. *)
Theorem C50_dense_assign : forall (R : Type) (d : R) (op : R -> R -> R) (e : exp R) (l : list R),
  dense_eq (length l) e -> (typ e = Some TDense \/ typ e = Some TValue) ->
  exists l', calc op l e = Some l' /\ length l' = length l /\
    forall i, (i < length l)%nat -> nth i l' d = op (nth i l d) (den d e i d).
Proof.
  intros R d op e l Hd Ht. eexists. split; [exact (calc_dense d op e l Hd Ht)|].
  split; [apply imap_length|]. intros i Hi.
  apply nth_error_nth. rewrite nth_error_imap, (nth_error_nth' l d Hi). reflexivity.
Qed.
Print Assumptions C50_dense_assign.

(** C50: with a sparse vector [x] in the expression, exactly the elements at the indexes of [x] below
    the size of the target change, each by the scalar operator; everything else keeps its value and
    nothing out of range is read or written. *)
Theorem C50_sparse_assign : forall (R : Type) (d : R) (op : R -> R -> R) (x : list (Z * R))
  (e : exp R) (l : list R),
  over x e -> typ e = Some TSparse -> sorted_ix x -> dense_ge (length l) e ->
  exists l', calc op l e = Some l' /\ length l' = length l /\
    forall i, (i < length l)%nat ->
      (forall v, In (Z.of_nat i, v) x -> nth i l' d = op (nth i l d) (den d e i v)) /\
      (~ In (Z.of_nat i) (map fst x) -> nth i l' d = nth i l d).
Proof.
  intros R d op x e l Ho Ht Hs Hd. eexists. split; [exact (calc_sparse d op x e l Ho Ht Hs Hd)|].
  split; [apply smap_length|]. intros i Hi. split.
  - intros v Hin. rewrite nth_smap by lia.
    assert (Hl : lookup x i = Some v).
    { clear -Hs Hin. induction x as [|(j, u) x IH]; [easy|].
      destruct (sorted_ix_tail _ _ _ Hs) as (Hs' & _ & _ & Hni). simpl.
      destruct Hin as [E|Hin].
      - inversion E; subst. now rewrite Z.eqb_refl.
      - destruct (Z.eqb_spec j (Z.of_nat i)) as [->|]; auto. exfalso. apply Hni.
        exact (in_map fst _ _ Hin). }
    rewrite Hl. reflexivity.
  - intros Hni. rewrite nth_smap by lia. apply lookup_None in Hni. now rewrite Hni.
Qed.
Print Assumptions C50_sparse_assign.

(** C50: inner products and norms are the mathematical sums over all elements (exact
    arithmetic). *)
Theorem C50_dotmul : forall (l : list R) x, sorted_ix x ->
  dotmul Rnum l (ESparse x) = Some (rsum (length l) (fun i => dv l i * xv x i)%R).
Proof. exact dotmul_real. Qed.
Print Assumptions C50_dotmul.

Theorem C50_norm2_sparse : forall n x, sorted_ix x -> below n x ->
  norm2 Rnum (ESparse x) = Some (rsum n (fun i => xv x i * xv x i)%R).
Proof. exact norm2_sparse_real. Qed.
Print Assumptions C50_norm2_sparse.

Theorem C50_norm1_sparse : forall n x, sorted_ix x -> below n x ->
  norm1 Rnum (ESparse x) = Some (rsum n (fun i => Rabs (xv x i))).
Proof. exact norm1_sparse_real. Qed.
Print Assumptions C50_norm1_sparse.

Theorem C50_norm2_dense : forall l,
  norm2 Rnum (EDense l) = Some (rsum (length l) (fun i => dv l i * dv l i)%R).
Proof. exact norm2_dense_real. Qed.
Print Assumptions C50_norm2_dense.

(** Without rounding assumptions: the order of summation is the order of the indexes. *)
Theorem C50_dotmul_any_arithmetic : forall (R : Type) (N : num R) (d : R) (l : list R) x,
  sorted_ix x ->
  dotmul N l (ESparse x) =
  Some (fold_left (fun a p => n_add N a (n_mul N (nth (Z.to_nat (fst p)) l d) (snd p)))
         (filter (fun p => fst p <? Z.of_nat (length l)) x) (n_int N 0)).
Proof.
  intros R N d l x Hs. rewrite (dotmul_spec N d l (ESparse x) x); simpl; auto.
  unfold fdot. f_equal. apply fold_left_ext. now intros a (i, v).
Qed.
Print Assumptions C50_dotmul_any_arithmetic.

(** The hypotheses are met by non-trivial vectors: a sparse vector with an index beyond the dense
    size, and an expression mixing scalar, dense and sparse operands. *)
Example C50_witness :
  let x := [(1, 5); (3, 2); (7, 9)] in
  let e := EBin Z.mul (EBin Z.add (EScalar 2) (EDense [1; 1; 1; 4])) (ESparse x) in
  over x e /\ typ e = Some TSparse /\ sorted_ix x /\ dense_ge 4 e /\
  calc Z.sub [10; 20; 30; 40] e = Some [10; 5; 30; 28] /\
  calc Z.add [1; 2] (EUn Z.opp (EBin Z.mul (EScalar 3) (EDense [5; 6]))) = Some [-14; -16].
Proof.
  cbv zeta. split; [simpl; auto|]. split; [reflexivity|]. split; [solve_sorted|].
  split; [simpl; lia|]. split; vm_compute; reflexivity.
Qed.

(** C50: an expression with a dense vector of another size than the target never changes the target: it is
    refused. *)
Theorem C50_shapes : forall (R : Type) (op : R -> R -> R) (e : exp R) (l v : list R),
  uses e v -> v <> [] -> length v <> length l -> (typ e = Some TDense \/ typ e = Some TValue) -> calc op l e = None.
Proof. exact @calc_mismatch. Qed.
Print Assumptions C50_shapes.
Example C50_shapes_witness :
  let e := EBin Z.add (EScalar 1) (EUn Z.opp (EDense [1; 2; 3])) in
  uses e [1; 2; 3] /\ typ e = Some TDense /\ calc (fun _ v => v) [7; 8] e = None /\ calc (fun _ v => v) [7; 8; 9] e = Some [0; -1; -2].
Proof. cbn. auto. Qed.
