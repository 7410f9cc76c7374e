(** Proofs about the expression templates. *)
From Verif Require Import M_Base M_Num M_Expr S_Expr P_DataPoint.
From Coq Require Import Sorted.

(** Sortedness of a concrete sparse vector. *)
Ltac solve_sorted :=
  split; cbn [map fst];
  repeat first [apply SSorted_nil | apply SSorted_cons | apply Forall_nil
               | apply Forall_cons; [lia|]].

Section P.
Context {R : Type}.
Variable dflt : R.
Local Notation den := (den dflt).

Lemma imap_length k f (l : list R) : length (imap k f l) = length l.
Proof. revert k. induction l; simpl; intros; auto. Qed.
Lemma nth_error_imap k f (l : list R) i :
  nth_error (imap k f l) i = option_map (f (k + i)%nat) (nth_error l i).
Proof.
  revert k i. induction l as [|a l IH]; intros k [|i]; simpl; auto.
  - f_equal. f_equal. lia.
  - rewrite IH. f_equal. f_equal. lia.
Qed.
Lemma smap_length f x (l : list R) : length (smap f x l) = length l.
Proof. apply imap_length. Qed.
Lemma nth_error_smap f x (l : list R) i :
  nth_error (smap f x l) i =
  option_map (fun a => match lookup x i with Some v => f i a v | None => a end) (nth_error l i).
Proof. unfold smap. rewrite nth_error_imap. reflexivity. Qed.
Lemma nth_smap f x (l : list R) i d : (i < length l)%nat ->
  nth i (smap f x l) d = match lookup x i with Some v => f i (nth i l d) v | None => nth i l d end.
Proof.
  intros Hi.
  assert (Hs : nth_error (smap f x l) i = Some (nth i (smap f x l) d))
    by (apply nth_error_nth'; rewrite smap_length; lia).
  rewrite nth_error_smap in Hs.
  rewrite (nth_error_nth' l d Hi) in Hs. simpl in Hs. congruence.
Qed.
Lemma nth_error_ext {A} (l l' : list A) : (forall i, nth_error l i = nth_error l' i) -> l = l'.
Proof.
  revert l'. induction l as [|a l IH]; intros [|b l'] H; auto.
  - specialize (H O). discriminate.
  - specialize (H O). discriminate.
  - pose proof (H O) as H0. simpl in H0. inversion H0; subst. f_equal. apply IH.
    intros i. exact (H (S i)).
Qed.

(** ** Lookup *)
Lemma lookup_In x i (v : R) : lookup x i = Some v -> In (Z.of_nat i, v) x.
Proof.
  induction x as [|(j, u) x IH]; simpl; [discriminate|].
  destruct (Z.eqb_spec j (Z.of_nat i)).
  - intros H. inversion H; subst. now left.
  - intros H. right. auto.
Qed.
Lemma lookup_None x i : @lookup R x i = None <-> ~ In (Z.of_nat i) (map fst x).
Proof.
  induction x as [|(j, u) x IH]; simpl; [tauto|].
  destruct (Z.eqb_spec j (Z.of_nat i)); split; intros H; try discriminate.
  - exfalso. apply H. now left.
  - intros [E|E]; [congruence|]. apply (proj1 IH H). exact E.
  - apply IH. tauto.
Qed.
Lemma sorted_ix_tail i v x : @sorted_ix R ((i, v) :: x) ->
  sorted_ix x /\ 0 <= i /\ Forall (Z.lt i) (map fst x) /\ ~ In i (map fst x).
Proof.
  intros [Hs Hn]. simpl in Hs, Hn. inversion Hs; inversion Hn; subst.
  repeat split; auto. intros Hin.
  rewrite Forall_forall in H2. specialize (H2 _ Hin). lia.
Qed.

(** ** Trimming *)
Lemma filter_none {A} (f : A -> bool) l : Forall (fun a => f a = false) l -> filter f l = [].
Proof. induction 1; simpl; auto. now rewrite H. Qed.
Lemma filter_all {A} (f : A -> bool) l : Forall (fun a => f a = true) l -> filter f l = l.
Proof. induction 1; simpl; auto. rewrite H. now f_equal. Qed.

Lemma sorted_app_inv {A} (Rl : A -> A -> Prop) l1 l2 :
  StronglySorted Rl (l1 ++ l2) ->
  StronglySorted Rl l1 /\ Forall (fun a => Forall (Rl a) l2) l1.
Proof.
  induction l1 as [|a l1 IH]; simpl; intros H; [split; constructor|].
  inversion H; subst. destruct (IH H2). apply Forall_app in H3. destruct H3.
  split; constructor; auto.
Qed.

Lemma trim_tail_filter {A} (n : nat) (l : list (Z * A)) :
  StronglySorted Z.lt (map fst l) ->
  trim_tail n l = filter (fun p => fst p <? Z.of_nat n) l.
Proof.
  unfold trim_tail.
  induction l as [|(i, v) l IH] using rev_ind; intros Hs; [reflexivity|].
  rewrite map_app in Hs. simpl in Hs. apply sorted_app_inv in Hs as [Hs Hlt].
  rewrite rev_unit. simpl. rewrite filter_app. simpl.
  destruct (Z.leb_spec (Z.of_nat n) i).
  - replace (i <? Z.of_nat n) with false by lia. rewrite app_nil_r. auto.
  - replace (i <? Z.of_nat n) with true by lia. simpl. rewrite rev_involutive.
    f_equal. symmetry. apply filter_all. rewrite Forall_forall in *. intros (j, u) Hin.
    specialize (Hlt j (in_map fst _ _ Hin)). inversion Hlt; subst. simpl. lia.
Qed.

(** ** Sparse expressions *)
Definition oden (e : exp R) (i : nat) (v : R) : option R :=
  (fix go (e : exp R) : option R :=
     match e with
     | EScalar s => Some s
     | EDense l => nth_error l i
     | ESparse _ => Some v
     | EBin op a b => do x <- go a; do y <- go b; Some (op x y)
     | EUn op a => do x <- go a; Some (op x)
     end) e.

Lemma at_oden e i v : typ e <> Some TSparse -> typ e <> None -> at_ e i = oden e i v.
Proof.
  induction e; simpl; intros Ht Hn; auto; try congruence.
  - destruct (typ e1) as [t1|] eqn:E1; simpl in *; [|congruence].
    destruct (typ e2) as [t2|] eqn:E2; simpl in *; [|congruence].
    unfold oden in *.
    rewrite IHe1, IHe2; auto; destruct t1, t2; simpl in *; congruence.
  - unfold oden in *. rewrite IHe; auto.
Qed.

Lemma sparse_items_spec x e : over x e -> typ e = Some TSparse ->
  sparse_items e = Some (map (fun '(i, v) => (i, oden e (Z.to_nat i) v)) x).
Proof.
  induction e; simpl; intros Ho Ht; try discriminate.
  - subst. reflexivity.
  - destruct Ho as [Ho1 Ho2].
    destruct (typ e1) as [t1|] eqn:E1; simpl in *; [|congruence].
    destruct (typ e2) as [t2|] eqn:E2; simpl in *; [|congruence].
    destruct t1; simpl.
    + destruct t2; try discriminate. rewrite IHe2 by auto. simpl. rewrite map_map.
      f_equal. apply map_ext. intros (i, v). f_equal. cbn [oden].
      rewrite (at_oden e1 _ v) by congruence. reflexivity.
    + destruct t2; try discriminate. rewrite IHe2 by auto. simpl. rewrite map_map.
      f_equal. apply map_ext. intros (i, v). f_equal. cbn [oden].
      rewrite (at_oden e1 _ v) by congruence. reflexivity.
    + destruct t2; try discriminate;
        rewrite IHe1 by auto; simpl; rewrite map_map;
        f_equal; apply map_ext; intros (i, v); f_equal; cbn [oden];
        rewrite (at_oden e2 _ v) by congruence; reflexivity.
  - rewrite IHe by auto. simpl. rewrite map_map. f_equal. apply map_ext.
    intros (i, v). reflexivity.
Qed.

Lemma oden_den n e i v : dense_ge n e -> (i < n)%nat -> oden e i v = Some (den e i v).
Proof.
  induction e; simpl; intros Hd Hi; auto.
  - unfold oden. apply nth_error_nth'. lia.
  - destruct Hd. unfold oden in *. rewrite IHe1, IHe2 by auto. reflexivity.
  - unfold oden in *. rewrite IHe by auto. reflexivity.
Qed.

Lemma dense_eq_ge n (e : exp R) : dense_eq n e -> dense_ge n e.
Proof. induction e; simpl; intros; try lia; tauto. Qed.

Lemma sparse_loop_spec op (f : nat -> R -> R) x : forall l,
  sorted_ix x -> Forall (fun i => i < Z.of_nat (length l)) (map fst x) ->
  sparse_loop op l (map (fun '(i, v) => (i, Some (f (Z.to_nat i) v))) x)
  = Some (smap (fun i a v => op a (f i v)) x l).
Proof.
  induction x as [|(i, v) x IH]; intros l Hs Hb.
  - simpl. f_equal. apply nth_error_ext. intros k. rewrite nth_error_smap. simpl.
    destruct (nth_error l k); reflexivity.
  - destruct (sorted_ix_tail _ _ _ Hs) as (Hs' & Hi & Hlt & Hni).
    simpl in Hb. inversion Hb; subst. cbn [map sparse_loop bind fst snd].
    destruct (nth_error l (Z.to_nat i)) as [old|] eqn:E;
      [|apply nth_error_None in E; lia].
    unfold rd. rewrite E. cbn [bind]. rewrite wr_upd by lia. cbn [bind].
    rewrite IH; [|auto|rewrite upd_length; auto].
    f_equal. apply nth_error_ext. intros k. rewrite !nth_error_smap. cbn [lookup].
    destruct (Z.eqb_spec i (Z.of_nat k)).
    + subst i. rewrite Nat2Z.id in *.
      assert (Hlk : lookup x k = None) by (apply lookup_None; auto). rewrite Hlk.
      assert (Hk : nth_error (upd k (op old (f k v)) l) k = Some (op old (f k v))).
      { rewrite (nth_error_nth' _ old) by (rewrite upd_length; lia).
        rewrite nth_upd by lia. now rewrite Nat.eqb_refl. }
      rewrite Hk, E. reflexivity.
    + assert (Hk : nth_error (upd (Z.to_nat i) (op old (f (Z.to_nat i) v)) l) k = nth_error l k).
      { destruct (lt_dec k (length l)).
        - rewrite !(nth_error_nth' _ old) by (rewrite ?upd_length; lia).
          rewrite nth_upd by lia. destruct (Nat.eqb_spec k (Z.to_nat i)); [lia|reflexivity].
        - rewrite !(proj2 (nth_error_None _ _)); rewrite ?upd_length; auto; lia. }
      rewrite Hk. reflexivity.
Qed.

Lemma sorted_filter n (x : list (Z * R)) : sorted_ix x ->
  sorted_ix (filter (fun p => fst p <? n) x).
Proof.
  induction x as [|(i, v) x IH]; intros Hs; [exact Hs|].
  destruct (sorted_ix_tail _ _ _ Hs) as (Hs' & Hi & Hlt & Hni).
  specialize (IH Hs'). simpl. destruct (i <? n); auto.
  destruct IH as [IH1 IH2]. split; simpl; constructor; auto.
  rewrite Forall_forall in *. intros j Hj. apply Hlt.
  apply in_map_iff in Hj as ((j', u) & <- & Hin). apply filter_In in Hin as [Hin _].
  now apply in_map.
Qed.
Lemma lookup_filter n (x : list (Z * R)) i : Z.of_nat i < n ->
  lookup (filter (fun p => fst p <? n) x) i = lookup x i.
Proof.
  intros Hi. induction x as [|(j, v) x IH]; [reflexivity|]. simpl.
  destruct (Z.ltb_spec j n); simpl; rewrite IH; auto.
  destruct (Z.eqb_spec j (Z.of_nat i)); [lia|reflexivity].
Qed.

(** Assigning a sparse expression to a dense vector. *)
Lemma calc_sparse op x e l : over x e -> typ e = Some TSparse -> sorted_ix x ->
  dense_ge (length l) e ->
  calc op l e = Some (smap (fun i a v => op a (den e i v)) x l).
Proof.
  intros Ho Ht Hs Hd. unfold calc. rewrite Ht. cbn [bind].
  rewrite (sparse_items_spec x) by auto. cbn [bind].
  assert (Hm : StronglySorted Z.lt (map fst
    (map (fun '(i, v) => (i, oden e (Z.to_nat i) v)) x))).
  { rewrite map_map. erewrite map_ext; [exact (proj1 Hs)|]. now intros (?, ?). }
  rewrite trim_tail_filter by auto.
  set (n := length l) in *.
  assert (Hf : filter (fun p : Z * option R => fst p <? Z.of_nat n)
             (map (fun '(i, v) => (i, oden e (Z.to_nat i) v)) x)
           = map (fun '(i, v) => (i, Some (den e (Z.to_nat i) v)))
               (filter (fun p => fst p <? Z.of_nat n) x)).
  { clear Hm. induction x as [|(i, v) x IH]; [reflexivity|].
    destruct (sorted_ix_tail _ _ _ Hs) as (Hs' & Hi & _).
    assert (Hx : filter (fun p : Z * option R => fst p <? Z.of_nat n)
       (map (fun '(i, v) => (i, oden e (Z.to_nat i) v)) x)
     = map (fun '(i, v) => (i, Some (den e (Z.to_nat i) v)))
         (filter (fun p => fst p <? Z.of_nat n) x)).
    { clear -Hd Hs'. induction x as [|(i, v) x IH]; [reflexivity|].
      destruct (sorted_ix_tail _ _ _ Hs') as (Hs'' & Hi & _). simpl.
      destruct (Z.ltb_spec i (Z.of_nat n)); simpl; rewrite IH by auto; auto.
      rewrite (oden_den n) by (auto; lia). reflexivity. }
    simpl. destruct (Z.ltb_spec i (Z.of_nat n)); simpl; rewrite Hx; auto.
    rewrite (oden_den n) by (auto; lia). reflexivity. }
  rewrite Hf. clear Hf Hm.
  rewrite (sparse_loop_spec op (fun i v => den e i v)); [|now apply sorted_filter|].
  - f_equal. apply nth_error_ext. intros k. rewrite !nth_error_smap.
    destruct (nth_error l k) eqn:E; [|reflexivity]. simpl.
    assert (k < n)%nat by (apply nth_error_Some; congruence).
    rewrite lookup_filter by lia. reflexivity.
  - rewrite Forall_forall. intros j Hj. apply in_map_iff in Hj as ((j', u) & <- & Hin).
    apply filter_In in Hin as [_ Hin]. simpl in *. fold n. lia.
Qed.

(** Assigning a dense or value expression. *)
Lemma dense_loop_spec op e l : forall k, dense_ge (k + length l) e ->
  typ e <> Some TSparse -> typ e <> None ->
  dense_loop op e k l = Some (imap k (fun i a => op a (den e i dflt)) l).
Proof.
  induction l as [|a l IH]; intros k Hd Ht Hn; [reflexivity|]. cbn [dense_loop length] in *.
  rewrite (at_oden e k dflt) by auto. rewrite (oden_den (k + S (length l))) by (auto; lia).
  cbn [bind]. rewrite IH; auto. replace (S k + length l)%nat with (k + S (length l))%nat by lia.
  exact Hd.
Qed.
Lemma dsize_dense n (e : exp R) : dense_eq n e -> (typ e = Some TDense \/ typ e = Some TValue) ->
  exists s, dsize e = Some s /\ (s = n \/ s = O).
Proof.
  induction e; simpl; intros Hd Ht.
  - eauto.
  - subst. eauto.
  - destruct Ht; discriminate.
  - destruct Hd as [Hd1 Hd2].
    destruct (typ e1) as [t1|] eqn:E1; simpl in *; [|destruct Ht; congruence].
    destruct (typ e2) as [t2|] eqn:E2; simpl in *; [|destruct Ht; congruence].
    destruct IHe1 as (s1 & -> & H1); auto.
    { destruct t1, t2, Ht; try congruence; auto. }
    destruct IHe2 as (s2 & -> & H2); auto.
    { destruct t1, t2, Ht; try congruence; auto. }
    simpl. destruct (Nat.eqb_spec s1 0); [eauto|].
    destruct (Nat.eqb_spec s2 0); [eauto|].
    destruct (Nat.eqb_spec s1 s2); [eauto|]. lia.
  - auto.
Qed.
Lemma calc_dense op e l : dense_eq (length l) e -> (typ e = Some TDense \/ typ e = Some TValue) ->
  calc op l e = Some (imap 0 (fun i a => op a (den e i dflt)) l).
Proof.
  intros Hd Ht. unfold calc.
  destruct (dsize_dense _ _ Hd Ht) as (s & Hs & Hsz).
  assert (He : dense_loop op e 0 l = Some (imap 0 (fun i a => op a (den e i dflt)) l)).
  { apply dense_loop_spec; [now apply dense_eq_ge| |]; destruct Ht; congruence. }
  destruct Ht as [Ht|Ht]; rewrite Ht; cbn [bind]; rewrite Hs; cbn [bind];
    (destruct (Nat.eqb_spec s 0); [exact He|]);
    (destruct (Nat.eqb_spec (length l) s); [exact He|]); lia.
Qed.
End P.

(** ** Reductions *)
Section Red.
Context {R : Type}.
Variable N : num R.
Variable dflt : R.
Local Notation den := (den dflt).

(** Sum in code order of the products of the elements below the dense size. *)
Definition fdot (op : R -> R -> R) (l : list R) (f : nat -> R -> R) (x : list (Z * R)) (acc : R) : R :=
  fold_left (fun a '(i, v) => n_add N a (op (nth (Z.to_nat i) l dflt) (f (Z.to_nat i) v)))
    (filter (fun p => fst p <? Z.of_nat (length l)) x) acc.

Lemma dot_loop_spec op l e x : forall acc, dense_ge (length l) e -> sorted_ix x ->
  Forall (fun i => i < Z.of_nat (length l)) (map fst x) ->
  dot_loop N op (EDense l) acc (map (fun '(i, v) => (i, oden e (Z.to_nat i) v)) x)
  = Some (fold_left (fun a '(i, v) =>
            n_add N a (op (nth (Z.to_nat i) l dflt) (den e (Z.to_nat i) v))) x acc).
Proof.
  induction x as [|(i, v) x IH]; intros acc Hd Hs Hb; [reflexivity|].
  destruct (sorted_ix_tail _ _ _ Hs) as (Hs' & Hi & _). simpl in Hb. inversion Hb; subst.
  cbn [map dot_loop at_]. unfold rd. rewrite (nth_error_nth' l dflt) by lia. cbn [bind].
  rewrite (oden_den dflt (length l)) by (auto; lia). cbn [bind fold_left]. apply IH; auto.
Qed.

Lemma dot_sparse_spec op l e x : over x e -> typ e = Some TSparse -> sorted_ix x ->
  dense_ge (length l) e ->
  dot_sparse N op (EDense l) e = Some (fdot op l (den e) x (zero N)).
Proof.
  intros Ho Ht Hs Hd. unfold dot_sparse. cbn [dsize bind].
  rewrite (sparse_items_spec x) by auto. cbn [bind].
  rewrite trim_tail_filter.
  2:{ rewrite map_map. erewrite map_ext; [exact (proj1 Hs)|]. now intros (?, ?). }
  replace (filter (fun p : Z * option R => fst p <? Z.of_nat (length l))
     (map (fun '(i, v) => (i, oden e (Z.to_nat i) v)) x))
   with (map (fun '(i, v) => (i, oden e (Z.to_nat i) v))
          (filter (fun p => fst p <? Z.of_nat (length l)) x)).
  2:{ clear. induction x as [|(i, v) x IH]; [reflexivity|]. simpl.
      destruct (i <? Z.of_nat (length l)); simpl; now rewrite IH. }
  rewrite dot_loop_spec; auto; [now apply sorted_filter|].
  rewrite Forall_forall. intros j Hj. apply in_map_iff in Hj as ((j', u) & <- & Hin).
  apply filter_In in Hin as [_ Hin]. simpl in *. lia.
Qed.

Lemma dotmul_spec l e x : over x e -> typ e = Some TSparse -> sorted_ix x ->
  dense_ge (length l) e ->
  dotmul N l e = Some (fdot (n_mul N) l (den e) x (zero N)).
Proof. apply dot_sparse_spec. Qed.

Lemma reduce_sparse_spec e x : forall acc, sorted_ix x ->
  (forall i v, In (i, v) x -> oden e (Z.to_nat i) v = Some (den e (Z.to_nat i) v)) ->
  reduce_sparse N (map (fun '(i, v) => (i, oden e (Z.to_nat i) v)) x) acc
  = Some (fold_left (fun a '(i, v) => n_add N a (den e (Z.to_nat i) v)) x acc).
Proof.
  induction x as [|(i, v) x IH]; intros acc Hs Hd; [reflexivity|].
  destruct (sorted_ix_tail _ _ _ Hs) as (Hs' & _). cbn [map reduce_sparse].
  rewrite Hd by now left. cbn [bind fold_left]. apply IH; auto. intros. apply Hd. now right.
Qed.

Lemma norm2_sparse x : sorted_ix x ->
  norm2 N (ESparse x) = Some (fold_left (fun a '(_, v) => n_add N a (n_mul N v v)) x (zero N)).
Proof.
  intros Hs. unfold norm2, reduce_plus. cbn [typ bind].
  rewrite (sparse_items_spec x (EUn (op_square N) (ESparse x))) by (simpl; auto). cbn [bind].
  rewrite reduce_sparse_spec; auto.
Qed.
Lemma norm1_sparse x : sorted_ix x ->
  norm1 N (ESparse x) = Some (fold_left (fun a '(_, v) => n_add N a (op_abs N v)) x (zero N)).
Proof.
  intros Hs. unfold norm1, reduce_plus. cbn [typ bind].
  rewrite (sparse_items_spec x (EUn (op_abs N) (ESparse x))) by (simpl; auto). cbn [bind].
  rewrite reduce_sparse_spec; auto.
Qed.

Lemma reduce_dense_spec e n : forall k acc, dense_ge (k + n) e ->
  typ e <> Some TSparse -> typ e <> None ->
  reduce_dense N e k n acc
  = Some (fold_left (fun a i => n_add N a (den e i dflt)) (seq k n) acc).
Proof.
  induction n as [|n IH]; intros k acc Hd Ht Hn; [reflexivity|]. cbn [reduce_dense].
  rewrite (at_oden e k dflt) by auto. rewrite (oden_den dflt (k + S n)) by (auto; lia).
  cbn [bind seq fold_left]. apply IH; auto. now replace (S k + n)%nat with (k + S n)%nat by lia.
Qed.
Lemma norm2_dense l :
  norm2 N (EDense l) = Some (fold_left (fun a v => n_add N a (n_mul N v v)) l (zero N)).
Proof.
  unfold norm2, reduce_plus. cbn [typ bind dsize].
  rewrite reduce_dense_spec; [|simpl; lia|simpl; congruence|simpl; congruence].
  f_equal. cbn [S_Expr.den]. generalize (zero N).
  assert (H : forall k l' acc, (forall i, (i < length l')%nat -> nth (k + i) l dflt = nth i l' dflt) ->
    fold_left (fun a i => n_add N a (op_square N (nth i l dflt))) (seq k (length l')) acc
    = fold_left (fun a v => n_add N a (n_mul N v v)) l' acc).
  { intros k l'. revert k. induction l' as [|a l' IH]; intros k acc Hk; [reflexivity|].
    cbn [length seq fold_left]. rewrite IH.
    - unfold op_square. pose proof (Hk O) as H0. rewrite Nat.add_0_r in H0.
      rewrite H0 by (simpl; lia). reflexivity.
    - intros i Hi. replace (S k + i)%nat with (k + S i)%nat by lia. apply Hk. simpl. lia. }
  intros r. apply (H 0%nat). intros. reflexivity.
Qed.
End Red.

(** Shapes that do not fit. *)
Lemma dsize_uses {R} (e : exp R) v : uses e v -> v <> [] -> forall s, dsize e = Some s -> s = length v.
Proof.
  intros H Hv. assert (Hl : length v <> 0%nat) by (destruct v; [congruence|cbn; lia]).
  induction e as [x|l|xs|op a IHa b IHb|op a IHa]; cbn in H |- *; intros s E; try easy.
  - injection E as <-. now rewrite H.
  - destruct (dsize a) as [s1|] eqn:Ea; [|discriminate]. destruct (dsize b) as [s2|] eqn:Eb; [|discriminate]. cbn [bind] in E.
    destruct H as [H|H].
    + specialize (IHa H _ eq_refl). subst s1. destruct (Nat.eqb_spec (length v) 0); [lia|].
      destruct (Nat.eqb_spec s2 0); [now injection E as <-|]. destruct (Nat.eqb_spec (length v) s2); [now injection E as <-|discriminate].
    + specialize (IHb H _ eq_refl). subst s2. destruct (Nat.eqb_spec s1 0); [now injection E as <-|].
      destruct (Nat.eqb_spec (length v) 0); [lia|]. destruct (Nat.eqb_spec s1 (length v)); [injection E as <-; lia|discriminate].
  - auto.
Qed.
Lemma calc_mismatch {R} (op : R -> R -> R) (e : exp R) (l v : list R) :
  uses e v -> v <> [] -> length v <> length l -> (typ e = Some TDense \/ typ e = Some TValue) -> calc op l e = None.
Proof.
  intros H Hv Hl Ht. assert (Hl0 : length v <> 0%nat) by (destruct v; [congruence|cbn; lia]).
  assert (G : (do s1 <- dsize e; if negb (s1 =? 0)%nat && negb (length l =? s1)%nat then None else dense_loop op e 0 l) = None).
  { destruct (dsize e) as [s|] eqn:E; [|reflexivity]. cbn [bind]. apply (dsize_uses e v H Hv) in E. subst s.
    destruct (Nat.eqb_spec (length v) 0); [lia|]. destruct (Nat.eqb_spec (length l) (length v)); [lia|reflexivity]. }
  unfold calc. destruct Ht as [-> | ->]; exact G.
Qed.
