(** Explicit per-coordinate form of the update steps of the algorithms, in any arithmetic. *)
From Verif Require Import M_Base M_Num M_Expr M_Loss M_Online M_Olm S_Expr S_Online
  P_DataPoint P_Expr P_Online P_Predict.
From Coq Require Import Sorted.

Lemma upd_same_len {A} i (v : A) l : length (upd i v l) = length l.
Proof. apply upd_length. Qed.

Section P.
Context {R : Type}.
Variable N : num R.
Local Notation zero := (zero N).
Local Notation one := (one N).
Local Notation "a +! b" := (n_add N a b) (at level 50, left associativity).
Local Notation "a -! b" := (n_sub N a b) (at level 50, left associativity).
Local Notation "a *! b" := (n_mul N a b) (at level 40, left associativity).
Local Notation "a /! b" := (n_div N a b) (at level 40, left associativity).

(** Change the coordinates of the example by F, then the bias by f0. *)
Definition pstep (F : nat -> R -> R -> R) (f0 : R -> R) (x : list (Z * R)) (w : list R) : list R :=
  let w1 := smap F x w in upd 0 (f0 (nth 0 w1 zero)) w1.

Lemma pstep_length F f0 x w : length (pstep F f0 x w) = length w.
Proof. unfold pstep. now rewrite upd_length, smap_length. Qed.
Lemma pstep_nth F f0 x w i : (i < length w)%nat ->
  nth i (pstep F f0 x w) zero =
  let v := match lookup x i with Some v => F i (nth i w zero) v | None => nth i w zero end in
  if (i =? 0)%nat then f0 v else v.
Proof.
  intros Hi. unfold pstep. cbv zeta. rewrite nth_upd by (rewrite smap_length; lia).
  destruct (Nat.eqb_spec i 0).
  - subst. rewrite nth_smap by lia. reflexivity.
  - now rewrite nth_smap by lia.
Qed.

Lemma upd0_spec f (l : list R) : (1 <= length l)%nat -> upd0 f l = Some (upd 0 (f (nth 0 l zero)) l).
Proof.
  intros H. unfold upd0, rd. rewrite (nth_error_nth' l zero) by lia. cbn [bind].
  now rewrite wr_upd by lia.
Qed.
Lemma rd0 (l : list R) : (1 <= length l)%nat -> rd l 0 = Some (nth 0 l zero).
Proof. intros. unfold rd. apply nth_error_nth'. lia. Qed.

Lemma calc_pstep op x e (w : list R) f0 : over x e -> typ e = Some TSparse -> sorted_ix x ->
  dense_ge (length w) e -> (1 <= length w)%nat ->
  (do w1 <- calc op w e; upd0 f0 w1) =
  Some (pstep (fun i a v => op a (den zero e i v)) f0 x w).
Proof.
  intros Ho Ht Hs Hd Hl. rewrite (calc_sparse zero op x) by auto. cbn [bind].
  rewrite upd0_spec by (rewrite smap_length; lia). reflexivity.
Qed.

Lemma grad_step_spec eta bias x g w : sorted_ix x -> (1 <= length w)%nat ->
  grad_step N eta bias x g w =
  Some (pstep (fun _ a v => a -! eta *! g *! v) (fun b => b -! bias *! g) x w).
Proof. intros. unfold grad_step. rewrite (calc_pstep _ x) by (simpl; auto). reflexivity. Qed.
Lemma perceptron_step_spec bias x g w : sorted_ix x -> (1 <= length w)%nat ->
  perceptron_step N bias x g w =
  Some (pstep (fun _ a v => a -! g *! v) (fun b => b -! bias *! g) x w).
Proof. intros. unfold perceptron_step. rewrite (calc_pstep _ x) by (simpl; auto). reflexivity. Qed.
Lemma ut_step_spec x g u : sorted_ix x -> (1 <= length u)%nat ->
  ut_step N x g u = Some (pstep (fun _ a v => a +! g *! v) (fun b => b +! g) x u).
Proof. intros. unfold ut_step. rewrite (calc_pstep _ x) by (simpl; auto). reflexivity. Qed.
Lemma sigma_w_step_spec eta bias x g w Sg : sorted_ix x -> (1 <= length w)%nat ->
  (length w <= length Sg)%nat ->
  sigma_w_step N eta bias x g w Sg =
  Some (pstep (fun i a v => a -! eta *! g *! nth i Sg zero *! v)
          (fun b => b -! bias *! g *! nth 0 Sg zero) x w).
Proof.
  intros. unfold sigma_w_step. rewrite (calc_sparse zero _ x) by (simpl; auto). cbn [bind].
  rewrite rd0 by lia. cbn [bind]. rewrite upd0_spec by (rewrite smap_length; lia). reflexivity.
Qed.
Lemma arow_sigma_spec r x g Sg : sorted_ix x -> (1 <= length Sg)%nat ->
  arow_sigma N r x g Sg =
  Some (pstep (fun i s v => s /! (one +! nth i Sg zero *! (v *! v) *! (g *! g /! r)))
          (fun s => s /! (one +! s *! (g *! g /! r))) x Sg).
Proof. intros. unfold arow_sigma. rewrite (calc_pstep _ x) by (simpl; auto). reflexivity. Qed.
Lemma cw_sigma_spec tmp x Sg : sorted_ix x -> (1 <= length Sg)%nat ->
  cw_sigma N tmp x Sg =
  Some (pstep (fun i s v => s /! (one +! tmp *! nth i Sg zero *! (v *! v)))
          (fun s => s /! (one +! tmp *! s)) x Sg).
Proof. intros. unfold cw_sigma. rewrite (calc_pstep _ x) by (simpl; auto). reflexivity. Qed.
Lemma ada_H_spec delta x g H : sorted_ix x -> (1 <= length H)%nat ->
  ada_H N delta x g H =
  Some (pstep (fun i _ v => n_sqrt N ((nth i H zero -! delta) *! (nth i H zero -! delta)
                              +! g *! v *! (g *! v)) +! delta)
          (fun h => n_sqrt N ((h -! delta) *! (h -! delta) +! g *! g) +! delta) x H).
Proof. intros. unfold ada_H. rewrite (calc_pstep _ x) by (simpl; auto). reflexivity. Qed.
Lemma ada_w_step_spec eta bias x g w H : sorted_ix x -> (1 <= length w)%nat ->
  (length w <= length H)%nat ->
  ada_w_step N eta bias x g w H =
  Some (pstep (fun i a v => a -! eta *! g *! v /! nth i H zero)
          (fun b => b -! bias *! g /! nth 0 H zero) x w).
Proof.
  intros. unfold ada_w_step. rewrite (calc_sparse zero _ x) by (simpl; auto). cbn [bind].
  rewrite rd0 by lia. cbn [bind]. rewrite upd0_spec by (rewrite smap_length; lia). reflexivity.
Qed.
Lemma ada_rda_assign_spec eta b0 u x w H : sorted_ix x -> (1 <= length w)%nat ->
  (length w <= length H)%nat -> (length w <= length u)%nat ->
  ada_rda_assign N eta b0 (eslice u x) w H =
  Some (pstep (fun i _ _ => n_opp N eta *! nth i u zero /! nth i H zero)
          (fun b => b *! b0) x w).
Proof. intros. unfold ada_rda_assign. rewrite (calc_pstep _ x) by (simpl; auto). reflexivity. Qed.

(** ** Loops over the classes *)
Fixpoint zipc {A B C} (f : A -> B -> C) (l : list A) (m : list B) : list C :=
  match l, m with
  | a :: l', b :: m' => f a b :: zipc f l' m'
  | _, _ => []
  end.
Lemma zipc_length {A B C} (f : A -> B -> C) l m : length l = length m ->
  length (zipc f l m) = length m.
Proof. revert m. induction l; intros [|b m] H; simpl in *; try lia. now rewrite IHl by lia. Qed.
Lemma nth_error_zipc {A B C} (f : A -> B -> C) l m k :
  nth_error (zipc f l m) k =
  match nth_error l k, nth_error m k with Some a, Some b => Some (f a b) | _, _ => None end.
Proof.
  revert m k. induction l as [|a l IH]; intros [|b m] [|k]; simpl; auto.
  - destruct (nth_error l k); reflexivity.
Qed.
Lemma Forall_zipc {A B C} (f : A -> B -> C) (P : C -> Prop) l m :
  (forall a b, In a l -> In b m -> P (f a b)) -> Forall P (zipc f l m).
Proof.
  revert m. induction l as [|a l IH]; intros [|b m] H; simpl; constructor.
  - apply H; now left.
  - apply IH. intros. apply H; now right.
Qed.

Lemma each_class_spec (f : R -> list R -> option (list R)) F gs ws : length gs = length ws ->
  (forall g w, In w ws -> f g w = Some (F g w)) ->
  each_class N f gs ws = Some (zipc (fun g w => if n_eq N g zero then w else F g w) gs ws).
Proof.
  revert gs. induction ws as [|w ws IH]; intros [|g gs] Hl Hf; simpl in *; try lia; auto.
  rewrite Hf by now left. destruct (n_eq N g zero); cbn [bind]; rewrite IH by (auto; lia);
    reflexivity.
Qed.
Lemma each_class2_spec {A} (f : R -> list R -> A -> option (list R * A)) F G gs ws es :
  length gs = length ws -> length es = length ws ->
  (forall g w e, In w ws -> In e es -> f g w e = Some (F g w e, G g w e)) ->
  each_class2 N f gs ws es =
  Some (zipc (fun gw e => if n_eq N (fst gw) zero then snd gw else F (fst gw) (snd gw) e)
          (combine gs ws) es,
        zipc (fun gw e => if n_eq N (fst gw) zero then e else G (fst gw) (snd gw) e)
          (combine gs ws) es).
Proof.
  revert gs es. induction ws as [|w ws IH]; intros [|g gs] [|e es] Hl He Hf; simpl in *; try lia; auto.
  rewrite Hf by now left. destruct (n_eq N g zero); cbn [bind]; rewrite IH by (auto; lia);
    reflexivity.
Qed.
Lemma zip_class_spec {A} (f : list R -> A -> option (list R)) F ws es :
  length es = length ws -> (forall w e, In w ws -> In e es -> f w e = Some (F w e)) ->
  zip_class f ws es = Some (zipc F ws es).
Proof.
  revert es. induction ws as [|w ws IH]; intros [|e es] He Hf; simpl in *; try lia; auto.
  rewrite Hf by now left. cbn [bind]. rewrite IH by (auto; lia). reflexivity.
Qed.

(** ** Locality: w' differs from w only at the bias and at features of the example. *)
Lemma local_refl idx (w : list R) : local idx w w.
Proof. split; auto. Qed.
Lemma local_trans idx (a b c : list R) : local idx a b -> local idx b c -> local idx a c.
Proof. intros (L1 & H1) (L2 & H2). split; [lia|]. intros. rewrite H2, H1; auto. Qed.
Lemma local_nth idx w w' : length w' = length w ->
  (forall i, (i < length w)%nat -> i <> O -> ~ In (Z.of_nat i) idx -> nth i w' zero = nth i w zero) ->
  local idx w w'.
Proof.
  intros Hl H. split; auto. intros i Hi Hni. destruct (lt_dec i (length w)).
  - rewrite !(nth_error_nth' _ zero) by lia. rewrite H; auto.
  - rewrite !(proj2 (nth_error_None _ _)) by lia. reflexivity.
Qed.
Lemma local_pstep F f0 x w : local (map fst x) w (pstep F f0 x w).
Proof.
  apply local_nth; [apply pstep_length|]. intros i Hi H0 Hni. rewrite pstep_nth by auto.
  apply lookup_None in Hni. rewrite Hni. cbv zeta. destruct (Nat.eqb_spec i 0); [lia|reflexivity].
Qed.
Lemma local_smap F x (w : list R) : local (map fst x) w (smap F x w).
Proof.
  apply local_nth; [apply smap_length|]. intros i Hi H0 Hni. rewrite nth_smap by auto.
  apply lookup_None in Hni. now rewrite Hni.
Qed.
Lemma local_upd0 idx (w : list R) v : local idx w (upd 0 v w).
Proof.
  apply local_nth; [apply upd_length|]. intros i Hi H0 Hni. rewrite nth_upd by lia.
  destruct (Nat.eqb_spec i 0); [lia|reflexivity].
Qed.

(** A grown vector compared with the original: new elements are [v]. *)
Definition grown (d : nat) (v : R) (w w' : list R) : Prop :=
  length w' = Nat.max (length w) d /\
  (forall i, (i < length w)%nat -> nth_error w' i = nth_error w i) /\
  (forall i, (length w <= i < length w')%nat -> nth_error w' i = Some v).
End P.
