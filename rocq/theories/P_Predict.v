(** Prediction, growth of the model, and the returned label. *)
From Coq Require Import Reals Lra Sorted SpecFloat.
From Verif Require Import M_Base M_Num M_Expr M_Loss M_Online S_Expr S_Real S_Online
  P_DataPoint P_Expr P_Real P_Online.

(** ** Examples *)
Section Pt.
Context {R : Type}.
Lemma feats_fst (p : point R) : length (p_idx p) = length (p_val p) -> map fst (feats p) = p_idx p.
Proof. intros H. unfold feats. apply combine_fst; auto. Qed.
Lemma feats_sorted lo (p : point R) : 0 <= lo -> wf_point lo p -> sorted_ix (feats p).
Proof.
  intros Hlo (Hl & Hs & Hf). unfold sorted_ix. rewrite feats_fst by auto. split; auto.
  eapply Forall_impl; [|exact Hf]. simpl. intros. lia.
Qed.
Lemma sorted_last_max (l : list Z) d : StronglySorted Z.lt l ->
  Forall (fun i => i <= last l d) l.
Proof.
  induction 1 as [|a l Hs IH Ha]; [constructor|]. destruct l as [|b l].
  - repeat constructor. simpl. lia.
  - change (last (a :: b :: l) d) with (last (b :: l) d). constructor; auto.
    rewrite Forall_forall in Ha, IH. specialize (Ha b (or_introl eq_refl)).
    specialize (IH b (or_introl eq_refl)). lia.
Qed.
Lemma x_dim_last lo (p : point R) : 0 <= lo -> wf_point lo p -> p_idx p <> [] ->
  x_dim p = last (p_idx p) 0 + 1.
Proof.
  intros Hlo (Hl & Hs & Hf) Hne. unfold x_dim.
  destruct (exists_last Hne) as (l & i & E). rewrite E, rev_unit, last_last.
  rewrite E in Hf. apply Forall_app in Hf as [_ Hf]. inversion Hf; subst.
  unfold u32, two32 in *. apply Z.mod_small. lia.
Qed.
Lemma x_dim_below lo (p : point R) i : 0 <= lo -> wf_point lo p -> In i (p_idx p) -> lo <= i < x_dim p.
Proof.
  intros Hlo H Hin. pose proof H as (Hl & Hs & Hf).
  assert (Hne : p_idx p <> []) by (intros E; rewrite E in Hin; destruct Hin).
  rewrite (x_dim_last lo) by auto. pose proof (sorted_last_max _ 0 Hs) as Hm.
  rewrite Forall_forall in *. specialize (Hm _ Hin). specialize (Hf _ Hin). simpl in *. lia.
Qed.
Lemma x_dim_nonneg (p : point R) : 0 <= x_dim p.
Proof. unfold x_dim, u32. destruct (rev (p_idx p)); [lia|]. apply Z.mod_pos_bound. reflexivity. Qed.
Lemma feats_below lo (p : point R) n : 0 <= lo -> wf_point lo p -> (Z.to_nat (x_dim p) <= n)%nat ->
  Forall (fun i => i < Z.of_nat n) (map fst (feats p)).
Proof.
  intros Hlo H Hn. rewrite feats_fst by apply H. rewrite Forall_forall. intros i Hi.
  pose proof (x_dim_below lo p i Hlo H Hi). lia.
Qed.
Lemma wf_point_weaken lo lo' (p : point R) : lo' <= lo -> wf_point lo p -> wf_point lo' p.
Proof.
  intros H (A & B & C). repeat split; auto. eapply Forall_impl; [|exact C]. simpl. intros. lia.
Qed.
End Pt.

Lemma mapM_spec {A B} (f : A -> option B) (g : A -> B) l :
  (forall a, In a l -> f a = Some (g a)) -> mapM f l = Some (map g l).
Proof.
  induction l as [|a l IH]; intros H; [reflexivity|]. cbn [mapM map].
  rewrite H by now left. cbn [bind]. rewrite IH by (intros; apply H; now right). reflexivity.
Qed.
Lemma mapM_some {A B} (f : A -> option B) l r : mapM f l = Some r ->
  length r = length l /\ forall k a, nth_error l k = Some a -> exists b, nth_error r k = Some b /\ f a = Some b.
Proof.
  revert r. induction l as [|a l IH]; intros r H.
  - inversion H; subst. split; auto. intros [|k] x Hk; discriminate.
  - cbn [mapM] in H. destruct (f a) as [b|] eqn:E; [|discriminate]. cbn [bind] in H.
    destruct (mapM f l) as [r'|] eqn:E'; [|discriminate]. inversion H; subst.
    destruct (IH r' eq_refl) as [L Hk]. split; [simpl; lia|].
    intros [|k] x Hx; simpl in *.
    + inversion Hx; subst. eauto.
    + auto.
Qed.
Lemma mapM_ext {A B} (f g : A -> option B) l : (forall a, In a l -> f a = g a) -> mapM f l = mapM g l.
Proof.
  induction l as [|a l IH]; intros H; [reflexivity|]. cbn [mapM]. rewrite H by now left.
  rewrite IH by (intros; apply H; now right). reflexivity.
Qed.

Section Pr.
Context {R : Type}.
Variable N : num R.

Lemma score_spec (w : list R) x d : sorted_ix x -> (1 <= length w)%nat ->
  score N x w = Some (n_add N (fdot N d (n_mul N) w (fun _ v => v) x (zero N)) (nth 0 w d)).
Proof.
  intros Hs Hl. unfold score. rewrite (dotmul_spec N d w (ESparse x) x) by (simpl; auto).
  cbn [bind]. unfold rd. rewrite (nth_error_nth' w d) by lia. reflexivity.
Qed.
Lemma label_of_some (ps : list R) : ps <> [] -> exists lab, label_of N ps = Some lab.
Proof. destruct ps as [|a [|b ps]]; [easy| |]; intros _; eexists; reflexivity. Qed.
Lemma predict_spec d c p lo : 0 <= lo -> wf_core c -> wf_point lo p -> exists lab,
  label_of N (map (fun w => n_add N (fdot N d (n_mul N) w (fun _ v => v) (feats p) (zero N))
                                  (nth 0 w d)) (c_ws c)) = Some lab /\
  predict N c p = Some (lab,
    map (fun w => n_add N (fdot N d (n_mul N) w (fun _ v => v) (feats p) (zero N)) (nth 0 w d))
      (c_ws c)).
Proof.
  intros Hlo (Hd & Hne & Hw & Hg) Hp. unfold predict.
  rewrite (mapM_spec _ (fun w => n_add N (fdot N d (n_mul N) w (fun _ v => v) (feats p) (zero N))
                                  (nth 0 w d))).
  - cbn [bind]. destruct (label_of_some (map (fun w => n_add N
      (fdot N d (n_mul N) w (fun _ v => v) (feats p) (zero N)) (nth 0 w d)) (c_ws c))) as (lab & E).
    { destruct (c_ws c); [easy|discriminate]. }
    exists lab. rewrite E. split; reflexivity.
  - intros w Hin. rewrite Forall_forall in Hw. apply score_spec.
    + eapply feats_sorted; eauto.
    + rewrite Hw by auto. exact Hd.
Qed.

(** Features that the model does not know are ignored. *)
Lemma feats_restrict n (p : point R) : feats (restrict n p) = filter (fun q => fst q <? Z.of_nat n) (feats p).
Proof. unfold feats, restrict. cbn [p_idx p_val]. apply combine_map_fst_snd. Qed.
Lemma filter_filter {A} (f : A -> bool) l : filter f (filter f l) = filter f l.
Proof. induction l as [|a l IH]; [reflexivity|]. simpl. destruct (f a) eqn:E; simpl; rewrite ?E, IH; auto. Qed.
Lemma score_restrict (w : list R) x : sorted_ix x -> (1 <= length w)%nat ->
  score N (filter (fun q => fst q <? Z.of_nat (length w)) x) w = score N x w.
Proof.
  intros Hs Hl. rewrite !(score_spec w _ (zero N)); auto using sorted_filter. unfold fdot.
  now rewrite filter_filter.
Qed.
Lemma predict_restrict c p lo : 0 <= lo -> wf_core c -> wf_point lo p ->
  predict N c (restrict (c_dim c) p) = predict N c p.
Proof.
  intros Hlo (Hd & Hne & Hw & Hg) Hp. unfold predict. rewrite feats_restrict.
  rewrite (mapM_ext (score N (filter _ (feats p))) (score N (feats p))); [reflexivity|].
  intros w Hin. rewrite Forall_forall in Hw. rewrite <- (Hw w Hin). apply score_restrict.
  - eapply feats_sorted; eauto.
  - rewrite Hw; auto.
Qed.

(** ** Growth *)
Lemma grow_length (d d' : nat) (v : R) l : length l = d -> (d <= d')%nat ->
  length (grow d d' v l) = d'.
Proof. intros Hl Hd. unfold grow. rewrite app_length, firstn_length, repeat_length. lia. Qed.
Lemma grow_nth (d d' : nat) (v : R) l i z : length l = d -> (i < d')%nat ->
  nth i (grow d d' v l) z = if (i <? d)%nat then nth i l z else v.
Proof.
  intros Hl Hi. unfold grow. rewrite firstn_all2 by lia. destruct (Nat.ltb_spec i d).
  - now rewrite app_nth1 by lia.
  - rewrite app_nth2 by lia.
    transitivity (nth (i - length l) (repeat v (d' - d)) v).
    + apply nth_indep. rewrite repeat_length. lia.
    + apply nth_repeat.
Qed.
Lemma wf_update_dim d c : wf_core c -> wf_core (linear_update_dim N d c) /\
  c_dim (linear_update_dim N d c) = Nat.max (c_dim c) d /\
  length (c_ws (linear_update_dim N d c)) = length (c_ws c).
Proof.
  intros (Hd & Hne & Hw & Hg). unfold linear_update_dim. destruct (Nat.ltb_spec (c_dim c) d).
  - cbn. rewrite map_length. repeat split; cbn; try lia.
    + destruct (c_ws c); [easy|discriminate].
    + rewrite Forall_forall in *. intros w Hin. apply in_map_iff in Hin as (w0 & <- & Hin).
      apply grow_length; auto. lia.
    + now rewrite map_length.
  - repeat split; auto. lia.
Qed.
Lemma update_dim_nth d c k w i z : wf_core c -> nth_error (c_ws c) k = Some w ->
  exists w', nth_error (c_ws (linear_update_dim N d c)) k = Some w' /\
    (forall i, (i < c_dim c)%nat -> nth i w' z = nth i w z) /\
    ((c_dim c <= i < c_dim (linear_update_dim N d c))%nat -> nth i w' z = zero N).
Proof.
  intros (Hd & Hne & Hw & Hg) Hk. rewrite Forall_forall in Hw.
  assert (Hlen : length w = c_dim c) by (apply Hw; eapply nth_error_In; eauto).
  unfold linear_update_dim. destruct (Nat.ltb_spec (c_dim c) d).
  - cbn. exists (grow (c_dim c) d (zero N) w). split; [|split].
    + rewrite nth_error_map, Hk. reflexivity.
    + intros j Hj. rewrite grow_nth by (auto; lia). now replace (j <? c_dim c)%nat with true by lia.
    + intros Hi. rewrite grow_nth by (auto; lia). now replace (i <? c_dim c)%nat with false by lia.
  - exists w. repeat split; auto. lia.
Qed.

(** Scores are not changed by growth when adding 0 times a value does nothing. *)
Lemma fdot_grow d' w x z acc : (forall a v, n_add N a (n_mul N (zero N) v) = a) ->
  sorted_ix x -> (length w <= d')%nat ->
  fdot N z (n_mul N) (grow (length w) d' (zero N) w) (fun _ v => v) x acc
  = fdot N z (n_mul N) w (fun _ v => v) x acc.
Proof.
  intros Hz Hs Hd. unfold fdot. rewrite grow_length by auto. revert acc.
  induction x as [|(i, v) x IH]; intros acc; [reflexivity|].
  destruct (sorted_ix_tail _ _ _ Hs) as (Hs' & Hi & _). specialize (IH Hs'). cbn [filter fst].
  destruct (Z.ltb_spec i (Z.of_nat d')).
  - cbn [fold_left]. rewrite grow_nth by (auto; lia).
    destruct (Z.ltb_spec i (Z.of_nat (length w))).
    + replace (Z.to_nat i <? length w)%nat with true by lia. cbn [fold_left]. apply IH.
    + replace (Z.to_nat i <? length w)%nat with false by lia. rewrite Hz. apply IH.
  - replace (i <? Z.of_nat (length w)) with false by lia. apply IH.
Qed.
Lemma predict_grow d c p lo : 0 <= lo -> (forall a v, n_add N a (n_mul N (zero N) v) = a) ->
  wf_core c -> wf_point lo p -> predict N (linear_update_dim N d c) p = predict N c p.
Proof.
  intros Hlo Hz Hc Hp. pose proof Hc as (Hd & Hne & Hw & Hg).
  unfold linear_update_dim. destruct (Nat.ltb_spec (c_dim c) d); [|reflexivity].
  unfold predict. cbn [c_ws set_dim set_ws].
  assert (E : mapM (score N (feats p)) (map (grow (c_dim c) d (zero N)) (c_ws c))
              = mapM (score N (feats p)) (c_ws c)); [|now rewrite E].
  clear Hne Hg. induction (c_ws c) as [|w ws IH]; [reflexivity|]. inversion Hw; subst.
  cbn [map mapM]. rewrite IH by auto.
  rewrite !(score_spec _ _ (zero N)) by
    (try (eapply feats_sorted; eauto); try lia; rewrite grow_length; try lia).
  cbn [bind]. rewrite <- H2, fdot_grow; auto; [|eapply feats_sorted; eauto|lia].
  rewrite grow_nth by (auto; lia). replace (0 <? length w)%nat with true by lia. reflexivity.
Qed.
End Pr.

(** ** The first maximum *)
Section Ord.
Context {R : Type}.
Variable N : num R.
Variable P : R -> Prop.
Hypothesis Hirr : forall a, P a -> n_lt N a a = false.
Hypothesis Htr : forall a b c, P a -> P b -> P c -> n_lt N a b = true -> n_lt N b c = true -> n_lt N a c = true.
Hypothesis Htot : forall a b c, P a -> P b -> P c -> n_lt N a b = true -> n_lt N a c = true \/ n_lt N c b = true.

Lemma max_from_spec l : forall pre best bpos,
  Forall P (pre ++ l) -> P best -> nth_error pre bpos = Some best -> first_max N pre bpos ->
  first_max N (pre ++ l) (max_from N best bpos (length pre) l).
Proof.
  induction l as [|x l IH]; intros pre best bpos HP Hb Hn Hm.
  - cbn [max_from]. now rewrite app_nil_r.
  - cbn [max_from]. assert (Hx : P x) by (apply Forall_app in HP as [_ HP]; inversion HP; auto).
    assert (HPp : Forall P pre) by (apply Forall_app in HP; tauto). rewrite Forall_forall in HPp.
    destruct Hm as (b & Hb1 & Hb2 & Hb3). assert (b = best) by congruence; subst b.
    replace (pre ++ x :: l) with ((pre ++ [x]) ++ l) by (rewrite <- app_assoc; reflexivity).
    replace (S (length pre)) with (length (pre ++ [x])) by (rewrite app_length; simpl; lia).
    assert (HP' : Forall P ((pre ++ [x]) ++ l)) by (rewrite <- app_assoc; exact HP).
    destruct (n_lt N best x) eqn:E; apply IH; auto.
    + rewrite nth_error_app2, Nat.sub_diag by lia. reflexivity.
    + exists x. rewrite nth_error_app2, Nat.sub_diag by lia. split; [reflexivity|].
      assert (Hlt : forall j v, nth_error pre j = Some v -> n_lt N v x = true).
      { intros j v Hj. specialize (Hb2 _ _ Hj). apply nth_error_In in Hj.
        destruct (Htot best x v); auto. congruence. }
      split.
      * intros j v Hj. destruct (lt_dec j (length pre)).
        -- rewrite nth_error_app1 in Hj by lia. pose proof (Hlt _ _ Hj) as L.
           destruct (n_lt N x v) eqn:E2; auto.
           assert (n_lt N v v = true) by (apply (Htr v x v); auto; apply HPp; eapply nth_error_In; eauto).
           rewrite Hirr in H; [congruence|]. apply HPp. eapply nth_error_In; eauto.
        -- rewrite nth_error_app2 in Hj by lia.
           destruct (j - length pre)%nat as [|k]; simpl in Hj; [|destruct k; discriminate].
           inversion Hj; subst. auto.
      * intros j v Hj1 Hj. rewrite nth_error_app1 in Hj by lia. eauto.
    + rewrite nth_error_app1; auto. apply nth_error_Some. congruence.
    + exists best. split; [|split].
      * rewrite nth_error_app1; auto. apply nth_error_Some. congruence.
      * intros j v Hj. destruct (lt_dec j (length pre)).
        -- rewrite nth_error_app1 in Hj by lia. eauto.
        -- rewrite nth_error_app2 in Hj by lia.
           destruct (j - length pre)%nat as [|k]; simpl in Hj; [|destruct k; discriminate].
           inversion Hj; subst. auto.
      * intros j v Hj1 Hj. assert (bpos < length pre)%nat by (apply nth_error_Some; congruence).
        rewrite nth_error_app1 in Hj by lia. eauto.
Qed.
Lemma max_element_spec l : l <> [] -> Forall P l -> first_max N l (max_element N l).
Proof.
  destruct l as [|x l]; [easy|]. intros _ HP. unfold max_element.
  apply (max_from_spec l [x] x 0); auto.
  - inversion HP; auto.
  - exists x. split; [reflexivity|]. split.
    + intros [|j] v Hj; simpl in Hj; [|destruct j; discriminate]. inversion Hj; subst.
      inversion HP; auto.
    + intros j v Hj. lia.
Qed.
End Ord.

(** max_element stays in range in any arithmetic. *)
Lemma max_from_lt {R} (N : num R) l : forall best bpos pos, (bpos < pos)%nat ->
  (max_from N best bpos pos l < pos + length l)%nat.
Proof.
  induction l as [|x l IH]; intros best bpos pos H; simpl; [lia|].
  destruct (n_lt N best x).
  - specialize (IH x pos (S pos)). lia.
  - specialize (IH best bpos (S pos)). lia.
Qed.
Lemma max_element_lt {R} (N : num R) l : l <> [] -> (max_element N l < length l)%nat.
Proof.
  destruct l as [|x l]; [easy|]. intros _. unfold max_element.
  pose proof (max_from_lt N l x 0 1). simpl. lia.
Qed.

(** Orders: exact arithmetic, and floats that are not NaN. *)
Lemma R_irr a : n_lt Rnum a a = false.
Proof. apply Rlt_b_false. lra. Qed.
Lemma R_tr a b c : n_lt Rnum a b = true -> n_lt Rnum b c = true -> n_lt Rnum a c = true.
Proof. rewrite !Rlt_b. lra. Qed.
Lemma R_tot a b c : n_lt Rnum a b = true -> n_lt Rnum a c = true \/ n_lt Rnum c b = true.
Proof. rewrite !Rlt_b. intros. destruct (Rlt_dec a c); lra. Qed.

Definition f32_num (x : f32) : Prop := f32_is_nan x = false.
Definition f32_key (x : f32) : Z * Z * Z :=
  match x with
  | S754_infinity true => (0, 0, 0)
  | S754_finite true m e => (1, - e, - Zpos m)
  | S754_zero _ => (2, 0, 0)
  | S754_finite false m e => (3, e, Zpos m)
  | S754_infinity false => (4, 0, 0)
  | S754_nan => (5, 0, 0)
  end.
Definition key_lt (a b : Z * Z * Z) : Prop :=
  let '(a1, a2, a3) := a in let '(b1, b2, b3) := b in
  a1 < b1 \/ (a1 = b1 /\ (a2 < b2 \/ (a2 = b2 /\ a3 < b3))).
Lemma f32_lt_key a b : f32_num a -> f32_num b -> (f32_lt a b = true <-> key_lt (f32_key a) (f32_key b)).
Proof.
  unfold f32_lt, SFcompare, f32_num.
  destruct a as [sa|sa| |sa ma ea], b as [sb|sb| |sb mb eb]; try discriminate; intros _ _;
    try destruct sa; try destruct sb; cbn; try (split; intros; try discriminate; lia).
  - destruct (Z.compare_spec ea eb); cbn.
    + subst. change (Pos.compare_cont Eq ma mb) with (Pos.compare ma mb).
      destruct (Pos.compare_spec ma mb); cbn; split; intros; try discriminate; lia.
    + split; intros; try discriminate; lia.
    + split; intros; try discriminate; lia.
  - destruct (Z.compare_spec ea eb); cbn.
    + subst. change (Pos.compare_cont Eq ma mb) with (Pos.compare ma mb).
      destruct (Pos.compare_spec ma mb); cbn; split; intros; try discriminate; lia.
    + split; intros; try discriminate; lia.
    + split; intros; try discriminate; lia.
Qed.
Lemma key_lt_tr a b c : key_lt a b -> key_lt b c -> key_lt a c.
Proof. destruct a as ((?, ?), ?), b as ((?, ?), ?), c as ((?, ?), ?). unfold key_lt. lia. Qed.
Lemma key_lt_tot a b c : key_lt a b -> key_lt a c \/ key_lt c b.
Proof. destruct a as ((?, ?), ?), b as ((?, ?), ?), c as ((?, ?), ?). unfold key_lt. lia. Qed.
Lemma f32_irr a : f32_num a -> n_lt f32num a a = false.
Proof.
  intros Ha. cbn [n_lt f32num]. destruct (f32_lt a a) eqn:E; auto.
  apply f32_lt_key in E; auto. destruct (f32_key a) as ((?, ?), ?). unfold key_lt in E. lia.
Qed.
Lemma f32_tr a b c : f32_num a -> f32_num b -> f32_num c ->
  n_lt f32num a b = true -> n_lt f32num b c = true -> n_lt f32num a c = true.
Proof.
  intros Ha Hb Hc. cbn [n_lt f32num]. rewrite !f32_lt_key by auto. apply key_lt_tr.
Qed.
Lemma f32_tot a b c : f32_num a -> f32_num b -> f32_num c ->
  n_lt f32num a b = true -> n_lt f32num a c = true \/ n_lt f32num c b = true.
Proof.
  intros Ha Hb Hc. cbn [n_lt f32num]. rewrite !f32_lt_key by auto. apply key_lt_tot.
Qed.
