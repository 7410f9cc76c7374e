(** STG with one classifier against its eager version, over the reals. *)
From Coq Require Import Reals Lra Sorted.
From Verif Require Import M_Base M_Num M_Expr M_Loss M_Online M_Olm S_Expr S_Real S_Online S_Session S_Loss
  S_Lazy P_DataPoint P_Expr P_Real P_Online P_Predict P_Step P_Safe P_SafeOlm P_Conf P_Loss P_Lazy P_Lazy2.
Local Open Scope R_scope.

Lemma R_toint_IZR z : R_toint (IZR z) = z.
Proof.
  assert (U : forall y, up (IZR y) = (y + 1)%Z).
  { intros y. symmetry. apply tech_up; rewrite plus_IZR; lra. }
  unfold R_toint. rewrite <- opp_IZR, !U. destruct (Rlt_dec _ _); lia.
Qed.

Section K.
Variable k t0 : Z.
Hypothesis Hk : (1 <= k)%Z.
(** Number of full periods before example number T. *)
Definition periods (T : Z) : Z := Z.max 0 ((T - 1 - t0) / k).
Lemma periods_next T : (t0 <= T)%Z ->
  periods (T + 1) = ((T - t0) / k)%Z /\
  (periods (T + 1) = (periods T + (if ((0 <? T - t0) && ((T - t0) mod k =? 0))%bool then 1 else 0)))%Z.
Proof.
  intros H. unfold periods. replace (T + 1 - 1 - t0)%Z with (T - t0)%Z by lia. set (d := (T - t0)%Z) in *.
  assert (Hd : (0 <= d)%Z) by (unfold d; lia). replace (T - 1 - t0)%Z with (d - 1)%Z by (unfold d; lia).
  assert (D0 := Z_div_mod_eq_full d k). assert (D1 := Z.mod_pos_bound d k ltac:(lia)).
  assert (D2 := Z_div_mod_eq_full (d - 1) k). assert (D3 := Z.mod_pos_bound (d - 1) k ltac:(lia)).
  assert (Q : (0 <= d / k)%Z) by (apply Z.div_pos; lia).
  split; [lia|]. destruct (Z.ltb_spec 0 d); cbn [andb].
  - assert (Q1 : (0 <= (d - 1) / k)%Z) by (apply Z.div_pos; lia). rewrite !Z.max_r by lia.
    destruct (Z.eqb_spec (d mod k) 0) as [E|E]; nia.
  - assert (d = 0)%Z by lia. replace d with 0%Z in * by lia. rewrite Z.div_0_l by lia.
    assert ((0 - 1) / k = -1)%Z by (symmetry; apply Z.div_unique with (k - 1)%Z; lia). lia.
Qed.

(** Weights of the lazy and the eager model during example number T: those of the features x are up to
    date, the others are due the truncation of the periods since. *)
Definition stg_rel (T : Z) (x : list (Z * R)) (th : R) (last wl we : list R) : Prop :=
  length last = length wl /\ length we = length wl /\ (1 <= length wl)%nat /\
  nth 0 wl 0 = nth 0 we 0 /\ ((nth 0 wl 0 = 0 /\ nth 0 last 0 <= IZR T) \/ nth 0 last 0 = IZR (T - 1)) /\
  forall i, (i < length wl)%nat -> i <> O -> exists m,
    nth i last 0 = IZR (t0 + k * m) /\ (0 <= m <= periods T)%Z /\ (lookup x i <> None -> m = periods T) /\
    nth i we 0 = soft (nth i wl 0) (th * IZR (k * (periods T - m))).

Lemma stg_rel_weaken T x th last wl we : stg_rel T x th last wl we -> stg_rel T [] th last wl we.
Proof.
  intros (A & B & C & D & E & I). do 5 (split; [assumption|]). intros i Hi Hn. destruct (I i Hi Hn) as (m & M1 & M2 & M3 & M4).
  exists m. do 2 (split; [assumption|]). split; [cbn; congruence|assumption].
Qed.

(** What STG::TrainPredict does to one weight vector. *)
Lemma stg_trunc_val alpha T idx : forall w last, (t0 <= T)%Z ->
  Sorted.StronglySorted Z.lt idx -> (forall i, In i idx -> 1 <= i < Z.of_nat (length w))%Z -> length last = length w ->
  (forall i, In (Z.of_nat i) idx -> exists m, nth i last 0 = IZR (t0 + k * m) /\ (0 <= m <= periods (T + 1))%Z) ->
  exists w' last', stg_trunc Rnum k alpha T idx w last = Some (w', last') /\ length w' = length w /\ length last' = length w /\
    forall i, (i < length w)%nat ->
      (~ In (Z.of_nat i) idx -> nth i w' 0 = nth i w 0 /\ nth i last' 0 = nth i last 0) /\
      (In (Z.of_nat i) idx -> forall m, nth i last 0 = IZR (t0 + k * m) ->
         nth i w' 0 = soft (nth i w 0) (alpha * IZR (k * (periods (T + 1) - m))) /\ nth i last' 0 = IZR (t0 + k * periods (T + 1))).
Proof.
  induction idx as [|j idx IH]; intros w last HT Hs Hi Hl Hm.
  - exists w, last. do 3 (split; auto). intros i Hlen. split; [auto|intros []].
  - assert (Hj : (1 <= j < Z.of_nat (length w))%Z) by (apply Hi; now left).
    assert (Hsj : Sorted.StronglySorted Z.lt idx /\ Forall (Z.lt j) idx) by (inversion Hs; auto). destruct Hsj as (Hs1 & Hlt).
    assert (Hnj : ~ In j idx) by (intros h; rewrite Forall_forall in Hlt; specialize (Hlt j h); lia).
    destruct (periods_next T HT) as (P1 & _).
    destruct (Hm (Z.to_nat j)) as (m & M1 & M2). { left. lia. }
    cbn [stg_trunc]. unfold rd. rewrite (nth_error_nth' last 0) by lia. cbn [bind]. rewrite M1.
    cbn [n_toint n_sub n_int Rnum]. rewrite <- minus_IZR, R_toint_IZR.
    set (step := (T - (t0 + k * m))%Z).
    assert (D0 := Z_div_mod_eq_full (T - t0) k). assert (D1 := Z.mod_pos_bound (T - t0) k ltac:(lia)).
    assert (St : (step = k * (periods (T + 1) - m) + (T - t0) mod k)%Z) by (unfold step; rewrite P1; lia).
    assert (Uniq : forall m', IZR (t0 + k * m) = IZR (t0 + k * m') -> m' = m) by (intros m' E; apply eq_IZR in E; nia).
    destruct (Z.ltb_spec step k) as [Hlk|Hlk].
    + assert (Em : m = periods (T + 1)) by nia.
      destruct (IH w last) as (w' & last' & E & L1 & L2 & G); auto.
      { intros i h. apply Hi. now right. } { intros i h. apply Hm. now right. }
      exists w', last'. split; [exact E|]. split; auto. split; auto. intros i Hlen. destruct (G i Hlen) as (G1 & G2). split.
      * intros h. apply G1. intros h1. apply h. now right.
      * intros h m' Em'. destruct (Z.eq_dec j (Z.of_nat i)) as [e|e].
        -- assert (Ei : i = Z.to_nat j) by lia. rewrite Ei in *. rewrite M1 in Em'. apply Uniq in Em'. subst m'.
           destruct G1 as (-> & ->); [rewrite Z2Nat.id by lia; auto|]. rewrite M1, <- Em. rewrite Z.sub_diag, Z.mul_0_r, Rmult_0_r, soft_zero. auto.
        -- apply G2; auto. destruct h as [h|h]; [congruence|auto].
    + cbv zeta. rewrite (nth_error_nth' w 0) by lia. cbn [bind]. rewrite wr_upd by lia. cbn [bind]. rewrite wr_upd by lia. cbn [bind].
      assert (Hrem : (step - Z.rem step k = k * (periods (T + 1) - m))%Z).
      { rewrite Z.rem_mod_nonneg by lia. rewrite St. rewrite Z.add_comm, Z.mul_comm, Z.mod_add by lia. rewrite (Z.mod_mod) by lia. lia. }
      rewrite Hrem.
      match goal with |- context [stg_trunc Rnum k alpha T idx ?a ?b] => set (w1 := a); set (l1 := b) end.
      assert (Lw : length w1 = length w) by apply upd_length. assert (Ll : length l1 = length w) by (unfold l1; rewrite upd_length; auto).
      destruct (IH w1 l1) as (w' & last' & E & L1 & L2 & G); auto; try congruence.
      { intros i h. rewrite Lw. apply Hi. now right. }
      { intros i h. destruct (Hm i) as (m1 & N1 & N2); [now right|]. exists m1. split; auto. unfold l1. rewrite nth_upd by lia.
        destruct (Nat.eqb_spec i (Z.to_nat j)); auto. exfalso. apply Hnj. replace j with (Z.of_nat i) by lia. exact h. }
      exists w', last'. split; [exact E|]. rewrite Lw in *. split; auto. split; auto. intros i Hlen. destruct (G i Hlen) as (G1 & G2).
      assert (Nw : forall i', nth i' w1 0 = if (i' =? Z.to_nat j)%nat then soft (nth i' w 0) (alpha * IZR (k * (periods (T + 1) - m))) else nth i' w 0).
      { intros i'. unfold w1. rewrite nth_upd by lia. destruct (Nat.eqb_spec i' (Z.to_nat j)) as [->|]; [|reflexivity]. rewrite op_trunc_real. cbn [n_mul n_int Rnum]. f_equal. ring. }
      assert (Nl : forall i', nth i' l1 0 = if (i' =? Z.to_nat j)%nat then IZR (t0 + k * periods (T + 1)) else nth i' last 0).
      { intros i'. unfold l1. rewrite nth_upd by lia. destruct (Nat.eqb_spec i' (Z.to_nat j)) as [->|]; [|reflexivity]. cbn [n_add n_int Rnum]. rewrite <- plus_IZR. f_equal. lia. }
      split.
      * intros h. destruct G1 as (-> & ->); [intros h1; apply h; now right|]. rewrite Nw, Nl.
        destruct (Nat.eqb_spec i (Z.to_nat j)); auto. exfalso. apply h. left. lia.
      * intros h m' Em'. destruct (Z.eq_dec j (Z.of_nat i)) as [e|e].
        -- assert (Ei : i = Z.to_nat j) by lia. rewrite Ei in Em'. rewrite M1 in Em'. apply Uniq in Em'. subst m'.
           destruct G1 as (-> & ->); [rewrite <- e; auto|]. rewrite Nw, Nl. replace (i =? Z.to_nat j)%nat with true by (symmetry; apply Nat.eqb_eq; lia). auto.
        -- assert (Hne : (i =? Z.to_nat j)%nat = false) by (apply Nat.eqb_neq; lia).
           destruct (G2 ltac:(destruct h as [h|h]; [congruence|auto]) m') as (-> & ->); [rewrite Nl, Hne; auto|]. rewrite Nw, Hne. auto.
Qed.

(** One example: TrainPredict of STG against the eager truncation. *)
Lemma stg_one T (p : point R) th alpha lam bias tb' last wl we :
  (t0 <= T)%Z -> wf_point 1 p -> 0 <= th -> 0 <= alpha -> 0 <= lam * bias -> 0 <= tb' ->
  (Z.to_nat (x_dim p) <= length wl)%nat ->
  stg_rel T [] th last wl we -> (alpha = th /\ lam * bias = tb') \/ (allz wl /\ allz we) ->
  exists w2 last2, stg_classes Rnum k alpha lam bias T (p_idx p) [wl] last = Some ([w2], last2) /\
    let thT := if ((0 <? T - t0) && ((T - t0) mod k =? 0))%Z then IZR k * th else 0 in
    let we2 := shrink Rnum tb' (fun _ => thT) we in
    stg_rel (T + 1) (feats p) th last2 w2 we2 /\ length last2 = length last /\ length w2 = length wl /\
    (allz wl -> allz we -> allz w2 /\ allz we2).
Proof.
  intros HT Hp Hth Ha Hb Hb' Hd (L1 & L2 & L3 & B & _ & I) Hor.
  destruct (periods_next T HT) as (P1 & P2).
  assert (Hpos : (0 <= periods T <= periods (T + 1))%Z).
  { rewrite P2. assert (0 <= periods T)%Z by (unfold periods; lia). destruct ((0 <? T - t0) && ((T - t0) mod k =? 0))%Z; lia. }
  assert (Hidx : forall i, In i (p_idx p) -> (1 <= i < Z.of_nat (length wl))%Z).
  { intros i Hi. pose proof (x_dim_below 0 p i ltac:(lia) (wf10 p Hp) Hi).
    destruct Hp as (_ & _ & F). rewrite Forall_forall in F. specialize (F i Hi). cbn in F. lia. }
  destruct (stg_trunc_val alpha T (p_idx p) wl last HT) as (w1 & last1 & E & K1 & K2 & G); auto.
  { apply Hp. }
  { intros i Hi. specialize (Hidx _ Hi). destruct (I i ltac:(lia) ltac:(lia)) as (m & M1 & M2 & _). exists m. split; auto. lia. }
  cbn [stg_classes]. rewrite E. cbn [bind]. rewrite (upd0_spec Rnum) by lia. cbn [bind].
  rewrite wr_upd by lia. cbn [bind]. eexists _, _. split; [reflexivity|].
  rewrite op_trunc_real. change (n_mul Rnum lam bias) with (lam * bias). change (n_int Rnum T) with (IZR T). change (zero Rnum) with 0.
  cbv zeta. set (thT := if ((0 <? T - t0) && ((T - t0) mod k =? 0))%Z then IZR k * th else 0). set (we2 := shrink Rnum tb' (fun _ => thT) we).
  assert (HthT : 0 <= thT).
  { unfold thT. destruct ((0 <? T - t0) && ((T - t0) mod k =? 0))%Z; [|lra]. apply Rmult_le_pos; auto. apply IZR_le. lia. }
  assert (EthT : thT = th * IZR (k * (periods (T + 1) - periods T))).
  { rewrite P2. unfold thT. destruct ((0 <? T - t0) && ((T - t0) mod k =? 0))%Z.
    - replace (k * (periods T + 1 - periods T))%Z with k by ring. ring.
    - replace (k * (periods T + 0 - periods T))%Z with 0%Z by ring. ring. }
  assert (G0 : nth 0 w1 0 = nth 0 wl 0).
  { destruct (G 0%nat ltac:(lia)) as (G1 & _). apply G1. intros h. specialize (Hidx _ h). lia. }
  assert (Hz : allz wl -> allz we -> allz (upd 0 (soft (nth 0 w1 0) (lam * bias)) w1) /\ allz we2).
  { intros A1 A2. split; [|now apply shrink_allz]. intros i. destruct (Nat.lt_ge_cases i (length wl)) as [h|h].
    - rewrite nth_upd by lia. destruct (Nat.eqb_spec i 0) as [->|Hn]; [rewrite G0, A1; now apply soft0|].
      destruct (G i h) as (G1 & G2). destruct (I i h Hn) as (m & M1 & M2 & _).
      destruct (in_dec Z.eq_dec (Z.of_nat i) (p_idx p)) as [h1|h1].
      + destruct (G2 h1 m M1) as (-> & _). rewrite A1. apply soft0. apply Rmult_le_pos; auto. apply IZR_le. nia.
      + destruct (G1 h1) as (-> & _). apply A1.
    - apply nth_overflow. rewrite upd_length. lia. }
  split; [|split; [rewrite upd_length; lia|split; [rewrite upd_length; lia|exact Hz]]].
  unfold stg_rel. rewrite !upd_length. unfold we2 at 1. rewrite shrink_length.
  split; [lia|]. split; [lia|]. split; [lia|].
  split. { rewrite nth_upd by lia. cbn [Nat.eqb]. unfold we2. rewrite nth_shrink by lia. cbn [Nat.eqb]. rewrite G0, <- B.
    destruct Hor as [(_ & ->)|(A1 & _)]; [reflexivity|]. rewrite A1. rewrite !soft0; auto. }
  split. { right. rewrite nth_upd by lia. cbn [Nat.eqb]. f_equal. lia. }
  intros i Hi Hn. rewrite !nth_upd by lia. replace (i =? 0)%nat with false by (symmetry; now apply Nat.eqb_neq).
  destruct (G i ltac:(lia)) as (G1 & G2). destruct (I i ltac:(lia) Hn) as (m & M1 & M2 & _ & M4).
  unfold we2. rewrite nth_shrink by lia. replace (i =? 0)%nat with false by (symmetry; now apply Nat.eqb_neq).
  assert (Ew : soft (nth i we 0) thT = soft (nth i wl 0) (th * IZR (k * (periods (T + 1) - m)))).
  { rewrite M4, soft_compose; [|apply Rmult_le_pos; auto; apply IZR_le; nia|auto]. f_equal. rewrite EthT.
    rewrite <- Rmult_plus_distr_l, <- plus_IZR. do 2 f_equal. ring. }
  rewrite Ew.
  destruct (in_dec Z.eq_dec (Z.of_nat i) (p_idx p)) as [h|h].
  - destruct (G2 h m M1) as (-> & ->). exists (periods (T + 1)). split; [reflexivity|]. split; [lia|]. split; [reflexivity|].
    rewrite Z.sub_diag, Z.mul_0_r, Rmult_0_r, soft_zero.
    destruct Hor as [(-> & _)|(A1 & _)]; [reflexivity|]. rewrite A1, !soft0; auto; apply Rmult_le_pos; auto; apply IZR_le; nia.
  - destruct (G1 h) as (-> & ->). exists m. split; [exact M1|]. split; [lia|]. split; [|reflexivity].
    intros hl. exfalso. apply hl. apply lookup_None. rewrite feats_fst by apply Hp. exact h.
Qed.

Lemma stg_rel_step T x th last F f0 wl we : lookup x 0 = None -> nth 0 last 0 = IZR (T - 1) ->
  stg_rel T x th last wl we -> stg_rel T x th last (pstep Rnum F f0 x wl) (pstep Rnum F f0 x we).
Proof.
  intros Hx Hl (L1 & L2 & L3 & B & _ & I). unfold stg_rel. rewrite !pstep_length. do 3 (split; [assumption|]).
  split. { rewrite !(pstep_nth Rnum) by lia. cbv zeta. rewrite Hx. cbn [Nat.eqb]. change (zero Rnum) with 0. now rewrite B. }
  split; [now right|]. intros i Hi Hn. destruct (I i Hi Hn) as (m & M1 & M2 & M3 & M4). exists m. do 3 (split; [assumption|]).
  rewrite !(pstep_nth Rnum) by lia. cbv zeta. change (zero Rnum) with 0.
  replace (i =? 0)%nat with false by (symmetry; now apply Nat.eqb_neq).
  destruct (lookup x i) eqn:El; [|exact M4]. rewrite M3 in * by congruence.
  rewrite Z.sub_diag, Z.mul_0_r, Rmult_0_r, soft_zero in *. now rewrite M4.
Qed.

Lemma stg_rel_grow T th d d' last wl we : 0 <= th -> length wl = d -> (d <= d')%nat ->
  stg_rel T [] th last wl we -> stg_rel T [] th (grow d d' (IZR t0) last) (grow d d' 0 wl) (grow d d' 0 we).
Proof.
  intros Hth Hd Hle (L1 & L2 & L3 & B & Z & I). unfold stg_rel. rewrite !(grow_length d) by lia.
  do 2 (split; [reflexivity|]). split; [lia|].
  assert (N : forall (l : list R) v i, length l = d -> (i < d')%nat -> nth i (grow d d' v l) 0 = if (i <? d)%nat then nth i l 0 else v)
    by (intros; now apply nth_grow_any).
  rewrite !N by lia. replace (0 <? d)%nat with true by (symmetry; apply Nat.ltb_lt; lia).
  split; [exact B|]. split; [exact Z|]. intros i Hi Hn. rewrite !N by lia. destruct (Nat.ltb_spec i d).
  - apply I; auto. lia.
  - exists 0%Z. split; [f_equal; ring|]. assert (0 <= periods T)%Z by (unfold periods; lia). split; [lia|]. split; [cbn; congruence|].
    rewrite soft0; auto. apply Rmult_le_pos; auto. apply IZR_le. nia.
Qed.
End K.

Section Stg.
Variable k t0 : Z.
Hypothesis Hk : (1 <= k)%Z.
Variable eta0 lam thresh b0 : R.
Hypothesis Heta0 : 0 <= eta0.
Hypothesis Hlam : 0 <= lam.
Hypothesis Hb0 : 0 <= b0.
Let th : R := eta0 * lam.
Let lz := stg Rnum eta0 0 lam thresh k.
Let eg := eager_stg Rnum eta0 lam thresh k.

Definition kbase (c : core (R:=R)) (last : list R) : Prop :=
  c_t0 c = t0 /\ (t0 <= c_iter c)%Z /\ c_b0 c = b0 /\ ~ 0 < c_active c /\ 0 <= c_eta c /\
  length last = c_dim c /\ (1 <= c_dim c)%nat.
Definition kvec (x : list (Z * R)) (c : core (R:=R)) (last : list R) (ws : list (list R)) : Prop :=
  exists wl we, c_ws c = [wl] /\ ws = [we] /\ (c_eta c = eta0 \/ (allz wl /\ allz we)) /\
    stg_rel k t0 (c_iter c) x th last wl we.
Definition krel (c : core (R:=R)) (last : list R) (ws : list (list R)) (u : unit) : Prop :=
  kbase c last /\ kvec [] c last ws.
Definition kmid (x : list (Z * R)) (c : core (R:=R)) (last : list R) (ws : list (list R)) (u : unit) : Prop :=
  kbase c last /\ kvec x c last ws /\ nth 0 last 0 = IZR (c_iter c - 1).

Lemma th_pos : 0 <= th.
Proof. now apply Rmult_le_pos. Qed.

Lemma stg_score p wl we T last : wf_point 1 p -> stg_rel k t0 T (feats p) th last wl we ->
  exists T th last, mid T (feats p) th last wl we.
Proof.
  intros Hp (L1 & L2 & L3 & B & _ & I).
  (* any times and amounts that give the same weights *)
  set (amt := fun i => R_toint (nth i last 0)).
  exists 2, (fun i => th * IZR (k * (periods k t0 T) - (amt i - t0))), (repeat 0 (length wl)). unfold mid.
  rewrite repeat_length. do 4 (split; [auto|]). intros i Hi.
  assert (E : nth i (repeat 0 (length wl)) 0 = 0) by apply nth_repeat. rewrite E. split; [lra|]. intros Hn.
  destruct (I i Hi Hn) as (m & M1 & M2 & M3 & M4). split.
  - intros h. rewrite (M3 h) in M4. rewrite Z.sub_diag, Z.mul_0_r, Rmult_0_r, soft_zero in M4. auto.
  - intros _. right. rewrite M4. f_equal. unfold amt. rewrite M1, R_toint_IZR.
    replace (k * periods k t0 T - (t0 + k * m - t0))%Z with (k * (periods k t0 T - m))%Z by ring. ring.
Qed.

Lemma stg_prep_sim p c last ws u c1 l1 l2 c3 l3 : wf_point 1 p -> krel c last ws u ->
  a_grow lz (Z.to_nat (x_dim p)) c last = Some (c1, l1) -> a_reg_begin lz p l1 = Some l2 ->
  a_prep lz p (bump c1) l2 = Some (c3, l3) ->
  exists e1' e2' ws1 ws3 e3',
    a_grow eg (Z.to_nat (x_dim p)) (set_ws c ws) u = Some (set_ws c1 ws1, e1') /\
    a_reg_begin eg p e1' = Some e2' /\
    a_prep eg p (set_ws (bump c1) ws1) e2' = Some (set_ws c3 ws3, e3') /\
    kmid (feats p) c3 l3 ws3 e3' /\ predict Rnum (set_ws c3 ws3) p = predict Rnum c3 p.
Proof.
  intros Hp ((Ht & Hi & Hcb & Hca & He & Hll & Hd1) & (wl & we & Ew & -> & Hz & HR)) Hg Hb Hpr.
  unfold lz, eg, stg, eager_stg in *. cbn [a_grow a_reg_begin a_prep] in *. unfold grow_none, reg_begin_none in *.
  injection Hb as <-. set (d := Z.to_nat (x_dim p)) in *.
  pose proof HR as (L1 & L2 & L3 & _).
  (* the state after growing *)
  assert (HG : exists wl1 we1, c_ws c1 = [wl1] /\ linear_update_dim Rnum d (set_ws c [we]) = set_ws c1 [we1] /\
    c_iter c1 = c_iter c /\ c_t0 c1 = c_t0 c /\ c_b0 c1 = c_b0 c /\ c_active c1 = c_active c /\ c_eta c1 = c_eta c /\
    length l1 = c_dim c1 /\ (1 <= c_dim c1)%nat /\ (d <= c_dim c1)%nat /\
    (c_eta c = eta0 \/ (allz wl1 /\ allz we1)) /\ stg_rel k t0 (c_iter c) [] th l1 wl1 we1).
  { unfold stg_grow in Hg. unfold linear_update_dim in *. cbn [c_dim set_ws]. destruct (Nat.ltb_spec (c_dim c) d).
    - injection Hg as <- <-. cbn [c_ws set_ws set_dim c_iter c_t0 c_b0 c_active c_eta c_dim map]. rewrite Ew, Ht. cbn [map].
      eexists _, _. split; [reflexivity|]. split; [reflexivity|]. do 5 (split; [reflexivity|]).
      split; [now apply grow_length; lia|]. split; [lia|]. split; [lia|]. split.
      + destruct Hz as [|(A & B)]; [now left|right]. split; apply grow_allz; auto; lia.
      + apply stg_rel_grow; auto using th_pos; lia.
    - injection Hg as <- <-. exists wl, we. repeat (split; auto). }
  destruct HG as (wl1 & we1 & Ew1 & Eg & C1 & C2 & C3 & C4 & C5 & C6 & C7 & C8 & Hz1 & HR1).
  unfold stg_prep in Hpr. change (c_eta (bump c1)) with (c_eta c1) in Hpr.
  change (bias_eta Rnum (bump c1)) with (c_b0 c1 * c_eta c1) in Hpr.
  change (c_ws (bump c1)) with (c_ws c1) in Hpr. change (c_iter (bump c1)) with (c_iter c1 + 1)%Z in Hpr.
  replace (c_iter c1 + 1 - 1)%Z with (c_iter c) in Hpr by lia. rewrite Ew1, C5, C3, Hcb in Hpr.
  change (n_mul Rnum (c_eta c) lam) with (c_eta c * lam) in Hpr.
  pose proof HR1 as (K1 & K2 & K3 & _).
  destruct (stg_one k t0 Hk (c_iter c) p th (c_eta c * lam) lam (b0 * c_eta c) (lam * (b0 * eta0)) l1 wl1 we1)
    as (w2 & last2 & E2 & R2 & Q1 & Q2 & Q3); auto using th_pos.
  { now apply Rmult_le_pos. } { apply Rmult_le_pos; auto. now apply Rmult_le_pos. } { apply Rmult_le_pos; auto. now apply Rmult_le_pos. }
  { fold d. lia. }
  { destruct Hz1 as [->|]; [left|right; auto]. split; reflexivity. }
  rewrite E2 in Hpr. cbn [bind] in Hpr. injection Hpr as <- <-. cbv zeta in R2, Q3.
  eexists u, u, [we1], _, u. split; [now rewrite Eg|]. split; [reflexivity|].
  cbn [c_iter c_t0 c_b0 c_ws set_ws bump set_data set_iter map]. rewrite C1, C2, Ht, C3, Hcb.
  replace (c_iter c + 1 - 1 - t0)%Z with (c_iter c - t0)%Z by ring.
  split; [reflexivity|]. cbn [n_mul n_int Rnum zero] in *.
  match goal with |- kmid _ _ _ [?x] _ /\ _ => set (we2 := x) end.
  assert (R3 : stg_rel k t0 (c_iter c + 1) (feats p) th last2 w2 we2) by exact R2.
  split.
  - split; [|split].
    + unfold kbase. cbn [c_iter c_t0 c_b0 c_active c_eta c_dim set_ws bump set_data set_iter]. rewrite C1, C2, C3, C4, C5. repeat split; auto; lia.
    + exists w2, we2. cbn [c_ws set_ws c_eta c_iter bump set_data set_iter]. rewrite C1, C5. do 2 (split; [reflexivity|]). split; [|exact R3].
      destruct Hz1 as [|(A & B)]; [now left|right; exact (Q3 A B)].
    + cbn [c_iter set_ws bump set_data set_iter]. rewrite C1. replace (c_iter c + 1 - 1)%Z with (c_iter c) by ring.
      clear - E2. cbn [stg_classes] in E2. destruct (stg_trunc _ _ _ _ _ _ _) as [(a, b)|]; [|discriminate]. cbn [bind] in E2.
      destruct (upd0 _ a) as [a2|]; [|discriminate]. cbn [bind] in E2. destruct (wr b 0 _) as [b2|] eqn:Eb; [|discriminate].
      cbn [bind] in E2. injection E2 as _ <-. apply wr_inv in Eb as (Hb & ->). now rewrite nth_upd by auto.
  - eapply predict_mid; [exact Hp| |].
    2:{ cbn [c_ws set_ws]. constructor; [exact R3|constructor]. }
    intros w w' M. cbv beta in M. eapply stg_score; eauto.
Qed.

Lemma stg_upd_sim p c last ws u loss c5 l5 : wf_point 1 p -> kmid (feats p) c last ws u ->
  a_update lz p loss c last = Some (c5, l5) ->
  exists ws5 u5, a_update eg p loss (set_ws c ws) u = Some (set_ws c5 ws5, u5) /\ kmid (feats p) c5 l5 ws5 u5.
Proof.
  intros Hp ((Ht & Hi & Hcb & Hca & He & Hll & Hd1) & (wl & we & Ew & -> & Hz & HR) & Hl0) H.
  unfold lz, eg, stg, eager_stg in *. cbn [a_update] in *. unfold ogd_update, grad_steps in *.
  assert (Ep : n_div Rnum eta0 (ogd_pow Rnum 0 (c_iter c)) = eta0).
  { unfold ogd_pow. change (zero Rnum) with 0. cbn [Rnum n_eq n_div one n_int].
    destruct (Req_EM_T 0 0) as [_|h]; [|easy]. unfold one. cbn. lra. }
  rewrite Ep in H. unfold bias_eta in *. cbn [c_eta c_b0 c_g c_ws set_eta set_ws] in *. rewrite Ew in H.
  assert (Hx0 : lookup (feats p) 0 = None) by now apply lookup_lo.
  assert (Hs : sorted_ix (feats p)) by (apply fs, wf10, Hp).
  assert (HF : Forall2 (stg_rel k t0 (c_iter c) (feats p) th last) [wl] [we]) by (constructor; [exact HR|constructor]).
  destruct (each_class Rnum _ (c_g c) [wl]) as [r|] eqn:Er; [|discriminate]. cbn [bind] in H.
  injection H as <- <-.
  destruct (each_class_sim _ (stg_rel k t0 (c_iter c) (feats p) th last) _ _ _ _ _ Er HF) as (r' & E' & F'); auto.
  { intros g w w' w1 HM. pose proof HM as (L1 & L2 & L3 & _).
    rewrite (grad_step_spec Rnum) by auto. intros E. injection E as <-.
    rewrite (grad_step_spec Rnum) by (auto; lia). eexists. split; [reflexivity|].
    apply stg_rel_step; auto. }
  rewrite E'. cbn [bind]. exists r', u. split; [reflexivity|].
  destruct (c_g c) as [|g gs]; [discriminate|].
  assert (Lr : exists a, r = [a]). { clear - Er. cbn [each_class] in Er. destruct (if n_eq _ _ _ then _ else _) as [a|]; [|discriminate]. cbn [bind] in Er. destruct gs; cbn in Er; injection Er as <-; eauto. }
  destruct Lr as (a & ->). inversion F' as [|? b ? l' Hab Hl]; subst. inversion Hl; subst.
  split; [|split].
  - unfold kbase. cbn [c_iter c_t0 c_b0 c_active c_eta c_dim set_ws set_eta]. repeat split; auto.
  - exists a, b. cbn [c_ws set_ws c_eta set_eta c_iter]. auto.
  - exact Hl0.
Qed.

Lemma stg_iterate p rnd c last ws u lab ps c1 l1 : wf_point 1 p -> krel c last ws u ->
  iterate Rnum lz p rnd c last = Some (lab, ps, c1, l1) ->
  exists ws1 u1, iterate Rnum eg p rnd (set_ws c ws) u = Some (lab, ps, set_ws c1 ws1, u1) /\ krel c1 l1 ws1 u1.
Proof.
  intros Hp. apply iterate_sim with (Mid := kmid (feats p)); auto.
  - intros c0 c2 e ws0 e' E1 E2 E3 E4 E5 E6 E7 H. unfold kmid, kbase, kvec in *. rewrite E1, E2, E3, E4, E5, E6, E7. exact H.
  - intros c0 e ws0 e' ((_ & _ & _ & H & _) & _). exact H.
  - intros. eapply stg_prep_sim; eauto.
  - intros. eapply stg_upd_sim; eauto.
  - intros c0 e ws0 e' e6 (Hb & (wl & we & A & B & C & D) & _) H. exists e'. split; [reflexivity|].
    injection H as <-. split; [exact Hb|]. exists wl, we. do 3 (split; [assumption|]). now apply stg_rel_weaken with (feats p).
Qed.

Lemma stg_finish c last ws u c1 l1 : krel c last ws u -> a_end lz c last = Some (c1, l1) ->
  a_end eg (set_ws c ws) u = Some (c1, u).
Proof.
  intros ((Ht & Hi & Hcb & Hca & He & Hll & Hd1) & (wl & we & Ew & -> & Hz & HR)) H.
  pose proof HR as (L1 & L2 & L3 & B & HB & I).
  unfold lz, eg, stg, eager_stg in *. cbn [a_end] in *. unfold stg_end in H. rewrite Ew in H. cbn [mapM] in H.
  rewrite (calc_dense 0) in H; cbn [dense_eq typ etrunc emul esub]; auto. cbn [bind] in H. injection H as <- <-.
  cbn [c_iter c_t0 c_ws set_ws map]. do 2 f_equal. unfold linear_end. cbn [c_ws set_ws map]. rewrite !set_ws_ws.
  do 3 f_equal. unfold finalize_l1, cut. f_equal. apply (nth_ext _ _ 0 0); [rewrite shrink_length, imap_length; lia|].
  intros i Hlt. rewrite shrink_length in Hlt. rewrite nth_shrink by auto. rewrite nth_imap by lia.
  unfold assign. cbn [den etrunc emul esub Nat.add]. rewrite op_trunc_real. cbn [n_mul n_sub n_int Rnum]. rewrite Ht.
  change (zero Rnum) with 0.
  assert (Hth := th_pos). assert (Hce : 0 <= c_eta c * lam) by now apply Rmult_le_pos.
  destruct (Nat.eqb_spec i 0) as [->|Hn].
  - rewrite <- B. destruct HB as [(HB & HB2)|HB].
    + rewrite HB. rewrite !soft0; auto. apply Rmult_le_pos; auto. lra.
    + rewrite HB, minus_IZR. replace (IZR (c_iter c) - (IZR (c_iter c) - 1)) with 1 by ring. rewrite Rmult_1_r.
      destruct Hz as [->|(A & _)]; [reflexivity|]. rewrite A, !soft0; auto.
  - destruct (I i ltac:(lia) Hn) as (m & M1 & M2 & _ & M4). rewrite M1, M4. fold th. fold (periods k t0 (c_iter c)).
    set (P := periods k t0 (c_iter c)) in *.
    assert (HP : (k * P <= c_iter c - t0)%Z).
    { unfold P, periods. assert (D0 := Z_div_mod_eq_full (c_iter c - 1 - t0) k).
      assert (D1 := Z.mod_pos_bound (c_iter c - 1 - t0) k ltac:(lia)).
      destruct (Z.max_spec 0 ((c_iter c - 1 - t0) / k)) as [(_ & ->)|(_ & ->)]; lia. }
    assert (N1 : 0 <= th * IZR (k * (P - m))) by (apply Rmult_le_pos; auto; apply IZR_le; nia).
    assert (N2 : 0 <= IZR (c_iter c - t0 - k * P) * th) by (apply Rmult_le_pos; auto; apply IZR_le; lia).
    rewrite soft_compose by auto.
    assert (N3 : 0 <= IZR (c_iter c) - IZR (t0 + k * m)) by (rewrite <- minus_IZR; apply IZR_le; nia).
    destruct Hz as [->|(A & _)].
    + fold th. f_equal. rewrite !minus_IZR, !plus_IZR, !mult_IZR, !minus_IZR. ring.
    + rewrite A, !soft0; auto; [|lra]. now apply Rmult_le_pos.
Qed.
End Stg.
