(** Simulation of the lazily truncating algorithms by the eager ones, over the reals. *)
From Coq Require Import Reals Lra Sorted.
From Verif Require Import M_Base M_Num M_Expr M_Loss M_Online M_Olm S_Expr S_Real S_Online S_Loss
  S_Lazy P_DataPoint P_Expr P_Real P_Online P_Predict P_Step P_Safe P_SafeOlm P_Conf P_Loss.
Local Open Scope R_scope.

(** ** Two algorithms in lockstep *)
Lemma set_ws_ws {A} (c : core (R:=A)) a b : set_ws (set_ws c a) b = set_ws c b.
Proof. reflexivity. Qed.

Section Sim.
Context {E E' : Type}.
Variable a : alg (R:=R) E.
Variable a' : alg (R:=R) E'.
Variable p : point R.
Variable Rel Mid : core (R:=R) -> E -> list (list R) -> E' -> Prop.
Definition bump (c : core (R:=R)) : core := set_data (set_iter c (c_iter c + 1)) (c_data c + 1).
Hypothesis Hm : forall c e q, a_margin a c e q = None.
Hypothesis Hm' : forall c e q, a_margin a' c e q = None.
Hypothesis Hstable : forall c c2 e ws e', c_ws c2 = c_ws c -> c_dim c2 = c_dim c -> c_eta c2 = c_eta c ->
  c_b0 c2 = c_b0 c -> c_iter c2 = c_iter c -> c_active c2 = c_active c -> c_t0 c2 = c_t0 c -> Mid c e ws e' -> Mid c2 e ws e'.
Hypothesis Hact : forall c e ws e', Mid c e ws e' -> ~ 0 < c_active c.
Hypothesis Hprep : forall c e ws e' c1 e1 e2 c3 e3, Rel c e ws e' ->
  a_grow a (Z.to_nat (x_dim p)) c e = Some (c1, e1) -> a_reg_begin a p e1 = Some e2 ->
  a_prep a p (bump c1) e2 = Some (c3, e3) ->
  exists e1' e2' ws1 ws3 e3',
    a_grow a' (Z.to_nat (x_dim p)) (set_ws c ws) e' = Some (set_ws c1 ws1, e1') /\
    a_reg_begin a' p e1' = Some e2' /\
    a_prep a' p (set_ws (bump c1) ws1) e2' = Some (set_ws c3 ws3, e3') /\
    Mid c3 e3 ws3 e3' /\ predict Rnum (set_ws c3 ws3) p = predict Rnum c3 p.
Hypothesis Hupd : forall c e ws e' loss u e5, Mid c e ws e' ->
  a_update a p loss c e = Some (u, e5) ->
  exists ws5 e5', a_update a' p loss (set_ws c ws) e' = Some (set_ws u ws5, e5') /\ Mid u e5 ws5 e5'.
Hypothesis Hend : forall c e ws e' e6, Mid c e ws e' -> a_reg_end a p (c_iter c) e = Some e6 ->
  exists e6', a_reg_end a' p (c_iter c) e' = Some e6' /\ Rel c e6 ws e6'.

Lemma learn_sim lab ps c e ws e' c1 e1 : Mid c e ws e' ->
  learn Rnum a p lab ps c e = Some (c1, e1) ->
  exists ws1 e1', learn Rnum a' p lab ps (set_ws c ws) e' = Some (set_ws c1 ws1, e1') /\ Rel c1 e1 ws1 e1'.
Proof.
  intros M H. unfold learn in *. cbv zeta in *. rewrite Hm in H. rewrite Hm'.
  set (d := cost_margin_step Rnum c (p_label p)) in *.
  assert (Ed : cost_margin_step Rnum (set_ws c ws) (p_label p) = set_ws d ws)
    by (unfold d, cost_margin_step; cbn [c_cost set_ws]; destruct (c_cost c); reflexivity).
  assert (Md : Mid d e ws e') by (apply Hstable with c; auto; unfold d, cost_margin_step; destruct (c_cost c); reflexivity).
  rewrite Ed. cbn [c_loss c_g c_margin set_ws] in *.
  destruct (gradient Rnum (c_loss d) None (p_label p) ps lab (c_g d) (c_margin d)) as [r|]; [|discriminate].
  cbn [bind] in *.
  change (set_lres (set_ws d ws) r) with (set_ws (set_lres d r) ws).
  set (k := set_lres d r) in *.
  assert (Mk : Mid k e ws e') by (apply Hstable with d; auto).
  change (wants_update Rnum (set_ws k ws)) with (wants_update Rnum k).
  destruct (wants_update Rnum k lab (p_label p) (l_loss r)).
  - change (set_upd (set_ws k ws) (c_upd (set_ws k ws) + 1)) with (set_ws (set_upd k (c_upd k + 1)) ws).
    set (j := set_upd k (c_upd k + 1)) in *.
    assert (Mj : Mid j e ws e') by (apply Hstable with k; auto).
    destruct (a_update a p (l_loss r) j e) as [(u, e5)|] eqn:Eu; [|discriminate]. cbn [bind] in H.
    destruct (Hupd j e ws e' (l_loss r) u e5 Mj Eu) as (ws5 & e5' & E1 & M5). rewrite E1. cbn [bind].
    destruct (a_reg_end a p (c_iter u) e5) as [e6|] eqn:E6; [|discriminate]. cbn [bind] in H.
    destruct (Hend u e5 ws5 e5' e6 M5 E6) as (e6' & E7 & R7). injection H as <- <-.
    exists ws5, e6'. change (c_iter (set_ws u ws5)) with (c_iter u). rewrite E7. auto.
  - cbn [bind] in *. destruct (a_reg_end a p (c_iter k) e) as [e6|] eqn:E6; [|discriminate]. cbn [bind] in H.
    destruct (Hend k e ws e' e6 Mk E6) as (e6' & E7 & R7). injection H as <- <-.
    exists ws, e6'. change (c_iter (set_ws k ws)) with (c_iter k). rewrite E7. auto.
Qed.

Lemma iterate_sim rnd c e ws e' lab ps c1 e1 : Rel c e ws e' ->
  iterate Rnum a p rnd c e = Some (lab, ps, c1, e1) ->
  exists ws1 e1', iterate Rnum a' p rnd (set_ws c ws) e' = Some (lab, ps, set_ws c1 ws1, e1') /\
    Rel c1 e1 ws1 e1'.
Proof.
  intros HR H. unfold iterate in *.
  destruct (a_grow a (Z.to_nat (x_dim p)) c e) as [(g, eg)|] eqn:Eg; [|discriminate]. cbn [bind] in H.
  cbv zeta in H.
  destruct (a_reg_begin a p eg) as [e2|] eqn:Eb; [|discriminate]. cbn [bind] in H.
  change (set_data (set_iter g (c_iter g + 1)) (c_data g + 1)) with (bump g) in H.
  destruct (a_prep a p (bump g) e2) as [(c3, e3)|] eqn:Ep; [|discriminate]. cbn [bind] in H.
  destruct (Hprep c e ws e' g eg e2 c3 e3 HR Eg Eb Ep) as (e1' & e2' & ws1 & ws3 & e3' & G1 & G2 & G3 & M & Pr).
  rewrite G1. cbn [bind]. cbv zeta. rewrite G2. cbn [bind].
  change (set_data (set_iter (set_ws g ws1) (c_iter (set_ws g ws1) + 1)) (c_data (set_ws g ws1) + 1))
    with (set_ws (bump g) ws1). rewrite G3. cbn [bind]. rewrite Pr.
  destruct (predict Rnum c3 p) as [(lb, pss)|]; [|discriminate]. cbn [bind] in *.
  assert (Hq : n_lt Rnum (zero Rnum) (c_active c3) = false).
  { cbn [Rnum n_lt zero n_int]. destruct (Rlt_dec _ _) as [h|]; [|reflexivity].
    exfalso. exact (Hact _ _ _ _ M h). }
  unfold queried in *. change (c_active (set_ws c3 ws3)) with (c_active c3). rewrite Hq in *. cbn [bind] in *.
  destruct (learn Rnum a p lb pss c3 e3) as [(c4, e4)|] eqn:El; [|discriminate]. cbn [bind] in H.
  injection H as <- <- <- <-.
  destruct (learn_sim lb pss c3 e3 ws3 e3' c4 e4 M El) as (w4 & e4' & L1 & R1).
  rewrite L1. cbn [bind]. eauto.
Qed.
End Sim.

(** ** One weight vector and its eager counterpart *)
(** At the end of the example number T: the bias is up to date; the other weights are due the
    truncations since their last use, th i for each example. *)
Definition lag (T : R) (th : nat -> R) (last wl we : list R) : Prop :=
  length last = length wl /\ length we = length wl /\ (1 <= length wl)%nat /\
  nth 0 wl 0 = nth 0 we 0 /\ (nth 0 wl 0 = 0 \/ nth 0 last 0 = T - 1) /\
  forall i, (i < length wl)%nat -> nth i last 0 <= T /\
    (i <> O -> (nth i wl 0 = 0 /\ nth i we 0 = 0) \/
       (nth i last 0 <= T - 1 /\ nth i we 0 = soft (nth i wl 0) (th i * (T - 1 - nth i last 0)))).
(** During the example number T: those of the example are up to date as well. *)
Definition mid (T : R) (x : list (Z * R)) (th : nat -> R) (last wl we : list R) : Prop :=
  length last = length wl /\ length we = length wl /\ (1 <= length wl)%nat /\
  nth 0 wl 0 = nth 0 we 0 /\
  forall i, (i < length wl)%nat -> nth i last 0 <= T - 1 /\
    (i <> O -> (lookup x i <> None -> nth i wl 0 = nth i we 0) /\
       (lookup x i = None -> (nth i wl 0 = 0 /\ nth i we 0 = 0) \/
          nth i we 0 = soft (nth i wl 0) (th i * (T - 1 - nth i last 0)))).

Lemma soft0 t : 0 <= t -> soft 0 t = 0.
Proof. intros. unfold soft, Rmax. destruct (Rle_dec 0 0); destruct (Rle_dec _ _); lra. Qed.

Lemma nth_imap k f l i : (i < length l)%nat -> nth i (imap k f l) 0 = f (k + i)%nat (nth i l 0).
Proof.
  intros H. pose proof (nth_error_imap k f l i) as E. rewrite (nth_error_nth' l 0) in E by lia. cbn in E.
  now apply nth_error_nth.
Qed.
Lemma shrink_length tb th w : length (shrink Rnum tb th w) = length w.
Proof. apply imap_length. Qed.
Lemma nth_shrink tb th w i : (i < length w)%nat ->
  nth i (shrink Rnum tb th w) 0 = soft (nth i w 0) (if (i =? 0)%nat then tb else th i).
Proof. intros. unfold shrink. rewrite nth_imap by auto. cbn [Nat.add]. apply op_trunc_real. Qed.

(** The lazy step: the features of the example by what they are due, and the bias. *)
Definition late (x : list (Z * R)) (T : R) (th : nat -> R) (tb : R) (last w : list R) : list R :=
  pstep Rnum (fun i v _ => soft v (th i * (T - 1 - nth i last 0))) (fun b => soft b tb) x w.

Lemma late_mid T x th tb last wl we : lookup x 0 = None -> (forall i, 0 <= th i) ->
  lag T th last wl we ->
  mid (T + 1) x th last (late x (T + 1) th tb last wl) (shrink Rnum tb th we).
Proof.
  intros Hx Hth (L1 & L2 & L3 & B & _ & I). unfold mid.
  assert (Ll : length (late x (T + 1) th tb last wl) = length wl) by apply pstep_length.
  rewrite shrink_length, Ll. repeat split; auto; try lia.
  - unfold late. rewrite (pstep_nth Rnum) by lia. cbv zeta. rewrite Hx. cbn [Nat.eqb].
    rewrite nth_shrink by lia. cbn [Nat.eqb]. change (zero Rnum) with 0. now rewrite B.
  - destruct (I i H). lra.
  - intros Hin. destruct (I i H) as (Hi & Hc). specialize (Hc H0).
    unfold late. rewrite (pstep_nth Rnum) by lia. cbv zeta. change (zero Rnum) with 0.
    destruct (lookup x i); [|easy]. rewrite nth_shrink by lia.
    destruct (Nat.eqb_spec i 0); [lia|]. specialize (Hth i).
    destruct Hc as [(-> & ->)|(Hl & ->)].
    + rewrite !soft0; auto. apply Rmult_le_pos; lra.
    + rewrite soft_compose; auto; [f_equal; lra|]. apply Rmult_le_pos; lra.
  - intros Hin. destruct (I i H) as (Hi & Hc). specialize (Hc H0).
    unfold late. rewrite (pstep_nth Rnum) by lia. cbv zeta. change (zero Rnum) with 0.
    rewrite Hin, nth_shrink by lia. destruct (Nat.eqb_spec i 0); [lia|]. specialize (Hth i).
    destruct Hc as [(-> & ->)|(Hl & ->)].
    + left. split; auto. now apply soft0.
    + right. rewrite soft_compose; auto; [f_equal; lra|]. apply Rmult_le_pos; lra.
Qed.

Lemma mid_step T x th th' last F f0 wl we : lookup x 0 = None ->
  (forall i, i <> O -> lookup x i = None -> th' i = th i) ->
  mid T x th last wl we -> mid T x th' last (pstep Rnum F f0 x wl) (pstep Rnum F f0 x we).
Proof.
  intros Hx Hth (L1 & L2 & L3 & B & I). unfold mid. rewrite !pstep_length. repeat split; auto.
  - rewrite !(pstep_nth Rnum) by lia. cbv zeta. rewrite Hx. cbn [Nat.eqb]. change (zero Rnum) with 0. now rewrite B.
  - now apply I.
  - intros Hin. rewrite !(pstep_nth Rnum) by lia. cbv zeta. change (zero Rnum) with 0.
    destruct (I i H) as (_ & Hc). destruct (Hc H0) as (Hc1 & _). rewrite (Hc1 Hin). reflexivity.
  - intros Hin. rewrite !(pstep_nth Rnum) by lia. cbv zeta. change (zero Rnum) with 0.
    rewrite Hin. destruct (Nat.eqb_spec i 0); [lia|]. rewrite (Hth i H0 Hin).
    destruct (I i H) as (_ & Hc). destruct (Hc H0) as (_ & Hc2). auto.
Qed.

Lemma mid_lag T x th last last' wl we : length last' = length last -> nth 0 last' 0 = T - 1 ->
  (forall i, (i < length last)%nat -> i <> O -> nth i last' 0 = match lookup x i with Some _ => T - 1 | None => nth i last 0 end) ->
  mid T x th last wl we -> lag T th last' wl we.
Proof.
  intros Ll H0 Hl (L1 & L2 & L3 & B & I). unfold lag. split; [lia|]. split; auto. split; auto. split; auto.
  split; [now right|]. intros i Hi. destruct (I i Hi) as (A1 & A2).
  destruct (Nat.eq_dec i 0) as [->|Hn]; [split; [lra|easy]|].
  rewrite (Hl i) by (auto; lia). destruct (A2 Hn) as (C1 & C2).
  destruct (lookup x i).
  - split; [lra|]. intros _. right. split; [lra|]. replace (th i * (T - 1 - (T - 1))) with 0 by ring.
    rewrite soft_zero. symmetry. apply C1. discriminate.
  - split; [lra|]. intros _. destruct (C2 eq_refl) as [|]; [now left|right]. split; auto.
Qed.

Lemma nth_repeat_lt (v x : R) : forall n i, (i < n)%nat -> nth i (repeat v n) x = v.
Proof. induction n; intros [|i] H; cbn; try lia; auto. apply IHn. lia. Qed.
Lemma nth_grow_any d d' (v x : R) l i : length l = d -> (i < d')%nat -> nth i (grow d d' v l) x =
  if (i <? d)%nat then nth i l x else v.
Proof.
  intros L Hi. unfold grow. rewrite firstn_all2 by lia. destruct (Nat.ltb_spec i d).
  - rewrite app_nth1 by lia. reflexivity.
  - rewrite app_nth2 by lia. rewrite nth_repeat_lt; [reflexivity|lia].
Qed.

Lemma lag_grow T th th' d d' t0 last wl we : length wl = d -> (d <= d')%nat -> t0 <= T ->
  (forall i, (i < d)%nat -> th' i = th i) ->
  lag T th last wl we -> lag T th' (grow d d' t0 last) (grow d d' 0 wl) (grow d d' 0 we).
Proof.
  intros Hd Hd' Ht Hth (L1 & L2 & L3 & B & Z & I). unfold lag.
  rewrite !(grow_length d d') by lia. repeat split; try lia.
  - rewrite !nth_grow_any by lia. destruct (Nat.ltb_spec 0 d); [exact B|lia].
  - rewrite !nth_grow_any by lia. destruct (Nat.ltb_spec 0 d); [exact Z|lia].
  - rewrite nth_grow_any by lia. destruct (Nat.ltb_spec i d); [apply I; lia|exact Ht].
  - intros Hi. rewrite !nth_grow_any by lia. destruct (Nat.ltb_spec i d); [|now left].
    rewrite Hth by lia. destruct (I i) as (_ & Hc); [lia|]. exact (Hc Hi).
Qed.

(** The end of training. *)
Lemma lag_end T th tb last wl we : (forall i, 0 <= th i) -> 0 <= tb -> lag T th last wl we ->
  upd 0 (soft (soft (nth 0 wl 0) (th O * (T - nth 0 last 0))) tb)
    (imap 0 (fun i v => soft v (th i * (T - nth i last 0))) wl) =
  shrink Rnum tb (fun _ => 0) (shrink Rnum (th O) th we).
Proof.
  intros Hth Htb (L1 & L2 & L3 & B & Z & I). apply (nth_ext _ _ 0 0).
  - rewrite upd_length, imap_length, !shrink_length. lia.
  - intros i Hi. rewrite upd_length, imap_length in Hi.
    rewrite nth_upd by (rewrite imap_length; lia).
    rewrite !nth_shrink by (rewrite ?shrink_length; lia). rewrite nth_imap by lia. cbn [Nat.add].
    destruct (I i Hi) as (A1 & A2).
    destruct (Nat.eqb_spec i 0) as [->|Hn].
    + rewrite <- B. destruct Z as [Z|Z]; rewrite Z.
      * rewrite !(soft0 (_ * _)), (soft0 (th O)); auto. apply Rmult_le_pos; [auto|lra].
      * do 2 f_equal. ring.
    + rewrite soft_zero. destruct (A2 Hn) as [(-> & ->)|(A3 & ->)].
      * rewrite !soft0; auto. apply Rmult_le_pos; [auto|lra].
      * rewrite soft_compose; auto; [f_equal; lra|]. apply Rmult_le_pos; [auto|lra].
Qed.

(** ** What the functions of the model do to the vectors *)
Lemma F2_impl {A B} (P Q : A -> B -> Prop) l m : (forall a b, P a b -> Q a b) -> Forall2 P l m -> Forall2 Q l m.
Proof. intros H. induction 1; constructor; auto. Qed.
Lemma F2_map {A B C D} (P : C -> D -> Prop) (f : A -> C) (g : B -> D) l m :
  Forall2 (fun a b => P (f a) (g b)) l m -> Forall2 P (map f l) (map g m).
Proof. induction 1; constructor; auto. Qed.
Lemma lookup_lo (p : point R) : wf_point 1 p -> lookup (feats p) 0 = None.
Proof.
  intros Hp. apply lookup_None. rewrite feats_fst by apply Hp. intros H.
  destruct Hp as (_ & _ & Hf). rewrite Forall_forall in Hf. specialize (Hf _ H). cbn in Hf. lia.
Qed.
Lemma wf10 (p : point R) : wf_point 1 p -> wf_point 0 p.
Proof. apply wf_point_weaken. lia. Qed.
Lemma score_mid T x th last wl we : sorted_ix x -> lookup x 0 = None -> mid T x th last wl we ->
  score Rnum x wl = score Rnum x we.
Proof.
  intros Hs Hx (L1 & L2 & L3 & B & I).
  rewrite (score_spec Rnum wl x 0), (score_spec Rnum we x 0) by (auto; lia). rewrite B. do 2 f_equal.
  change (zero Rnum) with 0. change (n_mul Rnum) with Rmult.
  rewrite !(fdot_real _ (fun _ v => v)) by auto. rewrite L2. apply rsum_ext. intros i Hi. unfold dv, xv.
  destruct (lookup x i) eqn:El; [|lra]. destruct (Nat.eq_dec i 0) as [->|Hn]; [congruence|].
  f_equal. destruct (I i Hi) as (_ & Hc). apply (Hc Hn). congruence.
Qed.
Lemma mapM_F2 {A B C} (Q : A -> B -> Prop) (f : A -> option C) (g : B -> option C) l m :
  (forall a b, Q a b -> f a = g b) -> Forall2 Q l m -> mapM f l = mapM g m.
Proof.
  intros H. induction 1 as [|a b l m Hab _ IH]; [reflexivity|]. cbn [mapM]. now rewrite (H _ _ Hab), IH.
Qed.
Lemma predict_mid (Q : list R -> list R -> Prop) p c ws : wf_point 1 p ->
  (forall w w', Q w w' -> exists T th last, mid T (feats p) th last w w') ->
  Forall2 Q (c_ws c) ws -> predict Rnum (set_ws c ws) p = predict Rnum c p.
Proof.
  intros Hp HQ HF. unfold predict. change (c_ws (set_ws c ws)) with ws.
  erewrite <- (mapM_F2 Q (score Rnum (feats p)) (score Rnum (feats p)) (c_ws c) ws); eauto.
  intros a b Hab. destruct (HQ a b Hab) as (T & th & last & M). eapply score_mid; eauto using lookup_lo.
  apply fs, wf10, Hp.
Qed.

Lemma wr_inv {A} (v : A) : forall l i l', wr l i v = Some l' -> (i < length l)%nat /\ l' = upd i v l.
Proof.
  intros l i l' H. assert (Hi : (i < length l)%nat).
  { revert i l' H. induction l as [|a l IH]; intros [|i] l' H; cbn in *; try discriminate; try lia.
    destruct (wr l i v) eqn:E; [|discriminate]. apply IH in E. lia. }
  rewrite wr_upd in H by auto. injection H as <-. auto.
Qed.
Lemma set_all_nth idx (v : R) : forall l l', set_all idx v l = Some l' ->
  length l' = length l /\
  forall i, (i < length l)%nat -> (forall j, In j idx -> (0 <= j)%Z) ->
    nth i l' 0 = if in_dec Z.eq_dec (Z.of_nat i) idx then v else nth i l 0.
Proof.
  induction idx as [|k idx IH]; intros l l' H; cbn [set_all] in H.
  - injection H as <-. split; auto.
  - destruct (wr l (Z.to_nat k) v) as [l1|] eqn:E; [|discriminate]. cbn [bind] in H.
    destruct (IH _ _ H) as (Hl & Hn).
    pose proof (wr_inv _ _ _ _ E) as Hk.
    destruct Hk as (Hk & ->). rewrite upd_length in *. split; auto.
    intros i Hi Hp. rewrite Hn by (auto; intros; apply Hp; now right).
    assert (0 <= k)%Z by (apply Hp; now left).
    destruct (in_dec Z.eq_dec (Z.of_nat i) idx) as [h|h].
    + destruct (in_dec Z.eq_dec (Z.of_nat i) (k :: idx)) as [|h']; [reflexivity|exfalso; apply h'; now right].
    + rewrite nth_upd by lia.
      destruct (in_dec Z.eq_dec (Z.of_nat i) (k :: idx)) as [[->|h']|h'].
      * rewrite Nat2Z.id, Nat.eqb_refl. reflexivity.
      * easy.
      * destruct (Nat.eqb_spec i (Z.to_nat k)); [|reflexivity]. exfalso. apply h'. left. lia.
Qed.
Lemma lazy_end_nth p it z z' : wf_point 1 p -> (1 <= length (z_last z))%nat ->
  lazy_end Rnum p it z = Some z' ->
  z_lambda z' = z_lambda z /\ z_thresh z' = z_thresh z /\ z_t0 z' = z_t0 z /\
  length (z_last z') = length (z_last z) /\ nth 0 (z_last z') 0 = IZR it - 1 /\
  forall i, (i < length (z_last z))%nat -> i <> O ->
    nth i (z_last z') 0 = match lookup (feats p) i with Some _ => IZR it - 1 | None => nth i (z_last z) 0 end.
Proof.
  intros Hp Hl H. unfold lazy_end in H. cbv zeta in H.
  destruct (set_all (p_idx p) (n_int Rnum (it - 1)) (z_last z)) as [l1|] eqn:E1; [|discriminate].
  cbn [bind] in H. destruct (set_all_nth _ _ _ _ E1) as (L1 & N1).
  rewrite wr_upd in H by lia. cbn [bind] in H.
  assert (Hz : z' = mklazy (z_lambda z) (z_thresh z) (z_t0 z) (upd 0 (n_int Rnum (it - 1)) l1)) by congruence.
  subst z'. clear H. cbn [z_lambda z_thresh z_t0 z_last].
  cbn [n_int Rnum] in *. rewrite minus_IZR in *. rewrite upd_length. repeat split; auto.
  - rewrite nth_upd by lia. reflexivity.
  - intros i Hi Hn. rewrite nth_upd by lia. destruct (Nat.eqb_spec i 0); [lia|].
    rewrite N1; auto.
    + destruct (in_dec Z.eq_dec (Z.of_nat i) (p_idx p)) as [h|h]; destruct (lookup (feats p) i) eqn:El; auto.
      * exfalso. apply lookup_None in El. apply El. now rewrite feats_fst by apply Hp.
      * exfalso. apply h. rewrite <- (feats_fst p) by apply Hp.
        assert (~ ~ In (Z.of_nat i) (map fst (feats p))).
        { intros h2. apply lookup_None in h2. congruence. }
        destruct (in_dec Z.eq_dec (Z.of_nat i) (map fst (feats p))); tauto.
    + intros j Hj. destruct Hp as (_ & _ & Hf). rewrite Forall_forall in Hf. specialize (Hf j Hj). cbn in Hf. lia.
Qed.

(** ** FOBOS_L1 *)
Definition allz (w : list R) : Prop := forall i, nth i w 0 = 0.
Section Fobos.
Variable eta0 lam thresh b0 : R.
Hypothesis Heta0 : 0 <= eta0.
Hypothesis Hlam : 0 <= lam.
Hypothesis Hb0 : 0 <= b0.
Let th (i : nat) : R := eta0 * lam.
Definition frel (c : core (R:=R)) (z : lazy_l1) (ws : list (list R)) (u : unit) : Prop :=
  z_lambda z = lam /\ z_thresh z = thresh /\ z_t0 z <= IZR (c_iter c) /\ c_b0 c = b0 /\ ~ 0 < c_active c /\
  0 <= c_eta c /\
  (c_eta c = eta0 \/ Forall2 (fun wl we => allz wl /\ allz we) (c_ws c) ws) /\
  length (z_last z) = c_dim c /\ (1 <= c_dim c)%nat /\
  Forall2 (lag (IZR (c_iter c)) th (z_last z)) (c_ws c) ws.
Definition fmid (x : list (Z * R)) (c : core (R:=R)) (z : lazy_l1) (ws : list (list R)) (u : unit) : Prop :=
  z_lambda z = lam /\ z_thresh z = thresh /\ z_t0 z <= IZR (c_iter c) /\ c_b0 c = b0 /\ ~ 0 < c_active c /\
  0 <= c_eta c /\
  (c_eta c = eta0 \/ Forall2 (fun wl we => allz wl /\ allz we) (c_ws c) ws) /\
  length (z_last z) = c_dim c /\ (1 <= c_dim c)%nat /\
  Forall2 (mid (IZR (c_iter c)) x th (z_last z)) (c_ws c) ws.

Lemma F2_and {A B} (P Q : A -> B -> Prop) l m : Forall2 P l m -> Forall2 Q l m -> Forall2 (fun a b => P a b /\ Q a b) l m.
Proof. induction 1; intros H2; inversion H2; subst; constructor; auto. Qed.
Lemma allz_len w w' : allz w -> allz w' -> length w' = length w -> w' = w.
Proof. intros A B L. apply (nth_ext _ _ 0 0); auto. intros i _. now rewrite A, B. Qed.
Lemma late_allz x T th' tb last w : lookup x 0 = None -> 0 <= tb ->
  (forall i, (i < length w)%nat -> 0 <= th' i * (T - 1 - nth i last 0)) -> allz w -> allz (late x T th' tb last w).
Proof.
  intros Hx Htb Hth Hw i. destruct (Nat.lt_ge_cases i (length w)) as [h|h].
  - unfold late. rewrite (pstep_nth Rnum) by auto. cbv zeta. change (zero Rnum) with 0. rewrite Hw.
    specialize (Hth i h). destruct (Nat.eqb_spec i 0) as [->|Hn].
    + rewrite Hx. now apply soft0.
    + destruct (lookup x i); [now apply soft0|reflexivity].
  - apply nth_overflow. unfold late. rewrite pstep_length. lia.
Qed.
Lemma shrink_allz tb th' w : 0 <= tb -> (forall i, 0 <= th' i) -> allz w -> allz (shrink Rnum tb th' w).
Proof.
  intros Htb Hth Hw i. destruct (Nat.lt_ge_cases i (length w)) as [h|h].
  - rewrite nth_shrink by auto. rewrite Hw. apply soft0. destruct (i =? 0)%nat; auto.
  - apply nth_overflow. rewrite shrink_length. lia.
Qed.
Lemma grow_allz d d' w : length w = d -> allz w -> allz (grow d d' 0 w).
Proof. intros L H i. rewrite (nth_grow d d' 0) by auto. apply H. Qed.

Lemma fobos_one eta t x last w tb : sorted_ix x -> length last = length w -> (1 <= length w)%nat ->
  (do w1 <- fobos_trunc Rnum eta lam t x last w; upd0 (fun b => op_trunc Rnum b tb) w1) =
  Some (late x (t + 1) (fun _ => eta * lam) tb last w).
Proof.
  intros Hs Hl H1. rewrite (fobos_trunc_spec Rnum) by auto. cbn [bind].
  rewrite (upd0_spec Rnum) by (rewrite smap_length; lia). f_equal. apply (nth_ext _ _ 0 0).
  - unfold late. rewrite upd_length, smap_length, pstep_length. reflexivity.
  - intros i Hi. rewrite upd_length, smap_length in Hi.
    unfold late. rewrite (pstep_nth Rnum) by lia. rewrite nth_upd by (rewrite smap_length; lia).
    cbv zeta. change (zero Rnum) with 0. rewrite !nth_smap by lia. rewrite !op_trunc_real.
    cbn [Rnum n_mul n_sub]. replace (t + 1 - 1) with t by ring.
    destruct (Nat.eqb_spec i 0) as [->|]; [destruct (lookup x 0)|destruct (lookup x i)]; rewrite ?op_trunc_real; reflexivity.
Qed.

Lemma lag_any T th1 th2 last w w' : allz w -> allz w' -> lag T th1 last w w' -> lag T th2 last w w'.
Proof.
  intros A B (L1 & L2 & L3 & B1 & Z & I). repeat split; auto. now apply I.
Qed.
Lemma mid_allz T x th2 last w w' : length last = length w -> length w' = length w -> (1 <= length w)%nat ->
  (forall i, (i < length w)%nat -> nth i last 0 <= T - 1) -> allz w -> allz w' -> mid T x th2 last w w'.
Proof.
  intros L1 L2 L3 HT A B. repeat split; auto.
  - now rewrite A, B.
  - now rewrite A, B.
Qed.

Lemma fobos_prep_sim p c z ws u c1 z1 z2 c3 z3 : wf_point 1 p -> frel c z ws u ->
  a_grow (fobos_l1 Rnum eta0 0) (Z.to_nat (x_dim p)) c z = Some (c1, z1) ->
  a_reg_begin (fobos_l1 Rnum eta0 0) p z1 = Some z2 ->
  a_prep (fobos_l1 Rnum eta0 0) p (bump c1) z2 = Some (c3, z3) ->
  exists e1' e2' ws1 ws3 e3',
    a_grow (eager_fobos Rnum eta0 lam thresh) (Z.to_nat (x_dim p)) (set_ws c ws) u = Some (set_ws c1 ws1, e1') /\
    a_reg_begin (eager_fobos Rnum eta0 lam thresh) p e1' = Some e2' /\
    a_prep (eager_fobos Rnum eta0 lam thresh) p (set_ws (bump c1) ws1) e2' = Some (set_ws c3 ws3, e3') /\
    fmid (feats p) c3 z3 ws3 e3' /\ predict Rnum (set_ws c3 ws3) p = predict Rnum c3 p.
Proof.
  intros Hp (Hz1 & Hz2 & Hz3 & Hcb & Hca & He & Hez & Hll & Hd1 & HF) Hg Hb Hpr.
  cbn [fobos_l1 eager_fobos a_grow a_reg_begin a_prep] in *. unfold grow_none, reg_begin_none in *.
  injection Hg as <- <-. injection Hb as <-.
  set (d := Z.to_nat (x_dim p)) in *.
  assert (Hx0 : lookup (feats p) 0 = None) by now apply lookup_lo.
  assert (Hs : sorted_ix (feats p)) by (apply fs, wf10, Hp).
  set (T := IZR (c_iter c)) in *.
  (* the state after growing *)
  set (ws1 := if (c_dim c <? d)%nat then map (grow (c_dim c) d 0) ws else ws).
  assert (Eg : linear_update_dim Rnum d (set_ws c ws) = set_ws (linear_update_dim Rnum d c) ws1).
  { unfold linear_update_dim, ws1. cbn [c_dim set_ws]. destruct (c_dim c <? d)%nat; reflexivity. }
  set (c1 := linear_update_dim Rnum d c) in *. set (z2 := lazy_begin p z) in *.
  assert (HC : c_iter c1 = c_iter c /\ c_b0 c1 = c_b0 c /\ c_active c1 = c_active c /\ c_eta c1 = c_eta c /\
               c_dim c1 = Nat.max (c_dim c) d).
  { unfold c1, linear_update_dim. destruct (Nat.ltb_spec (c_dim c) d); cbn; repeat split; lia. }
  destruct HC as (C1 & C2 & C3 & C4 & C5).
  assert (HZ : z_lambda z2 = lam /\ z_thresh z2 = thresh /\ z_t0 z2 = z_t0 z /\ length (z_last z2) = c_dim c1).
  { unfold z2, lazy_begin. destruct (Z.ltb_spec (Z.of_nat (length (z_last z))) (x_dim p)); cbn; repeat split; auto.
    - rewrite (grow_length (length (z_last z))) by (auto; unfold d in *; lia). unfold d in *. lia.
    - unfold d in *. lia. }
  destruct HZ as (Z1 & Z2 & Z3 & Z4).
  assert (HF1 : Forall2 (lag T th (z_last z2)) (c_ws c1) ws1 /\
     (c_eta c1 = eta0 \/ Forall2 (fun wl we => allz wl /\ allz we) (c_ws c1) ws1)).
  { unfold c1, ws1, z2, lazy_begin, linear_update_dim. rewrite Hll.
    assert (Ed : (Z.of_nat (c_dim c) <? x_dim p) = (c_dim c <? d)%nat).
    { unfold d. destruct (Z.ltb_spec (Z.of_nat (c_dim c)) (x_dim p)), (Nat.ltb_spec (c_dim c) (Z.to_nat (x_dim p))); auto; lia. }
    rewrite Ed. destruct (Nat.ltb_spec (c_dim c) d).
    - cbn [z_last c_ws set_ws set_dim c_eta]. change (Z.to_nat (x_dim p)) with d. split.
      + apply F2_map. eapply F2_impl; [|exact HF]. intros wl we HL. apply lag_grow with th; auto; try lia.
        destruct HL as (L & _). lia.
      + destruct Hez as [Hez|Hez]; [now left|right]. apply F2_map.
        eapply F2_impl; [|exact (F2_and _ _ _ _ HF Hez)].
        intros wl we (HL & A & B). destruct HL as (L1 & L2 & _). split; apply grow_allz; auto; lia.
    - auto. }
  destruct HF1 as (HF1 & Hez1).
  (* truncation *)
  unfold fobos_prep in Hpr. change (c_eta (bump c1)) with (c_eta c1) in Hpr.
  change (bias_eta Rnum (bump c1)) with (c_b0 c1 * c_eta c1) in Hpr.
  change (c_ws (bump c1)) with (c_ws c1) in Hpr. change (c_iter (bump c1)) with (c_iter c1 + 1)%Z in Hpr.
  change (n_int Rnum (c_iter c1 + 1 - 1)) with (IZR (c_iter c1 + 1 - 1)) in Hpr.
  replace (c_iter c1 + 1 - 1)%Z with (c_iter c) in Hpr by lia. fold T in Hpr. rewrite Z1 in Hpr.
  cbn [n_mul Rnum] in Hpr.
  set (tb := c_b0 c1 * c_eta c1 * lam) in *.
  assert (Hlen : Forall (fun w => length w = c_dim c1 /\ (1 <= length w)%nat) (c_ws c1)).
  { clear - HF1 Z4. induction HF1; constructor; auto. destruct H as (L1 & L2 & L3 & _). split; auto. lia. }
  rewrite (mapM_spec _ (late (feats p) (T + 1) (fun _ => c_eta c1 * lam) tb (z_last z2))) in Hpr.
  2:{ intros w Hw. rewrite Forall_forall in Hlen. destruct (Hlen w Hw). apply fobos_one; auto. lia. }
  cbn [bind] in Hpr. injection Hpr as <- <-.
  set (tb' := b0 * eta0 * lam). set (ws3 := map (shrink Rnum tb' (fun _ => eta0 * lam)) ws1).
  exists u, u, ws1, ws3, u.
  split. { now rewrite Eg. } split; [reflexivity|].
  split. { cbn [c_b0 c_ws set_ws set_dim bump set_data set_iter]. rewrite C2, Hcb. reflexivity. }
  assert (Htb : 0 <= tb) by (unfold tb; rewrite C2, Hcb, C4; apply Rmult_le_pos; auto; apply Rmult_le_pos; auto).
  assert (Htb' : 0 <= tb') by (unfold tb'; apply Rmult_le_pos; auto; apply Rmult_le_pos; auto).
  assert (Hth : 0 <= eta0 * lam) by (apply Rmult_le_pos; auto).
  assert (HM : Forall2 (mid (T + 1) (feats p) th (z_last z2))
     (map (late (feats p) (T + 1) (fun _ => c_eta c1 * lam) tb (z_last z2)) (c_ws c1)) ws3 /\
     (c_eta c1 = eta0 \/ Forall2 (fun wl we => allz wl /\ allz we)
        (map (late (feats p) (T + 1) (fun _ => c_eta c1 * lam) tb (z_last z2)) (c_ws c1)) ws3)).
  { destruct Hez1 as [Hez1|Hez1].
    - split; [|now left]. apply F2_map. eapply F2_impl; [|exact HF1]. intros wl we HL.
      replace tb with tb' by (unfold tb, tb'; rewrite C2, Hcb, Hez1; reflexivity). rewrite Hez1.
      apply late_mid; auto.
    - assert (HA : Forall2 (fun wl we => allz wl /\ allz we)
        (map (late (feats p) (T + 1) (fun _ => c_eta c1 * lam) tb (z_last z2)) (c_ws c1)) ws3).
      { apply F2_map. eapply F2_impl; [|exact (F2_and _ _ _ _ HF1 Hez1)]. intros wl we (HL & A & B).
        split.
        - apply late_allz; auto. intros i Hi. apply Rmult_le_pos; [apply Rmult_le_pos; auto; lra|].
          destruct HL as (_ & _ & _ & _ & _ & I). destruct (I i Hi). lra.
        - apply shrink_allz; auto. }
      split; [|now right].
      assert (HB : Forall2 (fun wl we => length wl = c_dim c1 /\ length we = length wl /\ (1 <= length wl)%nat /\
          forall i, (i < length wl)%nat -> nth i (z_last z2) 0 <= T)
        (map (late (feats p) (T + 1) (fun _ => c_eta c1 * lam) tb (z_last z2)) (c_ws c1)) ws3).
      { apply F2_map. eapply F2_impl; [|exact HF1]. intros wl we (L1 & L2 & L3 & _ & _ & I).
        unfold late. rewrite pstep_length, shrink_length. repeat split; try lia. apply I. }
      eapply F2_impl; [|exact (F2_and _ _ _ _ HA HB)].
      intros wl we ((A & B) & L1 & L2 & L3 & I). apply mid_allz; auto; [lia|].
      intros i Hi. specialize (I i Hi). lra. }
  destruct HM as (HM & Hez3).
  split.
  - unfold fmid. cbn [c_iter set_ws bump set_data set_iter c_b0 c_active c_eta c_ws c_dim]. rewrite C1, plus_IZR. fold T.
    rewrite C2, C3, Z3. repeat split; auto; try lra; try (rewrite C4; lra).
    rewrite C5. lia.
  - eapply predict_mid; eauto.
Qed.

Lemma each_class_sim (Q Q2 : list R -> list R -> Prop) f gs : forall ws r ws',
  each_class Rnum f gs ws = Some r -> Forall2 Q ws ws' ->
  (forall w w', Q w w' -> Q2 w w') ->
  (forall g w w' u, Q w w' -> f g w = Some u -> exists u', f g w' = Some u' /\ Q2 u u') ->
  exists r', each_class Rnum f gs ws' = Some r' /\ Forall2 Q2 r r'.
Proof.
  revert gs. intros gs ws r ws' H HF HQ Hf. revert gs r H.
  induction HF as [|w w' ws ws' Hw _ IH]; intros gs r H.
  - exists []. destruct gs; cbn in H; injection H as <-; split; auto; reflexivity.
  - destruct gs as [|g gs]; [discriminate|]. cbn [each_class] in *.
    destruct (n_eq Rnum g (zero Rnum)).
    + cbn [bind] in *. destruct (each_class Rnum f gs ws) as [r1|] eqn:E; [|discriminate]. cbn [bind] in H.
      injection H as <-. destruct (IH _ _ E) as (r' & E' & F'). rewrite E'. cbn [bind]. eauto.
    + destruct (f g w) as [w1|] eqn:Ew; [|discriminate]. cbn [bind] in H.
      destruct (Hf g w w' w1 Hw Ew) as (u' & Eu & Q2u). rewrite Eu. cbn [bind] in *.
      destruct (each_class Rnum f gs ws) as [r1|] eqn:E; [|discriminate]. cbn [bind] in H.
      injection H as <-. destruct (IH _ _ E) as (r' & E' & F'). rewrite E'. cbn [bind]. eauto.
Qed.

Lemma fobos_upd_sim p c z ws u loss c5 z5 : wf_point 1 p -> fmid (feats p) c z ws u ->
  a_update (fobos_l1 Rnum eta0 0) p loss c z = Some (c5, z5) ->
  exists ws5 u5, a_update (eager_fobos Rnum eta0 lam thresh) p loss (set_ws c ws) u = Some (set_ws c5 ws5, u5) /\
    fmid (feats p) c5 z5 ws5 u5.
Proof.
  intros Hp (Hz1 & Hz2 & Hz3 & Hcb & Hca & He & Hez & Hll & Hd1 & HF) H.
  cbn [fobos_l1 eager_fobos a_update] in *. unfold ogd_update, grad_steps in *.
  assert (Ep : n_div Rnum eta0 (ogd_pow Rnum 0 (c_iter c)) = eta0).
  { unfold ogd_pow. change (zero Rnum) with 0. cbn [Rnum n_eq n_div one n_int].
    destruct (Req_EM_T 0 0) as [_|h]; [|easy]. unfold one. cbn. lra. }
  rewrite Ep in H. unfold bias_eta in *. cbn [c_eta c_b0 c_g c_ws set_eta set_ws] in *.
  destruct (each_class Rnum _ (c_g c) (c_ws c)) as [r|] eqn:Er; [|discriminate]. cbn [bind] in H.
  injection H as <- <-.
  assert (Hx0 : lookup (feats p) 0 = None) by now apply lookup_lo.
  assert (Hs : sorted_ix (feats p)) by (apply fs, wf10, Hp).
  destruct (each_class_sim _ (mid (IZR (c_iter c)) (feats p) th (z_last z)) _ _ _ _ _ Er HF) as (r' & E' & F'); auto.
  { intros g w w' w1 HM. pose proof HM as (L1 & L2 & L3 & _).
    rewrite (grad_step_spec Rnum) by auto. intros E. injection E as <-.
    rewrite (grad_step_spec Rnum) by (auto; lia). eexists. split; [reflexivity|].
    apply mid_step with th; auto. }
  rewrite E'. cbn [bind]. exists r', u. split; [reflexivity|].
  unfold fmid. cbn [c_iter set_ws set_eta c_b0 c_active c_eta c_ws c_dim]. repeat split; auto.
Qed.

Lemma fobos_end_sim p c z ws u z6 : wf_point 1 p -> fmid (feats p) c z ws u ->
  a_reg_end (fobos_l1 Rnum eta0 0) p (c_iter c) z = Some z6 ->
  exists u6, a_reg_end (eager_fobos Rnum eta0 lam thresh) p (c_iter c) u = Some u6 /\ frel c z6 ws u6.
Proof.
  intros Hp (Hz1 & Hz2 & Hz3 & Hcb & Hca & He & Hez & Hll & Hd1 & HF) H.
  cbn [fobos_l1 eager_fobos a_reg_end] in *. exists u. split; [reflexivity|].
  apply lazy_end_nth in H as (A1 & A2 & A3 & A4 & A5 & A6); [|auto|lia].
  unfold frel. rewrite A1, A2, A3, A4. repeat split; auto.
  eapply F2_impl; [|exact HF]. intros wl we HM. eapply mid_lag; eauto.
Qed.

Lemma fobos_iterate p rnd c z ws u lab ps c1 z1 : wf_point 1 p -> frel c z ws u ->
  iterate Rnum (fobos_l1 Rnum eta0 0) p rnd c z = Some (lab, ps, c1, z1) ->
  exists ws1 u1, iterate Rnum (eager_fobos Rnum eta0 lam thresh) p rnd (set_ws c ws) u
    = Some (lab, ps, set_ws c1 ws1, u1) /\ frel c1 z1 ws1 u1.
Proof.
  intros Hp. apply iterate_sim with (Mid := fmid (feats p)); auto.
  - intros c0 c2 e ws0 e' E1 E2 E3 E4 E5 E6 _ H. unfold fmid in *. rewrite E1, E2, E3, E4, E5, E6. exact H.
  - intros c0 e ws0 e' H. apply H.
  - intros. eapply fobos_prep_sim; eauto.
  - intros. eapply fobos_upd_sim; eauto.
  - intros. eapply fobos_end_sim; eauto.
Qed.

Lemma end_one eta t last w tb : length last = length w -> (1 <= length w)%nat ->
  (do w1 <- calc assign w (etrunc Rnum (EDense w)
     (emul Rnum (EScalar (n_mul Rnum eta lam)) (esub Rnum (EScalar t) (EDense last))));
   upd0 (fun b => op_trunc Rnum b tb) w1) =
  Some (upd 0 (soft (soft (nth 0 w 0) (eta * lam * (t - nth 0 last 0))) tb)
         (imap 0 (fun i v => soft v (eta * lam * (t - nth i last 0))) w)).
Proof.
  intros L L1. rewrite (calc_dense 0); cbn [dense_eq typ etrunc emul esub]; auto.
  cbn [bind]. rewrite (upd0_spec Rnum) by (rewrite imap_length; lia). change (zero Rnum) with 0.
  rewrite nth_imap by lia. unfold assign. cbn [den etrunc emul esub Nat.add]. rewrite !op_trunc_real.
  cbn [n_mul n_sub Rnum]. do 2 f_equal. apply (nth_ext _ _ 0 0); [now rewrite !imap_length|].
  intros i Hi. rewrite imap_length in Hi. rewrite !nth_imap by lia. cbn [Nat.add]. now rewrite op_trunc_real.
Qed.
Lemma fobos_finish c z ws u c1 z1 : frel c z ws u ->
  a_end (fobos_l1 Rnum eta0 0) c z = Some (c1, z1) ->
  a_end (eager_fobos Rnum eta0 lam thresh) (set_ws c ws) u = Some (c1, u).
Proof.
  intros (Hz1 & Hz2 & Hz3 & Hcb & Hca & He & Hez & Hll & Hd1 & HF) H.
  cbn [fobos_l1 eager_fobos a_end] in *. unfold fobos_end in H.
  assert (Hlen : Forall (fun w => length w = c_dim c /\ (1 <= length w)%nat) (c_ws c)).
  { clear - HF Hll. induction HF; constructor; auto. destruct H as (L1 & L2 & L3 & _). split; auto. lia. }
  set (F := fun w => upd 0 (soft (soft (nth 0 w 0) (c_eta c * lam * (IZR (c_iter c) - nth 0 (z_last z) 0))) (c_b0 c * c_eta c * lam))
    (imap 0 (fun i v => soft v (c_eta c * lam * (IZR (c_iter c) - nth i (z_last z) 0))) w)).
  rewrite (mapM_spec _ F) in H.
  2:{ intros w Hw. rewrite Forall_forall in Hlen. destruct (Hlen w Hw) as (L & L1). rewrite Hz1.
      apply end_one; auto. lia. }
  cbn [bind] in H. injection H as <- <-. cbn [c_b0 c_ws set_ws]. do 2 f_equal.
  unfold linear_end. cbn [c_ws set_ws]. rewrite !set_ws_ws, Hz2, Hcb. do 2 f_equal.
  rewrite map_map.
  assert (Hth : 0 <= eta0 * lam) by (apply Rmult_le_pos; auto).
  assert (Htb' : 0 <= b0 * eta0 * lam) by (apply Rmult_le_pos; auto; apply Rmult_le_pos; auto).
  destruct Hez as [Hez|Hez].
  - clear - Heta0 Hlam Hb0 HF Hez Hcb Hth Htb'. induction HF as [|wl we wls wes HL _ IH]; [reflexivity|].
    cbn [map]. f_equal; [|exact IH]. unfold F. rewrite Hcb, Hez. unfold finalize_l1, cut. f_equal. symmetry.
    apply (lag_end _ th); auto.
  - pose proof (F2_and _ _ _ _ HF Hez) as HA.
    clear - Heta0 Hlam Hb0 He HA Hcb Hth Htb'. induction HA as [|wl we wls wes (HL & A & B) _ IH]; [reflexivity|].
    cbn [map]. f_equal; [|exact IH]. unfold F. rewrite Hcb. unfold finalize_l1, cut. f_equal. symmetry.
    assert (He' : 0 <= c_eta c * lam) by (apply Rmult_le_pos; auto).
    rewrite (lag_end (IZR (c_iter c)) (fun _ => c_eta c * lam) (b0 * c_eta c * lam) (z_last z) wl we).
    + apply allz_len.
      * apply shrink_allz; [|intros; unfold zero; cbn; lra|apply shrink_allz; auto]. apply Rmult_le_pos; auto; apply Rmult_le_pos; auto.
      * apply shrink_allz; [|intros; unfold zero; cbn; lra|apply shrink_allz; auto]. apply Rmult_le_pos; auto; apply Rmult_le_pos; auto.
      * now rewrite !shrink_length.
    + auto.
    + apply Rmult_le_pos; auto; apply Rmult_le_pos; auto.
    + eapply lag_any; eauto.
Qed.

End Fobos.
