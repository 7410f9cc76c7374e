(** AdaRDA_L1 against the learner that remembers its gradients. *)
From Coq Require Import Sorted.
From Verif Require Import M_Base M_Num M_Expr M_Loss M_Online M_Olm M_Algs S_Expr S_Online S_Session S_Dual
  P_DataPoint P_Expr P_Online P_Predict P_Step P_Safe P_SafeOlm P_Session P_Session2 P_Dual P_Dual2 P_Dual3.

Section D.
Context {R : Type}.
Variable N : num R.
Local Notation zero := (zero N).
Variable n : nat.
Variable delta : R.
Notation none := (@nil R, @nil R).

(** The state holds the sums and the scales. *)
Definition scales (d : nat) (s : list (list R * list R)) (h : history (R:=R)) : Prop :=
  shape2 n d s /\ forall k i, (k < n)%nat ->
    nth i (snd (nth k s none)) zero = gsum N h k i /\ nth i (fst (nth k s none)) delta = scale N delta h k i.
Lemma shape2_nth d s k : shape2 n d s -> (k < n)%nat ->
  length (fst (nth k s none)) = d /\ length (snd (nth k s none)) = d.
Proof. intros (L & F) Hk. rewrite Forall_forall in F. apply F. apply nth_In. lia. Qed.

Lemma scales_grow d c s h c1 s1 : (1 <= c_dim c)%nat -> shape n (c_dim c) (c_ws c) -> scales (c_dim c) s h ->
  ada_rda_grow N delta d c s = Some (c1, s1) -> c1 = linear_update_dim N d c /\ scales (c_dim c1) s1 h.
Proof.
  intros Hd Hw (Hs & H) G. unfold ada_rda_grow in G. pose proof (upd_dim_shape N n d c Hw) as (Dd & _).
  destruct (Nat.ltb_spec (c_dim c) d); injection G as <- <-.
  - split; auto. rewrite Dd. replace (Nat.max (c_dim c) d) with d by lia. split.
    + split; [rewrite map_length; apply Hs|]. rewrite Forall_forall. intros x Hx.
      apply in_map_iff in Hx as (y & <- & Hy). destruct Hs as (_ & F). rewrite Forall_forall in F. destruct (F y Hy).
      cbn. rewrite !(grow_length (c_dim c)) by (auto; lia). lia.
    + intros k i Hk. destruct (H k i Hk) as (<- & <-). destruct (shape2_nth _ _ k Hs Hk) as (L1 & L2).
      rewrite (nth_indep _ _ ((fun Hu => (grow (c_dim c) d delta (fst Hu), grow (c_dim c) d zero (snd Hu))) none))
        by (rewrite map_length, (proj1 Hs); lia).
      rewrite (map_nth (fun Hu => (grow (c_dim c) d delta (fst Hu), grow (c_dim c) d zero (snd Hu)))).
      cbn [fst snd]. rewrite !(grow_nth_any (c_dim c) d) by (auto; lia). auto.
  - rewrite linear_grow_eq by lia. split; auto. split; auto.
Qed.
(** What one update does to the state and the weights of a class. *)
Lemma scales_update p loss c s h c1 s1 : wf_point 0 p -> (1 <= c_dim c)%nat -> shape n (c_dim c) (c_ws c) ->
  (Z.to_nat (x_dim p) <= c_dim c)%nat -> scales (c_dim c) s h ->
  ada_rda_update N delta p loss c s = Some (c1, s1) ->
  exists ws, c1 = set_ws c ws /\ shape n (c_dim c) ws /\ scales (c_dim c) s1 ((feats p, c_g c) :: h) /\
    forall k i, (k < n)%nat -> (i < c_dim c)%nat ->
      nth i (nth k ws []) zero =
      if n_eq N (nth k (c_g c) zero) zero then nth i (nth k (c_ws c) []) zero else
      let v := match lookup (feats p) i with
               | Some _ => n_div N (n_mul N (n_opp N (c_eta c)) (gsum N ((feats p, c_g c) :: h) k i))
                             (scale N delta ((feats p, c_g c) :: h) k i)
               | None => nth i (nth k (c_ws c) []) zero end in
      if (i =? 0)%nat then n_mul N v (c_b0 c) else v.
Proof.
  intros Hp Hd Hw Hx (Hs & H) G. unfold ada_rda_update in G.
  destruct (each_class2 N _ (c_g c) (c_ws c) s) as [(ws, r)|] eqn:E; [|discriminate]. cbn [bind] in G.
  injection G as <- <-.
  assert (Hlw : forall v, In v (c_ws c) -> length v = c_dim c) by (intros v Hv; exact (shape_in _ _ _ v Hw Hv)).
  assert (Hls : forall e, In e s -> length (fst e) = c_dim c /\ length (snd e) = c_dim c).
  { destruct Hs as (_ & F). now rewrite Forall_forall in F. }
  pose (HH g (e : list R * list R) := pstep N (fun i _ v => n_add N (n_sqrt N (n_add N (n_mul N (n_sub N (nth i (fst e) zero) delta)
     (n_sub N (nth i (fst e) zero) delta)) (n_mul N (n_mul N g v) (n_mul N g v)))) delta)
     (fun h => n_add N (n_sqrt N (n_add N (n_mul N (n_sub N h delta) (n_sub N h delta)) (n_mul N g g))) delta) (feats p) (fst e)).
  pose (UU g (e : list R * list R) := pstep N (fun _ a v => n_add N a (n_mul N g v)) (fun b => n_add N b g) (feats p) (snd e)).
  pose (FF g w e := pstep N (fun i _ _ => n_div N (n_mul N (n_opp N (c_eta c)) (nth i (UU g e) zero)) (nth i (HH g e) zero))
     (fun b => n_mul N b (c_b0 c)) (feats p) w).
  apply (each_class2_inv N n none _ FF (fun g w e => (HH g e, UU g e))) in E as (L1 & L2 & E).
  2: { rewrite (proj1 Hw). apply Hs. }
  2: { intros g w (H0, u) Hiw Hie. destruct (Hls _ Hie) as (La & Lb). cbn [fst snd] in La, Lb.
       pose proof (Hlw w Hiw) as Lw. unfold ada_rda_step.
       rewrite (ada_H_spec N) by (auto using fs; lia). cbn [bind].
       rewrite (ut_step_spec N) by (auto using fs; lia). cbn [bind].
       rewrite (ada_rda_assign_spec N) by (auto using fs; rewrite ?pstep_length; lia). reflexivity. }
  pose proof (proj1 Hw) as Ln. pose proof (proj1 Hs) as Ls.
  assert (Sc : scales (c_dim c) r ((feats p, c_g c) :: h)).
  { split.
    - split; [lia|]. rewrite Forall_forall. intros e He. apply (In_nth _ _ none) in He as (k & Hk & <-).
      destruct (E k ltac:(lia)) as (_ & ->). assert (Hin : In (nth k s none) s) by (apply nth_In; lia).
      destruct (n_eq N _ _); [auto|]. cbn [fst snd]. unfold HH, UU. rewrite !pstep_length. auto.
    - intros k i Hk. destruct (E k ltac:(lia)) as (_ & ->). destruct (H k i Hk) as (Hg & Hsc).
      destruct (shape2_nth _ _ k Hs Hk) as (La & Lb). cbn [gsum scale].
      destruct (n_eq N (nth k (c_g c) zero) zero); [auto|]. cbn [fst snd]. unfold HH, UU.
      destruct (Nat.lt_ge_cases i (c_dim c)).
      + rewrite (nth_indep _ delta zero) by (rewrite pstep_length; lia). rewrite !(pstep_nth N) by lia. cbv zeta.
        rewrite (nth_indep _ delta zero) in Hsc by lia. rewrite Hg, Hsc. auto.
      + rewrite (look_below p (c_dim c)) by auto. destruct (Nat.eqb_spec i 0); [lia|]. rewrite <- Hg, <- Hsc.
        split; rewrite !nth_overflow; rewrite ?pstep_length; auto; lia. }
  exists ws. split; [reflexivity|]. split; [|split; [exact Sc|]].
  - split; [lia|]. rewrite Forall_forall. intros v Hv. apply (In_nth _ _ []) in Hv as (k & Hk & <-).
    destruct (E k ltac:(lia)) as (-> & _). assert (Hin : In (nth k (c_ws c) []) (c_ws c)) by (apply nth_In; lia).
    destruct (n_eq N _ _); [now apply Hlw|]. unfold FF. rewrite pstep_length. now apply Hlw.
  - intros k i Hk Hi. destruct (E k ltac:(lia)) as (-> & Er). destruct Sc as (Sr & Sc).
    destruct (Sc k i Hk) as (<- & <-). destruct (shape2_nth _ _ k Sr Hk) as (La & Lb). rewrite Er in *.
    destruct (n_eq N _ _) eqn:Eq; [reflexivity|]. cbn [fst snd] in *. unfold FF at 1.
    assert (Lk : length (nth k (c_ws c) []) = c_dim c) by (apply Hlw, nth_In; lia).
    rewrite (pstep_nth N) by lia. cbv zeta. rewrite (nth_indep (HH _ _) delta zero) by lia. reflexivity.
Qed.

Lemma set_eta_id (c : core (R:=R)) : set_eta c (c_eta c) = c.
Proof. now destruct c. Qed.
Definition ASt (d : nat) (ws : list (list R)) (eta : R * R) s h := scales d s h.
Definition l1f lam (c : core (R:=R)) u := op_trunc N u (n_mul N lam (n_int N (c_iter c))).
Definition wend lam (c : core (R:=R)) h k i :=
  let w := n_div N (n_mul N (n_opp N (c_eta c)) (l1f lam c (gsum N h k i))) (scale N delta h k i) in
  if (i =? 0)%nat then n_mul N w (c_b0 c) else w.

Lemma al1_prep lam p c s h c1 s1 : wf_point 0 p -> (1 <= c_dim c)%nat -> shape n (c_dim c) (c_ws c) ->
  (Z.to_nat (x_dim p) <= c_dim c)%nat -> ASt (c_dim c) (c_ws c) (par c) s h ->
  ada_rda_l1_prep N lam p c s = Some (c1, s1) -> s1 = s /\
  exists ws, c1 = set_ws (set_eta c (c_eta c)) ws /\ shape n (c_dim c) ws /\ ASt (c_dim c) ws (par c) s h /\
    forall k i, (k < n)%nat -> (i < c_dim c)%nat -> i = 0%nat \/ lookup (feats p) i <> None ->
      nth i (nth k ws []) zero =
      scaled_step_to N delta (l1f lam (set_eta c (c_eta c))) (set_eta c (c_eta c)) h k i.
Proof.
  intros Hp Hd Hw Hx (Hs & Hsum) G. rewrite set_eta_id. unfold ada_rda_l1_prep in G. cbv zeta in G.
  assert (Hlw : forall v, In v (c_ws c) -> length v = c_dim c) by (intros v Hv; exact (shape_in _ _ _ v Hw Hv)).
  assert (Hls : forall e, In e s -> length (fst e) = c_dim c /\ length (snd e) = c_dim c).
  { destruct Hs as (_ & F). now rewrite Forall_forall in F. }
  pose proof (proj1 Hw) as Ln. pose proof (proj1 Hs) as Ls.
  set (G1 := fun w (Hu : list R * list R) =>
     upd 0 (n_div N (n_mul N (n_opp N (bias_eta N c)) (l1f lam c (nth 0 (snd Hu) zero))) (nth 0 (fst Hu) zero))
       (smap (fun i _ _ => n_div N (n_mul N (n_opp N (c_eta c)) (l1f lam c (nth i (snd Hu) zero)))
          (nth i (fst Hu) zero)) (feats p) w)).
  rewrite (zip_class_spec _ G1) in G.
  - cbn [bind] in G. injection G as <- <-. split; auto. eexists. split; [reflexivity|]. split.
    + apply shape_zip; auto. intros w u Hiw Hiu. unfold G1. rewrite upd_length, smap_length. auto.
    + split; [now split|]. intros k i Hk Hi Hl. rewrite (nth_zipc n G1 none) by lia.
      assert (Lk : length (nth k (c_ws c) []) = c_dim c) by (apply Hlw, nth_In; lia).
      destruct (shape2_nth _ _ k Hs Hk) as (La & Lb). destruct (Hsum k i Hk) as (Hg & Hsc).
      rewrite (nth_indep _ delta zero) in Hsc by lia.
      unfold G1. rewrite nth_upd by (rewrite smap_length; lia). unfold scaled_step_to, step_to.
      destruct (Nat.eqb_spec i 0) as [->|Hn].
      * now rewrite Hg, Hsc.
      * rewrite nth_smap by lia. destruct Hl as [|Hl]; [lia|]. destruct (lookup (feats p) i); [|easy].
        now rewrite Hg, Hsc.
  - lia.
  - intros w u Hiw Hiu. pose proof (Hlw w Hiw). destruct (Hls u Hiu).
    rewrite (calc_sparse zero _ (feats p));
      [|simpl; auto | reflexivity | now apply fs | simpl; repeat split; auto; try lia].
    cbn [bind]. rewrite (rd0 N) by lia. cbn [bind]. rewrite (rd0 N) by lia. cbn [bind].
    rewrite wr_upd by (rewrite smap_length; lia). reflexivity.
Qed.
(** The assignment of EndTrain, with or without truncation. *)
Lemma ada_assign_all f c s h (e : list R -> exp R) : (1 <= c_dim c)%nat -> shape n (c_dim c) (c_ws c) ->
  scales (c_dim c) s h ->
  (forall w u H, length u = length w -> length H = length w -> (1 <= length w)%nat ->
     calc assign w (ediv N (emul N (EScalar (n_opp N (c_eta c))) (e u)) (EDense H)) =
     Some (imap 0 (fun i _ => n_div N (n_mul N (n_opp N (c_eta c)) (f (nth i u zero))) (nth i H zero)) w)) ->
  zip_class (fun w Hu => ada_rda_assign N (c_eta c) (c_b0 c) (e (snd Hu)) w (fst Hu)) (c_ws c) s =
  Some (table n (c_dim c) (fun k i =>
    let w := n_div N (n_mul N (n_opp N (c_eta c)) (f (gsum N h k i))) (scale N delta h k i) in
    if (i =? 0)%nat then n_mul N w (c_b0 c) else w)).
Proof.
  intros Hd Hw (Hs & Hsum) He.
  assert (Hlw : forall v, In v (c_ws c) -> length v = c_dim c) by (intros v Hv; exact (shape_in _ _ _ v Hw Hv)).
  assert (Hls : forall e, In e s -> length (fst e) = c_dim c /\ length (snd e) = c_dim c).
  { destruct Hs as (_ & F). now rewrite Forall_forall in F. }
  pose proof (proj1 Hw) as Ln. pose proof (proj1 Hs) as Ls.
  set (F0 := fun w (Hu : list R * list R) =>
    imap 0 (fun i (_ : R) => n_div N (n_mul N (n_opp N (c_eta c)) (f (nth i (snd Hu) zero))) (nth i (fst Hu) zero)) w).
  set (G1 := fun w Hu => upd 0 (n_mul N (nth 0 (F0 w Hu) zero) (c_b0 c)) (F0 w Hu)).
  assert (L0 : forall w Hu, length (F0 w Hu) = length w) by (intros; apply imap_length).
  rewrite (zip_class_spec _ G1).
  - f_equal. apply (table_eq zero).
    + apply shape_zip; auto. intros w u Hiw Hiu. unfold G1. rewrite upd_length, L0. auto.
    + intros k i Hk Hi. rewrite (nth_zipc n G1 none) by lia.
      assert (Lk : length (nth k (c_ws c) []) = c_dim c) by (apply Hlw, nth_In; lia).
      destruct (shape2_nth _ _ k Hs Hk) as (La & Lb).
      assert (Hn0 : forall j, (j < c_dim c)%nat -> nth j (F0 (nth k (c_ws c) []) (nth k s none)) zero =
         n_div N (n_mul N (n_opp N (c_eta c)) (f (gsum N h k j))) (scale N delta h k j)).
      { intros j Hj. destruct (Hsum k j Hk) as (Hg & Hsc). rewrite (nth_indep _ delta zero) in Hsc by lia.
        rewrite <- Hg, <- Hsc. apply nth_error_nth. unfold F0. rewrite nth_error_imap.
        rewrite (nth_error_nth' _ zero) by lia. reflexivity. }
      unfold G1. rewrite nth_upd by (rewrite L0; lia). cbv zeta.
      destruct (Nat.eqb_spec i 0) as [->|Hn]; now rewrite Hn0 by lia.
  - lia.
  - intros w u Hiw Hiu. pose proof (Hlw w Hiw). destruct (Hls u Hiu). unfold ada_rda_assign.
    rewrite He by lia. cbn [bind]. fold (F0 w u). unfold upd0. rewrite (rd0 N) by (rewrite L0; lia). cbn [bind].
    rewrite wr_upd by (rewrite L0; lia). reflexivity.
Qed.
Lemma al1_end lam thresh c s h c1 s1 : (1 <= c_dim c)%nat -> shape n (c_dim c) (c_ws c) ->
  ASt (c_dim c) (c_ws c) (par c) s h -> ada_rda_l1_end N lam thresh c s = Some (c1, s1) -> s1 = s /\
  c1 = set_updated (set_ws (set_eta c (c_eta c)) (map (cut_small N thresh)
        (table n (c_dim c) (wend lam (set_eta c (c_eta c)) h)))) false.
Proof.
  intros Hd Hw Hst G. rewrite set_eta_id. unfold ada_rda_l1_end in G. cbv zeta in G.
  rewrite (ada_assign_all (l1f lam c) c s h (fun u => etrunc N (EDense u) (EScalar (n_mul N lam (n_int N (c_iter c)))))) in G; auto.
  - cbn [bind] in G. injection G as <- <-. auto.
  - intros w u H Lu LH L1. rewrite (calc_dense zero); [reflexivity|simpl; auto|simpl; auto].
Qed.
Lemma ast_I c e h : ASt (c_dim c) (c_ws c) (par c) e h -> length (c_ws c) = n ->
  shape2 (length (c_ws c)) (c_dim c) e.
Proof. intros (H & _) ->. exact H. Qed.
Lemma scales_init : scales 1 (repeat ([delta], [zero]) n) [].
Proof.
  split; [apply shape2_repeat|]. intros k i Hk. rewrite (nth_indep _ none ([delta], [zero])) by (rewrite repeat_length; lia).
  rewrite nth_repeat. destruct i as [|[|i]]; split; reflexivity.
Qed.
Lemma a_grow_ok d c e h c1 e1 : (1 <= c_dim c)%nat -> shape n (c_dim c) (c_ws c) ->
  ASt (c_dim c) (c_ws c) (par c) e h -> ada_rda_grow N delta d c e = Some (c1, e1) ->
  c1 = linear_update_dim N d c /\ ASt (c_dim c1) (c_ws c1) (par c1) e1 h.
Proof. apply scales_grow. Qed.
Lemma a_upd_ok p loss c e h c1 e1 : wf_point 0 p -> (1 <= c_dim c)%nat -> shape n (c_dim c) (c_ws c) ->
  (Z.to_nat (x_dim p) <= c_dim c)%nat -> ASt (c_dim c) (c_ws c) (par c) e h ->
  ada_rda_update N delta p loss c e = Some (c1, e1) ->
  exists ws, c1 = set_ws c ws /\ shape n (c_dim c) ws /\ ASt (c_dim c) ws (par c) e1 ((feats p, c_g c) :: h).
Proof.
  intros Hp Hd Hs Hx Hst H. destruct (scales_update p loss c e h c1 e1 Hp Hd Hs Hx Hst H) as (ws & A & B & C & _).
  exists ws. auto.
Qed.

Lemma agrees_ada_rda_l1 lam thresh c0 : fresh N n c0 -> loss_ok n (c_loss c0) ->
  indistinguishable N (ada_rda_l1 N delta lam thresh) (dual_ada_rda_l1 N delta lam thresh) n c0
    (init_of N (KAdaRDA_L1 delta lam thresh) n) [] 0 all_uses /\
  weights_are_cache N (ada_rda_l1 N delta lam thresh) n c0 (init_of N (KAdaRDA_L1 delta lam thresh) n) 0.
Proof.
  assert (Hc : forall w, length (cut_small N thresh w) = length w) by (intros; apply map_length).
  assert (W1 : forall (c : core (R:=R)) ws h k i, c_eta (set_ws c ws) = c_eta c /\
    scaled_step_to N delta (l1f lam (set_ws c ws)) (set_ws c ws) h k i = scaled_step_to N delta (l1f lam c) c h k i) by (split; reflexivity).
  assert (W2 : forall (c : core (R:=R)) ws h k i, c_eta (set_ws c ws) = c_eta c /\
    wend lam (set_ws c ws) h k i = wend lam c h k i) by (split; reflexivity).
  assert (Hes : forall c e h c1 e1, (1 <= c_dim c)%nat -> shape n (c_dim c) (c_ws c) ->
    ASt (c_dim c) (c_ws c) (par c) e h -> a_end (ada_rda_l1 N delta lam thresh) c e = Some (c1, e1) ->
    c_dim c1 = c_dim c /\ ASt (c_dim c1) (c_ws c1) (par c1) e1 h).
  { intros c e h c1 e1 Hd Hs Hst G. destruct (al1_end lam thresh c e h c1 e1 Hd Hs Hst G) as (-> & ->). auto. }
  intros Hf Hl. split.
  - apply (user_agrees N n (KAdaRDA_L1 delta lam thresh) (dual_ada_rda_l1 N delta lam thresh) all_uses ASt
    (fun ws d e => shape2 (length ws) d e) local 0); auto.
    + cbn. lia.
    + apply (safe_gsafe N 0 _ _ _ (safe_ada_rda_l1 N delta lam thresh)).
    + exact ast_I.
    + apply scales_init.
    + intros pre us s s' t _. apply (dual_session N (ada_rda_l1 N delta lam thresh) c_eta c_eta (fun c => scaled_step_to N delta (l1f lam c) c)
      (wend lam) (cut_small N thresh) n 0); auto; try lia;
      [exact a_grow_ok|exact (al1_prep lam)|exact a_upd_ok|try exact (al1_end lam thresh)].
    + apply (dual_iterate N (ada_rda_l1 N delta lam thresh) c_eta c_eta (fun c => scaled_step_to N delta (l1f lam c) c)
      (wend lam) (cut_small N thresh) n 0); auto; try lia;
      [exact a_grow_ok|exact (al1_prep lam)|exact a_upd_ok|try exact (al1_end lam thresh)].
    + exact (dual_test N (ada_rda_l1 N delta lam thresh) c_eta c_eta (fun c => scaled_step_to N delta (l1f lam c) c)
      (wend lam) (cut_small N thresh) n ASt (al1_end lam thresh) W2).
  - apply (user_cache N n (KAdaRDA_L1 delta lam thresh) (dual_ada_rda_l1 N delta lam thresh) all_uses ASt
    (fun ws d e => shape2 (length ws) d e) local 0); auto.
    + cbn. lia.
    + apply (safe_gsafe N 0 _ _ _ (safe_ada_rda_l1 N delta lam thresh)).
    + exact ast_I.
    + apply scales_init.
    + intros pre us s s' t _. apply (dual_session N (ada_rda_l1 N delta lam thresh) c_eta c_eta (fun c => scaled_step_to N delta (l1f lam c) c)
      (wend lam) (cut_small N thresh) n 0); auto; try lia;
      [exact a_grow_ok|exact (al1_prep lam)|exact a_upd_ok|try exact (al1_end lam thresh)].
    + apply (dual_iterate N (ada_rda_l1 N delta lam thresh) c_eta c_eta (fun c => scaled_step_to N delta (l1f lam c) c)
      (wend lam) (cut_small N thresh) n 0); auto; try lia;
      [exact a_grow_ok|exact (al1_prep lam)|exact a_upd_ok|try exact (al1_end lam thresh)].
    + exact (dual_test N (ada_rda_l1 N delta lam thresh) c_eta c_eta (fun c => scaled_step_to N delta (l1f lam c) c)
      (wend lam) (cut_small N thresh) n ASt (al1_end lam thresh) W2).
    + exact (dual_end N (ada_rda_l1 N delta lam thresh) c_eta c_eta (fun c => scaled_step_to N delta (l1f lam c) c)
      (wend lam) (cut_small N thresh) n ASt (al1_end lam thresh) W2).
    + intros c e Hwf HI. destruct (end_ada_rda_l1 N delta lam thresh c e Hwf HI) as (c1 & e1 & G & _). eauto.
    + intros u. exact Logic.I.
Qed.

(** ** AdaRDA *)
(** The weights are those of the closed form, except for the bias. *)
Definition wnow (c : core (R:=R)) h k i :=
  if (i =? 0)%nat then zero
  else if touched N h k i then n_div N (n_mul N (n_opp N (c_eta c)) (gsum N h k i)) (scale N delta h k i) else zero.
Definition BSt (d : nat) (ws : list (list R)) (eta : R * R) s h :=
  n_mul N zero (snd eta) = zero /\ scales d s h /\
  (forall k i, (d <= i)%nat -> touched N h k i = false) /\
  forall k i, (k < n)%nat -> (i < d)%nat ->
    nth i (nth k ws []) zero =
    if (i =? 0)%nat then zero
    else if touched N h k i then n_div N (n_mul N (n_opp N (fst eta)) (gsum N h k i)) (scale N delta h k i) else zero.

Lemma b_grow d c e h c1 e1 : (1 <= c_dim c)%nat -> shape n (c_dim c) (c_ws c) ->
  BSt (c_dim c) (c_ws c) (par c) e h -> ada_rda_grow N delta d c e = Some (c1, e1) ->
  c1 = linear_update_dim N d c /\ BSt (c_dim c1) (c_ws c1) (par c1) e1 h.
Proof.
  intros Hd Hw (Hb & Hs & Ht & Hv) G. destruct (scales_grow d c e h c1 e1 Hd Hw Hs G) as (-> & S1). split; auto.
  destruct (upd_dim_shape N n d c Hw) as (Dd & _).
  assert (Ep : par (linear_update_dim N d c) = par c) by (unfold par, linear_update_dim; destruct (_ <? _)%nat; reflexivity).
  rewrite Ep. split; auto. split; auto. split.
  - intros k i Hi. apply Ht. lia.
  - intros k i Hk Hi. rewrite Dd in Hi. destruct (Nat.lt_ge_cases i (c_dim c)) as [Hlt|Hge].
    + rewrite <- Hv by auto. unfold linear_update_dim. destruct (Nat.ltb_spec (c_dim c) d); [|reflexivity].
      cbn [c_ws set_ws set_dim].
      rewrite (nth_indep _ _ (grow (c_dim c) d zero [])) by (rewrite map_length, (proj1 Hw); lia).
      rewrite map_nth. apply grow_nth_any; [|lia]. eapply shape_nth; eauto.
    + rewrite Ht by auto. destruct (Nat.eqb_spec i 0); [lia|].
      unfold linear_update_dim. destruct (Nat.ltb_spec (c_dim c) d); [|lia].
      cbn [c_ws set_ws set_dim].
      rewrite (nth_indep _ _ (grow (c_dim c) d zero [])) by (rewrite map_length, (proj1 Hw); lia).
      rewrite map_nth, grow_nth_any; [|eapply shape_nth; eauto|lia]. apply nth_overflow.
      rewrite (shape_nth n (c_dim c)); auto.
Qed.
Lemma b_prep (p : point R) (c : core (R:=R)) e h c1 e1 : wf_point 1 p -> (1 <= c_dim c)%nat -> shape n (c_dim c) (c_ws c) ->
  (Z.to_nat (x_dim p) <= c_dim c)%nat -> BSt (c_dim c) (c_ws c) (par c) e h ->
  Some (c, e) = Some (c1, e1) -> e1 = e /\
  exists ws, c1 = set_ws (set_eta c (c_eta c)) ws /\ shape n (c_dim c) ws /\ BSt (c_dim c) ws (c_eta c, c_b0 c) e h /\
    forall k i, (k < n)%nat -> (i < c_dim c)%nat -> i = 0%nat \/ lookup (feats p) i <> None ->
      nth i (nth k ws []) zero = wnow (set_eta c (c_eta c)) h k i.
Proof.
  intros Hp Hd Hw Hx Hst G. injection G as <- <-. split; auto. exists (c_ws c). rewrite set_eta_id, set_ws_id.
  split; auto. split; auto. split; auto. intros k i Hk Hi _. apply Hst; auto.
Qed.
Lemma no_zero (p : point R) : wf_point 1 p -> lookup (feats p) 0 = None.
Proof.
  intros Hp. apply lookup_None. intros H. rewrite ff in H by (eapply wf_point_weaken; [|exact Hp]; lia).
  destruct Hp as (_ & _ & Hlo). rewrite Forall_forall in Hlo. specialize (Hlo _ H). lia.
Qed.
Lemma b_upd p loss c e h c1 e1 : wf_point 1 p -> (1 <= c_dim c)%nat -> shape n (c_dim c) (c_ws c) ->
  (Z.to_nat (x_dim p) <= c_dim c)%nat -> BSt (c_dim c) (c_ws c) (par c) e h ->
  ada_rda_update N delta p loss c e = Some (c1, e1) ->
  exists ws, c1 = set_ws c ws /\ shape n (c_dim c) ws /\ BSt (c_dim c) ws (par c) e1 ((feats p, c_g c) :: h).
Proof.
  intros Hp Hd Hs Hx (Hb & Hsc & Ht & Hv) H.
  assert (Hp0 : wf_point 0 p) by (eapply wf_point_weaken; [|exact Hp]; lia).
  destruct (scales_update p loss c e h c1 e1 Hp0 Hd Hs Hx Hsc H) as (ws & A & B & C & D).
  exists ws. split; auto. split; auto. split; auto. split; auto. split.
  - intros k i Hi. cbn [touched]. rewrite (look_below p (c_dim c)) by auto. rewrite Ht by auto.
    now rewrite Bool.andb_false_r.
  - intros k i Hk Hi. rewrite D by auto. rewrite Hv by auto. cbn [touched par fst snd]. cbv zeta.
    destruct (n_eq N (nth k (c_g c) zero) zero) eqn:Eq.
    + cbn [negb andb orb]. destruct (i =? 0)%nat eqn:E0; [reflexivity|]. cbn [gsum scale]. rewrite Eq. reflexivity.
    + cbn [negb andb]. destruct (Nat.eqb_spec i 0) as [->|Hn].
      * rewrite no_zero by auto. exact Hb.
      * destruct (lookup (feats p) i) eqn:El; cbn [orb]; [reflexivity|].
        destruct (touched N h k i); [|reflexivity]. cbn [gsum scale]. rewrite Eq, El.
        destruct (Nat.eqb_spec i 0); [lia|]. reflexivity.
Qed.
Definition wfinal (c : core (R:=R)) h k i :=
  let w := n_div N (n_mul N (n_opp N (c_eta c)) (gsum N h k i)) (scale N delta h k i) in
  if (i =? 0)%nat then n_mul N w (c_b0 c) else w.
Lemma b_end c s h c1 s1 : (1 <= c_dim c)%nat -> shape n (c_dim c) (c_ws c) ->
  BSt (c_dim c) (c_ws c) (par c) s h -> ada_rda_end N c s = Some (c1, s1) -> s1 = s /\
  c1 = set_updated (set_ws (set_eta c (c_eta c)) (map (fun w => w)
        (table n (c_dim c) (wfinal (set_eta c (c_eta c)) h)))) false.
Proof.
  intros Hd Hw (_ & Hst & _) G. rewrite set_eta_id, map_id. unfold ada_rda_end in G.
  rewrite (ada_assign_all (fun u => u) c s h (fun u => EDense u)) in G; auto.
  - cbn [bind] in G. injection G as <- <-. auto.
  - intros w u H Lu LH L1. rewrite (calc_dense zero); [reflexivity|simpl; auto|simpl; auto].
Qed.
Lemma agrees_ada_rda c0 : fresh N n c0 -> loss_ok n (c_loss c0) -> n_mul N zero (c_b0 c0) = zero ->
  indistinguishable N (ada_rda N delta) (dual_ada_rda N delta) n c0 (init_of N (KAdaRDA delta) n) [] 1 no_test.
Proof.
  intros Hf Hl Hb.
  assert (W1 : forall (c : core (R:=R)) ws h k i, c_eta (set_ws c ws) = c_eta c /\
    wnow (set_ws c ws) h k i = wnow c h k i) by (split; reflexivity).
  assert (W2 : forall (c : core (R:=R)) ws h k i, c_eta (set_ws c ws) = c_eta c /\
    wfinal (set_ws c ws) h k i = wfinal c h k i) by (split; reflexivity).
  assert (Hi : forall w : list R, length ((fun w => w) w) = length w) by auto.
  apply (user_agrees N n (KAdaRDA delta) (dual_ada_rda N delta) no_test BSt
    (fun ws d e => shape2 (length ws) d e) local 1); auto.
  - cbn. lia.
  - apply (safe_gsafe N 0 _ _ _ (safe_ada_rda N delta)).
  - intros c e h (_ & Hst & _) E. exact (ast_I c e h Hst E).
  - split; [exact Hb|]. split; [apply scales_init|]. split; [reflexivity|].
    intros k i Hk H1. assert (i = 0)%nat by lia. subst i. cbn [Nat.eqb].
    rewrite (nth_indep _ [] [zero]) by (rewrite repeat_length; lia). rewrite nth_repeat. reflexivity.
  - intros pre us s s' t. apply (dual_session_train N (ada_rda N delta) c_eta c_eta wnow wfinal (fun w => w) n 1); auto; try lia;
      [exact b_grow|exact b_prep|exact b_upd|try exact b_end].
  - apply (dual_iterate N (ada_rda N delta) c_eta c_eta wnow wfinal (fun w => w) n 1); auto; try lia;
      [exact b_grow|exact b_prep|exact b_upd|try exact b_end].
  - exact (dual_test N (ada_rda N delta) c_eta c_eta wnow wfinal (fun w => w) n BSt b_end W2).
Qed.
End D.
