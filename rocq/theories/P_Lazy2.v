(** AdaFOBOS_L1 against its eager version; training and finishing for both. *)
From Coq Require Import Reals Lra Sorted.
From Verif Require Import M_Base M_Num M_Expr M_Loss M_Online M_Olm S_Expr S_Real S_Online S_Session S_Loss
  S_Lazy P_DataPoint P_Expr P_Real P_Online P_Predict P_Step P_Safe P_SafeOlm P_Conf P_Loss P_Lazy.
Local Open Scope R_scope.

(** Three lists in step. *)
Inductive F3 {A B C} (P : A -> B -> C -> Prop) : list A -> list B -> list C -> Prop :=
| F3n : F3 P [] [] []
| F3c a b c l m n : P a b c -> F3 P l m n -> F3 P (a :: l) (b :: m) (c :: n).
Lemma F3_impl {A B C} (P Q : A -> B -> C -> Prop) l m n :
  (forall a b c, P a b c -> Q a b c) -> F3 P l m n -> F3 Q l m n.
Proof. intros H. induction 1; constructor; auto. Qed.
Lemma F3_map {A B C A' B' C'} (P : A' -> B' -> C' -> Prop) f g h (l : list A) (m : list B) (n : list C) :
  F3 (fun a b c => P (f a) (g b) (h c)) l m n -> F3 P (map f l) (map g m) (map h n).
Proof. induction 1; constructor; auto. Qed.
Lemma F3_F2 {A B C} (P : A -> B -> C -> Prop) l m n : F3 P l m n -> Forall2 (fun a c => exists b, P a b c) l n.
Proof. induction 1; constructor; eauto. Qed.
Lemma F3_len {A B C} (P : A -> B -> C -> Prop) l m n : F3 P l m n -> length m = length l.
Proof. induction 1; cbn; auto. Qed.
Lemma F3_zip {A B C A' C'} (P : A -> B -> C -> Prop) (Q : A' -> B -> C' -> Prop) (f : A -> B -> A')
  (h : C -> B -> C') l m n :
  F3 P l m n -> (forall a b c, P a b c -> Q (f a b) b (h c b)) -> F3 Q (zipc f l m) m (zipc h n m).
Proof. intros H HPQ. induction H; cbn [zipc]; constructor; auto. Qed.
Lemma shrink_all_zip (f : list R -> list R -> list R) ws Hs : length Hs = length ws ->
  shrink_all f ws Hs = zipc f ws Hs.
Proof. revert Hs. induction ws as [|w ws IH]; intros [|H Hs] L; cbn in *; try lia; auto. f_equal. apply IH. lia. Qed.

Section Ada.
Variable delta eta lam thresh b0 : R.
Hypothesis Heta : 0 <= eta.
Hypothesis Hlam : 0 <= lam.
Hypothesis Hb0 : 0 <= b0.
Hypothesis Hdelta : 0 <= delta.
Let th (H : list R) (i : nat) : R := eta * lam / nth i H 0.
Definition nonneg (H : list R) : Prop := forall i, 0 <= nth i H 0.

Definition arel (c : core (R:=R)) (e : list (list R) * lazy_l1) (ws Hs : list (list R)) : Prop :=
  let z := snd e in
  z_lambda z = lam /\ z_thresh z = thresh /\ z_t0 z <= IZR (c_iter c) /\ c_b0 c = b0 /\ ~ 0 < c_active c /\
  c_eta c = eta /\ length (z_last z) = c_dim c /\ (1 <= c_dim c)%nat /\ Hs = fst e /\
  F3 (fun wl H we => length H = c_dim c /\ nonneg H /\ lag (IZR (c_iter c)) (th H) (z_last z) wl we)
    (c_ws c) Hs ws.
Definition amid (x : list (Z * R)) (c : core (R:=R)) (e : list (list R) * lazy_l1) (ws Hs : list (list R)) : Prop :=
  let z := snd e in
  z_lambda z = lam /\ z_thresh z = thresh /\ z_t0 z <= IZR (c_iter c) /\ c_b0 c = b0 /\ ~ 0 < c_active c /\
  c_eta c = eta /\ length (z_last z) = c_dim c /\ (1 <= c_dim c)%nat /\ Hs = fst e /\
  F3 (fun wl H we => length H = c_dim c /\ nonneg H /\ mid (IZR (c_iter c)) x (th H) (z_last z) wl we)
    (c_ws c) Hs ws.

Lemma inv_nonneg a : 0 <= a -> 0 <= / a.
Proof.
  intros [H| <-]; [left; now apply Rinv_0_lt_compat|]. rewrite Rinv_0. lra.
Qed.
Lemma th_nonneg H i : nonneg H -> 0 <= th H i.
Proof. intros Hn. unfold th, Rdiv. apply Rmult_le_pos; [apply Rmult_le_pos; auto|]. apply inv_nonneg, Hn. Qed.
Lemma tb_nonneg H : nonneg H -> 0 <= b0 * eta * lam / nth 0 H 0.
Proof.
  intros Hn. unfold Rdiv. apply Rmult_le_pos; [apply Rmult_le_pos; auto; apply Rmult_le_pos; auto|].
  apply inv_nonneg, Hn.
Qed.

Lemma ada_one t x last w H tb : sorted_ix x -> length last = length w -> length H = length w ->
  (1 <= length w)%nat ->
  (do w1 <- calc assign w (etrunc Rnum (eslice w x)
     (ediv Rnum (emul Rnum (EScalar (n_mul Rnum eta lam)) (esub Rnum (EScalar t) (EDense last))) (EDense H)));
   do h0 <- rd H 0;
   upd0 (fun b => op_trunc Rnum b (n_div Rnum tb h0)) w1) =
  Some (late x (t + 1) (th H) (tb / nth 0 H 0) last w).
Proof.
  intros Hs Hl HH H1.
  rewrite (calc_sparse 0 _ x); [|simpl; auto|reflexivity|auto|simpl; repeat split; auto; lia].
  cbn [bind]. rewrite (rd0 Rnum) by lia. cbn [bind].
  rewrite (upd0_spec Rnum) by (rewrite smap_length; lia). f_equal. apply (nth_ext _ _ 0 0).
  - unfold late. rewrite upd_length, smap_length, pstep_length. reflexivity.
  - intros i Hi. rewrite upd_length, smap_length in Hi.
    unfold late. rewrite (pstep_nth Rnum) by lia. rewrite nth_upd by (rewrite smap_length; lia).
    cbv zeta. change (zero Rnum) with 0. rewrite !nth_smap by lia. rewrite !op_trunc_real.
    cbn [den etrunc eslice ediv emul esub assign]. unfold op_left. cbn [Rnum n_mul n_sub n_div].
    replace (t + 1 - 1) with t by ring.
    assert (E : forall j, eta * lam * (t - nth j last 0) / nth j H 0 = th H j * (t - nth j last 0)).
    { intros j. unfold th, Rdiv. ring. }
    destruct (Nat.eqb_spec i 0) as [->|]; [destruct (lookup x 0)|destruct (lookup x i)];
      unfold assign; rewrite ?op_trunc_real, ?E; reflexivity.
Qed.

Lemma ada_prep_sim p c e ws Hs c1 e1 e2 c3 e3 : wf_point 1 p -> arel c e ws Hs ->
  a_grow (ada_fobos_l1 Rnum delta) (Z.to_nat (x_dim p)) c e = Some (c1, e1) ->
  a_reg_begin (ada_fobos_l1 Rnum delta) p e1 = Some e2 ->
  a_prep (ada_fobos_l1 Rnum delta) p (bump c1) e2 = Some (c3, e3) ->
  exists e1' e2' ws1 ws3 e3',
    a_grow (eager_ada_fobos Rnum delta lam thresh) (Z.to_nat (x_dim p)) (set_ws c ws) Hs = Some (set_ws c1 ws1, e1') /\
    a_reg_begin (eager_ada_fobos Rnum delta lam thresh) p e1' = Some e2' /\
    a_prep (eager_ada_fobos Rnum delta lam thresh) p (set_ws (bump c1) ws1) e2' = Some (set_ws c3 ws3, e3') /\
    amid (feats p) c3 e3 ws3 e3' /\ predict Rnum (set_ws c3 ws3) p = predict Rnum c3 p.
Proof.
  intros Hp (Hz1 & Hz2 & Hz3 & Hcb & Hca & He & Hll & Hd1 & HHs & HF) Hg Hb Hpr.
  destruct e as (Hs0, z). cbn [fst snd] in *. subst Hs0.
  cbn [ada_fobos_l1 eager_ada_fobos a_grow a_reg_begin a_prep fst snd] in *. unfold reg_begin_none in *.
  set (d := Z.to_nat (x_dim p)) in *.
  assert (Hx0 : lookup (feats p) 0 = None) by now apply lookup_lo.
  assert (Hsx : sorted_ix (feats p)) by (apply fs, wf10, Hp).
  set (T := IZR (c_iter c)) in *.
  set (ws1 := if (c_dim c <? d)%nat then map (grow (c_dim c) d 0) ws else ws).
  set (Hs1 := if (c_dim c <? d)%nat then map (grow (c_dim c) d delta) Hs else Hs).
  assert (Eg1 : sigma_grow Rnum delta d c Hs = Some (linear_update_dim Rnum d c, Hs1)).
  { unfold sigma_grow, linear_update_dim, Hs1. destruct (c_dim c <? d)%nat; reflexivity. }
  assert (Eg2 : sigma_grow Rnum delta d (set_ws c ws) Hs = Some (set_ws (linear_update_dim Rnum d c) ws1, Hs1)).
  { unfold sigma_grow, linear_update_dim, Hs1, ws1. cbn [c_dim set_ws]. destruct (c_dim c <? d)%nat; reflexivity. }
  rewrite Eg1 in Hg. cbn [bind] in Hg. injection Hg as <- <-. cbn [fst snd] in Hb. injection Hb as <-.
  set (c1 := linear_update_dim Rnum d c) in *. set (z2 := lazy_begin p z) in *.
  assert (HC : c_iter c1 = c_iter c /\ c_b0 c1 = c_b0 c /\ c_active c1 = c_active c /\ c_eta c1 = c_eta c /\
               c_dim c1 = Nat.max (c_dim c) d).
  { unfold c1, linear_update_dim. destruct (Nat.ltb_spec (c_dim c) d); cbn; repeat split; lia. }
  destruct HC as (C1 & C2 & C3 & C4 & C5).
  assert (HZ : z_lambda z2 = lam /\ z_thresh z2 = thresh /\ z_t0 z2 = z_t0 z /\ length (z_last z2) = c_dim c1).
  { unfold z2, lazy_begin. destruct (Z.ltb_spec (Z.of_nat (length (z_last z))) (x_dim p)); cbn; repeat split; auto.
    - rewrite (grow_length (length (z_last z))) by (auto; unfold d in *; lia). unfold d in *. lia.
    - unfold d in *. lia. }
  destruct HZ as (Z1 & Z2 & Z3 & Z4).
  assert (HF1 : F3 (fun wl H we => length H = c_dim c1 /\ nonneg H /\ lag T (th H) (z_last z2) wl we) (c_ws c1) Hs1 ws1).
  { unfold c1, ws1, Hs1, z2, lazy_begin, linear_update_dim. rewrite Hll.
    assert (Ed : (Z.of_nat (c_dim c) <? x_dim p) = (c_dim c <? d)%nat).
    { unfold d. destruct (Z.ltb_spec (Z.of_nat (c_dim c)) (x_dim p)), (Nat.ltb_spec (c_dim c) (Z.to_nat (x_dim p))); auto; lia. }
    rewrite Ed. destruct (Nat.ltb_spec (c_dim c) d); [|exact HF].
    cbn [z_last c_ws set_ws set_dim c_dim]. change (Z.to_nat (x_dim p)) with d.
    apply F3_map. eapply F3_impl; [|exact HF]. intros wl H' we (LH & Hn & HL).
    split; [rewrite (grow_length (c_dim c)) by (auto; lia); lia|]. split.
    - intros i. destruct (Nat.lt_ge_cases i d) as [h|h].
      + rewrite nth_grow_any by (auto; lia). destruct (i <? c_dim c)%nat; [apply Hn|exact Hdelta].
      + rewrite nth_overflow; [lra|]. rewrite (grow_length (c_dim c)) by (auto; lia). lia.
    - apply lag_grow with (th H'); auto; try lia.
      + destruct HL as (L & _). lia.
      + intros i Hi. unfold th. rewrite nth_grow_any by (auto; lia). destruct (Nat.ltb_spec i (c_dim c)); [reflexivity|lia]. }
  (* truncation *)
  unfold ada_fobos_l1_prep in Hpr. change (c_eta (bump c1)) with (c_eta c1) in Hpr.
  change (bias_eta Rnum (bump c1)) with (c_b0 c1 * c_eta c1) in Hpr.
  change (c_ws (bump c1)) with (c_ws c1) in Hpr. change (c_iter (bump c1)) with (c_iter c1 + 1)%Z in Hpr.
  change (n_int Rnum (c_iter c1 + 1 - 1)) with (IZR (c_iter c1 + 1 - 1)) in Hpr.
  replace (c_iter c1 + 1 - 1)%Z with (c_iter c) in Hpr by lia. fold T in Hpr.
  rewrite Z1, C4, He, C2, Hcb in Hpr.
  assert (Hlen : forall w H, In w (c_ws c1) -> In H Hs1 -> length w = c_dim c1 /\ length H = c_dim c1 /\ (1 <= length w)%nat).
  { assert (A : forall w, In w (c_ws c1) -> length w = c_dim c1 /\ (1 <= length w)%nat).
    { clear - HF1 Z4. induction HF1 as [|w H we l m n (LH & _ & L1 & L2 & L3 & _) _ IH]; [easy|].
      intros w0 [->|]; [split; auto; lia|auto]. }
    assert (B : forall H, In H Hs1 -> length H = c_dim c1).
    { clear - HF1. induction HF1 as [|w H we l m n (LH & _) _ IH]; [easy|]. intros w0 [->|]; auto. }
    intros w H Hw HH. destruct (A w Hw). auto. }
  rewrite (zip_class_spec _ (fun w H => late (feats p) (T + 1) (th H) (b0 * eta * lam / nth 0 H 0) (z_last z2) w)) in Hpr.
  2:{ exact (F3_len _ _ _ _ HF1). }
  2:{ intros w H Hw HH. destruct (Hlen w H Hw HH) as (L1 & L2 & L3). apply ada_one; auto; lia. }
  cbn [bind] in Hpr. injection Hpr as <- <-.
  set (ws3 := zipc (fun w H => shrink Rnum (b0 * eta * lam / nth 0 H 0) (th H) w) ws1 Hs1).
  exists Hs1, Hs1, ws1, ws3, Hs1.
  split; [exact Eg2|]. split; [reflexivity|].
  assert (Lw1 : length Hs1 = length ws1) by (clear - HF1; induction HF1; cbn; auto).
  split. { cbn [c_b0 c_ws c_eta set_ws set_dim bump set_data set_iter]. rewrite shrink_all_zip by auto.
    rewrite C2, Hcb, C4, He. reflexivity. }
  assert (HM : F3 (fun wl H we => length H = c_dim c1 /\ nonneg H /\ mid (T + 1) (feats p) (th H) (z_last z2) wl we)
     (zipc (fun w H => late (feats p) (T + 1) (th H) (b0 * eta * lam / nth 0 H 0) (z_last z2) w) (c_ws c1) Hs1) Hs1 ws3).
  { eapply F3_zip; [exact HF1|]. intros wl H' we (LH & Hn & HL). split; auto. split; auto.
    apply late_mid; auto. intros. now apply th_nonneg. }
  split.
  - unfold amid. cbn [fst snd c_iter set_ws bump set_data set_iter c_b0 c_active c_eta c_ws c_dim].
    rewrite C1, plus_IZR. fold T. rewrite C2, C3, Z3, C4. repeat split; auto; try lra. rewrite C5. lia.
  - eapply predict_mid; [exact Hp| |].
    2:{ cbn [c_ws set_ws]. exact (F3_F2 _ _ _ _ HM). }
    intros w w' (H & _ & _ & M). eauto.
Qed.

Lemma each_class2_sim (Q : list R -> list R -> list R -> Prop) f gs : forall ws Hs ws' r Hs',
  each_class2 Rnum f gs ws Hs = Some (r, Hs') -> F3 Q ws Hs ws' ->
  (forall g w H w' u H', Q w H w' -> f g w H = Some (u, H') ->
     exists u', f g w' H = Some (u', H') /\ Q u H' u') ->
  exists r', each_class2 Rnum f gs ws' Hs = Some (r', Hs') /\ F3 Q r Hs' r'.
Proof.
  intros ws Hs ws' r Hs' H HF Hf. revert gs r Hs' H.
  induction HF as [|w h w' ws Hs ws' Hw _ IH]; intros gs r Hs' H.
  - exists []. destruct gs; cbn in H; injection H as <- <-; split; constructor.
  - destruct gs as [|g gs]; [discriminate|]. cbn [each_class2] in *.
    destruct (n_eq Rnum g (zero Rnum)).
    + cbn [bind] in *. destruct (each_class2 Rnum f gs ws Hs) as [(r1, h1)|] eqn:E; [|discriminate]. cbn [bind] in H.
      injection H as <- <-. destruct (IH _ _ _ E) as (r' & E' & F'). rewrite E'. cbn [bind].
      exists (w' :: r'). split; [reflexivity|]. constructor; auto.
    + destruct (f g w h) as [(w1, h1)|] eqn:Ew; [|discriminate]. cbn [bind] in H.
      destruct (Hf g w h w' w1 h1 Hw Ew) as (u' & Eu & Q2u). rewrite Eu. cbn [bind] in *.
      destruct (each_class2 Rnum f gs ws Hs) as [(r1, h2)|] eqn:E; [|discriminate]. cbn [bind] in H.
      injection H as <- <-. destruct (IH _ _ _ E) as (r' & E' & F'). rewrite E'. cbn [bind].
      exists (u' :: r'). split; [reflexivity|]. constructor; auto.
Qed.

Lemma ada_upd_sim p c e ws Hs loss c5 e5 : wf_point 1 p -> amid (feats p) c e ws Hs ->
  a_update (ada_fobos_l1 Rnum delta) p loss c e = Some (c5, e5) ->
  exists ws5 Hs5, a_update (eager_ada_fobos Rnum delta lam thresh) p loss (set_ws c ws) Hs = Some (set_ws c5 ws5, Hs5) /\
    amid (feats p) c5 e5 ws5 Hs5.
Proof.
  intros Hp (Hz1 & Hz2 & Hz3 & Hcb & Hca & He & Hll & Hd1 & HHs & HF) H.
  destruct e as (Hs0, z). cbn [fst snd] in *. subst Hs0.
  cbn [ada_fobos_l1 eager_ada_fobos a_update fst snd] in *. unfold ada_fobos_update in *.
  unfold bias_eta in *. cbn [c_eta c_b0 c_g c_ws set_ws] in *.
  destruct (each_class2 Rnum _ (c_g c) (c_ws c) Hs) as [(r, Hs')|] eqn:Er; [|discriminate]. cbn [bind] in H.
  injection H as <- <-.
  assert (Hx0 : lookup (feats p) 0 = None) by now apply lookup_lo.
  assert (Hs0 : sorted_ix (feats p)) by (apply fs, wf10, Hp).
  destruct (each_class2_sim (fun wl H we => length H = c_dim c /\ nonneg H /\ mid (IZR (c_iter c)) (feats p) (th H) (z_last z) wl we)
              _ _ _ _ _ _ _ Er HF) as (r' & E' & F').
  { intros g w H w' u H' (LH & Hn & HM). pose proof HM as (L1 & L2 & L3 & _). unfold ada_fobos_step.
    rewrite (ada_H_spec Rnum) by (auto; lia). cbn [bind].
    match goal with |- context [pstep Rnum ?A ?B (feats p) H] => set (H2 := pstep Rnum A B (feats p) H) end.
    assert (LH2 : length H2 = length H) by apply pstep_length.
    rewrite (ada_w_step_spec Rnum) by (auto; lia). cbn [bind]. intros E. injection E as <- <-.
    rewrite (ada_w_step_spec Rnum) by (auto; lia). cbn [bind]. eexists. split; [reflexivity|].
    split; [lia|]. split.
    - intros i. destruct (Nat.lt_ge_cases i (length H)) as [h|h].
      + unfold H2. rewrite (pstep_nth Rnum) by auto. cbv zeta. change (zero Rnum) with 0.
        cbn [Rnum n_sqrt n_add]. specialize (Hn i).
        assert (S : forall v, 0 <= sqrt v + delta) by (intros v; pose proof (sqrt_pos v); lra).
        destruct (i =? 0)%nat; [apply S|]. destruct (lookup (feats p) i); [apply S|exact Hn].
      + rewrite nth_overflow; [lra|]. lia.
    - apply mid_step with (th H); auto. intros i Hi Hl. unfold th. f_equal.
      destruct (Nat.lt_ge_cases i (length H)) as [h|h].
      + unfold H2. rewrite (pstep_nth Rnum) by auto. cbv zeta. rewrite Hl. destruct (Nat.eqb_spec i 0); [lia|]. reflexivity.
      + now rewrite !nth_overflow by lia. }
  rewrite E'. cbn [bind]. exists r', Hs'. split; [reflexivity|].
  unfold amid. cbn [fst snd c_iter set_ws set_eta c_b0 c_active c_eta c_ws c_dim]. repeat split; auto.
Qed.

Lemma ada_end_sim p c e ws Hs e6 : wf_point 1 p -> amid (feats p) c e ws Hs ->
  a_reg_end (ada_fobos_l1 Rnum delta) p (c_iter c) e = Some e6 ->
  exists Hs6, a_reg_end (eager_ada_fobos Rnum delta lam thresh) p (c_iter c) Hs = Some Hs6 /\ arel c e6 ws Hs6.
Proof.
  intros Hp (Hz1 & Hz2 & Hz3 & Hcb & Hca & He & Hll & Hd1 & HHs & HF) H.
  cbn [ada_fobos_l1 eager_ada_fobos a_reg_end] in *. exists Hs. split; [reflexivity|].
  destruct (lazy_end Rnum p (c_iter c) (snd e)) as [z'|] eqn:E; [|discriminate]. cbn [bind] in H. injection H as <-.
  apply lazy_end_nth in E as (A1 & A2 & A3 & A4 & A5 & A6); [|auto|lia].
  unfold arel. cbn [fst snd]. rewrite A1, A2, A3, A4. repeat split; auto.
  eapply F3_impl; [|exact HF]. intros wl H' we (LH & Hn & HM). split; auto. split; auto. eapply mid_lag; eauto.
Qed.

Lemma ada_iterate p rnd c e ws Hs lab ps c1 e1 : wf_point 1 p -> arel c e ws Hs ->
  iterate Rnum (ada_fobos_l1 Rnum delta) p rnd c e = Some (lab, ps, c1, e1) ->
  exists ws1 Hs1, iterate Rnum (eager_ada_fobos Rnum delta lam thresh) p rnd (set_ws c ws) Hs
    = Some (lab, ps, set_ws c1 ws1, Hs1) /\ arel c1 e1 ws1 Hs1.
Proof.
  intros Hp. apply iterate_sim with (Mid := amid (feats p)); auto.
  - intros c0 c2 e0 ws0 e' E1 E2 E3 E4 E5 E6 _ H. unfold amid in *. rewrite E1, E2, E3, E4, E5, E6. exact H.
  - intros c0 e0 ws0 e' H. apply H.
  - intros. eapply ada_prep_sim; eauto.
  - intros. eapply ada_upd_sim; eauto.
  - intros. eapply ada_end_sim; eauto.
Qed.

Lemma ada_end_one t last w H tb : length last = length w -> length H = length w -> (1 <= length w)%nat ->
  (do w1 <- calc assign w (etrunc Rnum (EDense w)
     (ediv Rnum (emul Rnum (EScalar (n_mul Rnum eta lam)) (esub Rnum (EScalar t) (EDense last))) (EDense H)));
   do h0 <- rd H 0;
   upd0 (fun b => op_trunc Rnum b (n_div Rnum tb h0)) w1) =
  Some (upd 0 (soft (soft (nth 0 w 0) (th H O * (t - nth 0 last 0))) (tb / nth 0 H 0))
         (imap 0 (fun i v => soft v (th H i * (t - nth i last 0))) w)).
Proof.
  intros L LH L1. rewrite (calc_dense 0); cbn [dense_eq typ etrunc emul esub ediv]; auto.
  cbn [bind]. rewrite (rd0 Rnum) by lia. cbn [bind].
  rewrite (upd0_spec Rnum) by (rewrite imap_length; lia). change (zero Rnum) with 0.
  assert (E : forall j, eta * lam * (t - nth j last 0) / nth j H 0 = th H j * (t - nth j last 0)).
  { intros j. unfold th, Rdiv. ring. }
  rewrite nth_imap by lia. unfold assign. cbn [den etrunc emul esub ediv Nat.add]. rewrite !op_trunc_real.
  cbn [n_mul n_sub n_div Rnum]. rewrite E. do 2 f_equal. apply (nth_ext _ _ 0 0); [now rewrite !imap_length|].
  intros i Hi. rewrite imap_length in Hi. rewrite !nth_imap by lia. cbn [Nat.add]. now rewrite op_trunc_real, E.
Qed.
Lemma ada_finish c e ws Hs c1 e1 : arel c e ws Hs ->
  a_end (ada_fobos_l1 Rnum delta) c e = Some (c1, e1) ->
  a_end (eager_ada_fobos Rnum delta lam thresh) (set_ws c ws) Hs = Some (c1, Hs).
Proof.
  intros (Hz1 & Hz2 & Hz3 & Hcb & Hca & He & Hll & Hd1 & HHs & HF) H.
  destruct e as (Hs0, z). cbn [fst snd] in *. subst Hs0.
  cbn [ada_fobos_l1 eager_ada_fobos a_end] in *. unfold ada_fobos_l1_end in H.
  unfold bias_eta in H. rewrite Hz1, He, Hcb in H.
  set (F := fun w H => upd 0 (soft (soft (nth 0 w 0) (th H O * (IZR (c_iter c) - nth 0 (z_last z) 0))) (b0 * eta * lam / nth 0 H 0))
    (imap 0 (fun i v => soft v (th H i * (IZR (c_iter c) - nth i (z_last z) 0))) w)).
  assert (Hlen : forall w H, In w (c_ws c) -> In H Hs -> length w = c_dim c /\ length H = c_dim c /\ (1 <= length w)%nat).
  { assert (A : forall w, In w (c_ws c) -> length w = c_dim c /\ (1 <= length w)%nat).
    { clear - HF Hll. induction HF as [|w H we l m n (LH & _ & L1 & L2 & L3 & _) _ IH]; [easy|].
      intros w0 [->|]; [split; auto; lia|auto]. }
    assert (B : forall H, In H Hs -> length H = c_dim c).
    { clear - HF. induction HF as [|w H we l m n (LH & _) _ IH]; [easy|]. intros w0 [->|]; auto. }
    intros w H' Hw HH. destruct (A w Hw). auto. }
  rewrite (zip_class_spec _ F) in H.
  2:{ exact (F3_len _ _ _ _ HF). }
  2:{ intros w H' Hw HH. destruct (Hlen w H' Hw HH) as (L1 & L2 & L3). apply ada_end_one; auto; lia. }
  cbn [bind] in H. injection H as <- <-. cbn [c_b0 c_eta c_ws set_ws]. do 2 f_equal.
  rewrite shrink_all_zip by (clear - HF; induction HF; cbn; auto).
  unfold linear_end. cbn [c_ws set_ws]. rewrite !set_ws_ws, Hz2, Hcb, He. do 2 f_equal.
  clear - Heta Hlam Hb0 HF Hcb He. induction HF as [|wl H' we wls Hs wes (LH & Hn & HL) _ IH]; [reflexivity|].
  cbn [zipc map]. f_equal; [|exact IH]. unfold F, finalize_l1, cut. f_equal. symmetry.
  apply (lag_end _ (th H')); auto.
  - intros. now apply th_nonneg.
  - now apply tb_nonneg.
Qed.
End Ada.

(** Training, for a lazy algorithm a and its eager version a'. *)
Section Train.
Context {E E' : Type}.
Variable a : alg (R:=R) E.
Variable a' : alg (R:=R) E'.
Variable Rel : core (R:=R) -> E -> list (list R) -> E' -> Prop.
Variable I : list (list R) -> nat -> E -> Prop.
Variable Q : list Z -> list R -> list R -> Prop.
Hypothesis Hsafe : gsafe Rnum 0 a I Q.
Hypothesis Herr : forall c e ws e' k, Rel c e ws e' -> Rel (set_err c k) e ws e'.
Hypothesis Hstep : forall p rnd c e ws e' lab ps c1 e1, wf_point 1 p -> Rel c e ws e' ->
  iterate Rnum a p rnd c e = Some (lab, ps, c1, e1) ->
  exists ws1 e1', iterate Rnum a' p rnd (set_ws c ws) e' = Some (lab, ps, set_ws c1 ws1, e1') /\ Rel c1 e1 ws1 e1'.

Lemma train_sim n pre data : forall c e ws e',
  Forall (fun d => accepts 1 n pre (fst d)) data -> wf_core c -> length (c_ws c) = n -> I (c_ws c) (c_dim c) e ->
  loss_ok n (c_loss c) -> Rel c e ws e' ->
  exists c1 e1 ws1 e1', train Rnum a pre data c e = Some (c1, e1) /\
    train Rnum a' pre data (set_ws c ws) e' = Some (set_ws c1 ws1, e1') /\ Rel c1 e1 ws1 e1' /\
    wf_core c1 /\ length (c_ws c1) = n /\ I (c_ws c1) (c_dim c1) e1 /\ c_loss c1 = c_loss c.
Proof.
  induction data as [|(p, rnd) data IH]; intros c e ws e' HF Hc Hn HI Hl HR.
  - exists c, e, ws, e'. auto 10.
  - inversion HF as [|? ? (x & Ex & Hx & Hy) HF']; subst. cbn [fst] in Ex.
    destruct (iterate_safe Rnum 0 a I Q x rnd c e) as (lab & ps & c1 & e1 & E1 & Hc1 & HI1 & Hn1 & _ & Hl1 & _); auto; try lia.
    { now apply wf10. }
    destruct (Hstep _ _ _ _ _ _ _ _ _ _ Hx HR E1) as (ws1 & e1' & E1' & HR1).
    unfold train in *. cbn [foldM fst snd]. unfold train_point at 1 3. rewrite Ex. cbn [bind]. rewrite E1, E1'. cbn [bind].
    destruct (lab =? p_label x)%Z.
    + destruct (IH c1 e1 ws1 e1') as (c2 & e2 & ws2 & e2' & F1 & F2 & F3 & F4 & F5 & F6 & F7); auto; try congruence.
      exists c2, e2, ws2, e2'. do 6 (split; [assumption|]). congruence.
    + destruct (IH (set_err c1 (c_err c1 + 1)) e1 ws1 e1') as (c2 & e2 & ws2 & e2' & F1 & F2 & F3 & F4 & F5 & F6 & F7); auto; try (cbn; congruence).
      exists c2, e2, ws2, e2'. do 6 (split; [assumption|]). cbn in F7. congruence.
Qed.
End Train.
