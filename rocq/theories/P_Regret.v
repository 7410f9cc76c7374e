(** Cumulative bounds for the passive-aggressive models. *)
From Coq Require Import Reals Lra Psatz Sorted.
From Verif Require Import M_Base M_Num M_Expr M_Loss M_Online M_Olm M_OlmSel M_Heap M_Algs S_Expr
  S_Real S_Loss S_Online S_Session S_Learn S_Regret P_DataPoint P_Expr P_Real P_Online P_Predict P_Step P_Safe P_SafeOlm P_SafeSel2
  P_Session P_Session2 P_Inv P_Loss P_Loss2 P_Conf P_Conf2 P_Perc P_PA P_Keep.
Local Open Scope R_scope.

(** The distance from fixed functions us after a gradient step. *)
Lemma dist2_toward n d x g t us ws ws' : sorted_ix x -> below d x ->
  (forall j, (j < n)%nat -> nth 0 (nth j us []) 0 = nth 0 (nth j ws []) 0) ->
  (forall j i, (j < n)%nat -> nth i (nth j ws' []) 0 = nth i (nth j ws []) 0 - t * g j * xv x i) ->
  dist2 n d ws' us = dist2 n d ws us - 2 * t * (Sc n x g us - Sc n x g ws) + t * t * (rsum n (fun j => g j * g j) * sqnorm x).
Proof.
  intros Hs Hb H0 H. rewrite (Sc_change n d x g Hs Hb us ws H0), <- (zz_norm n d x g Hs Hb). unfold dist2.
  rewrite <- !rsum_scal, <- rsum_minus, <- rsum_plus. apply rsum_ext. intros j Hj.
  rewrite <- !rsum_scal, <- rsum_minus, <- rsum_plus. apply rsum_ext. intros i _. rewrite (H j i Hj). unfold zz. ring.
Qed.
(** Multi-class losses. *)
Lemma fold_max_ge l v : In v l -> v <= fold_right Rmax 0 l.
Proof. induction l as [|a l IH]; [easy|]. intros [->|H]; cbn; [apply Rmax_l|]. eapply Rle_trans; [now apply IH|apply Rmax_r]. Qed.
Lemma fold_max_le l b : 0 <= b -> (forall v, In v l -> v <= b) -> fold_right Rmax 0 l <= b.
Proof. intros Hb. induction l as [|a l IH]; intros H; cbn; [exact Hb|]. apply Rmax_lub; [apply H; now left|apply IH; intros; apply H; now right]. Qed.
Definition gap (vs : list (list R)) (x : point R) (j : nat) : R :=
  lin (nth (Z.to_nat (p_label x)) vs []) (feats x) - lin (nth j vs []) (feats x).
Lemma margin_loss_multi m vs x : (length vs <> 1)%nat ->
  margin_loss m vs x = fold_right Rmax 0 (map (fun j => if (j =? Z.to_nat (p_label x))%nat then 0 else hinge m (gap vs x j)) (seq 0 (length vs))).
Proof. intros H. unfold margin_loss. destruct vs as [|? [|? ?]]; [reflexivity|now cbn in H|reflexivity]. Qed.
Lemma margin_loss_ge m vs x j : (length vs <> 1)%nat -> (j < length vs)%nat -> j <> Z.to_nat (p_label x) -> hinge m (gap vs x j) <= margin_loss m vs x.
Proof.
  intros Hn Hj Hy. rewrite margin_loss_multi by exact Hn. apply fold_max_ge, in_map_iff. exists j. split; [|apply in_seq; lia]. destruct (Nat.eqb_spec j (Z.to_nat (p_label x))); [easy|reflexivity].
Qed.
Lemma margin_loss_is m vs x r : (length vs <> 1)%nat -> (r < length vs)%nat -> r <> Z.to_nat (p_label x) ->
  (forall j, (j < length vs)%nat -> j <> Z.to_nat (p_label x) -> lin (nth j vs []) (feats x) <= lin (nth r vs []) (feats x)) ->
  margin_loss m vs x = hinge m (gap vs x r).
Proof.
  intros Hn Hr Hy H. apply Rle_antisym; [|now apply margin_loss_ge]. rewrite margin_loss_multi by exact Hn. apply fold_max_le; [apply hinge_nonneg|].
  intros v Hv. apply in_map_iff in Hv. destruct Hv as (j & <- & Hj). apply in_seq in Hj. destruct (Nat.eqb_spec j (Z.to_nat (p_label x))) as [->|Hjy]; [apply hinge_nonneg|].
  unfold hinge, gap. specialize (H j ltac:(lia) Hjy). apply Rle_max_compat_l. lra.
Qed.
Lemma margin_loss_nonneg m vs x : 0 <= margin_loss m vs x.
Proof.
  destruct vs as [|v [|w vs]]; [cbn; lra|apply hinge_nonneg|]. rewrite margin_loss_multi by (cbn; lia). clear. induction (map _ _) as [|a l IH]; cbn; [lra|].
  eapply Rle_trans; [exact IH|apply Rmax_r].
Qed.

(** What an update gains on us, for a loss l suffered and a loss q of us; N is the squared length of
    the example times the number of classes moved. *)
Definition gain (k : kind (R:=R)) (N l q : R) : R :=
  match k with
  | KPA => l * l / N - 2 * (l / N) * q
  | KPA1 C => Rmin C (l / N) * l - 2 * C * q
  | KPA2 C => l * l / (N + 1 / (2 * C)) - 2 * C * (q * q)
  | _ => 0
  end.
Lemma gain_le k N l q : pa_kind k -> 0 < N -> 0 < l -> 0 <= q -> let t := pa_tau k 1 N l in gain k N l q <= 2 * t * (l - q) - t * t * N.
Proof.
  intros Hk HN Hl Hq. assert (I : 0 < / N) by now apply Rinv_0_lt_compat. destruct k; try contradiction; cbn [pa_tau gain]; cbn in Hk.
  - right. field. lra.
  - rewrite Rmult_1_l. set (t := Rmin C (l / N)). assert (t <= C) by apply Rmin_l. assert (T0 : 0 <= t) by (apply Rmin_glb; [lra|apply Rmult_le_pos; lra]).
    assert (t * N <= l). { assert (T1 : t <= l / N) by apply Rmin_r. apply Rmult_le_compat_r with (r := N) in T1; [|lra]. unfold Rdiv in T1. rewrite Rmult_assoc, Rinv_l in T1 by lra. lra. }
    assert (t * (t * N) <= t * l) by (apply Rmult_le_compat_l; lra). assert (t * q <= C * q) by (apply Rmult_le_compat_r; lra). nra.
  - rewrite Rmult_1_l. assert (IC : 0 < / C) by now apply Rinv_0_lt_compat.
    replace (1 / (2 * C)) with (1 / 2 / C) by (field; lra). set (kk := 1 / 2 / C). assert (Hkk : 2 * C = / kk) by (unfold kk; field; lra). assert (0 < kk) by (unfold kk; nra).
    rewrite Hkk. clearbody kk. assert (0 < N + kk) by lra. assert (0 < / kk) by now apply Rinv_0_lt_compat.
    assert (G : 2 * (l / (N + kk)) * (l - q) - l / (N + kk) * (l / (N + kk)) * N - (l * l / (N + kk) - / kk * (q * q)) = / kk * ((kk * (l / (N + kk)) - q) * (kk * (l / (N + kk)) - q))).
    { field. lra. }
    assert (0 <= / kk * ((kk * (l / (N + kk)) - q) * (kk * (l / (N + kk)) - q))) by (apply Rmult_le_pos; [lra|apply Rle_0_sqr]). lra.
Qed.
Lemma gain_zero k N q : pa_kind k -> 0 < N -> 0 <= q -> gain k N 0 q <= 0.
Proof.
  intros Hk HN Hq. destruct k; try contradiction; cbn [gain]; cbn in Hk.
  - right. field. lra.
  - rewrite Rmult_0_r. nra.
  - assert (0 < / (2 * C)) by (apply Rinv_0_lt_compat; lra). replace (0 * 0 / (N + 1 / (2 * C))) with 0 by (unfold Rdiv; ring). nra.
Qed.
Lemma pa_tau_scale k q N l : pa_tau k q N l = pa_tau k 1 (q * N) l.
Proof. destruct k; cbn [pa_tau]; try reflexivity; now rewrite Rmult_1_l. Qed.

(** The sign of a score is wrong only if the signed score is not positive. *)
Lemma wrong_sign s y : (y = 1 \/ y = -1)%Z -> label_of Rnum [s] <> Some y -> IZR y * s <= 0.
Proof.
  intros Hy H. cbn [label_of] in H. unfold sign in H. destruct (n_le Rnum (zero Rnum) s) eqn:E; [apply Rle_b in E|apply Rle_b_false in E]; unfold zero in E; cbn in E; destruct Hy as [-> | ->]; try congruence; lra.
Qed.

(** What a training step leaves alone. *)
Lemma iterate_keeps k n loss x rnd c (e : state_of k) lab ps c' e' : loss_ok n loss -> wf_point (lo_of k) x -> label_ok n (p_label x) -> sound Rnum k n loss c e ->
  iterate Rnum (alg_of Rnum k) x rnd c e = Some (lab, ps, c', e') ->
  wf_core c' /\ length (c_ws c') = n /\ c_loss c' = loss /\ c_b0 c' = c_b0 c /\ c_active c' = c_active c /\ c_lazy c' = c_lazy c /\ c_cost c' = c_cost c /\
  c_t0 c' = c_t0 c /\ c_err c' = c_err c /\ sound Rnum k n loss c' e'.
Proof.
  intros Hlo Hx Hlab (Hc & Hn & Hl & HI) H.
  assert (H1 : loss_ok (length (c_ws c)) (c_loss c)) by now rewrite Hn, Hl.
  assert (H2 : label_ok (length (c_ws c)) (p_label x)) by now rewrite Hn.
  destruct (iterate_safe Rnum (lo_of k) (alg_of Rnum k) (inv_of Rnum False k) (rel_of k) x rnd c e (lo_nonneg k) (gsafe_of Rnum False k) Hx Hc HI H1 H2) as (lab' & ps' & c1 & e1 & E & W1 & W2 & W3 & W4 & W5 & W6 & W7 & W8 & W9 & W10 & _).
  rewrite H in E. injection E as <- <- <- <-.
  destruct (iterate_counters Rnum _ _ _ _ _ _ _ _ _ (alg_keeps Rnum k) H) as (q1 & u1 & D1 & D2 & D3 & D4 & D5).
  assert (length (c_ws c') = n) by congruence. assert (c_loss c' = loss) by congruence.
  repeat (split; [first [assumption|congruence]|]). assumption.
Qed.

Section Round.
Variables (k : kind (R:=R)) (n : nat) (loss : loss_kind) (m : R) (us : list (list R)).
Hypothesis Hk : pa_kind k.
Hypothesis Hloss : loss = if (n =? 1)%nat then LHinge else LMaxHinge.
Hypothesis Hus : unbiased n us.

(** Linear models that only changed by training under these settings. *)
Definition okc (c : core (R:=R)) : Prop :=
  wf_core c /\ length (c_ws c) = n /\ c_loss c = loss /\ c_b0 c = 0 /\ c_active c <= 0 /\ c_lazy c = false /\ c_cost c = None /\ c_margin c = m /\
  forall j, (j < n)%nat -> nth 0 (nth j (c_ws c) []) 0 = 0.
Lemma loss_fits : loss_ok n loss.
Proof. rewrite Hloss. split; intros H; destruct (Nat.eqb_spec n 1); try easy; reflexivity. Qed.
Lemma labelled_ok y : labelled n y -> label_ok n y.
Proof. unfold labelled, label_ok. destruct (Nat.eqb_spec n 1); [now left|now right]. Qed.
Lemma us0 j : nth 0 (nth j us []) 0 = 0.
Proof.
  destruct Hus as (L & H). destruct (lt_dec j n) as [Hj|Hj]; [|rewrite (nth_overflow us []) by lia; reflexivity].
  rewrite Forall_forall in H. apply H, nth_In. lia.
Qed.

Lemma round x rnd c e lab ps c' e' : proper n x -> okc c -> ((n <> 1)%nat -> Forall (fun w => - fmax < lin w (feats x)) (c_ws c)) ->
  iterate Rnum (alg_of Rnum k) x rnd c e = Some (lab, ps, c', e') ->
  okc c' /\ (c_dim c <= c_dim c')%nat /\ (lab <> p_label x -> m <= margin_loss m (c_ws c) x) /\
  forall D, (c_dim c' <= D)%nat -> dist2 n D (c_ws c') us + gain k (moved n * sqnorm (feats x)) (margin_loss m (c_ws c) x) (margin_loss m us x) <= dist2 n D (c_ws c) us.
Proof.
  intros (Hx & Hx1 & Hxn & Hy) (Hc & Hn & Hl & Hb0 & Hact & Hlazy & Hcost & Hm & Hw0) Hf Hit.
  assert (Hlab := labelled_ok _ Hy).
  destruct (pa_parts_m k n loss Hk loss_fits x rnd c e lab ps c' e' Hx Hlab Hc Hn Hl Hact Hlazy Hit)
    as (d & r & Em & (Ed & Hd1 & Hdc) & Hbel & Lws' & Lps & Elab & Hps & Gr & Lg & St).
  assert (Hask : asked c (p_label x) = m) by (unfold asked; rewrite Hcost; exact Hm). rewrite Hask in *.
  assert (Hso : sorted_ix (feats x)) by (eapply feats_sorted; [|exact Hx]; lia).
  assert (H0 : ~ In 0%Z (map fst (feats x))) by (eapply no_zero; eauto).
  rewrite Hb0 in St. fold (moved n) in St.
  (* what the loss, the mistake and the gradient are *)
  assert (Main : l_loss r = margin_loss m (c_ws c) x /\ (lab <> p_label x -> m <= margin_loss m (c_ws c) x) /\
    (0 < l_loss r -> rsum n (fun j => nth j (l_grad r) 0 * nth j (l_grad r) 0) = moved n /\
       l_loss r = m - Sc n (feats x) (fun j => nth j (l_grad r) 0) (c_ws c) /\ m - Sc n (feats x) (fun j => nth j (l_grad r) 0) us <= margin_loss m us x)).
  { clear St. unfold moved, labelled in *. destruct (Nat.eqb_spec n 1) as [->|Hn1].
    - rewrite Hloss in Gr. destruct ps as [|s [|? ?]]; try discriminate Lps. destruct (c_g c) as [|g0 [|? ?]]; try discriminate Lg.
      destruct (hinge_gradient _ _ _ _ _ _ _ _ _ Gr) as (A & B & Cg). specialize (B eq_refl). rewrite B in A. specialize (Hps 0%nat ltac:(lia)). cbn [nth] in Hps.
      destruct (c_ws c) as [|w [|? ?]]; try discriminate Hn. destruct us as [|u [|? ?]]; try (destruct Hus; discriminate). cbn [nth] in Hps. cbn [margin_loss].
      assert (EH : l_loss r = hinge m (IZR (p_label x) * lin w (feats x))) by (rewrite A, Hps; unfold hinge; f_equal; ring).
      split; [exact EH|]. split.
      + intros Hne. assert (IZR (p_label x) * s <= 0) by (apply wrong_sign; [exact Hy|congruence]). rewrite Hps in *. unfold hinge. eapply Rle_trans; [|apply Rmax_r]. lra.
      + intros Hp. rewrite Cg. destruct (Rlt_dec 0 (l_loss r)); [|lra]. unfold Sc. cbn [rsum nth]. split; [destruct Hy as [-> | ->]; lra|].
        split; [|unfold hinge; eapply Rle_trans; [|apply Rmax_r]; lra]. rewrite EH in Hp |- *. unfold hinge, Rmax in Hp |- *. destruct (Rle_dec 0 _); lra.
    - rewrite Hloss in Gr. assert (Hn2 : length (c_ws c) <> 1%nat) by lia.
      assert (Hf' : Forall (fun v => - fmax < v) ps).
      { apply Forall_forall. intros v Hv. destruct (In_nth _ _ 0 Hv) as (j & Hj & <-). rewrite Hps by lia. specialize (Hf Hn1). rewrite Forall_forall in Hf. apply Hf, nth_In. lia. }
      destruct (max_hinge_gradient None (p_label x) ps lab (c_g c) m r ltac:(congruence) ltac:(lia) ltac:(lia) Hf' Elab Gr) as (rv & own & riv & Hbest & Ho & Hr & A & Hrn & Hop).
      rewrite (none_margin _ _ _ _ _ _ _ Gr) in A. set (y := Z.to_nat (p_label x)) in *. rewrite Lps in Hrn, Hop. assert (Hyn : (y < n)%nat) by (unfold y; lia).
      pose proof Hbest as (Hry & b & Hb & Hbmax & _).
      assert (Eo : own = lin (nth y (c_ws c) []) (feats x)) by (rewrite <- (Hps y Hyn); symmetry; now apply nth_error_nth).
      assert (Er : riv = lin (nth rv (c_ws c) []) (feats x)) by (rewrite <- (Hps rv Hrn); symmetry; now apply nth_error_nth).
      assert (Others : forall j, (j < length (c_ws c))%nat -> j <> y -> lin (nth j (c_ws c) []) (feats x) <= lin (nth rv (c_ws c) []) (feats x)).
      { intros j Hj Hjy. rewrite Hn in Hj. rewrite <- Er. rewrite Hr in Hb. apply Some_inj in Hb. rewrite Hb. rewrite <- (Hps j Hj). apply (Hbmax j); auto. apply nth_error_nth'. lia. }
      assert (EL : margin_loss m (c_ws c) x = hinge m (gap (c_ws c) x rv)) by (apply margin_loss_is; auto; lia).
      assert (EH : l_loss r = margin_loss m (c_ws c) x) by (rewrite EL, A, Eo, Er; unfold gap, hinge; fold y; f_equal; ring).
      split; [exact EH|]. split.
      + intros Hne. assert (Hne' : ps <> []) by (destruct ps; [cbn in Lps; lia|discriminate]).
        destruct (first_max_best ps _ (R_first_max ps Hne')) as (v & Hv & H1 & _).
        assert (Hmx : lab = Z.of_nat (max_element Rnum ps)). { destruct ps as [|a [|a' ps']]; cbn in Lps; try lia. cbn [label_of] in Elab. now apply Some_inj in Elab. }
        assert (Hlt : (max_element Rnum ps < n)%nat) by (rewrite <- Lps; apply nth_error_Some; congruence).
        assert (Hjy : max_element Rnum ps <> y) by (unfold y; lia).
        eapply Rle_trans; [|apply (margin_loss_ge m (c_ws c) x (max_element Rnum ps)); auto; lia].
        unfold hinge, gap. fold y. rewrite <- (Hps _ Hlt), <- (Hps y Hyn), (nth_error_nth ps _ 0 Hv).
        specialize (H1 y (nth y ps 0) ltac:(apply nth_error_nth'; lia)). eapply Rle_trans; [|apply Rmax_r]. lra.
      + intros Hp. specialize (Hop Hp).
        destruct (opposes_sums n y rv _ (fun j => lin (nth j (c_ws c) []) (feats x)) Hyn Hrn Hry Hop) as (G1 & G2).
        destruct (opposes_sums n y rv _ (fun j => lin (nth j us []) (feats x)) Hyn Hrn Hry Hop) as (_ & G3).
        split; [exact G1|]. unfold Sc. rewrite G2, G3. split.
        * rewrite EH, EL in Hp |- *. unfold hinge, gap, Rmax in Hp |- *. fold y in Hp |- *. destruct (Rle_dec 0 _); lra.
        * eapply Rle_trans; [|apply (margin_loss_ge m us x rv); try (rewrite (proj1 Hus)); auto]. unfold hinge, gap. fold y. eapply Rle_trans; [|apply Rmax_r]. lra. }
  destruct Main as (EL & Hmis & Hgr).
  assert (Hmv : 0 < moved n * sqnorm (feats x)) by (unfold moved; destruct (n =? 1)%nat; lra).
  pose proof (margin_loss_nonneg m us x) as Hq. pose proof (margin_loss_nonneg m (c_ws c) x) as Hl0.
  assert (W0 : forall j, (j < n)%nat -> nth 0 (nth j (c_ws c') []) 0 = 0).
  { intros j Hj. destruct St as [(_ & St)|(_ & St)]; rewrite (St j 0%nat Hj), (Hw0 j Hj); [reflexivity|]. cbn [Nat.eqb]. rewrite (xv_notin (feats x) 0) by exact H0. ring. }
  assert (Ok : okc c').
  { assert (Hs : sound Rnum k n loss c e) by (split; [exact Hc|]; split; [exact Hn|]; split; [exact Hl|]; destruct k; try contradiction; exact I).
    assert (Hx' : wf_point (lo_of k) x) by now rewrite pa_lo.
    destruct (iterate_keeps k n loss x rnd c e lab ps c' e' loss_fits Hx' Hlab Hs Hit) as (P1 & P2 & P3 & P4 & P5 & P6 & P7 & _).
    unfold okc. rewrite P2, P3, P4, P5, P6, P7, Em. auto 10. }
  split; [exact Ok|]. split; [lia|]. split; [exact Hmis|]. intros D HD.
  destruct St as [(Sl & St)|(Sl & St)].
  - assert (E0 : margin_loss m (c_ws c) x = 0) by lra. rewrite E0. pose proof (gain_zero k _ _ Hk Hmv Hq).
    assert (Es : dist2 n D (c_ws c') us = dist2 n D (c_ws c) us); [|lra]. apply rsum_ext. intros j Hj. apply rsum_ext. intros i _. now rewrite (St j i Hj).
  - destruct (Hgr Sl) as (G1 & G2 & G3).
    rewrite (dist2_toward n D (feats x) (fun j => nth j (l_grad r) 0) (pa_tau k (moved n) (sqnorm (feats x)) (l_loss r)) us (c_ws c) (c_ws c') Hso).
    + rewrite G1, pa_tau_scale, <- EL. pose proof (gain_le k _ (l_loss r) (margin_loss m us x) Hk Hmv Sl Hq) as GL. cbv zeta in GL.
      set (t := pa_tau k 1 _ _) in *. set (su := Sc n (feats x) _ us) in *. set (sw := Sc n (feats x) _ (c_ws c)) in *.
      assert (0 <= t). { unfold t. clear - Hk Hmv Sl. assert (0 < / (1 * (moved n * sqnorm (feats x)))) by (apply Rinv_0_lt_compat; lra). destruct k; try contradiction; cbn [pa_tau]; cbn in Hk; unfold Rdiv.
        - apply Rmult_le_pos; lra. - apply Rmin_glb; [lra|]. apply Rmult_le_pos; lra.
        - apply Rmult_le_pos; [lra|]. left. apply Rinv_0_lt_compat. assert (0 < / C) by now apply Rinv_0_lt_compat. lra. }
      assert (t * (l_loss r - margin_loss m us x) <= t * (su - sw)) by (apply Rmult_le_compat_l; lra). lra.
    + apply (below_le d D); [exact Hbel|lia].
    + intros j Hj. now rewrite us0, (Hw0 j Hj).
    + intros j i Hj. rewrite (St j i Hj). destruct (i =? 0)%nat; ring.
Qed.

(** All rounds of a training. *)
Variable pre : point R -> option (point R).
Lemma all_rounds ds : forall c e tr c' e', okc c -> rounds k pre ds c e = Some (tr, c', e') ->
  Forall (fun t => proper n (fst t)) tr -> ((n <> 1)%nat -> Forall (fun t => Forall (fun w => - fmax < lin w (feats (fst t))) (snd t)) tr) ->
  okc c' /\ (c_dim c <= c_dim c')%nat /\
  (forall h : point R * list (list R) -> R, (forall t, In t tr -> 0 <= h t) -> (forall t, In t tr -> m <= suffered m t -> 1 <= h t) -> IZR (c_err c' - c_err c) <= total h tr) /\
  forall D, (c_dim c' <= D)%nat -> dist2 n D (c_ws c') us + total (fun t => gain k (moved n * sqnorm (feats (fst t))) (suffered m t) (hindsight m us t)) tr <= dist2 n D (c_ws c) us.
Proof.
  induction ds as [|(p, rnd) ds IH]; intros c e tr c' e' Hok H Hp Hf; cbn [rounds] in H.
  - injection H as <- <- <-. split; [exact Hok|]. split; [lia|]. split; [intros; rewrite Z.sub_diag; cbn; lra|]. intros D _. cbn. lra.
  - cbn [fst] in H. dob H Ex. rename p0 into x. dob H Et. destruct p0 as (c1, e1). dob H Er. destruct p0 as ((tr1, c2), e2). injection H as <- <- <-.
    unfold train_point in Et. rewrite Ex in Et. cbn [bind] in Et. dob Et Q. destruct p0 as (((lab, ps), c3), e3). injection Et as <- <-.
    inversion Hp as [|? ? P1 P2]; subst. cbn [fst] in P1.
    assert (Hf1 : (n <> 1)%nat -> Forall (fun w => - fmax < lin w (feats x)) (c_ws c)) by (intros Hn; specialize (Hf Hn); inversion Hf; subst; assumption).
    destruct (round x rnd c e lab ps c3 e3 P1 Hok Hf1 Q) as (O3 & D3 & M3 & G3).
    assert (E3 : c_err c3 = c_err c).
    { destruct (iterate_counters Rnum _ _ _ _ _ _ _ _ _ (alg_keeps Rnum k) Q) as (q1 & u1 & D1 & D2 & _). exact D2. }
    set (c4 := if (lab =? p_label x)%Z then c3 else set_err c3 (c_err c3 + 1)) in *.
    assert (C4 : okc c4 /\ c_dim c4 = c_dim c3 /\ c_ws c4 = c_ws c3 /\ c_err c4 = (c_err c + (if (lab =? p_label x)%Z then 0 else 1))%Z).
    { unfold c4. destruct (lab =? p_label x)%Z; (split; [exact O3|split; [reflexivity|split; [reflexivity|cbn; lia]]]). }
    destruct C4 as (O4 & D4 & W4 & E4).
    destruct (IH c4 e3 tr1 c2 e2 O4 Er P2) as (O5 & D5 & M5 & G5).
    { intros Hn. specialize (Hf Hn). now inversion Hf. }
    split; [exact O5|]. split; [lia|]. split.
    + intros h Hh Hm. cbn [total fold_right]. specialize (M5 h ltac:(intros; apply Hh; now right) ltac:(intros; apply Hm; [now right|assumption])).
      assert (X : IZR (c_err c4 - c_err c) <= h (x, c_ws c)).
      { rewrite E4. destruct (Z.eqb_spec lab (p_label x)) as [E|E].
        - replace (c_err c + 0 - c_err c)%Z with 0%Z by lia. apply Hh. now left.
        - replace (c_err c + 1 - c_err c)%Z with 1%Z by lia. apply Hm; [now left|]. exact (M3 E). }
      rewrite minus_IZR in *. unfold total in M5. lra.
    + intros D HD. cbn [total fold_right]. specialize (G5 D HD). rewrite W4 in G5. specialize (G3 D ltac:(lia)).
      unfold suffered at 1, hindsight at 1. cbn [fst snd]. unfold total in G5. lra.
Qed.
End Round.

(** The distance of a fresh model from us. *)
Lemma fresh_okc n loss c : plain_model n c -> c_loss c = loss -> okc n loss (c_margin c) c.
Proof.
  intros ((Hn1 & Hws & Hd & Hg & Hu) & Hb0 & Ha & Hlz & Hc) Hl. unfold okc. split.
  { split; [lia|]. rewrite Hws. split; [destruct n; [lia|discriminate]|]. split; [apply Forall_forall; intros w Hw; apply repeat_spec in Hw; subst w; now rewrite Hd|]. now rewrite repeat_length. }
  rewrite Hws, repeat_length. repeat (split; [assumption || reflexivity|]). intros j Hj. rewrite (nth_indep _ [] [zero Rnum]) by now rewrite repeat_length. now rewrite nth_repeat.
Qed.
Lemma dist2_fresh n c us D : fresh Rnum n c -> length us = n -> dist2 n D (c_ws c) us <= length2 us.
Proof.
  intros (Hn1 & Hws & _) Hl. unfold dist2, length2.
  assert (E : forall vs, rsum (length vs) (fun j => sumsq (nth j vs [])) = total sumsq vs).
  { clear. intros vs. rewrite <- (rev_involutive vs). induction (rev vs) as [|a l IH]; [reflexivity|]. cbn [rev].
    rewrite app_length, Nat.add_comm. cbn [length Nat.add rsum]. rewrite (rsum_ext _ _ (fun j => sumsq (nth j (rev l) []))) by (intros; now rewrite app_nth1).
    rewrite IH, app_nth2, Nat.sub_diag by lia. cbn [nth]. clear. induction (rev l) as [|b m IH]; unfold total in *; cbn [app fold_right]; [lra|]. rewrite <- IH. ring. }
  rewrite <- E, Hl. apply rsum_le. intros j Hj. eapply Rle_trans; [|apply (rsum_sumsq D)]. right. apply rsum_ext. intros i _.
  rewrite Hws, (nth_indep _ [] [zero Rnum]) by now rewrite repeat_length. rewrite nth_repeat.
  assert (Z0 : nth i [zero Rnum] 0 = 0) by (destruct i as [|[|i]]; reflexivity). rewrite Z0. ring.
Qed.
Lemma total_le {A} (f g : A -> R) l : (forall a, In a l -> f a <= g a) -> total f l <= total g l.
Proof. induction l as [|a l IH]; intros H; unfold total in *; cbn [fold_right]; [lra|]. specialize (IH ltac:(intros; apply H; now right)). specialize (H a ltac:(now left)). lra. Qed.
Lemma total_scal {A} (f : A -> R) b l : total (fun a => b * f a) l = b * total f l.
Proof. induction l as [|a l IH]; unfold total in *; cbn [fold_right]; [ring|]. rewrite IH. ring. Qed.
Lemma total_minus {A} (f g : A -> R) l : total (fun a => f a - g a) l = total f l - total g l.
Proof. induction l as [|a l IH]; unfold total in *; cbn [fold_right]; [ring|]. rewrite IH. ring. Qed.
