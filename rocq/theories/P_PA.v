(** Passive-aggressive updates solve their optimisation problems. *)
From Coq Require Import Reals Lra Psatz Sorted.
From Verif Require Import M_Base M_Num M_Expr M_Loss M_Online M_Olm M_OlmSel M_Heap M_Algs S_Expr
  S_Real S_Loss S_Online S_Session S_Learn P_DataPoint P_Expr P_Real P_Online P_Predict P_Step P_Safe P_SafeOlm P_SafeSel2
  P_Session P_Session2 P_Inv P_Loss P_Loss2 P_Conf P_Conf2 P_Perc.
Local Open Scope R_scope.

(** The scalar problems. *)
Lemma pa_scalar N l a d : 0 < N -> 0 <= l -> a * a <= d * N -> Rmax 0 (l - a) = 0 -> l / N * (l / N) * N <= d.
Proof.
  intros HN Hl Hd Ha. assert (l <= a) by (pose proof (Rmax_r 0 (l - a)); lra).
  replace (l / N * (l / N) * N) with (l * l / N) by (field; lra). apply Rmult_le_reg_r with N; [lra|]. unfold Rdiv. rewrite Rmult_assoc, Rinv_l by lra. nra.
Qed.
Lemma pa1_scalar C N l a d : 0 < C -> 0 < N -> 0 <= l -> a * a <= d * N ->
  let t := Rmin C (l / N) in t * t * N / 2 + C * Rmax 0 (l - t * N) <= d / 2 + C * Rmax 0 (l - a).
Proof.
  intros HC HN Hl Hd t.
  assert (Hd' : a * a / N <= d) by (apply Rmult_le_reg_r with N; [lra|]; unfold Rdiv; rewrite Rmult_assoc, Rinv_l by lra; lra).
  assert (I : 0 < / N) by now apply Rinv_0_lt_compat.
  destruct (Rle_dec C (l / N)) as [H|H]; unfold t.
  - rewrite Rmin_left by lra. assert (C * N <= l). { apply Rmult_le_compat_r with (r := N) in H; [|lra]. unfold Rdiv in H. rewrite Rmult_assoc, Rinv_l in H by lra. lra. }
    rewrite Rmax_right by lra. pose proof (Rmax_r 0 (l - a)) as M. assert (C * (l - a) <= C * Rmax 0 (l - a)) by (apply Rmult_le_compat_l; lra).
    assert (0 <= (a - C * N) * (a - C * N) / N). { apply Rmult_le_pos; [apply Rle_0_sqr|lra]. }
    replace ((a - C * N) * (a - C * N) / N) with (a * a / N - 2 * C * a + C * C * N) in * by (field; lra). lra.
  - rewrite Rmin_right by lra. replace (l / N * N) with l by (field; lra). replace (l / N * (l / N) * N) with (l * l / N) by (field; lra). rewrite Rminus_diag_eq by reflexivity. rewrite Rmax_left by lra.
    destruct (Rle_dec l a) as [Hla|Hla].
    + pose proof (Rmax_l 0 (l - a)) as M. assert (0 <= C * Rmax 0 (l - a)) by (apply Rmult_le_pos; lra).
      assert (l * l / N <= a * a / N) by (apply Rmult_le_compat_r; [lra|]; apply Rmult_le_compat; lra). lra.
    + rewrite Rmax_right by lra. assert (l / N * (l - a) <= C * (l - a)) by (apply Rmult_le_compat_r; lra).
      assert (0 <= (l - a) * (l - a) / N) by (apply Rmult_le_pos; [apply Rle_0_sqr|lra]).
      replace ((l - a) * (l - a) / N) with (a * a / N + 2 * (l / N * (l - a)) - l * l / N) in * by (field; lra). lra.
Qed.
Lemma pa2_scalar C N l a d : 0 < C -> 0 < N -> 0 <= l -> a * a <= d * N ->
  let t := l / (N + 1 / 2 / C) in t * t * N / 2 + C * (Rmax 0 (l - t * N) * Rmax 0 (l - t * N)) <= d / 2 + C * (Rmax 0 (l - a) * Rmax 0 (l - a)).
Proof.
  intros HC HN Hl Hd t.
  assert (Hd' : a * a / N <= d) by (apply Rmult_le_reg_r with N; [lra|]; unfold Rdiv; rewrite Rmult_assoc, Rinv_l by lra; lra).
  assert (I : 0 < / N) by now apply Rinv_0_lt_compat. assert (IC : 0 < / C) by now apply Rinv_0_lt_compat.
  unfold t. clear t. set (kk := 1 / 2 / C). assert (Hk : C * kk = 1 / 2) by (unfold kk; field; lra). assert (Hk0 : 0 < kk) by (unfold kk, Rdiv; nra). clearbody kk.
  assert (Hq : 0 < N + kk) by lra. assert (Iq : 0 < / (N + kk)) by now apply Rinv_0_lt_compat.
  assert (Et : l - l / (N + kk) * N = l / (N + kk) * kk) by (field; lra).
  assert (0 <= l / (N + kk)) by (apply Rmult_le_pos; lra).
  rewrite Et, (Rmax_right 0) by (apply Rmult_le_pos; lra).
  replace (l / (N + kk) * (l / (N + kk)) * N / 2 + C * (l / (N + kk) * kk * (l / (N + kk) * kk))) with (l * l / (N + kk) / 2).
  2: { replace (C * (l / (N + kk) * kk * (l / (N + kk) * kk))) with (C * kk * (l / (N + kk) * (l / (N + kk) * kk))) by ring. rewrite Hk. field. lra. }
  assert (Main : forall e, 0 <= e -> l <= a + e -> l * l / (N + kk) <= a * a / N + 2 * C * (e * e)).
  { intros e He Hle. apply Rmult_le_reg_r with (N + kk); [lra|]. unfold Rdiv at 1. rewrite Rmult_assoc, Rinv_l, Rmult_1_r by lra.
    replace ((a * a / N + 2 * C * (e * e)) * (N + kk)) with ((a + e) * (a + e) + (kk * (a / N) - e) * (kk * (a / N) - e) * (2 * C * N)
       + (1 - 2 * (C * kk)) * (a * a * kk / N - 2 * e * a - e * e)).
    2: { field. lra. }
    rewrite Hk. replace (1 - 2 * (1 / 2)) with 0 by lra. rewrite Rmult_0_l, Rplus_0_r.
    assert (0 <= (kk * (a / N) - e) * (kk * (a / N) - e) * (2 * C * N)) by (apply Rmult_le_pos; [apply Rle_0_sqr|nra]). nra. }
  destruct (Rle_dec l a) as [Hla|Hla].
  - rewrite Rmax_left by lra. specialize (Main 0 ltac:(lra) ltac:(lra)). lra.
  - rewrite Rmax_right by lra. specialize (Main (l - a) ltac:(lra) ltac:(lra)). lra.
Qed.

Lemma lin_rsum w x D : sorted_ix x -> below D x -> lin w x = rsum D (fun i => nth i w 0 * xv x i) + nth 0 w 0.
Proof. intros Hs Hb. unfold lin. now rewrite (inner_rsum w x D Hs Hb). Qed.
(** Squared family norm of the gradient direction, and its inner product with a change of the weights. *)
Section Dir.
Variables (n d : nat) (x : list (Z * R)) (g : nat -> R).
Hypothesis Hs : sorted_ix x.
Hypothesis H0 : ~ In 0%Z (map fst x).
Hypothesis Hb : below d x.
Definition Sc (ws : list (list R)) : R := rsum n (fun j => - g j * lin (nth j ws []) x).
Definition zz (j i : nat) : R := - g j * xv x i.
Lemma zz_norm : rsum n (fun j => rsum d (fun i => zz j i * zz j i)) = rsum n (fun j => g j * g j) * sqnorm x.
Proof.
  rewrite Rmult_comm, <- rsum_scal. apply rsum_ext. intros j _. rewrite <- (sqnorm_rsum d x Hs Hb), Rmult_comm, <- rsum_scal. apply rsum_ext. intros i _. unfold zz. ring.
Qed.
Lemma Sc_change vs ws : (forall j, (j < n)%nat -> nth 0 (nth j vs []) 0 = nth 0 (nth j ws []) 0) ->
  Sc vs - Sc ws = rsum n (fun j => rsum d (fun i => (nth i (nth j vs []) 0 - nth i (nth j ws []) 0) * zz j i)).
Proof.
  intros H. unfold Sc. rewrite <- rsum_minus. apply rsum_ext. intros j Hj. rewrite !(lin_rsum _ x d Hs Hb), (H j Hj).
  replace (- g j * (rsum d (fun i => nth i (nth j vs []) 0 * xv x i) + nth 0 (nth j ws []) 0) - - g j * (rsum d (fun i => nth i (nth j ws []) 0 * xv x i) + nth 0 (nth j ws []) 0))
    with (- g j * (rsum d (fun i => nth i (nth j vs []) 0 * xv x i) - rsum d (fun i => nth i (nth j ws []) 0 * xv x i))) by ring.
  rewrite <- rsum_minus, <- rsum_scal. apply rsum_ext. intros i _. unfold zz. ring.
Qed.
Lemma Sc_cs vs ws : (forall j, (j < n)%nat -> nth 0 (nth j vs []) 0 = nth 0 (nth j ws []) 0) ->
  (Sc vs - Sc ws) * (Sc vs - Sc ws) <= dist2 n d vs ws * (rsum n (fun j => g j * g j) * sqnorm x).
Proof.
  intros H. rewrite (Sc_change vs ws H), <- zz_norm.
  exact (rsum_cs2 n d (fun j i => nth i (nth j vs []) 0 - nth i (nth j ws []) 0) zz).
Qed.
(** The change made by a gradient step with step size t and bias factor b. *)
Lemma Sc_step t b ws ws' : (1 <= d)%nat ->
  (forall j i, (j < n)%nat -> nth i (nth j ws' []) 0 = nth i (nth j ws []) 0 - t * g j * (xv x i + (if (i =? 0)%nat then b else 0))) ->
  Sc ws' = Sc ws + t * (rsum n (fun j => g j * g j) * (sqnorm x + b)).
Proof.
  intros Hd H. unfold Sc. rewrite (Rmult_comm (rsum n _)), <- Rmult_assoc, <- rsum_scal, <- rsum_plus. apply rsum_ext. intros j Hj.
  rewrite !(lin_rsum _ x d Hs Hb), (H j 0%nat Hj). cbn [Nat.eqb]. rewrite (xv_notin x 0) by exact H0.
  rewrite (rsum_ext d (fun i => nth i (nth j ws' []) 0 * xv x i) (fun i => nth i (nth j ws []) 0 * xv x i - t * g j * (xv x i * xv x i))).
  - rewrite rsum_minus, rsum_scal, (sqnorm_rsum d x Hs Hb). ring.
  - intros i _. rewrite (H j i Hj). destruct (Nat.eqb_spec i 0) as [->|Hi]; [rewrite (xv_notin x 0) by exact H0|]; ring.
Qed.
Lemma dist2_step t ws ws' :
  (forall j i, (j < n)%nat -> nth i (nth j ws' []) 0 = nth i (nth j ws []) 0 - t * g j * xv x i) ->
  dist2 n d ws' ws = t * t * (rsum n (fun j => g j * g j) * sqnorm x).
Proof.
  intros H. rewrite <- zz_norm, <- rsum_scal. apply rsum_ext. intros j Hj. rewrite <- rsum_scal. apply rsum_ext. intros i _. rewrite (H j i Hj). unfold zz. ring.
Qed.
End Dir.
Lemma dist2_nonneg n d vs ws : 0 <= dist2 n d vs ws.
Proof. apply rsum_nonneg. intros. apply rsum_nonneg. intros. apply Rle_0_sqr. Qed.

(** The gradient step on the whole model, coordinate by coordinate. *)
Lemma grad_steps_nth (p : point R) c c' : wf_core c -> wf_point 0 p -> (Z.to_nat (x_dim p) <= c_dim c)%nat -> grad_steps Rnum (feats p) c = Some c' ->
  exists ws, c' = set_ws c ws /\ length ws = length (c_ws c) /\
  forall j i, (j < length (c_ws c))%nat -> nth i (nth j ws []) 0 =
     nth i (nth j (c_ws c) []) 0 - c_eta c * nth j (c_g c) 0 * (xv (feats p) i + (if (i =? 0)%nat then c_b0 c else 0)).
Proof.
  intros Hc Hx Hdim H. unfold grad_steps in H. dob H Q. apply Some_inj in H. subst c'. exists l. split; [reflexivity|].
  destruct Hc as (Hd1 & _ & Hw & Lg). rewrite Forall_forall in Hw.
  assert (Hso : sorted_ix (feats p)) by (eapply feats_sorted; [|exact Hx]; lia).
  assert (Hbel : below (c_dim c) (feats p)) by (eapply feats_bel; [|exact Hx|exact Hdim]; lia).
  rewrite (each_class_spec Rnum _ (fun g w => pstep Rnum (fun _ a v => a - c_eta c * g * v) (fun b => b - bias_eta Rnum c * g) (feats p) w)) in Q.
  2: congruence.
  2: { intros g w Hin. apply grad_step_spec; [exact Hso|]. rewrite (Hw w Hin). exact Hd1. }
  apply Some_inj in Q. subst l. split; [rewrite zipc_length; congruence|].
  intros j i Hj. assert (Hg : (j < length (c_g c))%nat) by congruence. set (gj := nth j (c_g c) 0). set (w := nth j (c_ws c) []).
  rewrite (nth_error_nth (zipc _ (c_g c) (c_ws c)) j [] (x := (if n_eq Rnum gj (zero Rnum) then w else pstep Rnum (fun _ a v => a - c_eta c * gj * v) (fun b => b - bias_eta Rnum c * gj) (feats p) w))).
  2: { rewrite nth_error_zipc, (nth_error_nth' _ 0 Hg), (nth_error_nth' _ [] Hj). reflexivity. }
  destruct (n_eq Rnum gj (zero Rnum)) eqn:Eg.
  { apply Req_b in Eg. rewrite Eg. unfold zero. cbn. ring. }
  assert (Lw : length w = c_dim c) by (apply Hw, nth_In; exact Hj).
  destruct (lt_dec i (length w)) as [Hi|Hi].
  { pose proof (pstep_nth Rnum (fun _ a v => a - c_eta c * gj * v) (fun b => b - bias_eta Rnum c * gj) (feats p) w i Hi) as P. cbv zeta in P. unfold zero in P. cbn [n_int Rnum] in P. change (IZR 0) with 0 in P. rewrite P. clear P.
    unfold bias_eta. cbn [n_mul Rnum]. unfold xv. destruct (Nat.eqb_spec i 0) as [->|Hi0]; destruct (lookup (feats p) _); ring. }
  rewrite !nth_overflow by (rewrite ?pstep_length; lia). destruct (Nat.eqb_spec i 0); [lia|]. rewrite (xv_above (c_dim c)) by (auto; lia). ring.
Qed.

Lemma none_margin k y ps pl g m r : gradient Rnum k None y ps pl g m = Some r -> l_margin r = m.
Proof.
  intros H. destruct k; cbn [gradient] in H; cbv zeta in H;
    repeat match type of H with
    | bind ?e _ = Some _ => let Q := fresh "Q" in dob H Q
    | (let '(_, _) := ?e in _) = Some _ => destruct e
    | (if ?b then _ else _) = Some _ => destruct b
    end; try (apply Some_inj in H; subst r; reflexivity).
Qed.

Definition pa_kind (k : kind (R:=R)) : Prop := match k with KPA => True | KPA1 C | KPA2 C => 0 < C | _ => False end.
Definition pa_tau (k : kind (R:=R)) (q N l : R) : R :=
  match k with KPA1 C => Rmin C (l / (q * N)) | KPA2 C => l / (q * N + 1 / 2 / C) | _ => l / (q * N) end.
Lemma pa_update_step k p loss c (e : state_of k) c' e' : pa_kind k -> wf_core c -> wf_point 0 p -> (Z.to_nat (x_dim p) <= c_dim c)%nat ->
  a_update (alg_of Rnum k) p loss c e = Some (c', e') ->
  let t := pa_tau k (if (length (c_ws c) =? 1)%nat then 1 else 2) (sqnorm (feats p)) loss in
  exists ws, c' = set_ws (set_eta c t) ws /\ length ws = length (c_ws c) /\
  forall j i, (j < length (c_ws c))%nat -> nth i (nth j ws []) 0 =
     nth i (nth j (c_ws c) []) 0 - t * nth j (c_g c) 0 * (xv (feats p) i + (if (i =? 0)%nat then c_b0 c else 0)).
Proof.
  intros Hk Hc Hx Hdim H t.
  assert (Hso : sorted_ix (feats p)) by (eapply feats_sorted; [|exact Hx]; lia).
  assert (Hbel : below (c_dim c) (feats p)) by (eapply feats_bel; [|exact Hx|exact Hdim]; lia).
  assert (G : grad_steps Rnum (feats p) (set_eta c t) = Some c').
  { assert (N2 : norm2 Rnum (ESparse (feats p)) = Some (sqnorm (feats p))) by (rewrite (norm2_sparse_real (c_dim c)) by auto; now rewrite sqnorm_rsum).
    assert (Ec : eta_coeff Rnum c = if (length (c_ws c) =? 1)%nat then 1 else 2) by reflexivity.
    destruct k; try contradiction; cbn [alg_of pa pa1 pa2 plain a_update] in H; dob H Q; apply Some_inj in H; injection H as -> _.
    - unfold pa_update, pa_eta in Q. rewrite N2 in Q. cbn [bind] in Q. rewrite Ec in Q. exact Q.
    - unfold pa1_update, pa_eta in Q. rewrite N2 in Q. cbn [bind] in Q. rewrite Ec, std_min_real in Q. exact Q.
    - unfold pa2_update in Q. rewrite N2 in Q. cbn [bind] in Q. rewrite Ec in Q.
      match type of Q with grad_steps _ _ (set_eta c ?v) = _ => replace v with t in Q; [exact Q|] end.
      unfold t. cbn [pa_tau n_div n_add n_mul n_lit Rnum]. do 3 f_equal. unfold R_of_dec, powerRZ. change (Pos.to_nat 1) with 1%nat. simpl pow. field. }
  destruct (grad_steps_nth p (set_eta c t) c' Hc Hx Hdim G) as (ws & -> & L & Hn). exists ws. split; [reflexivity|]. split; [exact L|exact Hn].
Qed.
(** The optimality of the step, for a gradient with the squared length of the model's factor. *)
Lemma pa_optimal k n d x (g : nat -> R) ws ws' m b : pa_kind k -> (1 <= d)%nat -> sorted_ix x -> ~ In 0%Z (map fst x) -> below d x -> 0 < sqnorm x ->
  let q := if (n =? 1)%nat then 1 else 2 in let H := fun vs => hinge m (Sc n x g vs) in
  rsum n (fun j => g j * g j) = q -> 0 <= b -> 0 < H ws ->
  (forall j i, (j < n)%nat -> nth i (nth j ws' []) 0 = nth i (nth j ws []) 0 - pa_tau k q (sqnorm x) (H ws) * g j * (xv x i + (if (i =? 0)%nat then b else 0))) ->
  (k = KPA -> H ws' = 0) /\ (b = 0 ->
  forall vs, (forall j, (j < n)%nat -> nth 0 (nth j vs []) 0 = nth 0 (nth j ws []) 0) ->
  match k with
  | KPA => H vs = 0 -> dist2 n d ws' ws <= dist2 n d vs ws
  | KPA1 C => dist2 n d ws' ws / 2 + C * H ws' <= dist2 n d vs ws / 2 + C * H vs
  | KPA2 C => dist2 n d ws' ws / 2 + C * (H ws' * H ws') <= dist2 n d vs ws / 2 + C * (H vs * H vs)
  | _ => False
  end).
Proof.
  intros Hk Hd Hs H0 Hb Hx q H Hq Hbb Hpos Hw. set (t := pa_tau k q (sqnorm x) (H ws)) in *. set (l := H ws) in *.
  assert (Hq1 : 1 <= q) by (unfold q; destruct (_ =? _)%nat; lra).
  assert (El : l = m - Sc n x g ws). { unfold l, H, hinge, Rmax in *. destruct (Rle_dec 0 (m - Sc n x g ws)); lra. }
  assert (HN : 0 < q * sqnorm x) by (apply Rmult_lt_0_compat; lra).
  pose proof (Sc_step n d x g Hs H0 Hb t b ws ws' Hd Hw) as E1. rewrite Hq in E1.
  split.
  - intros ->. unfold t in E1. cbn [pa_tau] in E1. unfold H, hinge. rewrite E1. apply Rmax_left.
    assert (l <= l / (q * sqnorm x) * (q * (sqnorm x + b))); [|lra].
    replace (l / (q * sqnorm x) * (q * (sqnorm x + b))) with (l + l * (b / sqnorm x)) by (field; lra).
    assert (0 <= l * (b / sqnorm x)); [|lra]. apply Rmult_le_pos; [lra|]. apply Rmult_le_pos; [lra|]. left. now apply Rinv_0_lt_compat.
  - intros -> vs Hv.
    assert (D1 : dist2 n d ws' ws = t * t * (q * sqnorm x)).
    { rewrite <- Hq. apply dist2_step; auto. intros j i Hj. rewrite (Hw j i Hj). destruct (i =? 0)%nat; cbv zeta; ring. }
    rewrite Rplus_0_r in E1. pose proof (Sc_cs n d x g Hs Hb vs ws Hv) as CS. rewrite Hq in CS.
    set (a := Sc n x g vs - Sc n x g ws) in *.
    assert (EH : H vs = Rmax 0 (l - a)) by (unfold H, hinge, a; rewrite El; f_equal; ring).
    assert (EH' : H ws' = Rmax 0 (l - t * (q * sqnorm x))) by (unfold H, hinge; rewrite E1, El; f_equal; ring).
    rewrite D1. destruct k; try contradiction; cbn [pa_kind pa_tau] in *.
    + intros Hz. rewrite EH in Hz. apply (pa_scalar _ l a); auto. lra.
    + rewrite EH, EH'. apply pa1_scalar; auto. lra.
    + rewrite EH, EH'. apply pa2_scalar; auto. lra.
Qed.
Lemma pa_passive k n d H ws ws' : pa_kind k -> (forall vs, 0 <= H vs) -> H ws' = 0 -> dist2 n d ws' ws = 0 -> aggressive k n d H ws ws'.
Proof.
  intros Hk Hn H0 D vs _ _ _. pose proof (dist2_nonneg n d vs ws). pose proof (Hn vs). rewrite D, H0. destruct k; try contradiction; cbn in Hk.
  - auto.
  - assert (0 <= C * H vs) by (apply Rmult_le_pos; lra). lra.
  - assert (0 <= C * (H vs * H vs)) by (apply Rmult_le_pos; [lra|apply Rmult_le_pos; lra]). lra.
Qed.

Lemma pa_lo k : pa_kind k -> lo_of k = 0%Z.
Proof. destruct k; cbn; tauto. Qed.
Lemma opposes_sums n y r g (s : nat -> R) : (y < n)%nat -> (r < n)%nat -> r <> y -> opposes n y r 1 g ->
  rsum n (fun j => nth j g 0 * nth j g 0) = 2 /\ rsum n (fun j => - nth j g 0 * s j) = s y - s r.
Proof.
  intros Hy Hr Hn (L & H).
  assert (N1 : forall i, (i < n)%nat -> nth i g 0 = (if Nat.eqb i r then 1 else if Nat.eqb i y then - (1) else 0)) by (intros; apply nth_error_nth; auto).
  assert (Two : forall f : nat -> R, (forall i, (i < n)%nat -> i <> r -> i <> y -> f i = 0) -> rsum n f = f r + f y).
  { intros f Hf. rewrite (rsum_at n r f (fun i => if (i =? y)%nat then f y else 0)); [|exact Hr|].
    - rewrite (rsum_at n y (fun i => if (i =? y)%nat then f y else 0) (fun _ => 0)); [|exact Hy|].
      + rewrite rsum_zero, Nat.eqb_refl. destruct (Nat.eqb_spec r y); [easy|ring].
      + intros i Hi Hiy. destruct (Nat.eqb_spec i y); [easy|reflexivity].
    - intros i Hi Hir. destruct (Nat.eqb_spec i y) as [->|Hiy]; [reflexivity|auto]. }
  split.
  - rewrite Two.
    + rewrite !N1 by auto. rewrite !Nat.eqb_refl. destruct (Nat.eqb_spec y r); [congruence|ring].
    + intros i Hi A B. rewrite N1 by auto. destruct (Nat.eqb_spec i r); [easy|]. destruct (Nat.eqb_spec i y); [easy|ring].
  - rewrite Two.
    + rewrite !N1 by auto. rewrite !Nat.eqb_refl. destruct (Nat.eqb_spec y r); [congruence|ring].
    + intros i Hi A B. rewrite N1 by auto. destruct (Nat.eqb_spec i r); [easy|]. destruct (Nat.eqb_spec i y); [easy|ring].
Qed.

Lemma agg_of k n ws H d ws' : pa_kind k -> (forall vs, 0 <= H vs) -> (k = KPA -> H ws' = 0) ->
  (forall vs, (forall j, (j < n)%nat -> nth 0 (nth j vs []) 0 = nth 0 (nth j ws []) 0) ->
  match k with
  | KPA => H vs = 0 -> dist2 n d ws' ws <= dist2 n d vs ws
  | KPA1 C => dist2 n d ws' ws / 2 + C * H ws' <= dist2 n d vs ws / 2 + C * H vs
  | KPA2 C => dist2 n d ws' ws / 2 + C * (H ws' * H ws') <= dist2 n d vs ws / 2 + C * (H vs * H vs)
  | _ => False
  end) -> aggressive k n d H ws ws'.
Proof.
  intros Hk H1 H2 H3 vs _ _ Hv. specialize (H3 vs (fun j _ => Hv j)). destruct k; try contradiction; auto.
Qed.
Section PA.
Variables (k : kind (R:=R)) (n : nat) (loss : loss_kind).
Hypothesis Hk : pa_kind k.
Hypothesis Hloss : loss_ok n loss.
Variables (x : point R) (rnd : R) (c : core (R:=R)) (e : state_of k) (lab : Z) (ps : list R) (c' : core (R:=R)) (e' : state_of k).
Hypothesis Hx : wf_point 0 x.
Hypothesis Hx1 : Forall (fun i => (1 <= i)%Z) (p_idx x).
Hypothesis Hxn : 0 < sqnorm (feats x).
Hypothesis Hlab : label_ok n (p_label x).
Hypothesis Hc : wf_core c.
Hypothesis Hn : length (c_ws c) = n.
Hypothesis Hl : c_loss c = loss.
Hypothesis Hact : c_active c <= 0.
Hypothesis Hlazy : c_lazy c = false.
Hypothesis Hb0 : 0 <= c_b0 c.
Hypothesis Hit : iterate Rnum (alg_of Rnum k) x rnd c e = Some (lab, ps, c', e').

(** What a training step does, in terms of the old weights. *)
Lemma pa_parts_m : exists d r, c_margin c' = asked c (p_label x) /\
  (c_dim c' = d /\ 1 <= d /\ c_dim c <= d)%nat /\ below d (feats x) /\ length (c_ws c') = n /\ length ps = n /\ label_of Rnum ps = Some lab /\
  (forall j, (j < n)%nat -> nth j ps 0 = lin (nth j (c_ws c) []) (feats x)) /\
  gradient Rnum loss None (p_label x) ps lab (c_g c) (asked c (p_label x)) = Some r /\ length (c_g c) = n /\
  ((l_loss r <= 0 /\ forall j i, (j < n)%nat -> nth i (nth j (c_ws c') []) 0 = nth i (nth j (c_ws c) []) 0) \/
   (0 < l_loss r /\ forall j i, (j < n)%nat -> nth i (nth j (c_ws c') []) 0 =
     nth i (nth j (c_ws c) []) 0 - pa_tau k (if (n =? 1)%nat then 1 else 2) (sqnorm (feats x)) (l_loss r) * nth j (l_grad r) 0 * (xv (feats x) i + (if (i =? 0)%nat then c_b0 c else 0)))).
Proof.
  assert (Hx' : wf_point (lo_of k) x) by now rewrite pa_lo.
  assert (Hs : sound Rnum k n loss c e).
  { split; [exact Hc|]. split; [exact Hn|]. split; [exact Hl|]. destruct k; try contradiction; exact I. }
  destruct (iterate_sound Rnum k n loss Hloss x rnd c e lab ps c' e' Hx' Hlab Hs Hit)
    as (ea & eb & c3 & e3 & q & G1 & G2 & S1 & Hd & G3 & F3 & S3 & G4 & Lps & _ & Gq & G6).
  set (d := Z.to_nat (x_dim x)) in *. set (cg := linear_update_dim Rnum d c) in *. cbv zeta in G3.
  set (c2 := set_data (set_iter cg (c_iter cg + 1)) (c_data cg + 1)) in *.
  assert (Hc3 : c3 = c2). { clear - G3 Hk. destruct k; try contradiction; cbn in G3; injection G3 as <- _; reflexivity. }
  subst c3.
  assert (CG : c_b0 cg = c_b0 c /\ c_active cg = c_active c /\ c_lazy cg = c_lazy c /\ c_g cg = c_g c /\ c_cost cg = c_cost c /\ c_margin cg = c_margin c).
  { unfold cg, linear_update_dim. destruct (_ <? _)%nat; cbn; auto 10. }
  destruct CG as (CG1 & CG2 & CG3 & CG4 & CG5 & CG6).
  assert (Hdc : (c_dim c <= c_dim cg)%nat) by (unfold cg, linear_update_dim; destruct (Nat.ltb_spec (c_dim c) d); cbn; lia).
  assert (Wg : forall j i, (j < n)%nat -> nth i (nth j (c_ws cg) []) 0 = nth i (nth j (c_ws c) []) 0).
  { intros j i Hj. unfold cg, linear_update_dim. destruct (Nat.ltb_spec (c_dim c) d); cbn; [|reflexivity].
    destruct Hc as (_ & _ & Hw & _). destruct (nth_grows n (c_dim c) d 0 (c_ws c) j i) as [E|E]; [split; auto|exact E|lia]. }
  assert (Hso : sorted_ix (feats x)) by (eapply feats_sorted; [|exact Hx]; lia).
  assert (Hbel : below (c_dim cg) (feats x)) by (eapply feats_bel; [|exact Hx|exact Hd]; lia).
  destruct (predict_real _ x 0 lab ps ltac:(lia) (proj1 S3) Hx G4) as (Elab & _ & Hps). cbn [c_ws set_data set_iter c_dim c2] in Hps. rewrite (proj1 (proj2 S1)) in Hps.
  destruct G6 as [(-> & _)|(-> & r & e4 & G6)].
  { exfalso. unfold queried in Gq. destruct (n_lt Rnum (zero Rnum) _) eqn:Ea; [|discriminate]. apply Rlt_b in Ea. unfold zero in Ea. cbn in Ea. lra. }
  cbv zeta in G6. destruct G6 as (Gr & Lr & S5 & Up & S' & Re).
  set (c4 := cost_margin_step Rnum c2 (p_label x)) in *.
  assert (W4 : c_ws c4 = c_ws cg /\ c_dim c4 = c_dim cg /\ c_b0 c4 = c_b0 c /\ c_g c4 = c_g c /\ c_lazy c4 = c_lazy c /\ c_margin c4 = asked c (p_label x)).
  { unfold c4, cost_margin_step, asked. change (c_cost c2) with (c_cost cg). rewrite CG5. destruct (c_cost c); cbn; auto 10. }
  destruct W4 as (W1 & W2 & W3 & W4 & W5 & W6).
  assert (Hm : a_margin (alg_of Rnum k) c4 e3 x = None) by (destruct k; try contradiction; reflexivity).
  rewrite Hm, W4, W6 in Gr. exists (c_dim cg), r. pose proof (none_margin _ _ _ _ _ _ _ Gr) as Em.
  assert (Hd1 : (1 <= c_dim cg)%nat) by apply S1.
  assert (Edim : c_dim c' = c_dim cg). { destruct Up as [(_ & _ & F')|(_ & -> & _)]; [destruct F' as (F' & _); rewrite F'; exact W2|exact W2]. }
  split.
  { destruct Up as [(_ & Up & _)|(_ & -> & _)]; [|exact Em]. destruct (pa_update_step k x (l_loss r) (set_upd (set_lres c4 r) (c_upd (set_lres c4 r) + 1)) e3 c' e4 Hk (proj1 S5) Hx ltac:(cbn; rewrite W2; exact Hd) Up) as (ws & -> & _). exact Em. }
  split; [auto|]. split; [exact Hbel|]. split; [apply S'|]. split; [exact Lps|]. split; [exact Elab|].
  split; [intros j Hj; rewrite (Hps j Hj), (lin_rsum _ _ (c_dim cg) Hso Hbel), (Wg j 0%nat Hj); f_equal; apply rsum_ext; intros i _; unfold dv; now rewrite (Wg j i Hj)|].
  split; [exact Gr|]. split; [destruct Hc as (_ & _ & _ & ?); congruence|].
  unfold wants_update in Up. cbn [c_lazy set_lres] in Up. rewrite W5, Hlazy in Up.
  destruct Up as [(Wu & Up & F')|(Wu & -> & ->)].
  - right. apply Rlt_b in Wu. unfold zero in Wu. cbn in Wu. split; [exact Wu|].
    destruct (pa_update_step k x (l_loss r) (set_upd (set_lres c4 r) (c_upd (set_lres c4 r) + 1)) e3 c' e4 Hk) as (ws & -> & L & St); auto.
    + exact (proj1 S5).
    + cbn. rewrite W2. exact Hd.
    + cbn [c_ws set_upd set_lres c_b0 c_g] in St. rewrite W1, W3 in St. rewrite (proj1 (proj2 S1)) in St. intros j i Hj. rewrite <- (Wg j i Hj). cbn [c_ws set_ws set_eta]. apply St. exact Hj.
  - left. apply Rlt_b_false in Wu. unfold zero in Wu. cbn in Wu. split; [exact Wu|]. intros j i Hj. cbn [c_ws set_lres]. rewrite W1. apply Wg. exact Hj.
Qed.

Lemma pa_parts : exists d r,
  (c_dim c' = d /\ 1 <= d /\ c_dim c <= d)%nat /\ below d (feats x) /\ length (c_ws c') = n /\ length ps = n /\ label_of Rnum ps = Some lab /\
  (forall j, (j < n)%nat -> nth j ps 0 = lin (nth j (c_ws c) []) (feats x)) /\
  gradient Rnum loss None (p_label x) ps lab (c_g c) (asked c (p_label x)) = Some r /\ length (c_g c) = n /\
  ((l_loss r <= 0 /\ forall j i, (j < n)%nat -> nth i (nth j (c_ws c') []) 0 = nth i (nth j (c_ws c) []) 0) \/
   (0 < l_loss r /\ forall j i, (j < n)%nat -> nth i (nth j (c_ws c') []) 0 =
     nth i (nth j (c_ws c) []) 0 - pa_tau k (if (n =? 1)%nat then 1 else 2) (sqnorm (feats x)) (l_loss r) * nth j (l_grad r) 0 * (xv (feats x) i + (if (i =? 0)%nat then c_b0 c else 0)))).
Proof. destruct pa_parts_m as (d & r & _ & H). exists d, r. exact H. Qed.

Lemma hinge_nonneg m z : 0 <= hinge m z.
Proof. apply Rmax_l. Qed.
Lemma pa_binary : n = 1%nat -> loss = LHinge -> (p_label x = 1 \/ p_label x = -1)%Z ->
  let H := fun vs => hinge (asked c (p_label x)) (IZR (p_label x) * lin (nth 0 vs []) (feats x)) in
  (k = KPA -> H (c_ws c') = 0) /\ (H (c_ws c) = 0 -> forall i, nth i (nth 0 (c_ws c') []) 0 = nth i (nth 0 (c_ws c) []) 0) /\
  (c_b0 c = 0 -> aggressive k 1 (c_dim c') H (c_ws c) (c_ws c')).
Proof.
  intros E1 El Hy H. destruct pa_parts as (d & r & (Ed & Hd1 & Hdc) & Hbel & Lws' & Lps & Elab & Hps & Gr & Lg & St).
  assert (Hso : sorted_ix (feats x)) by (eapply feats_sorted; [|exact Hx]; lia).
  assert (H0 : ~ In 0%Z (map fst (feats x))) by (eapply no_zero; eauto).
  rewrite Ed. rewrite E1 in *. rewrite El in Gr.
  destruct ps as [|s [|? ?]]; try discriminate Lps. destruct (c_g c) as [|g0 [|? ?]]; try discriminate Lg.
  destruct (hinge_gradient _ _ _ _ _ _ _ _ _ Gr) as (A & B & Cg). specialize (B eq_refl). rewrite B in A. specialize (Hps 0%nat ltac:(lia)). cbn [nth] in Hps.
  assert (EH : l_loss r = H (c_ws c)) by (rewrite A, Hps; unfold H, hinge; f_equal; ring).
  assert (HH : forall vs, 0 <= H vs) by (intros; apply hinge_nonneg).
  destruct St as [(Sl & St)|(Sl & St)].
  - assert (Z0 : H (c_ws c) = 0) by (specialize (HH (c_ws c)); lra).
    assert (Z1 : H (c_ws c') = 0).
    { unfold H. rewrite <- Z0. unfold H. do 2 f_equal. rewrite !(lin_rsum _ _ d Hso Hbel). rewrite (St 0%nat 0%nat) by lia. f_equal. apply rsum_ext. intros. now rewrite (St 0%nat) by lia. }
    split; [auto|]. split; [intros _ i; apply St; lia|]. intros _. apply pa_passive; auto. unfold dist2. rewrite (rsum_ext _ _ (fun _ => 0)), rsum_zero; [reflexivity|].
    intros j Hj. rewrite (rsum_ext _ _ (fun _ => 0)), rsum_zero; [reflexivity|]. intros i _. rewrite (St j i Hj). ring.
  - rewrite Cg in St. destruct (Rlt_dec 0 (l_loss r)); [|lra].
    set (g := fun j : nat => - IZR (p_label x)).
    assert (Gq : rsum 1 (fun j => g j * g j) = 1) by (cbn [rsum]; unfold g; destruct Hy as [-> | ->]; lra).
    assert (ES : forall vs, Sc 1 (feats x) g vs = IZR (p_label x) * lin (nth 0 vs []) (feats x)) by (intros; unfold Sc, g; cbn [rsum]; ring).
    destruct (pa_optimal k 1 d (feats x) g (c_ws c) (c_ws c') (asked c (p_label x)) (c_b0 c) Hk Hd1 Hso H0 Hbel Hxn Gq Hb0) as (O1 & O2).
    { rewrite ES. change (0 < H (c_ws c)). lra. }
    { intros j i Hj. replace j with 0%nat by lia. rewrite (St 0%nat i) by lia. cbn [nth Nat.eqb]. rewrite ES. change (hinge _ _) with (H (c_ws c)). now rewrite <- EH. }
    rewrite ES in O1. split; [exact O1|]. split; [lra|]. intros Eb. specialize (O2 Eb). apply agg_of; [exact Hk|exact HH|exact O1|].
    intros vs Hv. specialize (O2 vs Hv). clear - O2 ES Hk. destruct k; try contradiction; cbv zeta in O2; rewrite !ES in O2; exact O2.
Qed.
Lemma pa_multi : loss = LMaxHinge -> (n <> 1)%nat -> Forall (fun v => - fmax < v) ps ->
  let y := Z.to_nat (p_label x) in exists r, best_other ps y r /\ (r < n)%nat /\
  let H := fun vs => hinge (asked c (p_label x)) (lin (nth y vs []) (feats x) - lin (nth r vs []) (feats x)) in
  (k = KPA -> H (c_ws c') = 0) /\ (H (c_ws c) = 0 -> forall j i, (j < n)%nat -> nth i (nth j (c_ws c') []) 0 = nth i (nth j (c_ws c) []) 0) /\
  (c_b0 c = 0 -> aggressive k n (c_dim c') H (c_ws c) (c_ws c')) /\
  (k = KPA -> forall j, (j < n)%nat -> j <> y -> hinge (asked c (p_label x)) (lin (nth y (c_ws c') []) (feats x) - lin (nth j (c_ws c') []) (feats x)) <= H (c_ws c) / 2).
Proof.
  intros El Hn1 Hf y. destruct pa_parts as (d & r & (Ed & Hd1 & Hdc) & Hbel & Lws' & Lps & Elab & Hps & Gr & Lg & St).
  assert (Hso : sorted_ix (feats x)) by (eapply feats_sorted; [|exact Hx]; lia).
  assert (H0 : ~ In 0%Z (map fst (feats x))) by (eapply no_zero; eauto).
  rewrite Ed. rewrite El in Gr.
  assert (Hl' : (0 <= p_label x < Z.of_nat n)%Z) by (destruct Hlab; [lia|auto]).
  destruct (max_hinge_gradient None (p_label x) ps lab (c_g c) (asked c (p_label x)) r ltac:(congruence) ltac:(lia) ltac:(lia) Hf Elab Gr) as (rv & own & riv & Hbest & Ho & Hr & A & Hrn & Hop).
  rewrite (none_margin _ _ _ _ _ _ _ Gr) in A. fold y in Hbest, Ho, Hop. rewrite Lps in Hrn, Hop. assert (Hyn : (y < n)%nat) by (unfold y; lia).
  pose proof Hbest as (Hry & b & Hb & Hbmax & _).
  assert (Eo : own = lin (nth y (c_ws c) []) (feats x)) by (rewrite <- (Hps y Hyn); symmetry; now apply nth_error_nth).
  assert (Er : riv = lin (nth rv (c_ws c) []) (feats x)) by (rewrite <- (Hps rv Hrn); symmetry; now apply nth_error_nth).
  exists rv. split; [exact Hbest|]. split; [exact Hrn|]. intros H.
  assert (EH : l_loss r = H (c_ws c)) by (rewrite A, Eo, Er; unfold H, hinge; f_equal; ring).
  assert (HH : forall vs, 0 <= H vs) by (intros; apply hinge_nonneg).
  assert (Others : forall j, (j < n)%nat -> j <> y -> lin (nth j (c_ws c) []) (feats x) <= lin (nth rv (c_ws c) []) (feats x)).
  { intros j Hj Hjy. rewrite <- Er. rewrite Hr in Hb. apply Some_inj in Hb. rewrite Hb. rewrite <- (Hps j Hj). apply (Hbmax j); auto. apply nth_error_nth'. lia. }
  destruct St as [(Sl & St)|(Sl & St)].
  - assert (Z0 : H (c_ws c) = 0) by (specialize (HH (c_ws c)); lra).
    assert (EL : forall j, (j < n)%nat -> lin (nth j (c_ws c') []) (feats x) = lin (nth j (c_ws c) []) (feats x)).
    { intros j Hj. rewrite !(lin_rsum _ _ d Hso Hbel). rewrite (St j 0%nat Hj). f_equal. apply rsum_ext. intros. now rewrite (St j _ Hj). }
    assert (Z1 : H (c_ws c') = 0) by (rewrite <- Z0; unfold H; now rewrite !EL).
    split; [auto|]. split; [intros _; exact St|]. split.
    + intros _. apply pa_passive; auto. unfold dist2. rewrite (rsum_ext _ _ (fun _ => 0)), rsum_zero; [reflexivity|].
      intros j Hj. rewrite (rsum_ext _ _ (fun _ => 0)), rsum_zero; [reflexivity|]. intros i _. rewrite (St j i Hj). ring.
    + intros _ j Hj Hjy. rewrite !EL by auto. specialize (Others j Hj Hjy). rewrite Z0. unfold H, hinge in Z0. unfold hinge.
      assert (M := Rmax_r 0 (asked c (p_label x) - (lin (nth y (c_ws c) []) (feats x) - lin (nth rv (c_ws c) []) (feats x)))). rewrite Rmax_left; lra.
  - specialize (Hop Sl). set (g := fun j : nat => nth j (l_grad r) 0).
    assert (Eq : (if (n =? 1)%nat then 1 else 2) = 2) by (destruct (Nat.eqb_spec n 1); [easy|reflexivity]).
    assert (Gq : rsum n (fun j => g j * g j) = if (n =? 1)%nat then 1 else 2) by (rewrite Eq; exact (proj1 (opposes_sums n y rv _ g Hyn Hrn Hry Hop))).
    assert (ES : forall vs, Sc n (feats x) g vs = lin (nth y vs []) (feats x) - lin (nth rv vs []) (feats x)).
    { intros vs. exact (proj2 (opposes_sums n y rv _ (fun j => lin (nth j vs []) (feats x)) Hyn Hrn Hry Hop)). }
    destruct (pa_optimal k n d (feats x) g (c_ws c) (c_ws c') (asked c (p_label x)) (c_b0 c) Hk Hd1 Hso H0 Hbel Hxn Gq Hb0) as (O1 & O2).
    { rewrite ES. change (0 < H (c_ws c)). lra. }
    { intros j i Hj. rewrite (St j i Hj), ES. change (hinge _ _) with (H (c_ws c)). now rewrite <- EH. }
    rewrite ES in O1. split; [exact O1|]. split; [lra|]. split.
    + intros Eb. specialize (O2 Eb). apply agg_of; auto. intros vs Hv. specialize (O2 vs Hv). clear - O2 ES Hk. destruct k; try contradiction; cbv zeta in O2; rewrite !ES in O2; exact O2.
    + intros Ek j Hj Hjy. specialize (O1 Ek).
      (* scores after the step *)
      assert (SL : forall j, (j < n)%nat -> lin (nth j (c_ws c') []) (feats x) = lin (nth j (c_ws c) []) (feats x) - pa_tau k 2 (sqnorm (feats x)) (l_loss r) * g j * (sqnorm (feats x) + c_b0 c)).
      { intros j0 Hj0. rewrite !(lin_rsum _ _ d Hso Hbel), (St j0 0%nat Hj0). cbn [Nat.eqb]. rewrite (xv_notin (feats x) 0) by exact H0.
        rewrite (rsum_ext d (fun i => nth i (nth j0 (c_ws c') []) 0 * xv (feats x) i) (fun i => nth i (nth j0 (c_ws c) []) 0 * xv (feats x) i - pa_tau k 2 (sqnorm (feats x)) (l_loss r) * g j0 * (xv (feats x) i * xv (feats x) i))).
        - rewrite rsum_minus, rsum_scal, (sqnorm_rsum d _ Hso Hbel), Eq. unfold g. ring.
        - intros i _. rewrite (St j0 i Hj0), Eq. unfold g. destruct (Nat.eqb_spec i 0) as [->|Hi]; [rewrite (xv_notin (feats x) 0) by exact H0|]; ring. }
      destruct Hop as (_ & Hop).
      assert (N1 : forall i, (i < n)%nat -> g i = (if Nat.eqb i rv then 1 else if Nat.eqb i y then - (1) else 0)) by (intros; apply nth_error_nth; auto).
      set (t := pa_tau k 2 (sqnorm (feats x)) (l_loss r)) in *.
      assert (Et : l_loss r / 2 <= t * (sqnorm (feats x) + c_b0 c)).
      { unfold t. rewrite Ek. cbn [pa_tau]. replace (l_loss r / (2 * sqnorm (feats x)) * (sqnorm (feats x) + c_b0 c)) with (l_loss r / 2 + l_loss r / 2 * (c_b0 c / sqnorm (feats x))) by (field; lra).
        assert (0 <= l_loss r / 2 * (c_b0 c / sqnorm (feats x))); [|lra]. apply Rmult_le_pos; [lra|]. apply Rmult_le_pos; [lra|]. left. now apply Rinv_0_lt_compat. }
      assert (Gy : g y = -1) by (rewrite N1 by auto; destruct (Nat.eqb_spec y rv); [congruence|]; rewrite Nat.eqb_refl; ring).
      assert (Gj : 0 <= g j) by (rewrite N1 by auto; destruct (Nat.eqb_spec j rv); [lra|]; destruct (Nat.eqb_spec j y); [easy|lra]).
      rewrite !SL by auto. rewrite Gy. specialize (Others j Hj Hjy).
      assert (L1 : l_loss r = asked c (p_label x) - (lin (nth y (c_ws c) []) (feats x) - lin (nth rv (c_ws c) []) (feats x))).
      { rewrite EH in Sl |- *. unfold H, hinge, Rmax in Sl |- *. destruct (Rle_dec 0 _); lra. }
      assert (0 <= t * g j * (sqnorm (feats x) + c_b0 c)). { replace (t * g j * (sqnorm (feats x) + c_b0 c)) with (g j * (t * (sqnorm (feats x) + c_b0 c))) by ring. apply Rmult_le_pos; lra. }
      unfold hinge. apply Rmax_lub; rewrite <- EH; lra.
Qed.
End PA.
