(** The single-precision instance computes correctly rounded results: the standard library's
    SpecFloat operations agree with Flocq's, whose correctness theorems are used. *)
From Coq Require Import Reals SpecFloat Lra Lia Psatz.
From Flocq Require Import Core BinarySingleNaN.
From Verif Require Import M_Base M_Num M_Tools.
Local Open Scope R_scope.

Local Instance Hprec : FLX.Prec_gt_0 f32_prec := eq_refl _.
Local Instance Hmax : Prec_lt_emax f32_prec f32_emax := eq_refl _.
Definition b32 := binary_float f32_prec f32_emax.
Definition emin32 : Z := (-149)%Z.
(** Rounding to the nearest float, ties to even, without overflow. *)
Definition rnd32 : R -> R := round radix2 (FLT_exp emin32 f32_prec) ZnearestE.
Definition is32 : R -> Prop := generic_format radix2 (FLT_exp emin32 f32_prec).

Lemma fexp32 : fexp f32_prec f32_emax = FLT_exp emin32 f32_prec.
Proof. reflexivity. Qed.
#[local] Instance valid32 : Valid_exp (FLT_exp emin32 f32_prec) := FLT_exp_valid emin32 f32_prec.

Lemma nearest_even_equiv s m l : round_nearest_even m l = choice_mode mode_NE s m l.
Proof. case l; [reflexivity|intro c]. case c; [ | reflexivity..]. now simpl; unfold Round.cond_incr; case Z.even. Qed.
Lemma round_aux_equiv sx mx ex lx : SpecFloat.binary_round_aux f32_prec f32_emax sx mx ex lx = binary_round_aux f32_prec f32_emax mode_NE sx mx ex lx.
Proof.
  unfold SpecFloat.binary_round_aux, binary_round_aux. set (mrse' := shr_fexp _ _ _ _ _). case mrse'; intros mrs' e'; simpl.
  now rewrite (nearest_even_equiv sx).
Qed.
Lemma round_equiv s m e : SpecFloat.binary_round f32_prec f32_emax s m e = binary_round f32_prec f32_emax mode_NE s m e.
Proof. unfold SpecFloat.binary_round, binary_round, shl_align_fexp. set (mez := shl_align _ _ _); case mez as [mz ez]. apply round_aux_equiv. Qed.
Lemma normalize_equiv m e szero : SpecFloat.binary_normalize f32_prec f32_emax m e szero = B2SF (binary_normalize f32_prec f32_emax Hprec Hmax mode_NE m e szero).
Proof.
  case m as [ | p | p]; [now simpl| |]; simpl; rewrite B2SF_SF2B; apply round_equiv.
Qed.
Lemma div_equiv (x y : b32) : SFdiv f32_prec f32_emax (B2SF x) (B2SF y) = B2SF (Bdiv mode_NE x y).
Proof.
  destruct x as [sx|sx| |sx mx ex Bx], y as [sy|sy| |sy my ey By]; [now (trivial || simpl; case Bool.eqb).. | ].
  simpl. rewrite B2SF_SF2B. set (melz := SFdiv_core_binary _ _ _ _ _ _). case melz as [[mz ez] lz]. apply round_aux_equiv.
Qed.

(** Integers up to 2^24 in absolute value are floats. *)
Lemma int_is32 z : (Z.abs z <= 2 ^ 24)%Z -> is32 (IZR z).
Proof.
  intros H. unfold is32. destruct (Z.eq_dec (Z.abs z) (2 ^ 24)) as [E|E].
  - assert (P : is32 (bpow radix2 24)) by (apply generic_format_bpow; cbv; discriminate).
    destruct (Z.abs_spec z) as [(_ & A)|(_ & A)]; rewrite A in E.
    + rewrite E. exact P.
    + replace z with (- 2 ^ 24)%Z by lia. rewrite opp_IZR. apply generic_format_opp. exact P.
  - apply generic_format_FLT. apply (FLT_spec _ _ _ _ (Float radix2 z 0)); cbn; [|lia|unfold emin32; lia].
    unfold F2R. cbn. ring.
Qed.
Lemma rnd32_int z : (Z.abs z <= 2 ^ 24)%Z -> rnd32 (IZR z) = IZR z.
Proof. intros H. apply round_generic; [typeclasses eauto|]. now apply int_is32. Qed.

(** Conversion from an integer of the size_t range. *)
Lemma int_correct z : (0 <= z <= 2 ^ 64)%Z -> exists b : b32, f32_int z = B2SF b /\ is_finite b = true /\ B2R b = rnd32 (IZR z) /\ 0 <= B2R b <= bpow radix2 64.
Proof.
  intros H. exists (binary_normalize f32_prec f32_emax Hprec Hmax mode_NE z 0 false). split; [apply normalize_equiv|].
  assert (A := binary_normalize_correct f32_prec f32_emax Hprec Hmax mode_NE z 0 false). cbv zeta in A.
  replace (F2R (Float radix2 z 0)) with (IZR z) in A by (unfold F2R; cbn; ring).
  fold (rnd32 (IZR z)) in A. change (round radix2 (SpecFloat.fexp f32_prec f32_emax) (round_mode mode_NE) (IZR z)) with (rnd32 (IZR z)) in A.
  assert (B : 0 <= rnd32 (IZR z) <= bpow radix2 64).
  { split.
    - apply round_ge_generic; [typeclasses eauto..|apply generic_format_0|apply IZR_le; lia].
    - apply round_le_generic; [typeclasses eauto..|apply generic_format_bpow; cbv; discriminate|]. change (bpow radix2 64) with (IZR (2 ^ 64)). apply IZR_le. lia. }
  rewrite Rlt_bool_true in A.
  - destruct A as (A1 & A2 & _). rewrite A1. auto.
  - rewrite Rabs_pos_eq by lra. apply Rle_lt_trans with (1 := proj2 B). apply bpow_lt. reflexivity.
Qed.
(** Division of two such numbers. *)
Lemma div_correct (x y : b32) : is_finite x = true -> 0 <= B2R x <= bpow radix2 64 -> 1 <= B2R y ->
  exists b : b32, SFdiv f32_prec f32_emax (B2SF x) (B2SF y) = B2SF b /\ is_finite b = true /\ B2R b = rnd32 (B2R x / B2R y).
Proof.
  intros Fx Hx Hy. exists (Bdiv mode_NE x y). split; [apply div_equiv|].
  assert (A := Bdiv_correct f32_prec f32_emax Hprec Hmax mode_NE x y ltac:(lra)).
  change (round radix2 (SpecFloat.fexp f32_prec f32_emax) (round_mode mode_NE) (B2R x / B2R y)) with (rnd32 (B2R x / B2R y)) in A.
  assert (B : 0 <= B2R x / B2R y <= bpow radix2 64).
  { split.
    - apply Rmult_le_pos; [lra|]. left. apply Rinv_0_lt_compat. lra.
    - apply Rmult_le_reg_r with (B2R y); [lra|]. replace (B2R x / B2R y * B2R y) with (B2R x) by (field; lra). nra. }
  assert (C : 0 <= rnd32 (B2R x / B2R y) <= bpow radix2 64).
  { split.
    - apply round_ge_generic; [typeclasses eauto..|apply generic_format_0|lra].
    - apply round_le_generic; [typeclasses eauto..|apply generic_format_bpow; cbv; discriminate|lra]. }
  rewrite Rlt_bool_true in A.
  - destruct A as (A1 & A2 & _). rewrite A1, A2. auto.
  - rewrite Rabs_pos_eq by lra. apply Rle_lt_trans with (1 := proj2 C). apply bpow_lt. reflexivity.
Qed.
(** ceil of a finite float. *)
Lemma ceil_correct (b : b32) : is_finite b = true -> f32_ceil (B2SF b) = Some (Zceil (B2R b)).
Proof.
  destruct b as [s|s| |s m e Bm]; cbn [B2SF is_finite f32_ceil]; try discriminate; intros _.
  - f_equal. cbn. symmetry. apply (Zceil_IZR 0).
  - f_equal. set (v := if s then Z.neg m else Z.pos m). cbn [B2R].
    replace (F2R (Float radix2 (cond_Zopp s (Z.pos m)) e)) with (IZR v * bpow radix2 e) by (unfold F2R, v; cbn; destruct s; reflexivity).
    destruct (Z.leb_spec 0 e) as [He|He].
    + rewrite <- IZR_Zpower by lia. rewrite <- mult_IZR. symmetry. apply Zceil_IZR.
    + unfold Zceil. f_equal. replace (- (IZR v * bpow radix2 e)) with (IZR (- v) / IZR (2 ^ (- e))).
      * symmetry. apply Zfloor_div. assert (0 < 2 ^ (- e))%Z by (apply Z.pow_pos_nonneg; lia). lia.
      * replace e with (- (- e))%Z at 2 by lia. rewrite bpow_opp, <- IZR_Zpower by lia. rewrite opp_IZR. change (Zpower radix2 (- e)) with (2 ^ (- e))%Z. unfold Rdiv. ring.
Qed.

(** The fold size of split: the exact quotient rounded up, for at most 2^24 examples. *)
Lemma fold_size_correct n k : (1 <= n <= 2 ^ 24)%Z -> (1 <= k < 2 ^ 31)%Z -> fold_size n k = Some ((n + k - 1) / k)%Z.
Proof.
  intros Hn Hk. destruct (int_correct n ltac:(lia)) as (x & Ex & Fx & Rx & Bx). destruct (int_correct k ltac:(lia)) as (y & Ey & Fy & Ry & By).
  rewrite rnd32_int in Rx by lia.
  assert (K1 : 1 <= B2R y).
  { rewrite Ry. apply round_ge_generic; [typeclasses eauto..|apply (int_is32 1); cbv; discriminate|apply IZR_le; lia]. }
  assert (K31 : B2R y <= bpow radix2 31).
  { rewrite Ry. apply round_le_generic; [typeclasses eauto..|apply generic_format_bpow; cbv; discriminate|]. change (bpow radix2 31) with (IZR (2 ^ 31)). apply IZR_le. lia. }
  destruct (div_correct x y Fx Bx K1) as (b & Eb & Fb & Rb). unfold fold_size. rewrite Ex, Ey, Eb, ceil_correct by exact Fb. cbn [bind].
  rewrite Rb, Rx. clear Ex Ey Eb Rb b Fb Bx By Fx Fy. set (q := IZR n / B2R y). set (r := rnd32 q).
  set (m := ((n + k - 1) / k)%Z).
  assert (M : (1 <= m <= 2 ^ 24 /\ (m - 1) * k < n <= m * k)%Z).
  { pose proof (Z.div_mod (n + k - 1) k ltac:(lia)) as D. pose proof (Z.mod_pos_bound (n + k - 1) k ltac:(lia)) as D2. fold m in D.
    split; [|nia]. split; [nia|]. assert (m - 1 < 2 ^ 24)%Z; [|lia]. assert ((m - 1) * k < 2 ^ 24)%Z by lia. nia. }
  assert (IN : 1 <= IZR n) by (apply IZR_le; lia).
  assert (Qp : bpow radix2 (-31) <= q).
  { unfold q. apply Rmult_le_reg_r with (B2R y); [lra|]. replace (IZR n / B2R y * B2R y) with (IZR n) by (field; lra).
    apply Rle_trans with (bpow radix2 (-31) * bpow radix2 31); [apply Rmult_le_compat_l; [apply bpow_ge_0|exact K31]|]. rewrite <- bpow_plus. cbn. lra. }
  assert (Rp : bpow radix2 (-31) <= r).
  { apply round_ge_generic; [typeclasses eauto..|apply generic_format_bpow; cbv; discriminate|exact Qp]. }
  assert (Rp0 : 0 < r) by (apply Rlt_le_trans with (2 := Rp); apply bpow_gt_0).
  assert (C : Zceil r = m).
  { apply Zceil_imp. destruct (Z_le_gt_dec k (2 ^ 24)) as [Lk|Gk].
    - assert (Ek : B2R y = IZR k) by (rewrite Ry; apply rnd32_int; lia). assert (Eq : q = IZR n / IZR k) by (unfold q; now rewrite Ek).
      assert (IK : 1 <= IZR k) by (apply IZR_le; lia).
      assert (Qk : q * IZR k = IZR n) by (rewrite Eq; field; lra).
      assert (Q1 : q <= IZR m). { apply Rmult_le_reg_r with (IZR k); [lra|]. rewrite Qk, <- mult_IZR. apply IZR_le. lia. }
      assert (Q2 : IZR (m - 1) * IZR k + 1 <= q * IZR k). { rewrite Qk, <- mult_IZR. change 1 with (IZR 1). rewrite <- plus_IZR. apply IZR_le. lia. }
      split; [|apply round_le_generic; [typeclasses eauto..|apply int_is32; lia|exact Q1]].
      assert (Q3 : IZR (m - 1) <= q) by nra.
      assert (R3 : IZR (m - 1) <= r) by (apply round_ge_generic; [typeclasses eauto..|apply int_is32; lia|exact Q3]).
      destruct (Rle_lt_or_eq_dec _ _ R3) as [L|E]; [exact L|]. exfalso.
      destruct (Z.eq_dec m 1) as [->|Nm]; [cbn in E; lra|].
      assert (H1 : Rabs (r - q) <= / 2 * ulp radix2 (FLT_exp emin32 f32_prec) r) by (apply error_le_half_ulp_round; typeclasses eauto).
      assert (H2 : ulp radix2 (FLT_exp emin32 f32_prec) r <= Rabs r * bpow radix2 (1 - f32_prec)).
      { apply ulp_FLT_le. rewrite Rabs_pos_eq by lra. apply Rle_trans with 1.
        - apply (bpow_le radix2 _ 0). cbv. discriminate.
        - rewrite <- E. change 1 with (IZR 1). apply IZR_le. lia. }
      rewrite (Rabs_pos_eq r) in H2 by lra. rewrite <- E in H1, H2. rewrite Rabs_left1 in H1 by lra.
      assert (B24 : bpow radix2 (1 - f32_prec) = / IZR (2 ^ 23)) by reflexivity. rewrite B24 in H2.
      assert (H3 : q - IZR (m - 1) <= IZR (m - 1) * / IZR (2 ^ 24)).
      { replace (/ IZR (2 ^ 24)) with (/ 2 * / IZR (2 ^ 23)); [lra|]. rewrite <- Rinv_mult. rewrite <- mult_IZR. reflexivity. }
      assert (H4 : 1 <= IZR (m - 1) * / IZR (2 ^ 24) * IZR k) by nra.
      assert (H5 : IZR (2 ^ 24) <= IZR ((m - 1) * k)).
      { rewrite mult_IZR. assert (P : 0 < IZR (2 ^ 24)) by (apply (IZR_lt 0); reflexivity).
        apply Rmult_le_compat_r with (r := IZR (2 ^ 24)) in H4; [|lra]. rewrite Rmult_1_l in H4.
        replace (IZR (m - 1) * / IZR (2 ^ 24) * IZR k * IZR (2 ^ 24)) with (IZR (m - 1) * IZR k) in H4 by (field; lra). exact H4. }
      apply le_IZR in H5. lia.
    - assert (Em : m = 1%Z) by nia. rewrite Em. split; [cbn; exact Rp0|].
      assert (KL : IZR (2 ^ 24) <= B2R y). { rewrite Ry. apply round_ge_generic; [typeclasses eauto..|apply int_is32; cbv; discriminate|apply IZR_le; lia]. }
      apply round_le_generic; [typeclasses eauto..|apply (int_is32 1); cbv; discriminate|].
      unfold q. apply Rmult_le_reg_r with (B2R y); [lra|]. replace (IZR n / B2R y * B2R y) with (IZR n) by (field; lra). rewrite Rmult_1_l.
      apply Rle_trans with (2 := KL). apply IZR_le. lia. }
  rewrite C. unfold to_size, two64. replace ((0 <=? m) && (m <? 18446744073709551616))%Z with true by (symmetry; apply andb_true_intro; split; [apply Z.leb_le|apply Z.ltb_lt]; lia). reflexivity.
Qed.
