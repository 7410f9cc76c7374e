(** Proofs about saving and loading, single precision, part 2: a number that was printed and read prints as before. *)
From Coq Require Import Reals QArith Qreals Lra SpecFloat String.
From Flocq Require Import Core BinarySingleNaN.
From Verif Require Import M_Base M_Num M_Text S_Text M_Str M_Save S_Save M_SaveF32 P_F32 P_SaveF32.
Local Open Scope R_scope.
Local Notation p10 := (bpow radix10).

Lemma dec6_same d d' : dec6_ok d -> dec6_ok d' -> (0 < d_sig d)%Z -> (0 < d_sig d')%Z -> d_neg d' = d_neg d ->
  IZR (d_sig d') * p10 (d_ex d' - 5) = IZR (d_sig d) * p10 (d_ex d - 5) -> d' = d.
Proof.
  intros [|[Hs _]] [|[Hs' _]] P P' Sg E; try lia.
  assert (X : forall a b, (100000 <= d_sig a <= 999999)%Z -> (100000 <= d_sig b <= 999999)%Z -> IZR (d_sig a) * p10 (d_ex a - 5) = IZR (d_sig b) * p10 (d_ex b - 5) -> (d_ex b <= d_ex a)%Z).
  { intros a b Ha Hb Q. destruct (Z.lt_ge_cases (d_ex a) (d_ex b)) as [L|L]; [exfalso|exact L].
    assert (B : p10 (d_ex a - 5) * 10 <= p10 (d_ex b - 5)).
    { replace 10 with (p10 1) by reflexivity. rewrite <- bpow_plus. apply bpow_le. lia. }
    pose proof (bpow_gt_0 radix10 (d_ex a - 5)) as Pa. assert (IZR (d_sig a) <= 999999) by (apply IZR_le; lia). assert (100000 <= IZR (d_sig b)) by (apply IZR_le; lia). nra. }
  assert (Ex : d_ex d' = d_ex d) by (apply Z.le_antisymm; [apply (X d d')|apply (X d' d)]; auto).
  rewrite Ex in E. apply Rmult_eq_reg_r in E; [|apply Rgt_not_eq, bpow_gt_0]. apply eq_IZR in E. destruct d, d'; cbn in *. congruence.
Qed.

(** Normal numbers and zero. *)
Definition settled (x : f32) : Prop := x = S754_zero false \/ exists b : b32, x = B2SF b /\ is_finite b = true /\ bpow radix2 (-125) <= Rabs (B2R b).
Lemma f32_settled x : settled x -> exists x', reads_back f32_print f32_strtof x x' /\ f32_print x' = f32_print x /\ exact f32_print f32_strtof x'.
Proof.
  intros [->|(b & -> & Fb & L)].
  - exists (S754_zero false). assert (E : exact f32_print f32_strtof (S754_zero false)) by exact (f32_exact_int 0 ltac:(cbn; lia)). now repeat split.
  - destruct b as [s|s| |s m e Hb]; try discriminate.
    { exfalso. cbn [B2R] in L. rewrite Rabs_R0 in L. pose proof (bpow_gt_0 radix2 (-125)). lra. }
    destruct (print_spec s m e Hb) as (d & Pd & Ok & Sd & Pos & E1 & V6 & _). cbv zeta in *.
    set (q := IZR (Z.pos m) * bpow radix2 e) in *. set (v := IZR (d_sig d) * p10 (d_ex d - 5)) in *.
    assert (Hq : 0 < q) by (unfold q; apply Rmult_lt_0_compat; [apply IZR_lt; lia|apply bpow_gt_0]).
    assert (Hv : 0 < v) by (unfold v; apply Rmult_lt_0_compat; [apply IZR_lt; lia|apply bpow_gt_0]).
    set (sg := if s then -1 else 1).
    assert (Sv : IZR (dec6_signed d) * p10 (d_ex d - 5) = sg * v).
    { unfold dec6_signed, v, sg. rewrite Sd. destruct s; [rewrite opp_IZR|]; ring. }
    assert (Asg : forall x, Rabs (sg * x) = Rabs x) by (intros x; rewrite Rabs_mult; unfold sg; destruct s; [rewrite Rabs_left1 by lra|rewrite Rabs_pos_eq by lra]; ring).
    assert (Lq : bpow radix2 (-125) <= q).
    { replace (Rabs (B2R (B754_finite s m e Hb))) with q in L; [exact L|]. replace (B2R (B754_finite s m e Hb)) with (sg * q); [now rewrite Asg, Rabs_pos_eq by lra|].
      cbn [B2R]. unfold F2R, q, sg. cbn [Fnum Fexp]. destruct s; cbn [cond_Zopp]; [rewrite opp_IZR|]; ring. }
    assert (Lv : bpow radix2 (-126) <= v).
    { replace (bpow radix2 (-125)) with (2 * bpow radix2 (-126)) in Lq by (change (-125)%Z with (1 + -126)%Z; rewrite bpow_plus; reflexivity).
      apply Rabs_le_inv in E1. pose proof (bpow_gt_0 radix2 (-126)). lra. }
    assert (NO : Rabs (rnd32 (IZR (dec6_signed d) * p10 (d_ex d - 5))) < bpow radix2 128).
    { rewrite Sv. apply no_overflow. rewrite Asg, Rabs_pos_eq by lra. exact V6. }
    destruct (strtof_correct _ _ NO) as (b' & St & Fb' & Vb & Sgb). exists (B2SF b').
    assert (Rb : reads_back f32_print f32_strtof (B2SF (B754_finite s m e Hb)) (B2SF b')).
    { exists d. split; [exact Pd|]. split; [exact Ok|]. intros m' e' Hm. apply Qeq_eqR in Hm. rewrite Q2R_dec, dec6_value in Hm by exact Pos.
      refine (eq_trans _ St). apply strtof_det; [exact NO|now symmetry]. }
    split; [exact Rb|].
    assert (Er : Rabs (B2R b' - sg * v) <= / IZR (2 ^ 24) * v).
    { rewrite Vb, Sv. pose proof (rnd_err_normal (sg * v)) as E. rewrite Asg, Rabs_pos_eq in E by lra. now apply E. }
    assert (Sb : Bsign b' = s). { rewrite Sgb. unfold dec6_signed. rewrite Sd. destruct s; [apply Z.ltb_lt|apply Z.ltb_ge]; lia. }
    assert (Pr : f32_print (B2SF b') = PNum d).
    { destruct b' as [s'|s'| |s' m' e' Hb']; try discriminate.
      - exfalso. cbn [B2R] in Er. rewrite Rminus_0_l, Rabs_Ropp, Asg, Rabs_pos_eq in Er by lra. change (IZR (2 ^ 24)) with 16777216 in Er. lra.
      - cbn [Bsign] in Sb. subst s'. destruct (print_spec s m' e' Hb') as (d' & Pd' & Ok' & Sd' & Pos' & _ & _ & Ex). cbv zeta in *. cbn [B2SF]. rewrite Pd'. f_equal.
        apply dec6_same; auto; [congruence|]. destruct Ok as [|[Hs He]]; [lia|].
        apply (Ex (d_sig d) (d_ex d - 5)%Z ltac:(lia)). fold v. set (q' := IZR (Z.pos m') * bpow radix2 e') in *.
        replace (B2R (B754_finite s m' e' Hb')) with (sg * q') in Er.
        + replace (sg * q' - sg * v) with (sg * (q' - v)) in Er by ring. now rewrite Asg in Er.
        + cbn [B2R]. unfold F2R, q', sg. cbn [Fnum Fexp]. destruct s; cbn [cond_Zopp]; [rewrite opp_IZR|]; ring. }
    split; [cbn [B2SF] in *; congruence|]. exists d. split; [exact Pr|]. split; [exact Ok|]. destruct Rb as (d2 & P2 & _ & H). cbn [B2SF] in P2. rewrite Pd in P2. injection P2 as <-. exact H.
Qed.
Lemma settled_int z : (0 < Z.abs z <= 999999)%Z -> settled (f32_int z).
Proof.
  intros Hz. unfold f32_int. rewrite normalize_equiv.
  pose proof (binary_normalize_correct f32_prec f32_emax Hprec Hmax mode_NE z 0 false) as A.
  assert (E : F2R (Float radix2 z 0) = IZR z) by (unfold F2R; cbn; ring).
  cbv zeta in A. rewrite E in A.
  change (round radix2 (SpecFloat.fexp f32_prec f32_emax) (round_mode mode_NE) (IZR z)) with (rnd32 (IZR z)) in A.
  assert (H24 : (Z.abs z <= 2 ^ 24)%Z) by lia. rewrite (rnd32_int z H24) in A.
  assert (B : Rabs (IZR z) < bpow radix2 f32_emax).
  { rewrite <- abs_IZR. change (bpow radix2 f32_emax) with (IZR (2 ^ 128)). apply IZR_lt. lia. }
  rewrite Rlt_bool_true in A by exact B. destruct A as (A1 & A2 & _). right. exists (binary_normalize f32_prec f32_emax Hprec Hmax mode_NE z 0 false). split; [reflexivity|]. split; [exact A2|]. rewrite A1.
  rewrite <- abs_IZR. apply Rle_trans with 1; [|apply IZR_le; lia]. change 1 with (bpow radix2 0). apply bpow_le. lia.
Qed.
