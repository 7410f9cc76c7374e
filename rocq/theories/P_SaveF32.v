(** Printing with six digits and reading back, in single precision. *)
From Coq Require Import Reals SpecFloat Lra Lia Psatz QArith Qpower Qreals String.
From Flocq Require Import Core BinarySingleNaN Relative.
From Verif Require Import M_Base M_Num M_Tools S_Text M_Str M_Save S_Save M_SaveF32 P_F32.
Local Open Scope R_scope.
Definition radix10 : radix := Build_radix 10 (refl_equal _).
Local Notation p10 := (bpow radix10).
Local Instance Hprec : FLX.Prec_gt_0 f32_prec := eq_refl _.
Local Instance Hmax : Prec_lt_emax f32_prec f32_emax := eq_refl _.

Lemma bpow_split (r : radix) e : bpow r e = IZR (r ^ Z.max 0 e) / IZR (r ^ Z.max 0 (- e)).
Proof.
  destruct (Z_le_gt_dec 0 e).
  - rewrite (Z.max_r 0 e), (Z.max_l 0 (- e)) by lia. change (r ^ 0)%Z with 1%Z. rewrite <- IZR_Zpower by lia.
    change (Zpower r e) with (r ^ e)%Z. field.
  - rewrite (Z.max_l 0 e), (Z.max_r 0 (- e)) by lia. change (r ^ 0)%Z with 1%Z. replace e with (- (- e))%Z at 1 by lia.
    rewrite bpow_opp, <- IZR_Zpower by lia. change (Zpower r (- e)) with (r ^ (- e))%Z. unfold Rdiv. ring.
Qed.
Lemma pow_pos_Z (b e : Z) : (0 < b)%Z -> (0 < b ^ Z.max 0 e)%Z.
Proof. intros. apply Z.pow_pos_nonneg; lia. Qed.
Lemma pow_pos_R (b e : Z) : (0 < b)%Z -> 0 < IZR (b ^ Z.max 0 e).
Proof. intros. apply (IZR_lt 0). now apply pow_pos_Z. Qed.

(** The rational of a decimal as a real. *)
Lemma Q2R_dec m e : Q2R (dec_q m e) = IZR m * p10 e.
Proof.
  unfold dec_q. rewrite Q2R_mult. f_equal; [unfold Q2R, inject_Z; cbn; field|].
  change (10 # 1)%Q with (inject_Z 10). destruct (Z_le_gt_dec 0 e).
  - rewrite (Qeq_eqR _ _ (Qeq_sym _ _ (Zpower_Qpower 10 e l))). rewrite <- IZR_Zpower by lia.
    unfold Q2R, inject_Z. cbn [Qnum Qden]. change (Zpower radix10 e) with (10 ^ e)%Z. field.
  - replace e with (- (- e))%Z by lia. rewrite (Qeq_eqR _ _ (Qpower_opp _ _)).
    assert (H : (inject_Z 10 ^ (- e) == inject_Z (10 ^ (- e)))%Q) by (apply Qeq_sym, Zpower_Qpower; lia).
    rewrite (Qeq_eqR _ _ (Qinv_comp _ _ H)). rewrite bpow_opp, <- IZR_Zpower by lia.
    assert (P : (0 < 10 ^ (- e))%Z) by (apply Z.pow_pos_nonneg; lia).
    rewrite Q2R_inv; [|intros E; unfold Qeq in E; cbn in E; lia].
    f_equal. unfold Q2R, inject_Z. cbn [Qnum Qden]. change (Zpower radix10 (- e)) with (10 ^ (- e))%Z. field.
Qed.

(** strtof returns the nearest float, whatever the spelling of the number. *)
Lemma strtof_correct m e : Rabs (rnd32 (IZR m * p10 e)) < bpow radix2 128 ->
  exists b : b32, f32_strtof m e = Some (B2SF b) /\ is_finite b = true /\ B2R b = rnd32 (IZR m * p10 e) /\
    Bsign b = (m <? 0)%Z.
Proof.
  intros H. unfold f32_strtof. destruct (Z.eqb_spec m 0) as [->|Nz].
  - exists (B754_zero false). repeat split. cbn [B2R]. rewrite Rmult_0_l. symmetry. apply round_0. typeclasses eauto.
  - set (s := (m <? 0)%Z). set (nm := (Z.abs m * 10 ^ Z.max 0 e)%Z). set (dn := (10 ^ Z.max 0 (- e))%Z).
    assert (Pn : (0 < nm)%Z) by (unfold nm; pose proof (pow_pos_Z 10 e eq_refl); nia).
    assert (Pd : (0 < dn)%Z) by (apply pow_pos_Z; reflexivity).
    assert (Eq : F2R (Float radix2 (cond_Zopp s (Z.pos (Z.to_pos nm))) 0) / F2R (Float radix2 (cond_Zopp false (Z.pos (Z.to_pos dn))) 0) = IZR m * p10 e).
    { rewrite !Z2Pos.id by assumption. unfold F2R. cbn [Fnum Fexp cond_Zopp bpow]. rewrite (bpow_split radix10 e).
      change (radix10 ^ Z.max 0 (- e))%Z with dn. change (radix10 ^ Z.max 0 e)%Z with (10 ^ Z.max 0 e)%Z.
      replace (cond_Zopp s nm) with (m * 10 ^ Z.max 0 e)%Z by (unfold cond_Zopp, s, nm; destruct (Z.ltb_spec m 0); nia).
      rewrite mult_IZR. field. apply not_0_IZR. lia. }
    pose proof (Bdiv_correct_aux f32_prec f32_emax Hprec Hmax mode_NE s (Z.to_pos nm) 0 false (Z.to_pos dn) 0) as A.
    cbv zeta in A. rewrite Eq in A. change (round radix2 (fexp f32_prec f32_emax) (round_mode mode_NE)) with rnd32 in A.
    rewrite Rlt_bool_true in A by exact H. rewrite xorb_false_r in A. cbn [SFdiv]. rewrite xorb_false_r.
    destruct (SFdiv_core_binary f32_prec f32_emax (Z.pos (Z.to_pos nm)) 0 (Z.pos (Z.to_pos dn)) 0) as [[mz ez] lz].
    rewrite round_aux_equiv. destruct A as (V & A1 & A2 & A3).
    set (z := binary_round_aux f32_prec f32_emax mode_NE s mz ez lz) in *.
    exists (SF2B z V). rewrite B2SF_SF2B, is_finite_SF2B, B2R_SF2B, Bsign_SF2B. repeat split; auto.
    destruct z; try reflexivity; discriminate A2.
Qed.
Lemma strtof_det m e m' e' : Rabs (rnd32 (IZR m * p10 e)) < bpow radix2 128 -> IZR m * p10 e = IZR m' * p10 e' ->
  f32_strtof m' e' = f32_strtof m e.
Proof.
  intros H E. destruct (strtof_correct m e H) as (b & -> & F & V & S). rewrite E in H, V.
  destruct (strtof_correct m' e' H) as (b' & -> & F' & V' & S'). do 2 f_equal. apply B2R_Bsign_inj; auto; [congruence|].
  rewrite S, S'. pose proof (bpow_gt_0 radix10 e). pose proof (bpow_gt_0 radix10 e').
  destruct (Z.ltb_spec m 0) as [L|L]; destruct (Z.ltb_spec m' 0) as [L'|L']; try reflexivity; exfalso.
  - apply IZR_lt in L. apply IZR_le in L'. nra.
  - apply IZR_le in L. apply IZR_lt in L'. nra.
Qed.

(* ------------------------------------------------------------------------ printing *)
Lemma rne_spec n d : (0 < d)%Z -> (2 * Z.abs (rne n d * d - n) <= d)%Z.
Proof.
  intros Hd. unfold rne. cbv zeta. pose proof (Z.div_mod n d ltac:(lia)) as E. pose proof (Z.mod_pos_bound n d Hd) as B.
  destruct (Z.ltb_spec (2 * (n mod d)) d); [nia|]. destruct (Z.ltb_spec d (2 * (n mod d))); [nia|]. destruct (Z.even (n / d)); nia.
Qed.
Lemma le10_spec ex n d : (0 < d)%Z -> le10 ex n d = true <-> p10 ex <= IZR n / IZR d.
Proof.
  intros Hd. unfold le10. rewrite Z.leb_le, bpow_split.
  change (radix10 ^ Z.max 0 ex)%Z with (10 ^ Z.max 0 ex)%Z. change (radix10 ^ Z.max 0 (- ex))%Z with (10 ^ Z.max 0 (- ex))%Z.
  pose proof (pow_pos_R 10 ex eq_refl) as P1. pose proof (pow_pos_R 10 (- ex) eq_refl) as P2. apply IZR_lt in Hd.
  set (a := IZR (10 ^ Z.max 0 ex)) in *. set (b := IZR (10 ^ Z.max 0 (- ex))) in *.
  split; intros H.
  - apply IZR_le in H. rewrite !mult_IZR in H. fold a b in H. apply Rmult_le_reg_r with (b * IZR d); [nra|].
    replace (a / b * (b * IZR d)) with (a * IZR d) by (field; lra). replace (IZR n / IZR d * (b * IZR d)) with (IZR n * b) by (field; lra). exact H.
  - apply le_IZR. rewrite !mult_IZR. fold a b. apply Rmult_le_compat_r with (r := (b * IZR d)) in H; [|nra].
    replace (a / b * (b * IZR d)) with (a * IZR d) in H by (field; lra). replace (IZR n / IZR d * (b * IZR d)) with (IZR n * b) in H by (field; lra). exact H.
Qed.
Lemma dec_exp_spec n d : (0 < d)%Z -> forall fuel ex, IZR n / IZR d < p10 (ex + 1) -> p10 (ex - Z.of_nat fuel) <= IZR n / IZR d ->
  let r := dec_exp fuel ex n d in p10 r <= IZR n / IZR d < p10 (r + 1) /\ (ex - Z.of_nat fuel <= r <= ex)%Z.
Proof.
  intros Hd. induction fuel as [|f IH]; intros ex U L; cbn [dec_exp].
  - replace (ex - Z.of_nat 0)%Z with ex in * by lia. cbv zeta. split; [split; assumption|lia].
  - destruct (le10 ex n d) eqn:E; cbv zeta.
    + apply le10_spec in E; [|exact Hd]. split; [split; assumption|lia].
    + assert (IZR n / IZR d < p10 ex). { apply Rnot_le_lt. intros H. apply le10_spec in H; [congruence|exact Hd]. }
      destruct (IH (ex - 1)%Z) as (A & B).
      * now replace (ex - 1 + 1)%Z with ex by lia.
      * now replace (ex - 1 - Z.of_nat f)%Z with (ex - Z.of_nat (S f))%Z by lia.
      * split; [exact A|lia].
Qed.

(** The float nearest above 3.40282e38. *)
Definition max6 : R := IZR 340282 * p10 33.
Lemma print_spec s m e : bounded f32_prec f32_emax m e = true ->
  exists d, f32_print (S754_finite s m e) = PNum d /\ dec6_ok d /\ d_neg d = s /\ (0 < d_sig d)%Z /\
   let q := IZR (Z.pos m) * bpow radix2 e in let v := IZR (d_sig d) * p10 (d_ex d - 5) in
   Rabs (v - q) <= / 200000 * q /\ v <= max6 /\
   (forall z k, (0 <= z <= 999999)%Z -> Rabs (q - IZR z * p10 k) <= / IZR (2 ^ 24) * (IZR z * p10 k) -> v = IZR z * p10 k).
Proof.
  intros Hb. unfold f32_print. cbv zeta. set (n := (Z.pos m * 2 ^ Z.max 0 e)%Z). set (d := (2 ^ Z.max 0 (- e))%Z).
  set (q := IZR (Z.pos m) * bpow radix2 e).
  assert (Hd : (0 < d)%Z) by (apply pow_pos_Z; reflexivity).
  assert (Hn : (0 < n)%Z) by (unfold n; pose proof (pow_pos_Z 2 e eq_refl); nia).
  assert (Eq : IZR n / IZR d = q).
  { unfold q, n, d. rewrite (bpow_split radix2 e), mult_IZR. change (radix2 ^ Z.max 0 e)%Z with (2 ^ Z.max 0 e)%Z.
    change (radix2 ^ Z.max 0 (- e))%Z with (2 ^ Z.max 0 (- e))%Z. field. apply not_0_IZR. fold d. lia. }
  assert (Q1 : q <= bpow radix2 128 - bpow radix2 104).
  { pose proof (abs_B2R_le_emax_minus_prec f32_prec f32_emax Hprec (B754_finite false m e Hb)) as A. cbn [B2R] in A. unfold F2R in A. cbn [Fnum Fexp cond_Zopp] in A.
    fold q in A. rewrite Rabs_pos_eq in A; [exact A|]. unfold q. apply Rmult_le_pos; [apply IZR_le; lia|apply bpow_ge_0]. }
  assert (Q2 : bpow radix2 (-149) <= q).
  { apply andb_prop in Hb as (Hc & _). apply Zeq_bool_eq in Hc. unfold fexp, SpecFloat.emin, f32_prec, f32_emax in Hc.
    assert (-149 <= e)%Z by lia. unfold q. apply Rle_trans with (1 * bpow radix2 e).
    - rewrite Rmult_1_l. now apply bpow_le.
    - apply Rmult_le_compat_r; [apply bpow_ge_0|]. apply IZR_le. lia. }
  assert (Big : bpow radix2 128 - bpow radix2 104 < IZR 340283 * p10 33 - p10 33 / 2).
  { change (bpow radix2 128) with (IZR (2 ^ 128)). change (bpow radix2 104) with (IZR (2 ^ 104)). change (p10 33) with (IZR (10 ^ 33)).
    rewrite <- minus_IZR. apply Rmult_lt_reg_r with 2; [lra|].
    replace ((IZR 340283 * IZR (10 ^ 33) - IZR (10 ^ 33) / 2) * 2) with (IZR (340283 * 10 ^ 33 * 2 - 10 ^ 33)); [rewrite <- (mult_IZR _ 2); apply IZR_lt; apply Zlt_is_lt_bool; vm_compute; reflexivity|].
    rewrite minus_IZR, !mult_IZR. field. }
  assert (P33 : 0 < p10 33) by apply bpow_gt_0.
  assert (T39 : p10 39 = 1000000 * p10 33) by (change 39%Z with (6 + 33)%Z; rewrite bpow_plus; change (p10 6) with (IZR 1000000); ring).
  destruct (dec_exp_spec n d Hd 83 38) as ((L & U) & Rg).
  { rewrite Eq. change (38 + 1)%Z with 39%Z. rewrite T39. lra. }
  { rewrite Eq. apply Rle_trans with (2 := Q2). change (38 - Z.of_nat 83)%Z with (-45)%Z.
    rewrite (bpow_opp radix10 45 : p10 (-45) = / p10 45), (bpow_opp radix2 149 : bpow radix2 (-149) = / bpow radix2 149).
    apply Rinv_le; [apply bpow_gt_0|]. change (p10 45) with (IZR (10 ^ 45)). change (bpow radix2 149) with (IZR (2 ^ 149)). apply IZR_le, Zle_bool_imp_le. vm_compute. reflexivity. }
  set (ex := dec_exp 83 38 n d) in *. rewrite Eq in L, U. change (38 - Z.of_nat 83)%Z with (-45)%Z in Rg.
  set (n' := (n * 10 ^ Z.max 0 (5 - ex))%Z). set (d' := (d * 10 ^ Z.max 0 (ex - 5))%Z).
  assert (Hd' : (0 < d')%Z) by (unfold d'; pose proof (pow_pos_Z 10 (ex - 5) eq_refl); nia).
  set (sc := p10 (ex - 5)). assert (Sc : 0 < sc) by apply bpow_gt_0.
  assert (Eq' : IZR n' / IZR d' = q / sc).
  { unfold sc. rewrite <- Eq, (bpow_split radix10 (ex - 5)). unfold n', d'. rewrite !mult_IZR.
    replace (- (ex - 5))%Z with (5 - ex)%Z by lia. change (radix10 ^ Z.max 0 (5 - ex))%Z with (10 ^ Z.max 0 (5 - ex))%Z. change (radix10 ^ Z.max 0 (ex - 5))%Z with (10 ^ Z.max 0 (ex - 5))%Z.
    pose proof (pow_pos_R 10 (5 - ex) eq_refl). pose proof (pow_pos_R 10 (ex - 5) eq_refl). apply IZR_lt in Hd. field. repeat split; lra. }
  assert (QS : IZR 100000 <= q / sc < IZR 1000000).
  { replace ex with (5 + (ex - 5))%Z in L by lia. replace (ex + 1)%Z with (6 + (ex - 5))%Z in U by lia. rewrite bpow_plus in L, U. fold sc in L, U.
    change (p10 5) with (IZR 100000) in L. change (p10 6) with (IZR 1000000) in U.
    split; [apply Rmult_le_reg_r with sc|apply Rmult_lt_reg_r with sc]; try exact Sc; replace (q / sc * sc) with q by (field; lra); lra. }
  pose proof (rne_spec n' d' Hd') as Rn. set (sig := rne n' d') in *.
  assert (RS : Rabs (IZR sig - q / sc) <= / 2).
  { rewrite <- Eq'. apply IZR_lt in Hd'. apply IZR_le in Rn. rewrite mult_IZR, abs_IZR, minus_IZR, mult_IZR in Rn.
    apply Rmult_le_reg_r with (IZR d'); [exact Hd'|]. 
    replace (Rabs (IZR sig - IZR n' / IZR d') * IZR d') with (Rabs (IZR sig * IZR d' - IZR n')); [lra|].
    rewrite <- (Rabs_pos_eq (IZR d')) at 3 by lra. rewrite <- Rabs_mult. f_equal. field. lra. }
  assert (Sg : (100000 <= sig <= 1000000)%Z).
  { apply Rabs_le_inv in RS. split.
    - assert (IZR 99999 < IZR sig) by (rewrite (minus_IZR 100000 1 : IZR 99999 = IZR 100000 - 1); lra). apply lt_IZR in H. lia.
    - assert (IZR sig < IZR 1000001) by (rewrite (plus_IZR 1000000 1 : IZR 1000001 = IZR 1000000 + 1); lra). apply lt_IZR in H. lia. }
  set (v := IZR sig * sc).
  assert (Qv : q = q / sc * sc) by (field; lra).
  assert (E1 : Rabs (v - q) <= / 200000 * q).
  { unfold v. rewrite Qv at 1. rewrite <- Rmult_minus_distr_r, Rabs_mult, (Rabs_pos_eq sc) by lra. rewrite Qv at 2. nra. }
  assert (V6 : v <= max6).
  { destruct (Z.eq_dec ex 38) as [E|E].
    - assert (sc = p10 33) by (unfold sc; rewrite E; reflexivity). unfold v, max6. rewrite H. apply Rmult_le_compat_r; [lra|]. apply IZR_le.
      assert (q / sc < IZR 340283 - / 2). { apply Rmult_lt_reg_r with sc; [exact Sc|]. rewrite <- Qv. rewrite H. lra. }
      apply Rabs_le_inv in RS. assert (IZR sig < IZR 340283) by lra. apply lt_IZR in H1. lia.
    - assert (sc <= p10 32) by (apply bpow_le; lia). unfold v, max6.
      apply Rle_trans with (IZR 1000000 * p10 32); [apply Rmult_le_compat; [apply IZR_le; lia|lra|apply IZR_le; lia|exact H]|].
      change (p10 33) with (IZR (10 ^ 33)). change (p10 32) with (IZR (10 ^ 32)). rewrite <- !mult_IZR. apply IZR_le, Zle_bool_imp_le. vm_compute. reflexivity. }
  assert (Ex : forall z k, (0 <= z <= 999999)%Z -> Rabs (q - IZR z * p10 k) <= / IZR (2 ^ 24) * (IZR z * p10 k) -> v = IZR z * p10 k).
  { intros z k Hz Hq. apply Rabs_le_inv in Hq. set (u := IZR z * p10 k) in *. change (IZR (2 ^ 24)) with 16777216 in Hq.
    assert (Hk : (ex - 5 <= k)%Z).
    { destruct (Z_le_gt_dec (ex - 5) k); [assumption|]. exfalso. assert (p10 k <= p10 (ex - 6)) by (apply bpow_le; lia).
      assert (u <= IZR 999999 * p10 (ex - 6)). { apply Rmult_le_compat; [apply IZR_le; lia|apply bpow_ge_0|apply IZR_le; lia|assumption]. }
      replace ex with (6 + (ex - 6))%Z in L by lia. rewrite bpow_plus in L. change (p10 6) with (IZR 1000000) in L. pose proof (bpow_gt_0 radix10 (ex - 6)). lra. }
    assert (Hi : u / sc = IZR (z * 10 ^ (k - (ex - 5)))).
    { unfold u. replace k with ((k - (ex - 5)) + (ex - 5))%Z at 1 by lia. rewrite bpow_plus. fold sc. rewrite mult_IZR, <- (IZR_Zpower radix10) by lia.
      change (Zpower radix10 (k - (ex - 5))) with (10 ^ (k - (ex - 5)))%Z. field. lra. }
    assert (Hu : u = u / sc * sc) by (field; lra).
    assert (D : Rabs (q / sc - u / sc) <= / 16777216 * (u / sc)).
    { apply Rabs_le. split; apply Rmult_le_reg_r with sc; try exact Sc; rewrite !Rmult_minus_distr_r || idtac.
      - replace (- (/ 16777216 * (u / sc)) * sc) with (- (/ 16777216 * u)) by (field; lra). replace ((q / sc - u / sc) * sc) with (q - u) by (field; lra). lra.
      - replace ((/ 16777216 * (u / sc)) * sc) with ((/ 16777216 * u)) by (field; lra). replace ((q / sc - u / sc) * sc) with (q - u) by (field; lra). lra. }
    unfold v. rewrite Hu. f_equal. rewrite Hi in *. f_equal. apply Rabs_le_inv in D, RS.
    set (I := (z * 10 ^ (k - (ex - 5)))%Z) in *.
    assert (HI : IZR I < 1000001) by lra.
    assert (A1 : IZR (sig - I) < IZR 1) by (rewrite minus_IZR; lra). assert (A2 : IZR (-1) < IZR (sig - I)) by (rewrite minus_IZR; lra).
    apply lt_IZR in A1, A2. lia. }
  destruct (Z.eqb_spec sig 1000000) as [E6|N6].
  - eexists. split; [reflexivity|]. cbn [d_sig d_ex d_neg].
    assert (Ev : IZR 100000 * p10 (ex + 1 - 5) = v).
    { unfold v, sc. rewrite E6. replace (ex + 1 - 5)%Z with (1 + (ex - 5))%Z by lia. rewrite bpow_plus. change (p10 1) with 10. rewrite (mult_IZR 100000 10 : IZR 1000000 = _). ring. }
    rewrite Ev. assert (ex <> 38)%Z.
    { intros E. unfold v, max6, sc in V6. rewrite E, E6 in V6. change (p10 (38 - 5)) with (p10 33) in V6. apply Rmult_le_reg_r in V6; [|exact P33]. apply le_IZR in V6. lia. }
    repeat split; auto; try lia. right. cbn [d_sig d_ex]. lia.
  - eexists. split; [reflexivity|]. cbn [d_sig d_ex d_neg]. fold sc v. repeat split; auto; try lia. right. cbn [d_sig d_ex]. lia.
Qed.

(** Every finite float is printed as a number that strtof reads as a float nearby: the same one if it
    is the nearest float to a number with six significant digits. *)
Definition six_digits (x : R) : Prop :=
  exists z k, (Z.abs z <= 999999)%Z /\ x = rnd32 (IZR z * p10 k) /\
    (x = IZR z * p10 k \/ bpow radix2 (-126) <= Rabs (IZR z * p10 k)).

Lemma rnd_err v : Rabs (rnd32 v - v) <= / IZR (2 ^ 24) * Rabs v + bpow radix2 (-150).
Proof.
  destruct (error_N_FLT radix2 emin32 f32_prec eq_refl (fun x => negb (Z.even x)) v) as (eps & eta & E1 & E2 & _ & E3).
  change (round radix2 (FLT_exp emin32 f32_prec) (Znearest (fun x => negb (Z.even x))) v) with (rnd32 v) in E3. rewrite E3.
  replace (v * (1 + eps) + eta - v) with (v * eps + eta) by ring.
  apply Rle_trans with (1 := Rabs_triang _ _). rewrite Rabs_mult.
  change (bpow radix2 (-150)) with (/ IZR (2 ^ 150)). change (bpow radix2 emin32) with (/ IZR (2 ^ 149)) in E2. change (bpow radix2 (- f32_prec + 1)) with (/ IZR (2 ^ 23)) in E1.
  replace (/ IZR (2 ^ 24)) with (/ 2 * / IZR (2 ^ 23)) by (rewrite <- Rinv_mult, <- mult_IZR; reflexivity).
  replace (/ IZR (2 ^ 150)) with (/ 2 * / IZR (2 ^ 149)) by (rewrite <- Rinv_mult, <- mult_IZR; reflexivity).
  apply Rplus_le_compat; [|exact E2]. rewrite Rmult_comm. apply Rmult_le_compat_r; [apply Rabs_pos|exact E1].
Qed.
Lemma rnd_err_normal v : bpow radix2 (-126) <= Rabs v -> Rabs (rnd32 v - v) <= / IZR (2 ^ 24) * Rabs v.
Proof.
  intros H. pose proof (relative_error_N_FLT radix2 emin32 f32_prec eq_refl (fun x => negb (Z.even x)) v H) as E.
  change (bpow radix2 (- f32_prec + 1)) with (/ IZR (2 ^ 23)) in E.
  replace (/ IZR (2 ^ 24)) with (/ 2 * / IZR (2 ^ 23)) by (rewrite <- Rinv_mult, <- mult_IZR; reflexivity). exact E.
Qed.

Lemma max32_format : is32 (bpow radix2 128 - bpow radix2 104).
Proof.
  unfold is32. apply generic_format_FLT. apply (FLT_spec _ _ _ _ (Float radix2 (2 ^ 24 - 1) 104)); cbn [Fnum Fexp]; [|reflexivity|unfold emin32; lia].
  unfold F2R. cbn [Fnum Fexp]. change (bpow radix2 128) with (bpow radix2 (24 + 104)). rewrite bpow_plus, minus_IZR. change (bpow radix2 24) with (IZR (2 ^ 24)). ring.
Qed.
Lemma max6_le : max6 <= bpow radix2 128 - bpow radix2 104.
Proof.
  unfold max6. change (bpow radix2 128) with (IZR (2 ^ 128)). change (bpow radix2 104) with (IZR (2 ^ 104)). change (p10 33) with (IZR (10 ^ 33)).
  rewrite <- minus_IZR, <- mult_IZR. apply IZR_le, Zle_bool_imp_le. vm_compute. reflexivity.
Qed.
Lemma no_overflow v : Rabs v <= max6 -> Rabs (rnd32 v) < bpow radix2 128.
Proof.
  intros H. apply Rabs_le_inv in H. pose proof max6_le as M. pose proof (bpow_gt_0 radix2 104).
  apply Rle_lt_trans with (bpow radix2 128 - bpow radix2 104); [|lra]. apply Rabs_le. split.
  - apply round_ge_generic; [typeclasses eauto..|apply generic_format_opp, max32_format|lra].
  - apply round_le_generic; [typeclasses eauto..|apply max32_format|lra].
Qed.

Lemma dec6_value d : (0 < d_sig d)%Z -> Q2R (dec6_q d) = IZR (dec6_signed d) * p10 (d_ex d - 5).
Proof. intros H. unfold dec6_q. destruct (Z.eqb_spec (d_sig d) 0); [lia|]. apply Q2R_dec. Qed.

Lemma f32_reads_back (b : b32) : is_finite b = true ->
  exists b' : b32, reads_back f32_print f32_strtof (B2SF b) (B2SF b') /\ is_finite b' = true /\
    Rabs (B2R b' - B2R b) <= 6 / 1000000 * Rabs (B2R b) + bpow radix2 (-149) /\
    (six_digits (B2R b) -> b <> B754_zero true -> b' = b).
Proof.
  destruct b as [s|s| |s m e Hb]; try discriminate; intros _.
  - exists (B754_zero false). split; [|split; [reflexivity|split]].
    + exists (mkdec6 s 0 0). split; [reflexivity|]. split; [now left|]. intros m e Hq. unfold dec6_q in Hq. cbn in Hq.
      assert (m = 0%Z).
      { apply Qeq_eqR in Hq. rewrite Q2R_dec, RMicromega.Q2R_0 in Hq. pose proof (bpow_gt_0 radix10 e). apply Rmult_integral in Hq. destruct Hq; [now apply eq_IZR|lra]. }
      subst m. reflexivity.
    + cbn [B2R]. rewrite Rminus_0_r, Rabs_R0, Rmult_0_r, Rplus_0_l. apply bpow_ge_0.
    + intros _ Ns. destruct s; [congruence|reflexivity].
  - destruct (print_spec s m e Hb) as (d & Pd & Ok & Sd & Pos & E1 & V6 & Ex). cbv zeta in *.
    set (q := IZR (Z.pos m) * bpow radix2 e) in *. set (v := IZR (d_sig d) * p10 (d_ex d - 5)) in *.
    assert (Hq : 0 < q) by (unfold q; apply Rmult_lt_0_compat; [apply IZR_lt; lia|apply bpow_gt_0]).
    assert (Hv : 0 < v) by (unfold v; apply Rmult_lt_0_compat; [apply IZR_lt; lia|apply bpow_gt_0]).
    set (sg := if s then -1 else 1).
    assert (Sv : IZR (dec6_signed d) * p10 (d_ex d - 5) = sg * v).
    { unfold dec6_signed, v, sg. rewrite Sd. destruct s; [rewrite opp_IZR|]; ring. }
    assert (Sb : B2R (B754_finite s m e Hb) = sg * q).
    { cbn [B2R]. unfold F2R, q, sg. cbn [Fnum Fexp]. destruct s; cbn [cond_Zopp]; [rewrite opp_IZR|]; ring. }
    assert (Asg : forall x, Rabs (sg * x) = Rabs x) by (intros x; rewrite Rabs_mult; unfold sg; destruct s; [rewrite Rabs_left1 by lra|rewrite Rabs_pos_eq by lra]; ring).
    assert (NO : Rabs (rnd32 (IZR (dec6_signed d) * p10 (d_ex d - 5))) < bpow radix2 128).
    { rewrite Sv. apply no_overflow. rewrite Asg, Rabs_pos_eq by lra. exact V6. }
    destruct (strtof_correct _ _ NO) as (b' & St & Fb & Vb & Sgb).
    exists b'. split; [|split; [exact Fb|split]].
    + exists d. split; [exact Pd|]. split; [exact Ok|]. intros m' e' Hm. apply Qeq_eqR in Hm. rewrite Q2R_dec, dec6_value in Hm by exact Pos.
      refine (eq_trans _ St). apply strtof_det; [exact NO|now symmetry].
    + rewrite Vb, Sb, Sv. rewrite Asg, (Rabs_pos_eq q) by lra.
      replace (rnd32 (sg * v) - sg * q) with ((rnd32 (sg * v) - sg * v) + sg * (v - q)) by ring.
      apply Rle_trans with (1 := Rabs_triang _ _). rewrite Asg. pose proof (rnd_err (sg * v)) as E2. rewrite Asg, (Rabs_pos_eq v) in E2 by lra.
      assert (v <= q + / 200000 * q) by (apply Rabs_le_inv in E1; lra). change (IZR (2 ^ 24)) with 16777216 in E2.
      assert (bpow radix2 (-150) <= bpow radix2 (-149)) by (apply bpow_le; lia). lra.
    + intros (z & k & Hz & Hx & Hn) _. rewrite Sb in Hx, Hn. set (w := IZR z * p10 k) in *.
      assert (Dw : Rabs (sg * q - w) <= / IZR (2 ^ 24) * Rabs w).
      { destruct Hn as [Hn|Hn].
        - rewrite Hn. unfold Rminus. rewrite Rplus_opp_r, Rabs_R0. apply Rmult_le_pos; [|apply Rabs_pos]. left. apply Rinv_0_lt_compat. apply (IZR_lt 0). reflexivity.
        - rewrite Hx. now apply rnd_err_normal. }
      pose proof (bpow_gt_0 radix10 k) as Pk.
      assert (Aw : Rabs w = IZR (Z.abs z) * p10 k) by (unfold w; rewrite Rabs_mult, abs_IZR, (Rabs_pos_eq (p10 k)) by lra; reflexivity).
      assert (Dq : Rabs (q - IZR (Z.abs z) * p10 k) <= / IZR (2 ^ 24) * (IZR (Z.abs z) * p10 k)).
      { rewrite <- Aw. apply Rle_trans with (2 := Dw). pose proof (Rabs_triang_inv2 (sg * q) w) as T. rewrite Asg, (Rabs_pos_eq q) in T by lra. exact T. }
      specialize (Ex (Z.abs z) k ltac:(lia) Dq). rewrite <- Aw in Ex.
      assert (Ew : sg * v = w).
      { rewrite Ex. change (IZR (2 ^ 24)) with 16777216 in Dw. unfold sg in *. apply Rabs_le_inv in Dw. destruct (Rle_lt_dec 0 w) as [P|P].
        - rewrite Rabs_pos_eq in * by lra. destruct s; lra.
        - rewrite Rabs_left in * by lra. destruct s; lra. }
      apply B2R_Bsign_inj; auto.
      * rewrite Vb, Sv, Ew, Sb. now symmetry.
      * rewrite Sgb. cbn [Bsign]. unfold dec6_signed. rewrite Sd. destruct s; [apply Z.ltb_lt|apply Z.ltb_ge]; lia.
Qed.

(** Integers of at most six digits survive. *)
Lemma f32_exact_int z : (Z.abs z <= 999999)%Z -> exact f32_print f32_strtof (f32_int z).
Proof.
  intros Hz. unfold f32_int. rewrite normalize_equiv.
  pose proof (binary_normalize_correct f32_prec f32_emax Hprec Hmax mode_NE z 0 false) as A.
  assert (E : F2R (Float radix2 z 0) = IZR z) by (unfold F2R; cbn; ring).
  cbv zeta in A. rewrite E in A.
  change (round radix2 (SpecFloat.fexp f32_prec f32_emax) (round_mode mode_NE) (IZR z)) with (rnd32 (IZR z)) in A.
  assert (H24 : (Z.abs z <= 2 ^ 24)%Z) by lia. rewrite (rnd32_int z H24) in A.
  assert (B : Rabs (IZR z) < bpow radix2 f32_emax).
  { rewrite <- abs_IZR. change (bpow radix2 f32_emax) with (IZR (2 ^ 128)). apply IZR_lt. lia. }
  rewrite Rlt_bool_true in A by exact B. destruct A as (A1 & A2 & A3).
  set (b := binary_normalize f32_prec f32_emax Hprec Hmax mode_NE z 0 false) in *.
  destruct (f32_reads_back b A2) as (b' & Rb & _ & _ & Ex).
  assert (b' = b); [|now subst b']. apply Ex.
  - exists z, 0%Z. split; [exact Hz|]. cbn [bpow]. rewrite Rmult_1_r, (rnd32_int z H24). auto.
  - intros Q. rewrite Q in A3. cbn in A3. destruct (Rcompare_spec (IZR z) 0) as [L|L|L]; try discriminate.
    rewrite Q in A1. cbn in A1. rewrite <- A1 in L. lra.
Qed.
(** Floats nearest to a decimal of at most six digits survive, unless they are subnormal. *)
Lemma f32_exact_dec m e x : f32_strtof m e = Some x -> (Z.abs m <= 999999)%Z ->
  bpow radix2 (-126) <= Rabs (IZR m * p10 e) < bpow radix2 127 -> exact f32_print f32_strtof x.
Proof.
  intros H Hm [L U].
  assert (Rabs (rnd32 (IZR m * p10 e)) < bpow radix2 128).
  { eapply Rle_lt_trans; [|apply (bpow_lt radix2 127 128); lia].
    apply abs_round_le_generic; try typeclasses eauto; [|lra].
    apply generic_format_bpow. cbn. unfold emin32, f32_prec, f32_emax, fexp, SpecFloat.fexp, SpecFloat.emin. lia. }
  destruct (strtof_correct m e H0) as (b & E & Fb & V & Sg). rewrite H in E. inversion E; subst x.
  destruct (f32_reads_back b Fb) as (b' & Rb & _ & _ & Ex). assert (b' = b); [|now subst b'].
  assert (Nz : B2R b <> 0).
  { rewrite V. intros Z0. pose proof (rnd_err_normal _ L) as Er. rewrite Z0 in Er. rewrite Rminus_0_l, Rabs_Ropp in Er.
    pose proof (bpow_gt_0 radix2 (-126)). assert (/ IZR (2 ^ 24) < 1) by (rewrite <- Rinv_1; apply Rinv_lt_contravar; [rewrite Rmult_1_l; apply (IZR_lt 0); reflexivity|apply (IZR_lt 1); reflexivity]). nra. }
  apply Ex.
  - exists m, e. auto.
  - intros ->. now apply Nz.
Qed.

Lemma rne_nearest_even (n d : Z) : (0 < d)%Z ->
  forall z, (Z.abs (rne n d * d - n) <= Z.abs (z * d - n))%Z /\
    (z <> rne n d -> Z.abs (rne n d * d - n) = Z.abs (z * d - n) -> Z.even (rne n d) = true)%Z.
Proof.
  intros Hd z. unfold rne. cbv zeta. pose proof (Z.div_mod n d ltac:(lia)) as E. pose proof (Z.mod_pos_bound n d Hd) as B.
  set (q := (n / d)%Z) in *. set (r := (n mod d)%Z) in *. rewrite E.
  assert (Hz : (z <= q - 1 \/ z = q \/ z = q + 1 \/ q + 2 <= z)%Z) by lia.
  assert (A : forall y, (y * d - (d * q + r) = (y - q) * d - r)%Z) by (intros; ring). rewrite !A.
  assert (Q1 : (z <= q - 1 -> Z.abs ((z - q) * d - r) >= d + r)%Z) by (intros; nia).
  assert (Q2 : (q + 2 <= z -> Z.abs ((z - q) * d - r) >= 2 * d - r)%Z) by (intros; nia).
  assert (X0 : ((q - q) * d - r = - r)%Z) by ring. assert (X1 : ((q + 1 - q) * d - r = d - r)%Z) by ring.
  destruct (Z.ltb_spec (2 * r) d); [|destruct (Z.ltb_spec d (2 * r)); [|destruct (Z.even q) eqn:Ev]].
  - rewrite X0. destruct Hz as [?|[->|[->|?]]]; rewrite ?X0, ?X1; split; intros; lia.
  - rewrite X1. destruct Hz as [?|[->|[->|?]]]; rewrite ?X0, ?X1; split; intros; lia.
  - rewrite X0. split; [|auto]. destruct Hz as [?|[->|[->|?]]]; rewrite ?X0, ?X1; lia.
  - rewrite X1. split; [destruct Hz as [?|[->|[->|?]]]; rewrite ?X0, ?X1; lia|]. intros _ _. rewrite Z.even_add, Ev. reflexivity.
Qed.
