(** "%g" text parsed back: value, end pointer, loss of digits. *)
From Verif Require Import M_Base M_DataPoint M_Text S_Text P_Parse.
From Coq Require Import QArith Qpower Qfield Lqa.
Local Open Scope Z_scope.
Ltac Zify.zify_post_hook ::= Z.div_mod_to_equations.

(* ------------------------------------------------------------- arithmetic *)

Lemma ten_nz : ~ (10 # 1 == 0)%Q.
Proof. intros H. discriminate H. Qed.
Lemma dec_q_shift m k e : 0 <= k -> (dec_q (m * 10 ^ k) e == dec_q m (e + k))%Q.
Proof.
  intros Hk. unfold dec_q. rewrite inject_Z_mult, Qpower_plus by apply ten_nz.
  rewrite Zpower_Qpower by assumption.
  change (inject_Z 10) with (10 # 1)%Q. ring.
Qed.
Lemma dec_q_add a b e : (dec_q (a + b) e == dec_q a e + dec_q b e)%Q.
Proof. unfold dec_q. rewrite inject_Z_plus. ring. Qed.
Lemma dec_q_opp a e : (dec_q (- a) e == - dec_q a e)%Q.
Proof. unfold dec_q. rewrite inject_Z_opp. ring. Qed.
Lemma ten_pow_pos e : (0 < (10 # 1) ^ e)%Q.
Proof. apply Qpower_0_lt. reflexivity. Qed.
Lemma dec_q_bound m k e : 0 <= m < 10 ^ k -> 0 <= k ->
  (0 <= dec_q m e)%Q /\ (dec_q m e < (10 # 1) ^ (e + k))%Q.
Proof.
  intros Hm Hk. unfold dec_q. pose proof (ten_pow_pos e) as Hp. split.
  - apply Qmult_le_0_compat; [|apply Qlt_le_weak, Hp]. change 0%Q with (inject_Z 0).
    rewrite <- Zle_Qle. lia.
  - rewrite Qpower_plus by apply ten_nz. rewrite Qmult_comm.
    apply (proj2 (Qmult_lt_l _ _ _ Hp)).
    setoid_replace ((10 # 1) ^ k)%Q with (inject_Z (10 ^ k)).
    + rewrite <- Zlt_Qlt. lia.
    + rewrite Zpower_Qpower by assumption. reflexivity.
Qed.

Lemma dec_value_bound ds : Forall digit_char ds -> dec_value ds < 10 ^ Z.of_nat (length ds).
Proof.
  induction 1 as [|d r Hd Hr IH]; cbn [dec_value length]; [reflexivity|].
  rewrite pow_S. unfold digit_char in Hd.
  set (P := 10 ^ Z.of_nat (length r)) in *. nia.
Qed.

(* ---------------------------------------------------------------- zeros *)

Lemma drop_zeros_spec l : exists k, l = repeat 48 k ++ drop_zeros l.
Proof.
  induction l as [|c r (k & IH)]; [exists O; reflexivity|]. cbn [drop_zeros].
  destruct (Z.eqb_spec c c_0) as [->|Hc].
  - exists (S k). cbn [repeat app]. unfold c_0. now rewrite <- IH.
  - exists O. reflexivity.
Qed.
Lemma rev_repeat {A} (x : A) k : rev (repeat x k) = repeat x k.
Proof.
  induction k as [|k IH]; [reflexivity|]. cbn [repeat rev]. rewrite IH.
  change [x] with (repeat x 1). rewrite <- repeat_app. rewrite Nat.add_comm. reflexivity.
Qed.
Lemma strip_zeros_spec l : exists k, l = strip_zeros l ++ repeat 48 k.
Proof.
  destruct (drop_zeros_spec (rev l)) as (k & H). exists k. unfold strip_zeros.
  rewrite <- (rev_involutive l) at 1. rewrite H at 1. rewrite rev_app_distr, rev_repeat. reflexivity.
Qed.
Lemma dec_value_zeros k : dec_value (repeat 48 k) = 0.
Proof. induction k; cbn [repeat dec_value]; lia. Qed.

Lemma digits6_digit s : Forall digit_char (digits6 s).
Proof. unfold digits6, digit_char, c_0. repeat constructor; lia. Qed.
Lemma digits6_value s : 100000 <= s <= 999999 -> dec_value (digits6 s) = s.
Proof.
  intros H. unfold digits6, c_0. cbn [map dec_value length].
  change (10 ^ Z.of_nat 5) with 100000. change (10 ^ Z.of_nat 4) with 10000.
  change (10 ^ Z.of_nat 3) with 1000. change (10 ^ Z.of_nat 2) with 100.
  change (10 ^ Z.of_nat 1) with 10. change (10 ^ Z.of_nat 0) with 1.
  change (10 ^ 5) with 100000. change (10 ^ 4) with 10000.
  change (10 ^ 3) with 1000. change (10 ^ 2) with 100.
  change (10 ^ 1) with 10. change (10 ^ 0) with 1. lia.
Qed.
Lemma digits6_length s : length (digits6 s) = 6%nat.
Proof. reflexivity. Qed.

(* ------------------------------------------------------------ shape of %g *)

(** sign, integer digits, full (unstripped) fraction, exponent. *)
Definition pg (d : dec6) : list Z := print_g6 (d_neg d) (d_sig d) (d_ex d).

Lemma pg_shape d : dec6_ok d -> exists ip l et x,
  pg d = (if d_neg d then [45] else []) ++ ip ++ frac_text (strip_zeros l) ++ et /\
  ip <> [] /\ Forall digit_char ip /\ Forall digit_char l /\ exp_text et x /\
  -99 <= x <= 99 /\ dec_value (ip ++ l) = d_sig d /\ d_sig d <= 999999 /\
  (d_sig d <> 0 -> x - Z.of_nat (length l) = d_ex d - 5) /\
  (keeps_digits d -> (length l <= 7)%nat) /\
  (d_sig d = 0 -> l = []) /\ (length l <= 9)%nat /\ ((7 < length l)%nat -> x = 0).
Proof.
  intros Hok. unfold pg, print_g6, c_minus.
  assert (Hf : forall l, frac l = frac_text l) by reflexivity.
  destruct (Z.eqb_spec (d_sig d) 0) as [H0|H0].
  { exists [48], [], [], 0. cbn [strip_zeros frac_text app].
    repeat split; auto; try (discriminate || lia || constructor); try constructor;
      unfold digit_char; cbn; lia. }
  destruct Hok as [|[Hs He]]; [congruence|].
  pose proof (digits6_digit (d_sig d)) as HD. pose proof (digits6_value _ Hs) as HV.
  pose proof (digits6_length (d_sig d)) as HL.
  set (ds := digits6 (d_sig d)) in *. cbn zeta.
  assert (HDs : forall k, Forall digit_char (firstn k ds) /\ Forall digit_char (skipn k ds)).
  { intros k. apply Forall_app. now rewrite firstn_skipn. }
  destruct ((-4 <=? d_ex d) && (d_ex d <? 6)) eqn:Efix.
  - destruct (Z.leb_spec 0 (d_ex d)).
    + set (k := Z.to_nat (d_ex d + 1)).
      exists (firstn k ds), (skipn k ds), [], 0. rewrite app_nil_r, Hf.
      split; [reflexivity|].
      split. { intros E. apply (f_equal (@length Z)) in E. rewrite firstn_length in E. cbn in E. lia. }
      split; [apply HDs|]. split; [apply HDs|]. split; [constructor|]. split; [lia|].
      split; [now rewrite firstn_skipn|]. split; [lia|]. rewrite skipn_length. repeat split; try lia.
    + set (z := repeat c_0 (Z.to_nat (- d_ex d - 1))).
      exists [48], (z ++ ds), [], 0. rewrite app_nil_r, Hf.
      assert (Hz : Forall digit_char z).
      { apply Forall_forall. intros c Hc. apply repeat_spec in Hc. subst c. unfold digit_char, c_0. lia. }
      split; [reflexivity|]. split; [discriminate|].
      split; [constructor; [unfold digit_char; lia|constructor]|].
      split; [apply Forall_app; auto|]. split; [constructor|]. split; [lia|].
      split. { rewrite !dec_value_app, HV. unfold z, c_0. rewrite dec_value_zeros.
               cbn [dec_value]. lia. }
      split; [lia|].
      assert (Hzl : length z = Z.to_nat (- d_ex d - 1)) by apply repeat_length.
      rewrite app_length, HL, Hzl. unfold keeps_digits. repeat split; try lia.
  - exists (firstn 1 ds), (skipn 1 ds),
      [c_e; if d_ex d <? 0 then c_minus else c_plus;
       c_0 + Z.abs (d_ex d) / 10; c_0 + Z.abs (d_ex d) mod 10], (d_ex d).
    rewrite Hf. split; [reflexivity|].
    split. { intros E. apply (f_equal (@length Z)) in E. rewrite firstn_length in E. cbn in E. lia. }
    split; [apply HDs|]. split; [apply HDs|].
    split.
    { assert (Hx : Forall digit_char [c_0 + Z.abs (d_ex d) / 10; c_0 + Z.abs (d_ex d) mod 10]).
      { unfold digit_char, c_0. repeat constructor; lia. }
      assert (Hv : dec_value [c_0 + Z.abs (d_ex d) / 10; c_0 + Z.abs (d_ex d) mod 10]
                   = Z.abs (d_ex d)).
      { cbn [dec_value length]. unfold c_0. change (10 ^ Z.of_nat 1) with 10.
        change (10 ^ Z.of_nat 0) with 1. lia. }
      destruct (Z.ltb_spec (d_ex d) 0).
      - replace (d_ex d) with (- dec_value [c_0 + Z.abs (d_ex d) / 10; c_0 + Z.abs (d_ex d) mod 10])
          at 3 by lia.
        apply ex_neg; [left; reflexivity|discriminate|assumption].
      - replace (d_ex d) with (dec_value [c_0 + Z.abs (d_ex d) / 10; c_0 + Z.abs (d_ex d) mod 10])
          at 3 by lia.
        apply ex_pos; [left; reflexivity|discriminate|assumption]. }
    split; [lia|]. split; [now rewrite firstn_skipn|]. split; [lia|].
    rewrite skipn_length, HL. repeat split; try lia.
Qed.

Lemma parse_print_g {V} (mkval : Z -> Z -> V) d rest : dec6_ok d -> num_end rest ->
  exists m e, parse_float mkval (pg d ++ rest) = Some (mkval m e, strip_line rest) /\ agrees d m e.
Proof.
  intros Hok Hrest.
  destruct (pg_shape d Hok) as (ip & l & et & x & E & Hne & Hip & Hl & Het & Hx & Hv & Hs9 & Hex & Hk & H0 & H9 & Hx0).
  destruct (strip_zeros_spec l) as (k & Hst). set (fr := strip_zeros l) in *.
  assert (Hfr : Forall digit_char fr /\ Forall digit_char (repeat 48 k)).
  { rewrite Hst in Hl. now apply Forall_app in Hl. }
  destruct Hfr as [Hfr _].
  assert (Hf7 : Forall digit_char (firstn 7 fr) /\ Forall digit_char (skipn 7 fr)).
  { apply Forall_app. now rewrite firstn_skipn. }
  destruct Hf7 as [Hf7 Hs7].
  set (j := length (skipn 7 fr)).
  (* sig = m * 10^(j+k) + tail * 10^k *)
  set (m := dec_value (ip ++ firstn 7 fr)). set (t := dec_value (skipn 7 fr)).
  assert (Hm0 : 0 <= m) by (apply dec_value_nonneg, Forall_app; auto).
  assert (Ht0 : 0 <= t) by (now apply dec_value_nonneg).
  assert (Htb : t < 10 ^ Z.of_nat j) by (now apply dec_value_bound).
  assert (Hsig : d_sig d = (m * 10 ^ Z.of_nat j + t) * 10 ^ Z.of_nat k).
  { rewrite <- Hv, Hst, app_assoc, dec_value_app, dec_value_zeros, repeat_length.
    rewrite <- (firstn_skipn 7 fr) at 1. rewrite app_assoc, dec_value_app. fold m t j. lia. }
  assert (Pj : 1 <= 10 ^ Z.of_nat j) by (pose proof (Z.pow_pos_nonneg 10 (Z.of_nat j)); lia).
  assert (Pk : 1 <= 10 ^ Z.of_nat k) by (pose proof (Z.pow_pos_nonneg 10 (Z.of_nat k)); lia).
  assert (Hmb : m <= 2147483599) by nia.
  exists ((if d_neg d then -1 else 1) * m), (x - Z.of_nat (length (firstn 7 fr))).
  split.
  - rewrite E, <- !app_assoc. apply parse_float_text; auto; lia.
  - set (e := x - Z.of_nat (length (firstn 7 fr))).
    assert (Llen : length l = (length (firstn 7 fr) + j + k)%nat).
    { rewrite Hst, app_length, repeat_length. rewrite <- (firstn_skipn 7 fr) at 1.
      rewrite app_length. reflexivity. }
    assert (Hq : d_sig d <> 0 ->
      (dec_q (d_sig d) (d_ex d - 5) == dec_q m e + dec_q t (e - Z.of_nat j))%Q).
    { intros Hnz. specialize (Hex Hnz). rewrite Hsig, dec_q_shift by lia.
      rewrite dec_q_add, dec_q_shift by lia.
      replace (d_ex d - 5 + Z.of_nat k + Z.of_nat j) with e by lia.
      replace (d_ex d - 5 + Z.of_nat k) with (e - Z.of_nat j) by lia. reflexivity. }
    assert (Hj0 : keeps_digits d -> j = O).
    { intros HK. specialize (Hk HK). unfold j. rewrite skipn_length.
      rewrite Hst, app_length in Hk. lia. }
    assert (HmS : m = 0 <-> d_sig d = 0).
    { split; intros HH.
      - (* m = 0 and sig <> 0 impossible: then j > 0 would be needed with 7 leading zeros *)
        destruct (Z.eq_dec (d_sig d) 0) as [|Hnz]; [assumption|exfalso].
        destruct Hok as [|[Hs _]]; [congruence|].
        assert (d_sig d < 10 ^ (Z.of_nat j + Z.of_nat k)).
        { rewrite Hsig, HH, Z.pow_add_r by lia. nia. }
        assert (Z.of_nat j + Z.of_nat k <= 2).
        { destruct (Nat.eq_dec j 0) as [Hj|Hj].
          - (* no digit dropped: then m*1*10^k = sig *)
            rewrite Hj in Hsig. change (10 ^ Z.of_nat 0) with 1 in Hsig. rewrite Hj in Htb.
            change (10 ^ Z.of_nat 0) with 1 in Htb. assert (t = 0) by lia. nia.
          - unfold j in *. rewrite skipn_length in *.
            assert (length (firstn 7 fr) = 7%nat) by (rewrite firstn_length; lia). lia. }
        assert (10 ^ (Z.of_nat j + Z.of_nat k) <= 10 ^ 2) by (apply Z.pow_le_mono_r; lia).
        change (10 ^ 2) with 100 in *. lia.
      - assert (m * 10 ^ Z.of_nat j + t = 0) by nia. nia. }
    assert (Htq : (0 <= dec_q t (e - Z.of_nat j))%Q /\
                  (d_sig d <> 0 -> (dec_q t (e - Z.of_nat j) < 1 # 10000000)%Q)).
    { destruct (dec_q_bound t (Z.of_nat j) (e - Z.of_nat j)) as [B1 B2]; [lia|lia|].
      split; [exact B1|]. intros Hnz.
      destruct (Nat.eq_dec j 0) as [Hj|Hj].
      - assert (t = 0) as -> by (rewrite Hj in Htb; change (10 ^ Z.of_nat 0) with 1 in Htb; lia).
        unfold dec_q. change (inject_Z 0) with 0%Q. rewrite Qmult_0_l. reflexivity.
      - eapply Qlt_le_trans; [exact B2|].
        replace (e - Z.of_nat j + Z.of_nat j) with e by lia.
        assert (He : e <= -7).
        { unfold e. pose proof Hj as Hj'. unfold j in Hj. rewrite skipn_length in Hj.
          assert (L7 : length (firstn 7 fr) = 7%nat) by (rewrite firstn_length; lia).
          rewrite L7 in Llen |- *. rewrite Hx0 by lia. lia. }
        change (1 # 10000000)%Q with ((10 # 1) ^ (-7))%Q.
        apply Qpower_le_compat_l; [lia|]. discriminate. }
    destruct Htq as [Htq1 Htq2].
    assert (Hmz : dec_q 0 e == 0) by (unfold dec_q; change (inject_Z 0) with 0%Q; apply Qmult_0_l).
    unfold agrees, dec6_q, dec6_signed.
    destruct (Z.eqb_spec (d_sig d) 0) as [Hz|Hz].
    { assert (m = 0) as -> by tauto. rewrite Z.mul_0_r.
      split; [intros _; exact Hmz|]. split; [intros _; rewrite Hmz; split; [apply Qle_refl|reflexivity]|].
      split; [intros _; rewrite Hmz; split; [apply Qle_refl|reflexivity]|tauto]. }
    specialize (Hq Hz). specialize (Htq2 Hz).
    assert (Hkeep : keeps_digits d -> (dec_q t (e - Z.of_nat j) == 0)%Q).
    { intros HK. specialize (Hj0 HK). rewrite Hj0 in Htb. change (10 ^ Z.of_nat 0) with 1 in Htb.
      assert (t = 0) as -> by lia. unfold dec_q. change (inject_Z 0) with 0%Q. apply Qmult_0_l. }
    destruct (d_neg d).
    + replace (-1 * m) with (- m) by lia. rewrite !dec_q_opp.
      split; [intros HK; rewrite Hq, (Hkeep HK); ring|]. split; [discriminate|].
      split; [intros _; rewrite Hq; split; lra|].
      split; [intros; apply HmS; lia|intros HH; apply HmS in HH; lia].
    + replace (1 * m) with m by lia.
      split; [intros HK; rewrite Hq, (Hkeep HK); ring|].
      split; [intros _; rewrite Hq; split; lra|]. split; [discriminate|exact HmS].
Qed.
