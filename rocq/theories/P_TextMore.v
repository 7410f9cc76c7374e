(** Further facts about the text layer: buffer bounds, non-numbers, digit cut-off, witnesses. *)
From Verif Require Import M_Base M_DataPoint M_Text S_Text P_Lines P_Parse P_PrintG P_TextFiles.
From Coq Require Import QArith Qpower Lqa.
Local Open Scope Z_scope.
Ltac Zify.zify_post_hook ::= Z.div_mod_to_equations.

Lemma take_line_len l : forall k, Z.of_nat (length (fst (take_line k l))) <= Z.max 0 k.
Proof.
  induction l as [|c l IH]; intros k; cbn [take_line fst length]; try lia.
  destruct (Z.leb_spec k 0); cbn [fst length]; [lia|].
  destruct (c =? c_nl); cbn [fst length]; [lia|]. specialize (IH (k - 1)).
  destruct (take_line (k - 1) l). cbn [fst length] in *. lia.
Qed.
Lemma cstr_len l : (length (cstr l) <= length l)%nat.
Proof. induction l as [|c l IH]; cbn [cstr length]; [lia|]. destruct (c =? 0); cbn [length]; lia. Qed.

Lemma loop_bound fuel : forall buf n file buf' n' rest, 2 <= n -> Z.of_nat (length buf) < n ->
  read_line_loop fuel buf n file = Some (buf', n', rest) ->
  Z.of_nat (length buf') < n' /\ n <= n' <= Z.max n 2147483647.
Proof.
  induction fuel as [|fuel IH]; intros buf n file buf' n' rest Hn Hb; cbn [read_line_loop];
    [discriminate|].
  destruct (existsb _ _); [intros H; inversion H; subst; lia|].
  destruct (Z.ltb_spec 2147483647 (n * 2)); [discriminate|]. cbn zeta.
  pose proof (cstr_len buf). unfold fgets.
  destruct file as [|c file]; [intros HH; inversion HH; subst; lia|].
  set (k := n * 2 - Z.of_nat (length (cstr buf)) - 1).
  pose proof (take_line_len (c :: file) k). destruct (take_line k (c :: file)) as [a file'].
  cbn [fst] in *. intros HH. apply IH in HH; [lia|lia|]. rewrite app_length. lia.
Qed.

Lemma read_line_bound n file st l n' rest : 2 <= n ->
  read_line n file = Some (st, l, n', rest) -> Z.of_nat (length l) < n' /\ n <= n' <= Z.max n 2147483647.
Proof.
  intros Hn. unfold read_line, fgets. destruct file as [|c file].
  - intros H. inversion H; subst. cbn [length]. lia.
  - set (k := n - 1). pose proof (take_line_len (c :: file) k).
    destruct (take_line k (c :: file)) as [a file']. cbn [fst] in *.
    destruct (read_line_loop _ a n file') as [[[buf m] r]|] eqn:E; cbn [bind]; [|discriminate].
    intros HH. inversion HH; subst. apply loop_bound in E; [|lia|lia].
    pose proof (cstr_len buf). lia.
Qed.

Lemma non_number_facts p : non_number p -> strip_line p = p /\ no_digit p /\ p <> [] /\
  starts c_plus p = false /\ starts c_minus p = false /\ starts c_dot p = false /\
  starts c_e p = false /\ starts c_E p = false.
Proof.
  destruct p as [|c r]; cbn [non_number]; [tauto|]. intros (Hb & Hd & Hi).
  split; [now apply strip_nonblank|]. split; [assumption|]. split; [discriminate|].
  cbn [In starts] in *. unfold c_plus, c_minus, c_dot, c_e, c_E. lia.
Qed.

Lemma parse_non_number_l {V} pw (mkval : Z -> Z -> V) p : non_number p ->
  parse_int pw p = Some (0, p) /\ parse_uint pw p = Some (0, p) /\
  parse_float mkval p = Some (mkval 0 0, p).
Proof.
  intros H. destruct (non_number_facts p H) as (E & Hn & Hne & E1 & E2 & E3 & E4 & E5).
  unfold parse_int, parse_uint, parse_float. rewrite E.
  destruct p as [|c r]; [congruence|]. set (p := c :: r) in *.
  assert (DU : digits_uint 0 p = (0, 0, p)).
  { unfold p. cbn [digits_uint]. apply is_digit_no in Hn. now rewrite Hn. }
  rewrite E1, E2, DU, !digits_int_none by assumption. cbn [bind]. rewrite E3. cbn [bind].
  rewrite E4, E5. cbn [orb bind]. change (0 <? 0) with false. cbn [bind]. rewrite E. auto.
Qed.

(** Value read for a decimal numeral. *)
Lemma parse_decimal_l {V} (mkval : Z -> Z -> V) (neg : bool) bl ip fr et x rest :
  Forall blank bl -> ip <> [] -> Forall digit_char ip -> Forall digit_char fr -> exp_text et x ->
  dec_value (ip ++ firstn 7 fr) <= 2147483599 -> -2147483599 <= x <= 2147483599 -> num_end rest ->
  exists m e,
  parse_float mkval (bl ++ (if neg then [45] else []) ++ ip ++ frac_text fr ++ et ++ rest) =
    Some (mkval (if neg then - m else m) e, strip_line rest) /\
  ((length fr <= 7)%nat -> (dec_q m e == dec_q (dec_value (ip ++ fr)) (x - Z.of_nat (length fr)))%Q) /\
  (dec_q m e <= dec_q (dec_value (ip ++ fr)) (x - Z.of_nat (length fr)))%Q /\
  (dec_q (dec_value (ip ++ fr)) (x - Z.of_nat (length fr)) - dec_q m e < (10 # 1) ^ (x - 7))%Q.
Proof.
  intros Hbl Hne Hip Hfr Het Hb Hx Hrest.
  exists (dec_value (ip ++ firstn 7 fr)), (x - Z.of_nat (length (firstn 7 fr))).
  split.
  - pose proof (parse_float_text mkval neg ip fr et x rest Hne Hip Hfr Het Hb Hx Hrest) as P.
    unfold parse_float in P |- *. rewrite strip_blanks by assumption.
    set (tx := (if neg then [45] else []) ++ ip ++ frac_text fr ++ et ++ rest) in *.
    assert (S1 : strip_line tx = tx).
    { unfold tx. destruct neg; cbn [app]; [apply strip_nonblank; unfold blank; lia|].
      now apply strip_head_digits. }
    rewrite S1 in *. destruct tx as [|c0 tx0] eqn:Etx.
    { destruct neg; [discriminate|]. destruct ip; [congruence|discriminate]. }
    rewrite P. destruct neg; do 3 f_equal; lia.
  - assert (Hs : Forall digit_char (skipn 7 fr)).
    { rewrite <- (firstn_skipn 7 fr) in Hfr. apply Forall_app in Hfr. tauto. }
    set (j := length (skipn 7 fr)). set (t := dec_value (skipn 7 fr)).
    assert (Ht : 0 <= t < 10 ^ Z.of_nat j)
      by (split; [now apply dec_value_nonneg|now apply dec_value_bound]).
    assert (Hl : length fr = (length (firstn 7 fr) + j)%nat).
    { unfold j. rewrite <- (firstn_skipn 7 fr) at 1. now rewrite app_length. }
    assert (Hv : dec_value (ip ++ fr) = dec_value (ip ++ firstn 7 fr) * 10 ^ Z.of_nat j + t).
    { rewrite <- (firstn_skipn 7 fr) at 1. rewrite app_assoc, dec_value_app. reflexivity. }
    set (e := x - Z.of_nat (length (firstn 7 fr))).
    assert (Hq : (dec_q (dec_value (ip ++ fr)) (x - Z.of_nat (length fr)) ==
                  dec_q (dec_value (ip ++ firstn 7 fr)) e + dec_q t (e - Z.of_nat j))%Q).
    { rewrite Hv, dec_q_add, dec_q_shift by lia.
      replace (x - Z.of_nat (length fr) + Z.of_nat j) with e by lia.
      replace (x - Z.of_nat (length fr)) with (e - Z.of_nat j) by lia. reflexivity. }
    destruct (dec_q_bound t (Z.of_nat j) (e - Z.of_nat j)) as [B1 B2]; [lia|lia|].
    assert (B3 : (dec_q t (e - Z.of_nat j) < (10 # 1) ^ (x - 7))%Q).
    { destruct (Nat.eq_dec j 0) as [Hj|Hj].
      - rewrite Hj in Ht. change (10 ^ Z.of_nat 0) with 1 in Ht. assert (t = 0) as -> by lia.
        unfold dec_q. change (inject_Z 0) with 0%Q. rewrite Qmult_0_l. apply ten_pow_pos.
      - assert (e = x - 7) as He.
        { unfold e. unfold j in Hj. rewrite skipn_length in Hj. rewrite firstn_length. lia. }
        replace (e - Z.of_nat j + Z.of_nat j) with (x - 7) in B2 by lia. exact B2. }
    split; [|split].
    + intros H7. rewrite Hq.
      assert (t = 0) as ->. { assert (j = O) as Hj by (unfold j; rewrite skipn_length; lia). rewrite Hj in Ht.
        change (10 ^ Z.of_nat 0) with 1 in Ht. lia. }
      unfold dec_q at 3. change (inject_Z 0) with 0%Q. ring.
    + rewrite Hq. lra.
    + rewrite Hq. lra.
Qed.

Lemma pg_eq d : pg d = print_g6 (d_neg d) (d_sig d) (d_ex d).
Proof. reflexivity. Qed.
