(** Proofs about number parsing and printing. *)
From Verif Require Import M_Base M_DataPoint M_Text S_Text.
From Coq Require Import QArith Qpower Qfield.
Local Open Scope Z_scope.
Ltac Zify.zify_post_hook ::= Z.div_mod_to_equations.

(* -------------------------------------------------------------- digit runs *)

(** Horner value continuing from [acc]. *)
Definition horner (acc : Z) (ds : list Z) : Z := fold_left (fun a c => a * 10 + (c - 48)) ds acc.

Lemma horner_cons a c r : horner a (c :: r) = horner (a * 10 + (c - 48)) r.
Proof. reflexivity. Qed.
Lemma horner_app a x y : horner a (x ++ y) = horner (horner a x) y.
Proof. unfold horner. apply fold_left_app. Qed.
Lemma pow_S n : 10 ^ Z.of_nat (S n) = 10 * 10 ^ Z.of_nat n.
Proof. rewrite Nat2Z.inj_succ, Z.pow_succ_r by lia. reflexivity. Qed.
Lemma horner_val ds : forall a, horner a ds = a * 10 ^ Z.of_nat (length ds) + dec_value ds.
Proof.
  induction ds as [|d r IH]; intros a; [unfold horner; cbn; lia|].
  rewrite horner_cons, IH. cbn [length dec_value]. rewrite pow_S.
  set (P := 10 ^ Z.of_nat (length r)). ring.
Qed.
Lemma horner_0 ds : horner 0 ds = dec_value ds.
Proof. rewrite horner_val. lia. Qed.
Lemma dec_value_app a b : dec_value (a ++ b) = dec_value a * 10 ^ Z.of_nat (length b) + dec_value b.
Proof. rewrite <- (horner_0 (a ++ b)), horner_app, horner_val, horner_0. reflexivity. Qed.
Lemma horner_ge ds : Forall digit_char ds -> forall a, 0 <= a -> a <= horner a ds.
Proof.
  induction 1 as [|d r Hd Hr IH]; intros a Ha; [unfold horner; cbn; lia|].
  rewrite horner_cons. unfold digit_char in Hd. specialize (IH (a * 10 + (d - 48))). lia.
Qed.
Lemma dec_value_nonneg ds : Forall digit_char ds -> 0 <= dec_value ds.
Proof. intros H. rewrite <- horner_0. now apply horner_ge. Qed.

Lemma is_digit_spec c : is_digit c = true <-> digit_char c.
Proof. unfold is_digit, digit_char, c_0, c_9. lia. Qed.
Lemma is_digit_no c : is_digit c = false <-> ~ digit_char c.
Proof. unfold is_digit, digit_char, c_0, c_9. lia. Qed.

(** No digit at the head. *)
Definition no_digit (p : list Z) : Prop := match p with [] => True | c :: _ => ~ digit_char c end.

Lemma digits_int_none p acc : no_digit p -> forall lim, digits_int lim acc p = Some (acc, 0, p).
Proof.
  destruct p as [|c r]; cbn; intros H lim; [reflexivity|].
  apply is_digit_no in H. rewrite H. reflexivity.
Qed.

Lemma digits_int_run ds : Forall digit_char ds -> forall acc p, 0 <= acc -> no_digit p ->
  horner acc ds <= 2147483599 ->
  digits_int None acc (ds ++ p) = Some (horner acc ds, Z.of_nat (length ds), p).
Proof.
  induction 1 as [|d r Hd Hr IH]; intros acc p Ha Hp Hb; cbn [app].
  - rewrite digits_int_none by assumption. reflexivity.
  - cbn [digits_int]. pose proof Hd as Hd'. apply is_digit_spec in Hd'. rewrite Hd'.
    cbn [andb negb]. unfold digit_char in Hd.
    rewrite horner_cons in Hb. pose proof (horner_ge r Hr (acc * 10 + (d - 48)) ltac:(lia)).
    unfold acc_int, c_0. replace (2147483647 <? acc * 10) with false by lia.
    replace (2147483647 <? acc * 10 + d) with false by lia. cbn [bind].
    replace (acc * 10 + d - 48) with (acc * 10 + (d - 48)) by lia.
    rewrite IH by (lia || assumption). cbn [bind]. rewrite horner_cons. cbn [length].
    repeat f_equal. lia.
Qed.

(** With a limit of k digits. *)
Lemma digits_int_lim ds : Forall digit_char ds -> forall k acc p, 0 <= acc -> no_digit p ->
  horner acc (firstn k ds) <= 2147483599 ->
  digits_int (Some k) acc (ds ++ p) =
    Some (horner acc (firstn k ds), Z.of_nat (length (firstn k ds)), skipn k ds ++ p).
Proof.
  induction 1 as [|d r Hd Hr IH]; intros k acc p Ha Hp Hb.
  - rewrite firstn_nil, skipn_nil. cbn [app]. rewrite digits_int_none by assumption. reflexivity.
  - destruct k as [|k]; cbn [app digits_int].
    + rewrite andb_false_r. cbn [firstn skipn]. reflexivity.
    + pose proof Hd as Hd'. apply is_digit_spec in Hd'. rewrite Hd'.
      cbn [andb negb firstn skipn] in *. unfold digit_char in Hd.
      rewrite horner_cons in Hb.
      assert (Forall digit_char (firstn k r)) as Hfr.
      { rewrite <- (firstn_skipn k r) in Hr. apply Forall_app in Hr. tauto. }
      pose proof (horner_ge _ Hfr (acc * 10 + (d - 48)) ltac:(lia)).
      unfold acc_int, c_0. replace (2147483647 <? acc * 10) with false by lia.
      replace (2147483647 <? acc * 10 + d) with false by lia. cbn [bind pred].
      replace (acc * 10 + d - 48) with (acc * 10 + (d - 48)) by lia.
      rewrite IH by (lia || assumption). cbn [bind]. rewrite horner_cons. cbn [length].
      repeat f_equal. lia.
Qed.

Lemma skip_digits_run ds p : Forall digit_char ds -> no_digit p -> skip_digits (ds ++ p) = p.
Proof.
  intros H Hp. induction H as [|d r Hd Hr IH]; cbn [app].
  - destruct p as [|c r]; [reflexivity|]. cbn. apply is_digit_no in Hp. now rewrite Hp.
  - cbn. apply is_digit_spec in Hd. now rewrite Hd.
Qed.

Lemma digits_uint_run ds : Forall digit_char ds -> forall acc p, 0 <= acc -> no_digit p ->
  horner acc ds < two32 ->
  digits_uint acc (ds ++ p) = (horner acc ds, Z.of_nat (length ds), p).
Proof.
  induction 1 as [|d r Hd Hr IH]; intros acc p Ha Hp Hb; cbn [app].
  - destruct p as [|c r]; [reflexivity|]. cbn in *. apply is_digit_no in Hp. now rewrite Hp.
  - cbn [digits_uint]. pose proof Hd as Hd'. apply is_digit_spec in Hd'. rewrite Hd'.
    unfold digit_char in Hd.
    rewrite horner_cons in Hb. pose proof (horner_ge r Hr (acc * 10 + (d - 48)) ltac:(lia)).
    unfold u32, c_0. replace (acc * 10 + d - 48) with (acc * 10 + (d - 48)) by lia.
    rewrite Z.mod_small by lia.
    rewrite IH by (lia || assumption). rewrite horner_cons. cbn [length].
    repeat f_equal. lia.
Qed.

(* ------------------------------------------------------------------ blanks *)

Lemma is_space_spec c : is_space c = true <-> blank c.
Proof. unfold is_space, blank, c_sp, c_tab, c_nl, c_cr. lia. Qed.
Lemma strip_blanks bl p : Forall blank bl -> strip_line (bl ++ p) = strip_line p.
Proof. induction 1; [reflexivity|]. cbn. apply is_space_spec in H. now rewrite H. Qed.
Lemma strip_nonblank c r : ~ blank c -> strip_line (c :: r) = c :: r.
Proof. cbn. intros H. destruct (is_space c) eqn:E; [apply is_space_spec in E; tauto|reflexivity]. Qed.
Lemma strip_length p : (length (strip_line p) <= length p)%nat.
Proof. induction p as [|c r IH]; cbn; [lia|]. destruct (is_space c); cbn; lia. Qed.

Lemma digit_not_blank c : digit_char c -> ~ blank c.
Proof. unfold digit_char, blank. lia. Qed.

Lemma num_end_no_digit p : num_end p -> no_digit p.
Proof. destruct p; cbn; tauto. Qed.
Lemma num_end_starts p : num_end p ->
  starts c_dot p = false /\ starts c_e p = false /\ starts c_E p = false.
Proof. destruct p as [|c r]; cbn; [auto|]. unfold c_dot, c_e, c_E. lia. Qed.

Lemma starts_digit c d r : digit_char d -> ~ digit_char c -> starts c (d :: r) = false.
Proof. cbn. unfold digit_char. lia. Qed.

(* --------------------------------------------------------------- ParseInt *)

Lemma parse_int_spelled pw bl s n rest : Forall blank bl -> spelling s n ->
  -2147483599 <= n <= 2147483599 -> num_end rest ->
  parse_int pw (bl ++ s ++ rest) = Some (n, strip_line rest).
Proof.
  intros Hbl Hs Hn Hrest. unfold parse_int. rewrite strip_blanks by assumption.
  destruct (num_end_starts rest Hrest) as (E1 & E2 & E3).
  pose proof (num_end_no_digit _ Hrest) as Hnd.
  assert (D : forall ds, Forall digit_char ds -> dec_value ds <= 2147483599 ->
    digits_int None 0 (ds ++ rest) = Some (dec_value ds, Z.of_nat (length ds), rest)).
  { intros ds Hds Hb. rewrite digits_int_run; auto; rewrite ?horner_0; auto; lia. }
  destruct Hs as [ds Hne Hds|ds Hne Hds|ds Hne Hds].
  - destruct ds as [|d r]; [congruence|]. inversion Hds as [|? ? Hd Hr]; subst.
    cbn [app]. rewrite strip_nonblank by now apply digit_not_blank. cbn zeta iota.
    rewrite !starts_digit by (assumption || (unfold digit_char, c_plus, c_minus; lia)).
    change (d :: r ++ rest) with ((d :: r) ++ rest).
    rewrite D by (assumption || lia). cbn [bind]. rewrite E1. cbn [bind].
    rewrite E2, E3. cbn [orb bind].
    change (0 <? 0) with false. cbn [bind]. do 2 f_equal; lia.
  - cbn [app]. rewrite strip_nonblank by (unfold blank; lia). cbn [starts tl].
    unfold c_plus. cbn [Z.eqb Pos.eqb].
    rewrite D by (assumption || lia). cbn [bind]. rewrite E1. cbn [bind].
    rewrite E2, E3. cbn [orb bind].
    change (0 <? 0) with false. cbn [bind]. do 2 f_equal; lia.
  - cbn [app]. rewrite strip_nonblank by (unfold blank; lia). cbn [starts tl].
    unfold c_plus, c_minus. cbn [Z.eqb Pos.eqb].
    rewrite D by (assumption || lia). cbn [bind]. rewrite E1. cbn [bind].
    rewrite E2, E3. cbn [orb bind].
    change (0 <? 0) with false. cbn [bind]. do 2 f_equal; lia.
Qed.

Lemma parse_uint_spelled pw bl ds rest : Forall blank bl -> ds <> [] -> Forall digit_char ds ->
  is_u32 (dec_value ds) -> num_end rest ->
  parse_uint pw (bl ++ ds ++ rest) = Some (dec_value ds, strip_line rest).
Proof.
  intros Hbl Hne Hds Hn Hrest. unfold parse_uint. rewrite strip_blanks by assumption.
  destruct (num_end_starts rest Hrest) as (E1 & E2 & E3).
  pose proof (num_end_no_digit _ Hrest) as Hnd. unfold is_u32 in Hn.
  destruct ds as [|d r]; [congruence|]. inversion Hds as [|? ? Hd Hr]; subst.
  cbn [app]. rewrite strip_nonblank by now apply digit_not_blank.
  change (d :: r ++ rest) with ((d :: r) ++ rest).
  rewrite digits_uint_run; auto; rewrite ?horner_0; try lia.
  rewrite E1. rewrite E2, E3. cbn [orb bind].
  change (0 <? 0) with false. cbn [bind]. reflexivity.
Qed.

(* --------------------------------------------------------------- printing *)

Lemma dec_digits_ok fuel : forall n, 0 <= n < 10 ^ Z.of_nat fuel -> (0 < fuel)%nat ->
  exists ds, dec_digits fuel n = Some ds /\ ds <> [] /\ Forall digit_char ds /\ dec_value ds = n.
Proof.
  induction fuel as [|f IH]; intros n Hn Hf; [lia|]. cbn [dec_digits].
  destruct (Z.ltb_spec n 10).
  - exists [c_0 + n]. unfold c_0, digit_char. repeat split; auto; [discriminate| |].
    + constructor; [lia|constructor].
    + cbn [dec_value length]. change (10 ^ Z.of_nat 0) with 1. lia.
  - rewrite pow_S in Hn. destruct f as [|f]; [cbn in Hn; lia|].
    destruct (IH (n / 10)) as (r & E & Hne & Hd & Hv); [lia|lia|].
    rewrite E. cbn [bind]. eexists. repeat split.
    + destruct r; discriminate.
    + apply Forall_app. split; auto. constructor; [|constructor]. unfold digit_char, c_0. lia.
    + rewrite dec_value_app, Hv. cbn [dec_value length]. unfold c_0.
      change (10 ^ Z.of_nat 1) with 10. change (10 ^ Z.of_nat 0) with 1. lia.
Qed.

Lemma print_d_ok n : is_i32 n -> exists s, print_d n = Some s /\ spelling s n /\
  (0 <= n -> s <> [] /\ Forall digit_char s /\ dec_value s = n) /\
  Forall (fun c => digit_char c \/ c = 45) s.
Proof.
  unfold is_i32, print_d. intros Hn.
  assert (P : 10 ^ Z.of_nat 20 = 100000000000000000000) by reflexivity.
  assert (W : forall s, Forall digit_char s -> Forall (fun c => digit_char c \/ c = 45) s).
  { intros s. apply Forall_impl. auto. }
  destruct (Z.ltb_spec n 0).
  - destruct (dec_digits_ok 20 (- n)) as (ds & E & Hne & Hd & Hv); [lia|lia|].
    rewrite E. cbn [bind]. exists (c_minus :: ds). split; [reflexivity|]. split; [|split].
    + replace n with (- dec_value ds) by lia. now constructor.
    + lia.
    + constructor; auto.
  - destruct (dec_digits_ok 20 n) as (ds & E & Hne & Hd & Hv); [lia|lia|].
    exists ds. split; [assumption|]. split; [|split]; auto. rewrite <- Hv at 1. now constructor.
Qed.

(* -------------------------------------------------------------- ParseFloat *)

Lemma starts_e_E p : starts c_e p || starts c_E p = true <-> exists r, p = 101 :: r \/ p = 69 :: r.
Proof.
  destruct p as [|c r]; cbn; unfold c_e, c_E; split.
  - discriminate.
  - intros (? & [|]); discriminate.
  - intros H. destruct (Z.eqb_spec c 101); [subst; eauto|]. destruct (Z.eqb_spec c 69); [subst; eauto|].
    discriminate.
  - intros (? & [H|H]); inversion H; reflexivity.
Qed.

Section PF.
Context {V : Type}.
Variable mkval : Z -> Z -> V.

Lemma parse_float_text neg ip fr et x rest :
  ip <> [] -> Forall digit_char ip -> Forall digit_char fr -> exp_text et x ->
  dec_value (ip ++ firstn 7 fr) <= 2147483599 -> -2147483599 <= x <= 2147483599 -> num_end rest ->
  parse_float mkval ((if neg : bool then [45] else []) ++ ip ++ frac_text fr ++ et ++ rest) =
    Some (mkval ((if neg then -1 else 1) * dec_value (ip ++ firstn 7 fr))
                (x - Z.of_nat (length (firstn 7 fr))), strip_line rest).
Proof.
  intros Hne Hip Hfr Het Hb Hx Hrest. unfold parse_float.
  pose proof (num_end_no_digit _ Hrest) as Hnd.
  destruct (num_end_starts rest Hrest) as (E1 & E2 & E3).
  assert (Hfr7 : Forall digit_char (firstn 7 fr)).
  { rewrite <- (firstn_skipn 7 fr) in Hfr. apply Forall_app in Hfr. tauto. }
  assert (Hfrs : Forall digit_char (skipn 7 fr)).
  { rewrite <- (firstn_skipn 7 fr) in Hfr. apply Forall_app in Hfr. tauto. }
  assert (Hdi : dec_value ip <= 2147483599).
  { rewrite <- horner_0 in Hb |- *. rewrite horner_app in Hb.
    pose proof (horner_ge _ Hfr7 (horner 0 ip) (horner_ge _ Hip 0 ltac:(lia))). lia. }
  destruct ip as [|d ip']; [congruence|]. set (ip := d :: ip') in *.
  assert (Hd : digit_char d) by (inversion Hip; auto).
  (* nothing after the number starts with a digit *)
  assert (HetD : no_digit (et ++ rest)).
  { destruct Het; cbn; auto; unfold digit_char; lia. }
  assert (HfD : no_digit (frac_text fr ++ et ++ rest)).
  { destruct fr; cbn [frac_text app]; [assumption|]. cbn. unfold digit_char. lia. }
  assert (Hfs : fr = [] -> starts c_dot (frac_text fr ++ et ++ rest) = false).
  { intros ->. cbn [frac_text app]. destruct Het; cbn; auto; unfold c_dot; lia. }
  (* the tail, from the integer digits on *)
  enough (T : forall s,
    (do (acc, _, p) <- digits_int None 0 (ip ++ frac_text fr ++ et ++ rest);
     do (acc, num_dec, p) <-
       (if starts c_dot p then
          do (a, n, q) <- digits_int (Some 7%nat) acc (tl p);
          Some (a, n, skip_digits q)
        else Some (acc, 0, p));
     do (exp_acc, p) <-
       (if starts c_e p || starts c_E p then
          let p := tl p in
          let p := if starts c_plus p then tl p else p in
          let '(es, p) := if starts c_minus p then (-1, tl p) else (1, p) in
          do (x, _, p) <- digits_int None 0 p; Some (x * es, p)
        else Some (0, p));
     Some (mkval (s * acc) (exp_acc - num_dec), strip_line p)) =
    Some (mkval (s * dec_value (ip ++ firstn 7 fr)) (x - Z.of_nat (length (firstn 7 fr))),
      strip_line rest)).
  { destruct neg; cbn [app].
    - rewrite strip_nonblank by (unfold blank; lia). unfold starts at 1 2. cbn [tl].
      change (45 =? c_plus) with false. cbn iota. cbn [starts tl].
      change (45 =? c_minus) with true. cbn iota. apply T.
    - assert (Est : strip_line (ip ++ frac_text fr ++ et ++ rest) = ip ++ frac_text fr ++ et ++ rest)
        by (apply strip_nonblank; now apply digit_not_blank).
      assert (Ep : starts c_plus (ip ++ frac_text fr ++ et ++ rest) = false)
        by (apply starts_digit; [assumption|unfold digit_char, c_plus; lia]).
      assert (Em : starts c_minus (ip ++ frac_text fr ++ et ++ rest) = false)
        by (apply starts_digit; [assumption|unfold digit_char, c_minus; lia]).
      rewrite Est, Ep, Em.
      apply T. }
  intros s.
  rewrite digits_int_run by (auto; rewrite ?horner_0; auto; lia). cbn [bind].
  assert (Ex : (if starts c_e (et ++ rest) || starts c_E (et ++ rest) then
          let p := tl (et ++ rest) in
          let p := if starts c_plus p then tl p else p in
          let '(es, p) := if starts c_minus p then (-1, tl p) else (1, p) in
          do (x, _, p) <- digits_int None 0 p; Some (x * es, p)
        else Some (0, et ++ rest)) = Some (x, rest)).
  { assert (DD : forall ds, Forall digit_char ds -> dec_value ds <= 2147483599 ->
      digits_int None 0 (ds ++ rest) = Some (dec_value ds, Z.of_nat (length ds), rest)).
    { intros ds Hds Hbd. rewrite digits_int_run; auto; rewrite ?horner_0; auto; lia. }
    destruct Het as [|c ds Hc Hdn Hds|c ds Hc Hdn Hds|c ds Hc Hdn Hds]; cbn [app].
    - rewrite E2, E3. reflexivity.
    - replace (starts c_e _ || starts c_E _) with true
        by (symmetry; apply starts_e_E; destruct Hc; subst; eauto).
      cbn [tl]. cbn [starts]. change (43 =? c_plus) with true. cbn iota. cbn [tl].
      destruct ds as [|d0 ds]; [congruence|]. cbn [app].
      assert (digit_char d0) by (inversion Hds; auto).
      rewrite (starts_digit c_minus) by (assumption || (unfold digit_char, c_minus; lia)).
      change (d0 :: ds ++ rest) with ((d0 :: ds) ++ rest). rewrite DD by (auto; lia).
      cbn [bind]. now rewrite Z.mul_1_r.
    - replace (starts c_e _ || starts c_E _) with true
        by (symmetry; apply starts_e_E; destruct Hc; subst; eauto).
      cbn [tl]. destruct ds as [|d0 ds]; [congruence|]. cbn [app].
      assert (digit_char d0) by (inversion Hds; auto).
      rewrite (starts_digit c_plus) by (assumption || (unfold digit_char, c_plus; lia)).
      cbn zeta.
      rewrite (starts_digit c_minus) by (assumption || (unfold digit_char, c_minus; lia)).
      change (d0 :: ds ++ rest) with ((d0 :: ds) ++ rest). rewrite DD by (auto; lia).
      cbn [bind]. now rewrite Z.mul_1_r.
    - replace (starts c_e _ || starts c_E _) with true
        by (symmetry; apply starts_e_E; destruct Hc; subst; eauto).
      cbn [tl]. cbn [starts]. change (45 =? c_plus) with false. cbn iota zeta. cbn [tl starts].
      change (45 =? c_minus) with true. cbn iota. cbn [tl].
      rewrite DD by (auto; lia). cbn [bind]. repeat f_equal. lia. }
  cbn zeta in Ex.
  destruct fr as [|f0 fr'].
  - rewrite Hfs by reflexivity. cbn [bind frac_text app]. cbn zeta. rewrite Ex. cbn [bind].
    rewrite horner_0. cbn [firstn length]. rewrite app_nil_r. reflexivity.
  - set (fr := f0 :: fr') in *. change (frac_text fr ++ et ++ rest) with (46 :: fr ++ (et ++ rest)).
    cbn [starts tl]. change (46 =? c_dot) with true. cbn iota.
    rewrite digits_int_lim; auto.
    2:{ rewrite horner_0. now apply dec_value_nonneg. }
    2:{ rewrite <- horner_app, horner_0. assumption. }
    cbn [bind]. rewrite skip_digits_run by assumption. cbn zeta. rewrite Ex. cbn [bind].
    rewrite <- horner_app, horner_0. reflexivity.
Qed.
End PF.
