(** What the text parsers accept. *)
From Verif Require Import M_Base M_DataPoint M_Text S_Text S_TextBad P_DataPoint P_Lines P_Parse P_TextFiles P_TextMore.
From Coq Require Import Sorted Permutation.

Lemma digits_int_split p : forall lim acc a n q, digits_int lim acc p = Some (a, n, q) ->
  exists s, p = s ++ q /\ Forall digit_char s.
Proof.
  induction p as [|c r IH]; intros lim acc a n q H; cbn [digits_int] in H.
  - injection H as <- <- <-. exists []. auto.
  - destruct (is_digit c && _) eqn:E.
    + destruct (acc_int acc c) as [v|]; [|discriminate]. cbn [bind] in H.
      destruct (digits_int _ v r) as [((a', n'), q')|] eqn:Er; [|discriminate]. cbn [bind] in H.
      injection H as <- <- <-. destruct (IH _ _ _ _ _ Er) as (s & -> & Hs).
      exists (c :: s). split; [reflexivity|]. constructor; auto.
      apply andb_true_iff in E as (E & _). now apply is_digit_spec.
    + injection H as <- <- <-. exists []. auto.
Qed.
Lemma digits_uint_split p : forall acc a n q, digits_uint acc p = (a, n, q) ->
  exists s, p = s ++ q /\ Forall digit_char s.
Proof.
  induction p as [|c r IH]; intros acc a n q H; cbn [digits_uint] in H.
  - injection H as <- <- <-. exists []. auto.
  - destruct (is_digit c) eqn:E.
    + destruct (digits_uint _ r) as ((a', n'), q') eqn:Er. injection H as <- <- <-.
      destruct (IH _ _ _ _ Er) as (s & -> & Hs). exists (c :: s). split; [reflexivity|].
      constructor; auto. now apply is_digit_spec.
    + injection H as <- <- <-. exists []. auto.
Qed.
Lemma skip_split p : exists s, p = s ++ skip_digits p /\ Forall digit_char s.
Proof.
  induction p as [|c r (s & E & Hs)]; [exists []; auto|]. cbn [skip_digits].
  destruct (is_digit c) eqn:Ec; [|exists []; auto].
  exists (c :: s). split; [cbn; now rewrite <- E|]. constructor; auto. now apply is_digit_spec.
Qed.
Lemma strip_split p : exists s, p = s ++ strip_line p /\ Forall blank s.
Proof.
  induction p as [|c r (s & E & Hs)]; [exists []; auto|]. cbn [strip_line].
  destruct (is_space c) eqn:Ec; [|exists []; auto].
  exists (c :: s). split; [cbn; now rewrite <- E|]. constructor; auto. now apply is_space_spec.
Qed.
Lemma starts_split c p : starts c p = true -> p = c :: tl p.
Proof. destruct p as [|x r]; [discriminate|]. cbn. intros H. apply Z.eqb_eq in H. now subst. Qed.

Lemma loose_nil : loose_number [].
Proof. exists [], [], [], [], [], []. cbn. unfold sign_text. cbn. auto 20. Qed.

(** Signs *)
Lemma sign1 (p : list Z) : exists g, sign_text g /\
  p = g ++ (if starts c_plus p then tl p else if starts c_minus p then tl p else p).
Proof.
  destruct (starts c_plus p) eqn:E1; [exists [43]; split; [cbn; auto|now apply starts_split]|].
  destruct (starts c_minus p) eqn:E2; [exists [45]; split; [cbn; auto|now apply starts_split]|].
  exists []. split; [cbn; auto|reflexivity].
Qed.
Lemma sign2 (p : list Z) : let p1 := if starts c_plus p then tl p else p in
  exists g, sign_text g /\ p = g ++ (if starts c_minus p1 then tl p1 else p1).
Proof.
  cbv zeta. destruct (starts c_plus p) eqn:E1.
  - apply starts_split in E1. destruct (starts c_minus (tl p)) eqn:E2.
    + apply starts_split in E2. exists [43; 45]. split; [cbn; auto|]. rewrite E1 at 1. rewrite E2 at 1. reflexivity.
    + exists [43]. split; [cbn; auto|exact E1].
  - destruct (starts c_minus p) eqn:E2.
    + exists [45]. split; [cbn; auto|now apply starts_split].
    + exists []. split; [cbn; auto|reflexivity].
Qed.
Lemma sign0 (p : list Z) : exists g, sign_text g /\ p = g ++ (if starts c_plus p then tl p else p).
Proof.
  destruct (starts c_plus p) eqn:E1.
  - exists [43]. split; [cbn; auto|now apply starts_split].
  - exists []. split; [cbn; auto|reflexivity].
Qed.

Section S.
Variable pow10i : Z -> Z.
Context {V : Type}.
Variable mkval : Z -> Z -> V.
Variable is_zero : V -> bool.

Lemma loose_app b1 sg ds fr ex p : Forall blank b1 -> sign_text sg -> Forall digit_char ds ->
  (fr = [] \/ exists f, fr = 46 :: f /\ Forall digit_char f) ->
  (ex = [] \/ exists c g f, ex = c :: g ++ f /\ (c = 69 \/ c = 101) /\ sign_text g /\ Forall digit_char f) ->
  exists s, b1 ++ sg ++ ds ++ fr ++ ex ++ p = s ++ strip_line p /\ loose_number s.
Proof.
  intros H1 H2 H3 H4 H5. destruct (strip_split p) as (b2 & E & H6).
  exists (b1 ++ sg ++ ds ++ fr ++ ex ++ b2). split.
  - rewrite !app_assoc_reverse, <- E. reflexivity.
  - exists b1, sg, ds, fr, ex, b2. auto 10.
Qed.

Lemma exp_split p x n q (g0 : list Z -> list Z) :
  (forall r, exists g, sign_text g /\ r = g ++ g0 r) ->
  (if starts c_e p || starts c_E p then digits_int None 0 (g0 (tl p)) else Some (0, 0, p)) = Some (x, n, q) ->
  exists ex, p = ex ++ q /\
    (ex = [] \/ exists c g f, ex = c :: g ++ f /\ (c = 69 \/ c = 101) /\ sign_text g /\ Forall digit_char f).
Proof.
  intros Hg H. destruct (starts c_e p || starts c_E p) eqn:E.
  - apply digits_int_split in H as (s & Es & Hs). destruct (Hg (tl p)) as (g & Hsg & Eg).
    assert (Hc : exists c, p = c :: tl p /\ (c = 69 \/ c = 101)).
    { apply orb_true_iff in E as [E|E]; apply starts_split in E; eauto. }
    destruct Hc as (c & Ep & Hc). exists (c :: g ++ s). split.
    + rewrite Ep at 1. cbn. f_equal. rewrite Eg at 1. rewrite Es. now rewrite app_assoc.
    + right. exists c, g, s. auto.
  - injection H as <- <- <-. exists []. auto.
Qed.

Lemma frac_split p a n q (f : list Z -> option (Z * Z * list Z)) acc :
  (forall r a n q, f r = Some (a, n, q) -> exists s, r = s ++ q /\ Forall digit_char s) ->
  (if starts c_dot p then f (tl p) else Some (acc, 0, p)) = Some (a, n, q) ->
  exists fr, p = fr ++ q /\ (fr = [] \/ exists g, fr = 46 :: g /\ Forall digit_char g).
Proof.
  intros Hf H. destruct (starts c_dot p) eqn:E.
  - apply starts_split in E. apply Hf in H as (s & Es & Hs). exists (46 :: s). split.
    + rewrite E at 1. cbn. now rewrite Es.
    + right. eauto.
  - injection H as <- <- <-. exists []. auto.
Qed.

Lemma parse_int_split p v q : parse_int pow10i p = Some (v, q) -> exists s, p = s ++ q /\ loose_number s.
Proof.
  unfold parse_int. destruct (strip_split p) as (b1 & Ep & Hb1). cbv zeta.
  destruct (strip_line p) as [|c0 r0].
  { intros H. injection H as <- <-. exists []. split; [reflexivity|apply loose_nil]. }
  remember (c0 :: r0) as p1 eqn:E1. clear E1 c0 r0.
  destruct (sign1 p1) as (sg & Hsg & Esg).
  set (p2 := if starts c_plus p1 then tl p1 else if starts c_minus p1 then tl p1 else p1) in *.
  assert (E2 : exists s0, (if starts c_plus p1 then (1, tl p1) else if starts c_minus p1 then (-1, tl p1) else (1, p1)) = (s0, p2)).
  { unfold p2. destruct (starts c_plus p1); [eauto|]. destruct (starts c_minus p1); eauto. }
  destruct E2 as (s0 & E2). rewrite E2. clear E2.
  destruct (digits_int None 0 p2) as [((acc, n1), p3)|] eqn:E3; [|discriminate]. cbn [bind].
  apply digits_int_split in E3 as (ds & E3 & Hds).
  destruct (if starts c_dot p3 then digits_int None acc (tl p3) else Some (acc, 0, p3)) as [((acc', n2), p4)|] eqn:E4;
    [|discriminate]. cbn [bind].
  apply (frac_split p3 acc' n2 p4 (digits_int None acc) acc) in E4 as (fr & E4 & Hfr);
    [|intros; eapply digits_int_split; eauto].
  destruct (if starts c_e p4 || starts c_E p4 then _ else Some (0, 0, p4)) as [((x, n3), p5)|] eqn:E5;
    [|discriminate]. cbn [bind].
  apply (exp_split p4 x n3 p5 (fun r => if starts c_plus r then tl r else r) sign0) in E5 as (ex & E5 & Hex).
  destruct (x <? n2).
  { intros H. injection H as <- <-. exists []. split; [reflexivity|apply loose_nil]. }
  intros H. assert (Hq : q = strip_line p5).
  { destruct (0 <? x); [|cbn [bind] in H; congruence].
    destruct (_ || _); [discriminate|]. cbn [bind] in H. congruence. }
  rewrite Ep, Esg, E3, E4, E5, Hq. apply loose_app; auto.
Qed.

Lemma parse_uint_split p v q : parse_uint pow10i p = Some (v, q) -> exists s, p = s ++ q /\ loose_number s.
Proof.
  unfold parse_uint. destruct (strip_split p) as (b1 & Ep & Hb1). cbv zeta.
  destruct (strip_line p) as [|c0 r0].
  { intros H. injection H as <- <-. exists []. split; [reflexivity|apply loose_nil]. }
  remember (c0 :: r0) as p1 eqn:E1. clear E1 c0 r0.
  destruct (digits_uint 0 p1) as ((acc, n1), p3) eqn:E3.
  apply digits_uint_split in E3 as (ds & E3 & Hds).
  destruct (if starts c_dot p3 then digits_uint acc (tl p3) else (acc, 0, p3)) as ((acc', n2), p4) eqn:E4.
  assert (E4' : (if starts c_dot p3 then Some (digits_uint acc (tl p3)) else Some (acc, 0, p3)) = Some (acc', n2, p4)).
  { destruct (starts c_dot p3); now rewrite E4. }
  apply (frac_split p3 acc' n2 p4 (fun r => Some (digits_uint acc r)) acc) in E4' as (fr & E4' & Hfr);
    [|intros r a n q0 H; injection H as H; eapply digits_uint_split; eauto].
  destruct (if starts c_e p4 || starts c_E p4 then _ else Some (0, 0, p4)) as [((x, n3), p5)|] eqn:E5;
    [|discriminate]. cbn [bind].
  apply (exp_split p4 x n3 p5 (fun r => if starts c_plus r then tl r else r) sign0) in E5 as (ex & E5 & Hex).
  destruct (x <? n2).
  { intros H. injection H as <- <-. exists []. split; [reflexivity|apply loose_nil]. }
  intros H. assert (Hq : q = strip_line p5) by congruence.
  rewrite Ep, E3, E4', E5, Hq. apply (loose_app b1 []); auto. cbn; auto.
Qed.

Lemma parse_float_split p v q : parse_float mkval p = Some (v, q) -> exists s, p = s ++ q /\ loose_number s.
Proof.
  unfold parse_float. destruct (strip_split p) as (b1 & Ep & Hb1). cbv zeta.
  destruct (strip_line p) as [|c0 r0].
  { intros H. injection H as <- <-. exists []. split; [reflexivity|apply loose_nil]. }
  remember (c0 :: r0) as p1 eqn:E1. clear E1 c0 r0.
  destruct (sign2 p1) as (sg & Hsg & Esg).
  set (p1' := if starts c_plus p1 then tl p1 else p1) in *.
  set (p2 := if starts c_minus p1' then tl p1' else p1') in *.
  assert (E2 : exists s0, (if starts c_minus p1' then (-1, tl p1') else (1, p1')) = (s0, p2)).
  { unfold p2. destruct (starts c_minus p1'); eauto. }
  destruct E2 as (s0 & E2). rewrite E2. clear E2.
  destruct (digits_int None 0 p2) as [((acc, n1), p3)|] eqn:E3; [|discriminate]. cbn [bind].
  apply digits_int_split in E3 as (ds & E3 & Hds).
  destruct (if starts c_dot p3 then _ else Some (acc, 0, p3)) as [((acc', n2), p4)|] eqn:E4;
    [|discriminate]. cbn [bind].
  apply (frac_split p3 acc' n2 p4 (fun r => do (a, n, q) <- digits_int (Some 7%nat) acc r; Some (a, n, skip_digits q)) acc)
    in E4 as (fr & E4 & Hfr).
  2:{ intros r a n q0 H. destruct (digits_int (Some 7%nat) acc r) as [((a', n'), q')|] eqn:Ed; [|discriminate].
      cbn [bind] in H. injection H as <- <- <-. apply digits_int_split in Ed as (s1 & -> & H1).
      destruct (skip_split q') as (s2 & E & H2). exists (s1 ++ s2). split; [now rewrite <- app_assoc, <- E|].
      now apply Forall_app. }
  destruct (if starts c_e p4 || starts c_E p4 then _ else Some (0, p4)) as [(x, p5)|] eqn:E5;
    [|discriminate]. cbn [bind].
  set (g0 := fun r => let r1 := if starts c_plus r then tl r else r in if starts c_minus r1 then tl r1 else r1).
  assert (E5' : exists x' n', (if starts c_e p4 || starts c_E p4 then digits_int None 0 (g0 (tl p4)) else Some (0, 0, p4)) = Some (x', n', p5)).
  { destruct (starts c_e p4 || starts c_E p4); [|injection E5 as <- <-; eauto].
    unfold g0. cbv zeta. revert E5. set (r1 := if starts c_plus (tl p4) then tl (tl p4) else tl p4). destruct (starts c_minus r1); intros E5; cbv beta iota in E5;
    match type of E5 with bind ?e _ = _ => destruct e as [((x1, n5), p6)|] eqn:Ee; cbn [bind] in E5; [|discriminate] end;
    injection E5 as <- <-; eauto. }
  destruct E5' as (x' & n' & E5'). apply exp_split in E5' as (ex & E5' & Hex); [|exact sign2].
  intros H. assert (Hq : q = strip_line p5) by congruence.
  rewrite Ep, Esg, E3, E4, E5', Hq. apply loose_app; auto.
Qed.

Lemma same_ptr_ne p q s : p = s ++ q -> same_ptr q p = false -> s <> [].
Proof. intros -> H ->. unfold same_ptr in H. cbn in H. now rewrite Nat.eqb_refl in H. Qed.

Lemma svm_feats_shape fuel : forall iter (p q : point V), length (p_idx p) = length (p_val p) ->
  svm_feats pow10i mkval fuel iter p = Some (inr q) ->
  exists cells, iter = concat (map (fun c => fst c ++ 58 :: snd c) cells) /\
    Forall (fun c => some_number (fst c) /\ some_number (snd c)) cells /\
    p_label q = p_label p /\ length (p_idx q) = length (p_val q) /\
    length (p_idx q) = (length (p_idx p) + length cells)%nat.
Proof.
  induction fuel as [|f IH]; intros iter p q HL H; destruct iter as [|c0 r0]; cbn [svm_feats] in H.
  1,3: injection H as <-; exists []; cbn; auto 10.
  - discriminate.
  - remember (c0 :: r0) as iter eqn:E0. clear E0 c0 r0.
    destruct (parse_uint pow10i iter) as [(ix, e1)|] eqn:E1; [|discriminate]. cbn [bind] in H.
    destruct (same_ptr e1 iter) eqn:S1; [discriminate|].
    destruct (starts c_colon e1) eqn:C1; cbn [negb] in H; [|discriminate].
    destruct (parse_float mkval (tl e1)) as [(fv, e2)|] eqn:E2; [|discriminate]. cbn [bind] in H.
    destruct (same_ptr e2 (tl e1)) eqn:S2; [discriminate|].
    apply parse_uint_split in E1 as (s1 & E1 & L1). apply parse_float_split in E2 as (s2 & E2 & L2).
    pose proof (same_ptr_ne _ _ _ E1 S1). pose proof (same_ptr_ne _ _ _ E2 S2).
    apply IH in H as (cells & Ec & Hc & Hl & Hv & Hn).
    + exists ((s1, s2) :: cells). split.
      * cbn [map concat fst snd]. rewrite <- Ec, E1. apply starts_split in C1. rewrite C1 at 1. rewrite E2.
        rewrite <- !app_assoc. reflexivity.
      * split; [constructor; auto; cbn; unfold some_number; auto|]. split; [exact Hl|]. split; [exact Hv|].
        rewrite Hn. unfold dp_add. cbn [p_idx length]. rewrite app_length. cbn. lia.
    + unfold dp_add. cbn [p_idx p_val]. rewrite !app_length. cbn. lia.
Qed.

Lemma svm_line_shape line q : svm_parse_line pow10i mkval line = Some (Status_OK, q) ->
  exists lab cells, line = svm_shape lab cells /\ svm_record lab cells /\
    length (p_idx q) = length cells /\ length (p_val q) = length cells.
Proof.
  unfold svm_parse_line. destruct line as [|c0 r0]; [discriminate|].
  remember (c0 :: r0) as line eqn:E0. clear E0 c0 r0.
  destruct (parse_int pow10i line) as [(lab, e)|] eqn:E1; [|discriminate]. cbn [bind].
  destruct (same_ptr e line) eqn:S1; [discriminate|].
  destruct (svm_feats _ _ _ _ _) as [[u|p]|] eqn:E2; cbn [bind]; try discriminate.
  destruct (dp_sort p) as [p'|] eqn:E3; [|discriminate]. cbn [bind]. intros H. injection H as <-.
  apply parse_int_split in E1 as (s & E1 & L1). pose proof (same_ptr_ne _ _ _ E1 S1).
  apply svm_feats_shape in E2 as (cells & Ec & Hc & Hl & Hv & Hn); [|reflexivity].
  destruct (dp_sort_spec p Hv) as (q & E & _ & Lq & _ & Pq & _). assert (q = p') by congruence. subst q.
  assert (Ln : length (p_idx p') = length (p_idx p)).
  { apply Permutation_length in Pq. rewrite !combine_length, <- Lq, <- Hv, !Nat.min_id in Pq. exact Pq. }
  exists s, cells. split; [unfold svm_shape; now rewrite <- Ec|]. split; [split; [split; auto|auto]|].
  cbn in Hn. lia.
Qed.

Lemma csv_feats_shape fuel : forall iter ix (p q : point V), length (p_idx p) = length (p_val p) ->
  csv_feats mkval is_zero fuel iter ix p = Some (inr q) ->
  exists cells, iter = concat (map (fun v => 44 :: v) cells) /\ Forall some_number cells /\
    p_label q = p_label p /\ length (p_idx q) = length (p_val q) /\
    (length (p_idx p) <= length (p_idx q) <= length (p_idx p) + length cells)%nat.
Proof.
  induction fuel as [|f IH]; intros iter ix p q HL H; destruct iter as [|c0 r0]; cbn [csv_feats] in H.
  1,3: injection H as <-; exists []; cbn; repeat split; auto; lia.
  - discriminate.
  - remember (c0 :: r0) as iter eqn:E0. clear E0 c0 r0.
    destruct (starts c_comma iter) eqn:C1; cbn [negb] in H; [|discriminate].
    destruct (parse_float mkval (tl iter)) as [(fv, e2)|] eqn:E2; [|discriminate]. cbn [bind] in H.
    destruct (same_ptr e2 (tl iter)) eqn:S2; [discriminate|].
    apply parse_float_split in E2 as (s2 & E2 & L2). pose proof (same_ptr_ne _ _ _ E2 S2).
    assert (Hadd : length (p_idx (dp_add p ix fv)) = S (length (p_idx p)) /\
                   length (p_val (dp_add p ix fv)) = S (length (p_idx p))).
    { unfold dp_add. cbn [p_idx p_val]. rewrite !app_length. cbn. lia. }
    apply IH in H as (cells & Ec & Hc & Hl & Hv & Hn).
    + exists (s2 :: cells). split.
      * cbn [map concat]. rewrite <- Ec. apply starts_split in C1. rewrite C1 at 1. now rewrite E2.
      * split; [constructor; auto; split; auto|]. split; [destruct (is_zero fv); exact Hl|]. split; [exact Hv|].
        cbn [length]. destruct (is_zero fv); lia.
    + destruct (is_zero fv); lia.
Qed.

Lemma csv_line_shape line q : csv_parse_line pow10i mkval is_zero line = Some (Status_OK, q) ->
  exists lab cells, line = csv_shape lab cells /\ csv_record lab cells /\
    (length (p_idx q) <= length cells)%nat /\ length (p_val q) = length (p_idx q).
Proof.
  unfold csv_parse_line. destruct line as [|c0 r0]; [discriminate|].
  remember (c0 :: r0) as line eqn:E0. clear E0 c0 r0.
  destruct (parse_int pow10i line) as [(lab, e)|] eqn:E1; [|discriminate]. cbn [bind].
  destruct (same_ptr e line) eqn:S1; [discriminate|].
  destruct (csv_feats _ _ _ _ _ _) as [[u|p]|] eqn:E2; cbn [bind]; try discriminate.
  intros H. injection H as <-.
  apply parse_int_split in E1 as (s & E1 & L1). pose proof (same_ptr_ne _ _ _ E1 S1).
  apply csv_feats_shape in E2 as (cells & Ec & Hc & Hl & Hv & Hn); [|reflexivity].
  exists s, cells. split; [unfold csv_shape; now rewrite <- Ec|]. split; [split; [split; auto|auto]|].
  cbn in Hn. lia.
Qed.

(** The status is one of two. *)
Lemma svm_status line st q : svm_parse_line pow10i mkval line = Some (st, q) -> st = Status_OK \/ st = Status_Invalid_Format.
Proof.
  unfold svm_parse_line. destruct line; [intros H; injection H; auto|].
  destruct (parse_int _ _) as [(lab, e)|]; [|discriminate]. cbn [bind].
  destruct (same_ptr _ _); [intros H; injection H; auto|].
  destruct (svm_feats _ _ _ _ _) as [[u|p]|]; cbn [bind]; try discriminate; [intros H; injection H; auto|].
  destruct (dp_sort p); [|discriminate]. cbn [bind]. intros H; injection H; auto.
Qed.
Lemma csv_status line st q : csv_parse_line pow10i mkval is_zero line = Some (st, q) -> st = Status_OK \/ st = Status_Invalid_Format.
Proof.
  unfold csv_parse_line. destruct line; [intros H; injection H; auto|].
  destruct (parse_int _ _) as [(lab, e)|]; [|discriminate]. cbn [bind].
  destruct (same_ptr _ _); [intros H; injection H; auto|].
  destruct (csv_feats _ _ _ _ _ _) as [[u|p]|]; cbn [bind]; try discriminate; intros H; injection H; auto.
Qed.

(** A file: the points before the first bad line, then the error. *)
Lemma read_text_bad (parse : list Z -> option (status * point V)) ls file : is_lines ls file -> nul_free file ->
  forall fuel n good bad rest ps st q, 2 <= n < 1073741824 -> short_lines 536870910 ls -> (length ls < fuel)%nat ->
  ls = good ++ bad :: rest -> Forall2 (fun l p => parse l = Some (Status_OK, p)) good ps ->
  parse bad = Some (st, q) -> st <> Status_OK ->
  read_text fuel parse n file = Some (ps, st).
Proof.
  induction 1 as [|b Hne Hnl|b ls file Hnl Hls IH]; intros Hnul fuel n good bad rest ps st q Hn HL Hf El HF Hb Hst;
    (destruct fuel as [|fuel]; [lia|]); cbn [read_text].
  - destruct good; discriminate.
  - inversion HL; subst. destruct (read_line_unterm b n) as (n' & E & H3 & H4); auto; try lia. rewrite E. cbn [bind].
    destruct good as [|g [|g2 good]]; try discriminate. injection El as <- <-. inversion HF; subst.
    rewrite Hb. cbn [bind]. destruct st; congruence.
  - cbn [length] in Hf. inversion HL; subst. apply nul_free_app in Hnul as [Hnb Hnf].
    apply nul_free_app in Hnb as [Hnb _].
    destruct (read_line_term b file n) as (n' & E & H3 & H4); auto; try lia.
    rewrite E. cbn [bind]. destruct good as [|g good].
    + injection El as <- <-. inversion HF; subst. rewrite Hb. cbn [bind]. destruct st; congruence.
    + injection El as <- ->. inversion HF as [|? p ? ps' Hg HF']; subst. rewrite Hg. cbn [bind].
      rewrite (IH Hnf fuel n' good bad rest ps' st q) by (auto; lia). reflexivity.
Qed.
End S.

Lemma loose_chars s : loose_number s -> Forall number_char s.
Proof.
  intros (b1 & sg & ds & fr & ex & b2 & -> & H1 & H2 & H3 & H4 & H5 & H6).
  assert (B : forall l, Forall blank l -> Forall number_char l) by (intros l; apply Forall_impl; right; left; auto).
  assert (D : forall l, Forall digit_char l -> Forall number_char l) by (intros l; apply Forall_impl; left; auto).
  assert (G : forall l, sign_text l -> Forall number_char l).
  { intros l Hl. cbn in Hl. intuition subst; repeat constructor; right; right; cbn; auto. }
  rewrite !Forall_app. repeat split; auto.
  - destruct H4 as [->|(f & -> & Hf)]; [constructor|]. constructor; auto. right. right. cbn. auto.
  - destruct H5 as [->|(c & g & f & -> & Hc & Hg & Hf)]; [constructor|]. constructor.
    + right. right. cbn. lia.
    + rewrite Forall_app. auto.
Qed.
Lemma not_number_char c : number_char c -> c <> 58 /\ c <> 44.
Proof. unfold number_char, digit_char, blank. cbn. lia. Qed.
Lemma count_none x s : loose_number s -> (x = 58 \/ x = 44) -> length (filter (Z.eqb x) s) = 0%nat.
Proof.
  intros H Hx. apply loose_chars in H. induction H as [|c s Hc _ IH]; [reflexivity|]. cbn.
  apply not_number_char in Hc. destruct (Z.eqb_spec x c); [lia|exact IH].
Qed.
Lemma svm_colons lab cells : svm_record lab cells -> length (filter (Z.eqb 58) (svm_shape lab cells)) = length cells.
Proof.
  intros ((_ & Hl) & Hc). unfold svm_shape. rewrite filter_app, app_length, count_none by auto. cbn [Nat.add].
  induction Hc as [|(i, v) cells ((_ & Hi) & (_ & Hv)) _ IH]; [reflexivity|]. cbn [map concat fst snd] in *.
  rewrite !filter_app, !app_length. cbn [filter]. rewrite (count_none 58 i) by auto. cbn. rewrite (count_none 58 v) by auto.
  cbn. now rewrite IH.
Qed.
Lemma csv_commas lab cells : csv_record lab cells -> length (filter (Z.eqb 44) (csv_shape lab cells)) = length cells.
Proof.
  intros ((_ & Hl) & Hc). unfold csv_shape. rewrite filter_app, app_length, count_none by auto. cbn [Nat.add].
  induction Hc as [|v cells (_ & Hv) _ IH]; [reflexivity|]. cbn [map concat] in *.
  rewrite !filter_app, !app_length. cbn [filter]. cbn. rewrite (count_none 44 v) by auto. cbn. now rewrite IH.
Qed.
Lemma svm_chars lab cells c : svm_record lab cells -> In c (svm_shape lab cells) -> number_char c \/ c = 58.
Proof.
  intros ((_ & Hl) & Hc) H. unfold svm_shape in H. apply in_app_or in H as [H|H].
  - left. apply loose_chars in Hl. rewrite Forall_forall in Hl. auto.
  - apply in_concat in H as (s & Hs & H). apply in_map_iff in Hs as ((i, v) & <- & Hs).
    rewrite Forall_forall in Hc. destruct (Hc _ Hs) as ((_ & Hi) & (_ & Hv)). cbn [fst snd] in *.
    apply loose_chars in Hi, Hv. rewrite Forall_forall in Hi, Hv.
    apply in_app_or in H as [H|[H|H]]; auto.
Qed.
Lemma csv_chars lab cells c : csv_record lab cells -> In c (csv_shape lab cells) -> number_char c \/ c = 44.
Proof.
  intros ((_ & Hl) & Hc) H. unfold csv_shape in H. apply in_app_or in H as [H|H].
  - left. apply loose_chars in Hl. rewrite Forall_forall in Hl. auto.
  - apply in_concat in H as (s & Hs & H). apply in_map_iff in Hs as (v & <- & Hs).
    rewrite Forall_forall in Hc. destruct (Hc _ Hs) as (_ & Hv).
    apply loose_chars in Hv. rewrite Forall_forall in Hv. destruct H as [H|H]; auto.
Qed.

(** Well-formed records are accepted. *)
Lemma blank_end b r : b <> [] -> Forall blank b -> num_end (b ++ r).
Proof.
  destruct b as [|c b]; [congruence|]. intros _ H. inversion H as [|? ? Hc _]; subst. cbn.
  unfold blank, digit_char in *. lia.
Qed.
Lemma strip_blank_end b : Forall blank b -> strip_line b = [].
Proof. intros H. rewrite <- (app_nil_r b), strip_blanks by auto. reflexivity. Qed.

Section Good.
Variable pow10i : Z -> Z.
Context {V : Type}.
Variable mkval : Z -> Z -> V.

Definition reads (c : cell) (v : V) : Prop :=
  exists m e, v = mkval (if cl_neg c then - m else m) e /\ stands_for c m e.

Definition tail_ok (r : list Z) : Prop := num_end r.
Lemma cells_end cells b : Forall cell_ok cells -> Forall blank b ->
  num_end (concat (map cell_text cells) ++ b).
Proof.
  intros Hc Hb. destruct Hc as [|c cells (H1 & H2 & _) _].
  - cbn. destruct b as [|x b]; [exact I|]. apply (blank_end (x :: b) []) in Hb; [|discriminate]. now rewrite app_nil_r in Hb.
  - cbn [map concat]. unfold cell_text at 1. rewrite <- !app_assoc. now apply blank_end.
Qed.

Lemma svm_feats_good cells : forall fuel b p, Forall cell_ok cells -> Forall blank b -> (length cells <= fuel)%nat ->
  exists vs, Forall2 reads cells vs /\
    svm_feats pow10i mkval fuel (strip_line (concat (map cell_text cells) ++ b)) p =
      Some (inr (mkpt (p_label p) (p_idx p ++ map (fun c => dec_value (cl_ix c)) cells) (p_val p ++ vs))).
Proof.
  induction cells as [|c cells IH]; intros fuel b p Hc Hb Hf.
  - exists []. split; [constructor|]. cbn [map concat app]. rewrite strip_blank_end by auto.
    rewrite !app_nil_r. destruct fuel, p; reflexivity.
  - inversion Hc as [|? ? (A1 & A2 & A3 & A4 & A5 & A6 & A7 & A8 & A9 & A10 & A11 & A12 & A13) Hcs]; subst.
    cbn [length] in Hf. destruct fuel as [|fuel]; [lia|].
    cbn [map concat]. unfold cell_text at 1. rewrite <- !app_assoc.
    rewrite strip_blanks by auto. rewrite strip_head_digits by auto.
    set (rest := concat (map cell_text cells) ++ b).
    set (r1 := cl_b2 c ++ (58 :: cl_b3 c ++ value_text c) ++ rest).
    assert (Hn : num_end r1).
    { unfold r1. destruct (cl_b2 c) as [|x l] eqn:E; [cbn; unfold digit_char; lia|]. rewrite <- E in *.
      apply blank_end; auto. rewrite E. discriminate. }
    destruct (cl_ix c) as [|d0 ds0] eqn:Eix; [congruence|]. rewrite <- Eix in *.
    assert (S1 : strip_line r1 = 58 :: cl_b3 c ++ value_text c ++ rest).
    { unfold r1. rewrite strip_blanks by auto. cbn [app]. rewrite strip_nonblank by (unfold blank; lia).
      now rewrite <- app_assoc. }
    destruct (parse_decimal_l mkval (cl_neg c) (cl_b3 c) (cl_int c) (cl_frac c) (cl_exp c) (cl_x c) rest)
      as (m & e & P2 & M); auto.
    { apply cells_end; auto. }
    destruct (IH fuel b (dp_add p (dec_value (cl_ix c)) (mkval (if cl_neg c then - m else m) e))) as (vs & HF & E);
      auto; [lia|].
    exists (mkval (if cl_neg c then - m else m) e :: vs). split.
    { constructor; auto. exists m, e. split; [reflexivity|exact M]. }
    assert (Hx : exists x0 y0, cl_ix c ++ r1 = x0 :: y0) by (rewrite Eix; cbn; eauto).
    destruct Hx as (x0 & y0 & Hx). cbn [svm_feats]. rewrite Hx. rewrite <- Hx. clear x0 y0 Hx.
    pose proof (parse_uint_spelled pow10i [] (cl_ix c) r1 ltac:(constructor) A5 A6) as P1.
    cbn [app] in P1. rewrite P1; auto.
    2:{ split; [now apply dec_value_nonneg|]. exact A7. }
    cbn [bind]. rewrite S1. rewrite same_ptr_lt.
    2:{ rewrite <- S1, app_length. pose proof (strip_length r1). rewrite Eix. cbn. lia. }
    cbn [starts tl]. change (58 =? c_colon) with true. cbn [negb].
    unfold value_text. rewrite <- !app_assoc. rewrite P2. cbn [bind].
    rewrite same_ptr_lt.
    2:{ rewrite !app_length. pose proof (strip_length rest). destruct (cl_int c); [congruence|]. cbn. lia. }
    fold rest in E. rewrite E. unfold dp_add. cbn [p_label p_idx p_val map]. rewrite <- !app_assoc. reflexivity.
Qed.

Lemma svm_line_good b0 lab n cells b : Forall blank b0 -> spelling lab n -> -2147483599 <= n <= 2147483599 ->
  Forall cell_ok cells -> Forall blank b ->
  exists vs q, Forall2 reads cells vs /\
    svm_parse_line pow10i mkval (b0 ++ lab ++ concat (map cell_text cells) ++ b) = Some (Status_OK, q) /\
    p_label q = n /\ length (p_idx q) = length (p_val q) /\ StronglySorted Z.le (p_idx q) /\
    Permutation (combine (p_idx q) (p_val q)) (combine (map (fun c => dec_value (cl_ix c)) cells) vs).
Proof.
  intros Hb0 Hlab Hn Hc Hb. set (rest := concat (map cell_text cells) ++ b).
  assert (Hlen : (length cells <= length (b0 ++ lab ++ rest))%nat).
  { unfold rest. rewrite !app_length. enough (length cells <= length (concat (map cell_text cells)))%nat by lia.
    clear - Hc. induction Hc as [|c cells (H1 & _) _ IH]; [cbn; lia|]. cbn [map concat]. rewrite app_length.
    unfold cell_text at 1. rewrite app_length. destruct (cl_b1 c); [congruence|]. cbn [length] in *. lia. }
  destruct (svm_feats_good cells (length (b0 ++ lab ++ rest)) b (mkpt n [] []) Hc Hb Hlen) as (vs & HF & E).
  fold rest in E. exists vs. cbn [p_label p_idx p_val app] in E.
  assert (HL : length (map (fun c => dec_value (cl_ix c)) cells) = length vs).
  { rewrite map_length. clear - HF. induction HF; cbn; auto. }
  destruct (dp_sort_spec (mkpt n (map (fun c => dec_value (cl_ix c)) cells) vs) HL) as (q & Eq & Q1 & Q2 & Q3 & Q4 & _).
  exists q. split; [exact HF|]. split; [|auto].
  unfold svm_parse_line.
  assert (Hx : exists x0 y0, b0 ++ lab ++ rest = x0 :: y0).
  { destruct b0; cbn; eauto. destruct Hlab as [ds Hd _|ds Hd _|ds Hd _]; cbn; eauto. destruct ds; [congruence|]. cbn. eauto. }
  destruct Hx as (x0 & y0 & Hx). rewrite Hx. rewrite <- Hx.
  rewrite parse_int_spelled with (n := n); auto.
  2:{ apply cells_end; auto. }
  cbn [bind]. rewrite same_ptr_lt.
  2:{ rewrite !app_length. pose proof (strip_length rest).
      assert (lab <> []) by now apply (spelling_ne lab n). destruct lab; [congruence|]. cbn. lia. }
  rewrite E. cbn [bind]. rewrite Eq. reflexivity.
Qed.
End Good.
