(** Proofs about the JSON reader. *)
From Coq Require Import String Sorted.
From Verif Require Import M_Base M_Str M_Text S_Text P_Str P_Parse M_Save M_Json S_Json.

(* ------------------------------------------------------------------- characters *)
Lemma find_if_not_app p a b : Forall (fun c => p c = true) a -> match b with c :: _ => p c = false | [] => True end ->
  find_if_not p (a ++ b) = (a, b).
Proof.
  intros H Hb. unfold find_if_not. induction H as [|c a Hc _ IH]; cbn.
  - destruct b as [|c b]; [reflexivity|]. cbn. now rewrite Hb.
  - rewrite Hc. cbn. now rewrite IH.
Qed.
Lemma ws_spec c : is_ws c = true <-> (c = 32 \/ c = 9 \/ c = 10 \/ c = 13).
Proof. unfold is_ws. rewrite !orb_true_iff, !Z.eqb_eq. tauto. Qed.
Lemma skip_blanks a b : blanks a -> match b with c :: _ => is_ws c = false | [] => True end -> skip_spaces (a ++ b) = b.
Proof.
  intros H Hb. unfold skip_spaces. rewrite find_if_not_app; [reflexivity| |exact Hb].
  eapply Forall_impl; [|exact H]. intros c. apply ws_spec.
Qed.
Lemma skip_spaces_length l : (length (skip_spaces l) <= length l)%nat.
Proof. unfold skip_spaces, find_if_not. induction l as [|c l IH]; cbn; [lia|]. destruct (negb (is_ws c)); cbn; [lia|]. destruct (find_if _ l); cbn in *; lia. Qed.

(* ---------------------------------------------------------------------- strings *)
Definition plain (c : Z) : Prop := c <> 34 /\ c <> 92.
Lemma read_string_plain a l : Forall plain a -> read_string (a ++ l) = do (t, k) <- read_string l; Some (a ++ t, k).
Proof.
  induction 1 as [|c a (H1 & H2) _ IH]; cbn [app read_string]; [destruct (read_string l) as [[? ?]|]; reflexivity|].
  rewrite (proj2 (Z.eqb_neq _ _) H2), (proj2 (Z.eqb_neq _ _) H1), IH. destruct (read_string l) as [[? ?]|]; reflexivity.
Qed.
Lemma hex_plain c n : hex_value c n -> plain c.
Proof. unfold hex_value, plain. lia. Qed.
Lemma hex4_plain h u : hex4_value h u -> Forall plain h.
Proof. intros []. repeat constructor; try (eapply hex_plain; eassumption); unfold plain in *; firstorder. Qed.
Lemma read_string_ok t s rest : string_text t s -> read_string (t ++ 34 :: rest) = Some (t, rest).
Proof.
  induction 1 as [|c t s H1 H2 H3 _ IH|e c t s H1 _ IH|h u b t s H1 H2 H3 _ IH|h g hi lo b t s H1 H2 H3 H4 H5 _ IH].
  - reflexivity.
  - change ((c :: t) ++ 34 :: rest) with ([c] ++ t ++ 34 :: rest). rewrite read_string_plain by (repeat constructor; auto). now rewrite IH.
  - cbn [app read_string Z.eqb Pos.eqb]. now rewrite IH.
  - cbn [app read_string Z.eqb Pos.eqb]. rewrite <- app_assoc, read_string_plain by (eapply hex4_plain; eassumption). now rewrite IH.
  - cbn [app]. rewrite <- app_assoc. cbn [read_string Z.eqb Pos.eqb]. rewrite read_string_plain by (eapply hex4_plain; eassumption).
    cbn [app read_string Z.eqb Pos.eqb]. rewrite <- app_assoc, read_string_plain by (eapply hex4_plain; eassumption). now rewrite IH.
Qed.

Lemma hex_ok c n : hex_value c n -> hex c = Some n /\ 0 <= n < 16.
Proof.
  unfold hex_value, hex. intros [(H & ->)|[(H & ->)|(H & ->)]]; (split; [|lia]).
  - now rewrite (proj2 (Z.leb_le 48 c)), (proj2 (Z.leb_le c 57)) by lia.
  - rewrite (proj2 (Z.leb_le 48 c)), (proj2 (Z.leb_gt c 57)) by lia. cbn [andb]. rewrite (proj2 (Z.leb_gt 97 c)) by lia. cbn [andb].
    rewrite (proj2 (Z.leb_le 65 c)), (proj2 (Z.leb_le c 70)) by lia. cbn [andb]. f_equal. lia.
  - rewrite (proj2 (Z.leb_le 48 c)), (proj2 (Z.leb_gt c 57)) by lia. cbn [andb].
    rewrite (proj2 (Z.leb_le 97 c)), (proj2 (Z.leb_le c 102)) by lia. cbn [andb]. f_equal. lia.
Qed.
Lemma hex4_ok h u : hex4_value h u -> exists a b c d, h = [a; b; c; d] /\ hex4 a b c d = Some u /\ 0 <= u < 65536.
Proof.
  intros [a b c d x y z w Ha Hb Hc Hd]. exists a, b, c, d. split; [reflexivity|].
  apply hex_ok in Ha as [Ha ?], Hb as [Hb ?], Hc as [Hc ?], Hd as [Hd ?]. unfold hex4. rewrite Ha, Hb, Hc, Hd. cbn [bind]. split; [f_equal|]; lia.
Qed.
(** A bit field below another is added. *)
Lemma lor_field a k x : 0 <= k -> 0 <= x < 2 ^ k -> Z.lor (a * 2 ^ k) x = a * 2 ^ k + x.
Proof.
  intros Hk Hx. rewrite <- Z.shiftl_mul_pow2 by lia. symmetry. apply Z.add_nocarry_lxor || idtac. rewrite <- Z.lxor_lor.
  - apply Z.add_nocarry_lxor. apply Z.bits_inj'. intros n Hn. rewrite Z.land_spec, Z.bits_0.
    destruct (Z.lt_ge_cases n k); [rewrite Z.shiftl_spec_low by lia; reflexivity|].
    replace (Z.testbit x n) with false; [apply andb_false_r|]. symmetry. destruct (Z.eq_dec x 0) as [->|]; [apply Z.bits_0|]. apply Z.bits_above_log2; [lia|].
    apply Z.lt_le_trans with k; [|lia]. apply Z.log2_lt_pow2; lia.
  - apply Z.bits_inj'. intros n Hn. rewrite Z.land_spec, Z.bits_0.
    destruct (Z.lt_ge_cases n k); [rewrite Z.shiftl_spec_low by lia; reflexivity|].
    replace (Z.testbit x n) with false; [apply andb_false_r|]. symmetry. destruct (Z.eq_dec x 0) as [->|]; [apply Z.bits_0|]. apply Z.bits_above_log2; [lia|].
    apply Z.lt_le_trans with k; [|lia]. apply Z.log2_lt_pow2; lia.
Qed.
Lemma low_bits k a : 0 <= k -> Z.land (2 ^ k - 1) a = a mod 2 ^ k.
Proof. intros. rewrite Z.land_comm, <- Z.land_ones by lia. now rewrite Z.ones_equiv, <- Z.sub_1_r. Qed.
Lemma cont_ok a : Z.lor 128 (Z.land 63 a) = cont a.
Proof. change 63 with (2 ^ 6 - 1). rewrite low_bits by lia. change 128 with (2 * 2 ^ 6). rewrite lor_field; [reflexivity|lia|apply Z.mod_pos_bound; lia]. Qed.
Lemma lead_ok a k x : 0 <= k -> 0 <= x < 2 ^ k -> Z.lor (a * 2 ^ k) (Z.land (2 ^ k - 1) x) = a * 2 ^ k + x.
Proof. intros Hk Hx. rewrite low_bits, Z.mod_small by lia. now apply lor_field. Qed.
Lemma utf8_ok u b : encodes u b -> utf8 u = b.
Proof.
  unfold utf8. intros [cp H|cp H|cp H|cp H].
  - now rewrite (proj2 (Z.leb_le cp 127)) by lia.
  - rewrite (proj2 (Z.leb_gt cp 127)), (proj2 (Z.leb_le cp 2047)) by lia. rewrite cont_ok, Z.shiftr_div_pow2 by lia. change (2 ^ 6) with 64.
    change 192 with (6 * 2 ^ 5). change 31 with (2 ^ 5 - 1). rewrite lead_ok; [reflexivity|lia|]. change (2 ^ 5) with 32.
    split; [apply Z.div_pos; lia|apply Z.div_lt_upper_bound; lia].
  - rewrite (proj2 (Z.leb_gt cp 127)), (proj2 (Z.leb_gt cp 2047)), (proj2 (Z.leb_le cp 65535)) by lia. rewrite !cont_ok, !Z.shiftr_div_pow2 by lia. change (2 ^ 6) with 64. change (2 ^ 12) with 4096.
    change 224 with (14 * 2 ^ 4). change 15 with (2 ^ 4 - 1). rewrite lead_ok; [reflexivity|lia|]. change (2 ^ 4) with 16.
    split; [apply Z.div_pos; lia|apply Z.div_lt_upper_bound; lia].
  - rewrite (proj2 (Z.leb_gt cp 127)), (proj2 (Z.leb_gt cp 2047)), (proj2 (Z.leb_gt cp 65535)), (proj2 (Z.leb_le cp 1114111)) by lia. rewrite !cont_ok, !Z.shiftr_div_pow2 by lia.
    change (2 ^ 6) with 64. change (2 ^ 12) with 4096. change (2 ^ 18) with 262144.
    change 240 with (30 * 2 ^ 3). change 7 with (2 ^ 3 - 1). rewrite lead_ok; [reflexivity|lia|]. change (2 ^ 3) with 8.
    split; [apply Z.div_pos; lia|apply Z.div_lt_upper_bound; lia].
Qed.
Lemma pair_ok hi lo : 55296 <= hi < 56320 -> 56320 <= lo < 57344 ->
  65536 + Z.shiftl (Z.land hi 1023) 10 + Z.land lo 1023 = 65536 + 1024 * (hi - 55296) + (lo - 56320).
Proof.
  intros H1 H2. rewrite Z.shiftl_mul_pow2 by lia. rewrite !(Z.land_comm _ 1023). change 1023 with (2 ^ 10 - 1). rewrite !low_bits by lia. change (2 ^ 10) with 1024.
  rewrite (Z.mod_eq hi), (Z.mod_eq lo) by lia. replace (hi / 1024) with 54 by (apply Z.div_unique with (hi - 55296); lia). replace (lo / 1024) with 55 by (apply Z.div_unique with (lo - 56320); lia). lia.
Qed.
Lemma decode_ok t s : string_text t s -> decode_string t = Some s.
Proof.
  induction 1 as [|c t s H1 H2 H3 _ IH|e c t s H1 _ IH|h u b t s H1 H2 H3 _ IH|h g hi lo b t s H1 H2 H3 H4 H5 _ IH].
  - reflexivity.
  - cbn [decode_string]. rewrite (proj2 (Z.eqb_neq _ _) H2), (proj2 (Z.eqb_neq _ _) H3), IH. reflexivity.
  - unfold escapes in H1. cbn [In] in H1. repeat (destruct H1 as [H1|H1]; [injection H1 as <- <-; cbn; rewrite IH; reflexivity|]). destruct H1.
  - destruct (hex4_ok _ _ H1) as (a & x & c & d & -> & E & U). cbn [app decode_string Z.eqb Pos.eqb]. rewrite E. cbn [bind].
    replace ((55296 <=? u) && (u <=? 56319)) with false by (symmetry; apply andb_false_iff; rewrite !Z.leb_gt; lia). rewrite IH. cbn [bind]. now rewrite (utf8_ok _ _ H3).
  - destruct (hex4_ok _ _ H1) as (a & x & c & d & -> & E & U). destruct (hex4_ok _ _ H3) as (a' & x' & c' & d' & -> & E' & U').
    cbn [app decode_string Z.eqb Pos.eqb andb]. rewrite E. cbn [bind].
    rewrite (proj2 (Z.leb_le 55296 hi)), (proj2 (Z.leb_le hi 56319)) by lia. cbn [andb]. rewrite E'. cbn [bind]. rewrite IH. cbn [bind]. rewrite pair_ok by lia. now rewrite (utf8_ok _ _ H5).
Qed.

(* ---------------------------------------------------------------------- numbers *)
Lemma digits_app ds r : Forall digit_char ds -> no_digit r -> find_if_not is_digit (ds ++ r) = (ds, r).
Proof.
  intros H Hr. apply find_if_not_app.
  - eapply Forall_impl; [|exact H]. intros c. apply is_digit_spec.
  - destruct r; [exact I|]. apply is_digit_no. exact Hr.
Qed.
Lemma read_number_ok ds fr et x rest : Forall digit_char ds -> Forall digit_char fr -> exp_text et x -> num_end rest ->
  read_number (ds ++ frac_text fr ++ et ++ rest) = (ds ++ frac_text fr ++ et, rest).
Proof.
  intros Hd Hf He Hr. pose proof (num_end_no_digit _ Hr) as Hnd. unfold read_number.
  assert (Ne : no_digit (et ++ rest)) by (destruct He; cbn; auto; unfold digit_char; lia).
  rewrite digits_app; [|exact Hd|destruct fr; [exact Ne|cbn; unfold digit_char; lia]].
  assert (F : (if starts 46 (frac_text fr ++ et ++ rest) then let '(x, y) := find_if_not is_digit (tl (frac_text fr ++ et ++ rest)) in (46 :: x, y) else ([], frac_text fr ++ et ++ rest)) = (frac_text fr, et ++ rest)).
  { destruct fr as [|f fr].
    - cbn [frac_text app]. replace (starts 46 (et ++ rest)) with false; [reflexivity|]. symmetry. destruct He; cbn [app starts]; try (apply Z.eqb_neq; lia).
      destruct rest as [|c r]; [reflexivity|]. cbn in *. apply Z.eqb_neq. tauto.
    - cbn [frac_text app starts tl Z.eqb Pos.eqb]. change (f :: fr ++ et ++ rest) with ((f :: fr) ++ et ++ rest). now rewrite digits_app. }
  rewrite F. destruct He as [|c es C Hn He|c es C Hn He|c es C Hn He].
  - cbn [app]. destruct rest as [|c r]; [reflexivity|]. cbn in Hr. rewrite (proj2 (Z.eqb_neq c 101)), (proj2 (Z.eqb_neq c 69)) by tauto. reflexivity.
  - cbn [app]. replace ((c =? 101) || (c =? 69)) with true by (symmetry; rewrite orb_true_iff, !Z.eqb_eq; tauto). cbn [Z.eqb Pos.eqb orb]. rewrite digits_app by auto. reflexivity.
  - cbn [app]. replace ((c =? 101) || (c =? 69)) with true by (symmetry; rewrite orb_true_iff, !Z.eqb_eq; tauto).
    destruct es as [|e es]; [congruence|]. cbn [app]. inversion He; subst. replace ((e =? 43) || (e =? 45)) with false by (symmetry; rewrite orb_false_iff, !Z.eqb_neq; unfold digit_char in *; lia).
    change (e :: es ++ rest) with ((e :: es) ++ rest). rewrite digits_app by auto. reflexivity.
  - cbn [app]. replace ((c =? 101) || (c =? 69)) with true by (symmetry; rewrite orb_true_iff, !Z.eqb_eq; tauto). cbn [Z.eqb Pos.eqb orb]. rewrite digits_app by auto. reflexivity.
Qed.
Lemma number_loop_int max ds : 100 <= max -> Forall digit_char ds -> forall v, 0 <= v ->
  number_loop max ds v = if v * 10 ^ Z.of_nat (length ds) + dec_value ds <=? max then Some (v * 10 ^ Z.of_nat (length ds) + dec_value ds)
                         else match ds with [] => Some v | _ => None end.
Proof.
  intros Hm. induction 1 as [|c ds Hc Hd IH]; intros v Hv; cbn [number_loop].
  - cbn [length dec_value]. replace (v * 10 ^ Z.of_nat 0 + 0) with v by (cbn; lia). destruct (v <=? max); reflexivity.
  - rewrite (proj2 (is_digit_spec c) Hc). cbn [negb]. unfold digit_char in Hc.
    assert (E : v * 10 ^ Z.of_nat (length (c :: ds)) + dec_value (c :: ds) = (v * 10 + (c - 48)) * 10 ^ Z.of_nat (length ds) + dec_value ds).
    { cbn [length dec_value]. rewrite pow_S. lia. }
    rewrite E. pose proof (dec_value_nonneg _ Hd) as Hnn. pose proof (Z.pow_pos_nonneg 10 (Z.of_nat (length ds)) ltac:(lia) ltac:(lia)) as Hp.
    pose proof (Z.div_mod max 10 ltac:(lia)) as DM. pose proof (Z.mod_pos_bound max 10 ltac:(lia)) as MB. set (q := max / 10) in *. set (r := max mod 10) in *.
    destruct (Z.leb_spec q v) as [Hq|Hq]; cbn [andb].
    + destruct (Z.ltb_spec q v) as [Hq2|Hq2]; cbn [orb].
      * rewrite (proj2 (Z.leb_gt _ max)); [reflexivity|]. nia.
      * assert (v = q) by lia. subst v. destruct ds as [|d2 ds].
        -- cbn [length Nat.eqb negb orb]. cbn [length dec_value number_loop]. change (10 ^ Z.of_nat 0) with 1.
           destruct (Z.ltb_spec r (c - 48)); [rewrite (proj2 (Z.leb_gt _ max)) by lia; reflexivity|]. rewrite (proj2 (Z.leb_le _ max)) by lia. f_equal. lia.
        -- cbn [length Nat.eqb negb orb]. rewrite (proj2 (Z.leb_gt _ max)); [reflexivity|]. cbn [length] in *. rewrite pow_S in *.
           assert (1 <= 10 ^ Z.of_nat (length ds)) by (pose proof (Z.pow_pos_nonneg 10 (Z.of_nat (length ds)) ltac:(lia) ltac:(lia)); lia). nia.
    + rewrite IH by lia. destruct (Z.leb_spec ((v * 10 + (c - 48)) * 10 ^ Z.of_nat (length ds) + dec_value ds) max) as [L|L]; [reflexivity|].
      destruct ds as [|d2 ds]; [|reflexivity]. cbn [length dec_value] in L. change (10 ^ Z.of_nat 0) with 1 in L. lia.
Qed.
Lemma number_loop_real max ds c r : ~ digit_char c -> forall v, number_loop max (ds ++ c :: r) v = None.
Proof.
  intros Hc. induction ds as [|d ds IH]; intros v; cbn [app number_loop]; [now rewrite (proj2 (is_digit_no c) Hc)|].
  destruct (negb (is_digit d)); [reflexivity|]. destruct (_ && _); [reflexivity|]. apply IH.
Qed.
Lemma int_text_ne ds : int_text ds -> ds <> [].
Proof. intros (_ & [->|H]); [discriminate|]. now destruct ds. Qed.

Section P.
Context {D : Type}.
Variable read_double : list Z -> option D.
Local Notation json := (json D).
Local Notation decode_number := (decode_number read_double).
Local Notation read_value := (read_value read_double).
Local Notation read_object := (read_object read_double).
Local Notation read_array := (read_array read_double).
Local Notation number_text := (number_text read_double).
Local Notation value_text := (value_text read_double).
Local Notation elements_text := (elements_text read_double).
Local Notation members_text := (members_text read_double).

Lemma starts_minus ds r : Forall digit_char ds -> ds <> [] -> starts 45 (ds ++ r) = false.
Proof. intros H N. destruct ds as [|d ds]; [congruence|]. inversion H; subst. cbn. apply Z.eqb_neq. unfold digit_char in *. lia. Qed.
Lemma decode_number_ok t v : number_text t v -> decode_number t = Some v.
Proof.
  unfold M_Json.decode_number. intros [neg ds z Hi -> Hz|neg ds fr et x d Hi Hf He Hb Hd].
  - pose proof (int_text_ne _ Hi) as Hne. destruct Hi as (Hi & _). pose proof (dec_value_nonneg _ Hi) as Hnn. destruct neg; cbn [sign app].
    + cbn [starts Z.eqb Pos.eqb tl]. rewrite number_loop_int by (auto; lia). cbn [Z.mul]. rewrite Z.add_0_l.
      rewrite (proj2 (Z.leb_le _ _)) by lia. cbn [andb]. unfold integer. rewrite (proj2 (Z.leb_le (- dec_value ds) 2147483647)) by lia.
      destruct (Z.eqb_spec (dec_value ds) 9223372036854775808) as [->|]; reflexivity.
    + pose proof (starts_minus ds [] Hi Hne) as Em. rewrite app_nil_r in Em. rewrite Em. rewrite number_loop_int by (auto; lia). cbn [Z.mul]. rewrite Z.add_0_l.
      rewrite (proj2 (Z.leb_le _ _)) by lia. cbn [andb]. reflexivity.
  - pose proof (int_text_ne _ Hi) as Hne. destruct Hi as (Hi & _).
    assert (L : number_loop (if neg then 9223372036854775808 else 18446744073709551615) (ds ++ frac_text fr ++ et) 0 = None).
    { destruct fr as [|f fr]; [destruct He as [|c es C Hn He|c es C Hn He|c es C Hn He]|]; cbn [frac_text app].
      - rewrite app_nil_r, number_loop_int by (auto; destruct neg; lia). cbn [Z.mul]. rewrite Z.add_0_l. rewrite (proj2 (Z.leb_gt _ _)) by (destruct Hb as [Hb|[Hb|Hb]]; [congruence|congruence|exact Hb]). destruct ds; [congruence|reflexivity].
      - apply number_loop_real. unfold digit_char. lia.
      - apply number_loop_real. unfold digit_char. lia.
      - apply number_loop_real. unfold digit_char. lia.
      - apply number_loop_real. unfold digit_char. lia. }
    destruct neg; cbn [sign app] in *.
    + cbn [starts Z.eqb Pos.eqb tl]. rewrite L, Hd. reflexivity.
    + rewrite starts_minus by auto. rewrite L, Hd. reflexivity.
Qed.

(* ----------------------------------------------------------------------- tokens *)
Lemma next_simple l t r : read_token l = (t, r) -> t <> TComment -> next_token l = Some (t, r).
Proof. intros H N. unfold next_token. cbn [skip_comments]. rewrite H. destruct t; congruence. Qed.
Definition no_ws (l : list Z) : Prop := match l with c :: _ => is_ws c = false | [] => True end.
Lemma token_blanks a l : blanks a -> no_ws l -> read_token (a ++ l) = read_token l.
Proof.
  intros H N. unfold read_token. rewrite skip_blanks by auto. replace (skip_spaces l) with l; [reflexivity|]. symmetry. change l with ([] ++ l) at 1. apply skip_blanks; [constructor|exact N].
Qed.
Lemma token_string t s rest : string_text t s -> read_token (34 :: t ++ 34 :: rest) = (TStr t, rest).
Proof. intros H. unfold read_token. change (skip_spaces (34 :: ?x)) with (34 :: x). cbn [Z.eqb Pos.eqb]. change (skip_spaces (34 :: t ++ 34 :: rest)) with (34 :: t ++ 34 :: rest). cbn. now rewrite (read_string_ok _ _ _ H). Qed.
Lemma token_number t v rest : number_text t v -> num_end rest -> no_ws (t ++ rest) /\ starts 93 (t ++ rest) = false /\ read_token (t ++ rest) = (TNum t, rest).
Proof.
  intros H Hr.
  assert (X : exists neg ds fr et x, t = sign neg ++ ds ++ frac_text fr ++ et /\ ds <> [] /\ Forall digit_char ds /\ Forall digit_char fr /\ exp_text et x).
  { destruct H as [neg ds z Hi -> Hz|neg ds fr et x d Hi Hf He Hb Hd].
    - exists neg, ds, [], [], 0. cbn [frac_text app]. rewrite app_nil_r. pose proof (int_text_ne _ Hi). destruct Hi. repeat split; auto; constructor.
    - exists neg, ds, fr, et, x. pose proof (int_text_ne _ Hi). destruct Hi. auto. }
  destruct X as (neg & ds & fr & et & x & -> & Hne & Hds & Hf & He). rewrite <- !app_assoc. destruct neg; cbn [sign app].
  - split; [reflexivity|]. split; [reflexivity|]. unfold read_token.
    match goal with |- context [skip_spaces (45 :: ?x)] => change (skip_spaces (45 :: x)) with (45 :: x) end. cbn [Z.eqb Pos.eqb is_digit]. change (is_digit 45) with false. cbn [orb].
    now rewrite (read_number_ok _ _ _ _ _ Hds Hf He Hr).
  - destruct ds as [|d ds]; [congruence|]. inversion Hds as [|? ? Hd Hds']; subst. pose proof (proj2 (is_digit_spec d) Hd) as Hdd. unfold digit_char in Hd. cbn [app].
    assert (W : is_ws d = false). { destruct (is_ws d) eqn:E; [|reflexivity]. apply ws_spec in E. lia. }
    split; [exact W|]. split; [cbn; apply Z.eqb_neq; lia|]. unfold read_token.
    replace (skip_spaces (d :: ds ++ frac_text fr ++ et ++ rest)) with (d :: ds ++ frac_text fr ++ et ++ rest).
    2:{ symmetry. apply (skip_blanks [] (d :: _)); [constructor|exact W]. }
    rewrite Hdd. cbn [orb]. repeat rewrite (proj2 (Z.eqb_neq d _)) by lia. now rewrite (read_number_ok _ _ _ _ _ Hds' Hf He Hr).
Qed.
End P.
