(** libsvm and csv files: what is read from what was written. *)
From Verif Require Import M_Base M_DataPoint M_Text S_Text P_Lines P_Parse P_PrintG P_DataPoint.
From Coq Require Import Permutation Sorted.
Local Open Scope Z_scope.
Ltac Zify.zify_post_hook ::= Z.div_mod_to_equations.

Definition show6 (d : dec6) : option (list Z) := Some (pg d).

(** Printable characters: no NUL, no newline. *)
Definition plain (l : list Z) : Prop := Forall (fun c => 32 <= c) l.
Lemma plain_app a b : plain (a ++ b) <-> plain a /\ plain b.
Proof. apply Forall_app. Qed.
Lemma plain_no_nl l : plain l -> ~ In 10 l /\ nul_free l.
Proof.
  unfold plain, nul_free. rewrite Forall_forall. intros H.
  split; intros Hin; specialize (H _ Hin); cbn in H; lia.
Qed.
Lemma digits_plain l : Forall digit_char l -> plain l.
Proof. apply Forall_impl. unfold digit_char. lia. Qed.

Lemma dec_digits_len fuel : forall n ds, dec_digits fuel n = Some ds -> (length ds <= fuel)%nat.
Proof.
  induction fuel as [|f IH]; intros n ds; cbn [dec_digits]; [discriminate|].
  destruct (n <? 10); [intros H; inversion H; cbn [length]; lia|].
  destruct (dec_digits f (n / 10)) eqn:E; cbn [bind]; [|discriminate].
  intros H. inversion H. rewrite app_length. cbn [length]. specialize (IH _ _ E). lia.
Qed.
Lemma print_d_len n s : print_d n = Some s -> (length s <= 21)%nat.
Proof.
  unfold print_d. destruct (n <? 0).
  - destruct (dec_digits 20 (- n)) eqn:E; cbn [bind]; [|discriminate]. apply dec_digits_len in E.
    intros H. inversion H. cbn [length]. lia.
  - intros H. apply dec_digits_len in H. lia.
Qed.

Lemma strip_zeros_len l : (length (strip_zeros l) <= length l)%nat.
Proof. destruct (strip_zeros_spec l) as (k & H). rewrite H at 2. rewrite app_length. lia. Qed.

(** [pg d] is plain, not empty and short. *)
Lemma pg_facts d : dec6_ok d -> plain (pg d) /\ pg d <> [] /\ (length (pg d) <= 30)%nat.
Proof.
  intros Hok. unfold pg, print_g6.
  assert (P1 : forall b : bool, plain (if b then [c_minus] else [])).
  { intros []; repeat constructor. unfold c_minus. lia. }
  pose proof (digits6_digit (d_sig d)) as HD.
  assert (HDs : forall k, plain (firstn k (digits6 (d_sig d))) /\ plain (skipn k (digits6 (d_sig d)))).
  { intros k. apply Forall_app. rewrite firstn_skipn. now apply digits_plain. }
  assert (HS : forall l, plain l -> plain (strip_zeros l)).
  { intros l Hl. destruct (strip_zeros_spec l) as (k & H). rewrite H in Hl. now apply plain_app in Hl. }
  assert (HF : forall l, plain l -> plain (frac l)).
  { intros l Hl. unfold frac. destruct l; auto. constructor; auto. unfold c_dot. lia. }
  assert (HFL : forall l, (length (frac l) <= S (length l))%nat) by (intros []; cbn [frac length]; lia).
  assert (H1 : firstn 1 (digits6 (d_sig d)) <> []) by discriminate.
  assert (Neg : (length (if d_neg d then [c_minus] else []) <= 1)%nat) by (destruct (d_neg d); cbn; lia).
  set (ng := if d_neg d then [c_minus] else []) in *.
  assert (P0 : plain ng) by apply P1.
  assert (NE : forall a : list Z, a <> [] -> ng ++ a <> []).
  { intros a Ha Hc. apply app_eq_nil in Hc. tauto. }
  destruct (Z.eqb_spec (d_sig d) 0) as [H0|H0].
  { split; [|split].
    - apply plain_app. split; [apply P1|]. repeat constructor. unfold c_0. lia.
    - apply NE. discriminate.
    - rewrite app_length. cbn [length]. lia. }
  destruct Hok as [|[Hs He]]; [congruence|].
  destruct ((-4 <=? d_ex d) && (d_ex d <? 6)) eqn:Efix; cbn zeta.
  - destruct (Z.leb_spec 0 (d_ex d)).
    + set (k := Z.to_nat (d_ex d + 1)). split; [|split].
      * repeat (apply plain_app; split); auto; try apply HDs. apply HF, HS, HDs.
      * apply NE. intros Hc. apply app_eq_nil in Hc. destruct Hc as [Hc _].
        apply (f_equal (@length Z)) in Hc. rewrite firstn_length, digits6_length in Hc. cbn in Hc. lia.
      * rewrite !app_length, firstn_length, digits6_length.
        pose proof (HFL (strip_zeros (skipn k (digits6 (d_sig d))))).
        pose proof (strip_zeros_len (skipn k (digits6 (d_sig d)))).
        rewrite skipn_length, digits6_length in *. lia.
    + set (z := repeat c_0 (Z.to_nat (- d_ex d - 1))).
      assert (plain z).
      { apply Forall_forall. intros c Hc. apply repeat_spec in Hc. subst c. unfold c_0. lia. }
      split; [|split].
      * apply plain_app; split; auto. constructor; [unfold c_0; lia|]. apply HF, HS, plain_app.
        split; auto. now apply digits_plain.
      * apply NE. discriminate.
      * rewrite app_length. cbn [length].
        pose proof (HFL (strip_zeros (z ++ digits6 (d_sig d)))).
        pose proof (strip_zeros_len (z ++ digits6 (d_sig d))).
        rewrite app_length, digits6_length in *.
        assert (length z = Z.to_nat (- d_ex d - 1)) by apply repeat_length. lia.
  - split; [|split].
    + repeat (apply plain_app; split); auto; try apply HDs.
      * apply HF, HS, HDs.
      * unfold c_e, c_minus, c_plus, c_0. destruct (d_ex d <? 0); repeat constructor; lia.
    + apply NE. discriminate.
    + rewrite !app_length, firstn_length. cbn [length].
      pose proof (HFL (strip_zeros (skipn 1 (digits6 (d_sig d))))).
      pose proof (strip_zeros_len (skipn 1 (digits6 (d_sig d)))).
      rewrite skipn_length, digits6_length in *. lia.
Qed.

Section Files.
Context {V : Type}.
Variable pw : Z -> Z.
Variable mkval : Z -> Z -> V.

Definition val_ok (d : dec6) (v : V) : Prop := exists m e, v = mkval m e /\ agrees d m e.

(* ------------------------------------------------------------------ libsvm *)

Lemma num_end_ws r : num_end (32 :: r) /\ num_end (10 :: r) /\ num_end (58 :: r) /\ num_end (44 :: r).
Proof. cbn. unfold digit_char. lia. Qed.

Lemma strip_head_digits a r : a <> [] -> Forall digit_char a -> strip_line (a ++ r) = a ++ r.
Proof.
  destruct a as [|d a]; [congruence|]. intros _ H. inversion H; subst. cbn [app].
  apply strip_nonblank. now apply digit_not_blank.
Qed.

Lemma same_ptr_lt (a b : list Z) : (length a < length b)%nat -> same_ptr a b = false.
Proof. unfold same_ptr. intros. apply Nat.eqb_neq. lia. Qed.

Lemma svm_write_feats_ok idx : forall val, length idx = length val ->
  Forall (fun i => 0 <= i < 2147483648) idx -> Forall dec6_ok val ->
  exists t, svm_write_feats show6 idx val = Some t /\ plain t /\
    Z.of_nat (length t) <= 60 * Z.of_nat (length idx) /\ (length idx <= length t)%nat /\
    (t = [] \/ exists r, t = 32 :: r) /\
    forall fuel p, (length idx <= fuel)%nat ->
    exists vs, Forall2 val_ok val vs /\
    svm_feats pw mkval fuel (strip_line (t ++ [10])) p =
      Some (inr (mkpt (p_label p) (p_idx p ++ idx) (p_val p ++ vs))).
Proof.
  induction idx as [|i idx IH]; intros [|d val] Hlen Hi Hd; try discriminate; cbn [svm_write_feats].
  - exists []. split; [reflexivity|]. split; [constructor|]. cbn [length]. split; [lia|].
    split; [lia|]. split; [auto|].
    intros fuel p _. exists []. split; [constructor|]. destruct p as [pl pi pv]. cbn [app strip_line].
    change (is_space 10) with true. cbn iota. cbn [p_label p_idx p_val]. rewrite !app_nil_r.
    destruct fuel; reflexivity.
  - inversion Hi as [|? ? Hi1 Hi2]; subst. inversion Hd as [|? ? Hd1 Hd2]; subst.
    injection Hlen as Hlen.
    destruct (IH val Hlen Hi2 Hd2) as (t & Et & Hpt & Hlt & Hlt2 & Ht & IHr).
    assert (Hii : i32 i = i).
    { unfold i32, two32. rewrite Z.mod_small by lia. replace (i <? 2147483648) with true by lia. lia. }
    destruct (print_d_ok i) as (a & Ea & _ & Ha & Hap); [unfold is_i32; lia|].
    destruct Ha as (Hane & Hadig & Haval); [lia|].
    pose proof (print_d_len _ _ Ea) as Hal.
    destruct (pg_facts d Hd1) as (Hbp & Hbne & Hbl).
    rewrite Hii, Ea, Et. cbn [bind show6].
    eexists. split; [reflexivity|].
    split. { constructor; [unfold c_sp; lia|]. apply plain_app. split; [now apply digits_plain|].
      constructor; [unfold c_colon; lia|]. apply plain_app. auto. }
    split. { cbn [length]. rewrite app_length. cbn [length]. rewrite app_length. lia. }
    split. { cbn [length]. rewrite app_length. cbn [length]. rewrite app_length. lia. }
    split; [right; eexists; reflexivity|].
    intros fuel p Hf. cbn [length] in Hf. destruct fuel as [|fuel]; [lia|].
    assert (Hrest : num_end (t ++ [10])) by (destruct Ht as [->|(r & ->)]; apply num_end_ws; exact []).
    destruct (parse_print_g mkval d (t ++ [10]) Hd1 Hrest) as (m & e & Epf & Hag).
    destruct (IHr fuel (dp_add p i (mkval m e))) as (vs & Hvs & Er); [lia|].
    exists (mkval m e :: vs). split; [constructor; [exists m, e; auto|assumption]|].
    cbn [app strip_line]. change (is_space c_sp) with true. cbn iota.
    rewrite <- app_assoc. cbn [app]. rewrite strip_head_digits by assumption.
    rewrite <- app_assoc.
    assert (Eu : parse_uint pw (a ++ c_colon :: pg d ++ t ++ [10]) =
                 Some (i, c_colon :: pg d ++ t ++ [10])).
    { pose proof (parse_uint_spelled pw [] a (c_colon :: pg d ++ t ++ [10])) as Hpu.
      cbn [app] in Hpu. rewrite Hpu; auto.
      - rewrite Haval. repeat f_equal.
      - rewrite Haval. unfold is_u32, two32. lia.
      - apply num_end_ws. }
    cbn [svm_feats].
    destruct (a ++ c_colon :: pg d ++ t ++ [10]) eqn:Eline.
    { destruct a; discriminate. }
    rewrite Eu. cbn [bind]. rewrite <- Eline.
    rewrite same_ptr_lt. 2:{ rewrite (app_length a). destruct a; [congruence|]. cbn [length]. lia. }
    cbn [starts]. change (c_colon =? c_colon) with true. cbn [negb tl].
    rewrite Epf. cbn [bind].
    rewrite same_ptr_lt.
    2:{ pose proof (strip_length (t ++ [10])). rewrite (app_length (pg d)).
        destruct (pg d); [congruence|]. cbn [length]. lia. }
    rewrite Er. cbn [dp_add p_label p_idx p_val]. rewrite <- !app_assoc. reflexivity.
Qed.

(** What the reader delivers for a written point. *)
Definition svm_read_as (p : point dec6) (q : point V) : Prop :=
  p_label q = p_label p /\ length (p_idx q) = length (p_val q) /\
  StronglySorted Z.le (p_idx q) /\
  exists vs, Forall2 val_ok (p_val p) vs /\
    Permutation (combine (p_idx q) (p_val q)) (combine (p_idx p) vs) /\
    (StronglySorted Z.lt (p_idx p) -> p_idx q = p_idx p /\ p_val q = vs).

Lemma spelling_ne s n : spelling s n -> s <> [].
Proof. destruct 1; congruence. Qed.
Lemma spelled_plain s : Forall (fun c => digit_char c \/ c = 45) s -> plain s.
Proof. apply Forall_impl. unfold digit_char. lia. Qed.

Lemma svm_line_ok p : writable p -> exists b,
  svm_write show6 p = Some (b ++ [10]) /\ plain b /\
  2 * Z.of_nat (length (b ++ [10])) <= 2147483647 /\
  exists q, svm_parse_line pw mkval (b ++ [10]) = Some (Status_OK, q) /\ svm_read_as p q.
Proof.
  intros (Hlab & Hi & Hd & Hlen & Hn).
  destruct (svm_write_feats_ok (p_idx p) (p_val p)) as (t & Et & Hpt & Hlt & Hlt2 & Ht & Hr); auto.
  destruct (print_d_ok (p_label p)) as (l & El & Hsp & _ & Hlp); [unfold is_i32; lia|].
  pose proof (print_d_len _ _ El) as Hll. pose proof (spelling_ne _ _ Hsp) as Hlne.
  exists (l ++ t). unfold svm_write. rewrite El, Et. cbn [bind].
  split; [now rewrite <- app_assoc|].
  split; [apply plain_app; split; [now apply spelled_plain|assumption]|].
  split; [rewrite !app_length; cbn [length]; lia|].
  unfold svm_parse_line.
  destruct ((l ++ t) ++ [10]) eqn:Eline.
  { destruct l; [congruence|discriminate]. }
  rewrite <- Eline, <- app_assoc.
  assert (Hrest : num_end (t ++ [10])) by (destruct Ht as [->|(r & ->)]; apply num_end_ws; exact []).
  assert (Hpi : parse_int pw (l ++ t ++ [10]) = Some (p_label p, strip_line (t ++ [10])))
    by (apply (parse_int_spelled pw [] l (p_label p) (t ++ [10])); auto).
  rewrite Hpi. cbn [bind].
  rewrite same_ptr_lt.
  2:{ pose proof (strip_length (t ++ [10])). rewrite (app_length l).
      destruct l; [congruence|]. cbn [length]. lia. }
  destruct (Hr (length (l ++ t ++ [10])) (mkpt (p_label p) [] [])) as (vs & Hvs & Er).
  { rewrite !app_length. lia. }
  rewrite Er. cbn [bind p_label p_idx p_val app].
  assert (Hvl : length (p_val p) = length vs) by (clear -Hvs; induction Hvs; cbn [length]; congruence).
  destruct (dp_sort_spec (mkpt (p_label p) (p_idx p) vs)) as (q & Eq & Q1 & Q2 & Q3 & Q4 & Q5);
    [cbn [p_idx p_val]; congruence|].
  rewrite Eq. cbn [bind]. exists q. split; [reflexivity|].
  cbn [p_label p_idx p_val] in *.
  split; [assumption|]. split; [assumption|]. split; [assumption|].
  exists vs. split; [assumption|]. split; [assumption|].
  intros Hss. rewrite (Q5 Hss). auto.
Qed.

(** A text file of written lines is read back line by line, whatever the line parser. *)
Lemma read_text_lines (A : Type) (R : A -> point V -> Prop) (wrt : A -> option (list Z))
  (parse : list Z -> option (status * point V)) ps :
  Forall (fun p => exists b, wrt p = Some (b ++ [10]) /\ plain b /\
     2 * Z.of_nat (length (b ++ [10])) <= 2147483647 /\
     exists q, parse (b ++ [10]) = Some (Status_OK, q) /\ R p q) ps ->
  forall n, 2 <= n <= 2147483647 ->
  exists qs bs, Forall2 (fun p b => wrt p = Some b) ps bs /\ Forall2 R ps qs /\
    forall fuel, (length ps < fuel)%nat ->
      read_text fuel parse n (concat bs) = Some (qs, Status_EndOfFile).
Proof.
  induction 1 as [|p ps (b & Ew & Hp & Hl & q & Epar & HR) Hps IH]; intros n Hn.
  - exists [], []. repeat split; auto. intros [|fuel] Hf; [cbn [length] in Hf; lia|].
    reflexivity.
  - destruct (plain_no_nl b Hp) as [Hnl Hnul].
    destruct (read_line_term b [] n Hnl Hnul) as (n' & _ & Hn' & _); [lia|lia|].
    clear n' Hn'.
    (* the buffer size after the first line does not depend on what follows, up to bounds *)
    destruct (IH n Hn) as (_ & bs & Hbs & _ & _).
    destruct (read_line_term b (concat bs) n Hnl Hnul) as (n' & El & Hn' & _); [lia|lia|].
    destruct (IH n') as (qs & bs' & Hbs' & HRs & Hread); [lia|].
    assert (bs' = bs) as ->.
    { clear -Hbs Hbs'. revert bs' Hbs'. induction Hbs; intros bs' H'; inversion H'; subst; auto.
      f_equal; [congruence|auto]. }
    exists (q :: qs), ((b ++ [10]) :: bs). split; [constructor; auto|]. split; [constructor; auto|].
    intros fuel Hf. cbn [length] in Hf. destruct fuel as [|fuel]; [lia|].
    cbn [concat read_text]. rewrite El. cbn [bind]. rewrite Epar. cbn [bind].
    rewrite Hread by lia. reflexivity.
Qed.

Lemma svm_write_all_concat ps : forall bs,
  Forall2 (fun p b => svm_write show6 p = Some b) ps bs ->
  svm_write_all show6 ps = Some (concat bs).
Proof.
  induction ps as [|p ps IH]; intros bs H; inversion H; subst; cbn [svm_write_all concat]; auto.
  rewrite H2, (IH _ H4). reflexivity.
Qed.
Lemma concat_length_ge {A} (ps : list A) bs (wrt : A -> option (list Z)) :
  Forall2 (fun p b => wrt p = Some b) ps bs ->
  Forall (fun p => exists b, wrt p = Some (b ++ [10])) ps -> (length ps <= length (concat bs))%nat.
Proof.
  induction 1 as [|p b ps bs Hw H IH]; intros HF; cbn [length concat]; [lia|].
  inversion HF as [|? ? (b' & Eb) HF']; subst. rewrite Hw in Eb. inversion Eb; subst.
  rewrite !app_length. cbn [length]. specialize (IH HF'). lia.
Qed.

Lemma svm_roundtrip_l ps : Forall writable ps -> exists file qs,
  svm_write_all show6 ps = Some file /\
  svm_read_file pw mkval file = Some (qs, Status_EndOfFile) /\ Forall2 svm_read_as ps qs.
Proof.
  intros H.
  assert (HL : Forall (fun p => exists b,
     svm_write show6 p = Some (b ++ [10]) /\ plain b /\
     2 * Z.of_nat (length (b ++ [10])) <= 2147483647 /\
     exists q, svm_parse_line pw mkval (b ++ [10]) = Some (Status_OK, q) /\ svm_read_as p q) ps).
  { eapply Forall_impl; [|exact H]. intros p. apply svm_line_ok. }
  destruct (read_text_lines _ svm_read_as (svm_write show6) (svm_parse_line pw mkval) ps HL 4096)
    as (qs & bs & Hbs & HR & Hread); [lia|].
  exists (concat bs), qs. split; [now apply svm_write_all_concat|]. split; [|assumption].
  unfold svm_read_file. apply Hread.
  apply (concat_length_ge ps bs (svm_write show6)) in Hbs; [lia|].
  eapply Forall_impl; [|exact HL]. cbn. intros p (b & Hb & _). eauto.
Qed.

(* --------------------------------------------------------------------- csv *)

Variable is_zero : V -> bool.
Hypothesis is_zero_ok : forall m e, is_zero (mkval m e) = (m =? 0).

Definition nonzero (x : Z * dec6) : bool := negb (d_sig (snd x) =? 0).
Definition csv_read_as (p : point dec6) (q : point V) : Prop :=
  p_label q = p_label p /\
  p_idx q = map fst (filter nonzero (combine (p_idx p) (p_val p))) /\
  Forall2 val_ok (map snd (filter nonzero (combine (p_idx p) (p_val p)))) (p_val q).

Definition zero6 : dec6 := mkdec6 false 0 0.

(** Parsing one cell. *)
Lemma csv_cell d t fuel j p : dec6_ok d -> num_end (t ++ [10]) -> (0 < fuel)%nat -> 0 <= j < two32 - 1 ->
  exists m e, agrees d m e /\
  csv_feats mkval is_zero fuel (c_comma :: pg d ++ t ++ [10]) j p =
  csv_feats mkval is_zero (fuel - 1) (strip_line (t ++ [10])) (j + 1)
    (if d_sig d =? 0 then p else dp_add p j (mkval m e)).
Proof.
  intros Hd Hrest Hf Hj. destruct fuel as [|fuel]; [lia|].
  destruct (parse_print_g mkval d (t ++ [10]) Hd Hrest) as (m & e & Epf & Hag).
  destruct (pg_facts d Hd) as (Hbp & Hbne & Hbl).
  exists m, e. split; [assumption|]. cbn [csv_feats starts].
  change (c_comma =? c_comma) with true. cbn [negb tl]. rewrite Epf. cbn [bind].
  rewrite same_ptr_lt.
  2:{ pose proof (strip_length (t ++ [10])). rewrite (app_length (pg d)).
      destruct (pg d); [congruence|]. cbn [length]. lia. }
  replace (S fuel - 1)%nat with fuel by lia. unfold u32. rewrite Z.mod_small by lia.
  rewrite is_zero_ok. destruct Hag as (_ & _ & _ & Hz).
  destruct (Z.eqb_spec m 0), (Z.eqb_spec (d_sig d) 0); tauto.
Qed.

Lemma pg_zero : pg zero6 = [c_0].
Proof. reflexivity. Qed.
Lemma zero6_ok : dec6_ok zero6.
Proof. left. reflexivity. Qed.

Lemma csv_cols_ok n : forall j idx val, length idx = length val ->
  Forall dec6_ok val -> StronglySorted Z.lt idx ->
  Forall (fun i => j <= i < j + Z.of_nat n) idx -> 1 <= j -> j + Z.of_nat n < two32 ->
  exists t, csv_cols show6 n j idx val = Some t /\ plain t /\
    Z.of_nat (length t) <= 31 * Z.of_nat n /\ (n <= length t)%nat /\
    (t = [] \/ exists r, t = 44 :: r) /\
    forall fuel p, (n <= fuel)%nat ->
    exists vs, Forall2 val_ok (map snd (filter nonzero (combine idx val))) vs /\
    csv_feats mkval is_zero fuel (strip_line (t ++ [10])) j p =
      Some (inr (mkpt (p_label p) (p_idx p ++ map fst (filter nonzero (combine idx val)))
                      (p_val p ++ vs))).
Proof.
  induction n as [|n IH]; intros j idx val Hlen Hd Hs Hi Hj Hjn.
  - destruct idx as [|i idx]; [|inversion Hi; lia].
    cbn [csv_cols]. exists []. split; [reflexivity|]. split; [constructor|]. cbn [length].
    split; [lia|]. split; [lia|]. split; [auto|]. intros fuel p _. exists [].
    split; [constructor|]. destruct p as [pl pi pv]. cbn [app strip_line].
    change (is_space 10) with true. cbn iota. cbn [p_label p_idx p_val combine filter map].
    rewrite !app_nil_r. destruct fuel; reflexivity.
  - (* a cell without a stored feature *)
    assert (Zc : forall idx val, length idx = length val -> Forall dec6_ok val ->
      StronglySorted Z.lt idx -> Forall (fun i => j + 1 <= i < j + 1 + Z.of_nat n) idx ->
      exists t, csv_cols show6 n (j + 1) idx val = Some t /\ plain (c_comma :: c_0 :: t) /\
        Z.of_nat (length (c_comma :: c_0 :: t)) <= 31 * Z.of_nat (S n) /\
        (S n <= length (c_comma :: c_0 :: t))%nat /\
        forall fuel p, (S n <= fuel)%nat ->
        exists vs, Forall2 val_ok (map snd (filter nonzero (combine idx val))) vs /\
        csv_feats mkval is_zero fuel (strip_line ((c_comma :: c_0 :: t) ++ [10])) j p =
          Some (inr (mkpt (p_label p) (p_idx p ++ map fst (filter nonzero (combine idx val)))
                      (p_val p ++ vs)))).
    { clear idx val Hlen Hd Hs Hi. intros idx val Hlen Hd Hs Hi.
      destruct (IH (j + 1) idx val) as (t & Et & Hp & Hl & Hl2 & Ht & Hr); auto; try lia.
      exists t. split; [assumption|].
      split; [repeat constructor; auto; unfold c_comma, c_0; lia|].
      cbn [length]. split; [lia|]. split; [lia|]. intros fuel p Hf.
      assert (Hrest : num_end (t ++ [10]))
        by (destruct Ht as [->|(r & ->)]; apply num_end_ws; exact []).
      destruct (csv_cell zero6 t fuel j p zero6_ok Hrest) as (m & e & _ & Ec); [lia|lia|].
      destruct (Hr (fuel - 1)%nat p) as (vs & Hvs & Er); [lia|].
      exists vs. split; [assumption|]. cbn [app].
      rewrite strip_nonblank by (unfold blank, c_comma; lia).
      rewrite pg_zero in Ec. cbn [app] in Ec. rewrite Ec. cbn [d_sig zero6].
      change (0 =? 0) with true. cbn iota. assumption. }
    destruct idx as [|i idx]; destruct val as [|d val]; try discriminate.
    + cbn [csv_cols]. destruct (Zc [] []) as (t & Et & Hp & Hl & Hl2 & Hr); auto.
      rewrite Et. cbn [bind]. eexists. split; [reflexivity|]. split; [assumption|].
      split; [assumption|]. split; [assumption|]. split; [right; eexists; reflexivity|]. assumption.
    + cbn [csv_cols]. inversion Hi as [|? ? Hi1 Hi2]; subst.
      inversion Hs as [|? ? Hs1 Hs2]; subst.
      destruct (Z.eqb_spec i j) as [->|Hij].
      * inversion Hd as [|? ? Hd1 Hd2]; subst. injection Hlen as Hlen.
        destruct (IH (j + 1) idx val) as (t & Et & Hp & Hl & Hl2 & Ht & Hr); auto; try lia.
        { rewrite Forall_forall in Hs2, Hi2 |- *. intros x Hx. specialize (Hs2 x Hx).
          specialize (Hi2 x Hx). cbn in Hi2. lia. }
        destruct (pg_facts d Hd1) as (Hbp & Hbne & Hbl).
        unfold show6 at 1. cbn [bind]. rewrite Et. cbn [bind].
        exists (c_comma :: pg d ++ t). split; [reflexivity|].
        split; [constructor; [unfold c_comma; lia|now apply plain_app]|].
        cbn [length]. rewrite app_length. split; [lia|]. split; [lia|].
        split; [right; eexists; reflexivity|]. intros fuel p Hf.
        assert (Hrest : num_end (t ++ [10]))
          by (destruct Ht as [->|(r & ->)]; apply num_end_ws; exact []).
        destruct (csv_cell d t fuel j p Hd1 Hrest) as (m & e & Hag & Ec); [lia|lia|].
        cbn [app]. rewrite strip_nonblank by (unfold blank, c_comma; lia).
        rewrite <- app_assoc, Ec.
        cbn [combine filter]. change (nonzero (j, d)) with (negb (d_sig d =? 0)).
        destruct (Z.eqb_spec (d_sig d) 0); cbn [negb].
        -- destruct (Hr (fuel - 1)%nat p) as (vs & Hvs & Er); [lia|]. exists vs. split; assumption.
        -- destruct (Hr (fuel - 1)%nat (dp_add p j (mkval m e))) as (vs & Hvs & Er); [lia|].
           exists (mkval m e :: vs). cbn [map fst snd].
           split; [constructor; [exists m, e; auto|assumption]|].
           rewrite Er. cbn [dp_add p_label p_idx p_val]. rewrite <- !app_assoc. reflexivity.
      * destruct (Zc (i :: idx) (d :: val)) as (t & Et & Hp & Hl & Hl2 & Hr); auto.
        { constructor; [lia|]. rewrite Forall_forall in Hs2, Hi2 |- *. intros x Hx.
          specialize (Hs2 x Hx). specialize (Hi2 x Hx). cbn in Hi2. lia. }
        rewrite Et. cbn [bind]. eexists. split; [reflexivity|]. split; [assumption|].
        split; [assumption|]. split; [assumption|]. split; [right; eexists; reflexivity|]. assumption.
Qed.

Lemma csv_line_ok dim p : 1 <= dim <= 16777216 -> csv_writable dim p -> exists b,
  csv_write show6 dim p = Some (b ++ [10]) /\ plain b /\
  2 * Z.of_nat (length (b ++ [10])) <= 2147483647 /\
  exists q, csv_parse_line pw mkval is_zero (b ++ [10]) = Some (Status_OK, q) /\ csv_read_as p q.
Proof.
  intros Hdim (Hlab & Hlen & Hd & Hs & Hi).
  destruct (csv_cols_ok (Z.to_nat (dim - 1)) 1 (p_idx p) (p_val p))
    as (t & Et & Hpt & Hlt & Hlt2 & Ht & Hr); auto; try (unfold two32; lia).
  { eapply Forall_impl; [|exact Hi]. cbv beta. intros; lia. }
  destruct (print_d_ok (p_label p)) as (l & El & Hsp & _ & Hlp); [unfold is_i32; lia|].
  pose proof (print_d_len _ _ El) as Hll. pose proof (spelling_ne _ _ Hsp) as Hlne.
  exists (l ++ t). unfold csv_write. rewrite El, Et. cbn [bind].
  split; [now rewrite <- app_assoc|].
  split; [apply plain_app; split; [now apply spelled_plain|assumption]|].
  split; [rewrite !app_length; cbn [length]; lia|].
  unfold csv_parse_line.
  destruct ((l ++ t) ++ [10]) eqn:Eline.
  { destruct l; [congruence|discriminate]. }
  rewrite <- Eline, <- app_assoc.
  assert (Hrest : num_end (t ++ [10])) by (destruct Ht as [->|(r & ->)]; apply num_end_ws; exact []).
  assert (Hpi : parse_int pw (l ++ t ++ [10]) = Some (p_label p, strip_line (t ++ [10])))
    by (apply (parse_int_spelled pw [] l (p_label p) (t ++ [10])); auto).
  rewrite Hpi. cbn [bind].
  rewrite same_ptr_lt.
  2:{ pose proof (strip_length (t ++ [10])). rewrite (app_length l).
      destruct l; [congruence|]. cbn [length]. lia. }
  destruct (Hr (length (l ++ t ++ [10])) (mkpt (p_label p) [] [])) as (vs & Hvs & Er).
  { rewrite !app_length. lia. }
  rewrite Er. cbn [bind p_label p_idx p_val app]. eexists. split; [reflexivity|].
  unfold csv_read_as. cbn [p_label p_idx p_val]. auto.
Qed.

Lemma csv_header_cols_ok n : forall i, 0 <= i -> i + Z.of_nat n < two32 ->
  exists t, csv_header_cols n i = Some t /\ plain t /\ Z.of_nat (length t) <= 22 * Z.of_nat n.
Proof.
  induction n as [|n IH]; intros i Hi Hn; cbn [csv_header_cols].
  - exists []. split; [reflexivity|]. split; [constructor|cbn; lia].
  - destruct (dec_digits_ok 20 i) as (d & Ed & _ & Hd & _); [|lia|].
    { assert (i < two32) by lia. split; [assumption|]. apply Z.lt_trans with two32; [assumption|].
      reflexivity. }
    destruct (IH (i + 1)) as (t & Et & Hp & Hl); [lia|lia|].
    pose proof (dec_digits_len _ _ _ Ed).
    rewrite Ed, Et. cbn [bind]. eexists. split; [reflexivity|]. split.
    + repeat (constructor; [unfold c_comma, c_v; lia|]). apply plain_app. split; auto.
      now apply digits_plain.
    + cbn [length]. rewrite app_length. lia.
Qed.

Lemma csv_write_points_concat dim ps : forall bs,
  Forall2 (fun p b => csv_write show6 dim p = Some b) ps bs ->
  csv_write_points show6 dim ps = Some (concat bs).
Proof.
  induction ps as [|p ps IH]; intros bs H; inversion H; subst; cbn [csv_write_points concat]; auto.
  rewrite H2, (IH _ H4). reflexivity.
Qed.

Lemma csv_roundtrip_l dim ps : 1 <= dim <= 16777216 -> Forall (csv_writable dim) ps ->
  exists file qs, csv_write_file show6 dim ps = Some file /\
  csv_read_file pw mkval is_zero file = Some (qs, Status_EndOfFile) /\ Forall2 csv_read_as ps qs.
Proof.
  intros Hdim H.
  assert (HL : Forall (fun p => exists b,
     csv_write show6 dim p = Some (b ++ [10]) /\ plain b /\
     2 * Z.of_nat (length (b ++ [10])) <= 2147483647 /\
     exists q, csv_parse_line pw mkval is_zero (b ++ [10]) = Some (Status_OK, q) /\ csv_read_as p q) ps).
  { eapply Forall_impl; [|exact H]. intros p. now apply csv_line_ok. }
  destruct (csv_header_cols_ok (Z.to_nat (dim - 1)) 1) as (hc & Ehc & Hhp & Hhl); [lia|unfold two32; lia|].
  destruct (read_text_lines _ csv_read_as (csv_write show6 dim) (csv_parse_line pw mkval is_zero)
              ps HL 4096) as (_ & bs & Hbs & _ & _); [lia|].
  set (h := [99; 108; 97; 115; 115] ++ hc).
  assert (Hph : plain h) by (apply plain_app; split; [repeat constructor; lia|assumption]).
  destruct (plain_no_nl h Hph) as [Hnl Hnul].
  assert (Hhl2 : 2 * Z.of_nat (length (h ++ [10])) <= 2147483647).
  { unfold h. rewrite !app_length. cbn [length]. lia. }
  destruct (read_line_term h (concat bs) 4096 Hnl Hnul) as (n' & El & Hn' & _); [lia|lia|].
  destruct (read_text_lines _ csv_read_as (csv_write show6 dim) (csv_parse_line pw mkval is_zero)
              ps HL n') as (qs & bs' & Hbs' & HR & Hread); [lia|].
  assert (bs' = bs) as ->.
  { clear -Hbs Hbs'. revert bs' Hbs'. induction Hbs; intros bs' H'; inversion H'; subst; auto.
    f_equal; [congruence|auto]. }
  exists ((h ++ [10]) ++ concat bs), qs. split; [|split; [|assumption]].
  - unfold csv_write_file, csv_header. rewrite Ehc. cbn [bind].
    rewrite (csv_write_points_concat _ _ _ Hbs). cbn [bind]. unfold h. now rewrite <- !app_assoc.
  - unfold csv_read_file. rewrite El. cbn [bind]. apply Hread.
    apply (concat_length_ge ps bs (csv_write show6 dim)) in Hbs; [lia|].
    eapply Forall_impl; [|exact HL]. cbn. intros p (b & Hb & _). eauto.
Qed.
End Files.
