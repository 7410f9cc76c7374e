(** The document of a model: written, read, and what is left of it. *)
From Coq Require Import String Sorted.
From Verif Require Import M_Base M_Str M_Text S_Text P_Str P_Parse P_PrintG M_Online M_Save S_Save P_Save M_Json S_Json P_Json P_Json2 P_Json4 P_Json5.

(* --------------------------------------------------------------- %g texts as JSON *)
Lemma digits6_head s : 100000 <= s <= 999999 -> exists c r, digits6 s = c :: r /\ c <> 48.
Proof.
  intros H. pose proof (digits6_length s) as L. pose proof (digits6_value s H) as V. pose proof (digits6_digit s) as Hd. destruct (digits6 s) as [|c r]; [discriminate|].
  exists c, r. split; [reflexivity|]. intros ->. injection L as L. assert (Hr : Forall digit_char r) by now inversion Hd. pose proof (dec_value_bound r Hr) as B. rewrite L in B. change (10 ^ Z.of_nat 5) with 100000 in B.
  cbn [dec_value] in V. lia.
Qed.
Lemma pg_json d : dec6_ok d -> exists ip l et x,
  pg d = S_Json.sign (d_neg d) ++ ip ++ frac_text (strip_zeros l) ++ et /\ int_text ip /\ Forall digit_char l /\ exp_text et x /\
  dec_value (ip ++ l) = d_sig d /\ d_sig d <= 999999 /\ (d_sig d = 0 -> l = [] /\ et = []) /\ (d_sig d <> 0 -> x - Z.of_nat (length l) = d_ex d - 5).
Proof.
  intros Hok. unfold pg, print_g6, c_minus. assert (Hf : forall l, frac l = frac_text l) by reflexivity.
  destruct (Z.eqb_spec (d_sig d) 0) as [H0|H0].
  { exists [48], [], [], 0. cbn [strip_zeros frac_text app]. rewrite H0. repeat split; auto; try lia; try constructor; auto. unfold digit_char. lia. }
  destruct Hok as [|[Hs He]]; [congruence|].
  pose proof (digits6_digit (d_sig d)) as HD. pose proof (digits6_value _ Hs) as HV. pose proof (digits6_length (d_sig d)) as HL. destruct (digits6_head _ Hs) as (c & r & Ecr & Hc).
  set (ds := digits6 (d_sig d)) in *. cbn zeta.
  assert (HDs : forall k, Forall digit_char (firstn k ds) /\ Forall digit_char (skipn k ds)) by (intros k; apply Forall_app; now rewrite firstn_skipn).
  assert (HI : forall k, (0 < k)%nat -> int_text (firstn k ds)).
  { intros k Hk. split; [apply HDs|]. right. rewrite Ecr. destruct k; [lia|exact Hc]. }
  destruct ((-4 <=? d_ex d) && (d_ex d <? 6)) eqn:Efix.
  - destruct (Z.leb_spec 0 (d_ex d)).
    + set (k := Z.to_nat (d_ex d + 1)). exists (firstn k ds), (skipn k ds), [], 0. rewrite app_nil_r, Hf.
      split; [reflexivity|]. split; [apply HI; lia|]. split; [apply HDs|]. split; [constructor|]. split; [now rewrite firstn_skipn|]. split; [lia|]. split; [congruence|].
      intros _. rewrite skipn_length. lia.
    + set (z := repeat c_0 (Z.to_nat (- d_ex d - 1))). exists [48], (z ++ ds), [], 0. rewrite app_nil_r, Hf.
      assert (Hz : Forall digit_char z). { apply Forall_forall. intros y Hy. apply repeat_spec in Hy. subst y. unfold digit_char, c_0. lia. }
      split; [reflexivity|]. split; [split; [repeat constructor; unfold digit_char; lia|now left]|]. split; [apply Forall_app; auto|]. split; [constructor|].
      split. { rewrite !dec_value_app, HV. unfold z, c_0. rewrite dec_value_zeros. cbn [dec_value]. lia. }
      split; [lia|]. split; [congruence|]. intros _. rewrite app_length, HL. unfold z. rewrite repeat_length. lia.
  - exists (firstn 1 ds), (skipn 1 ds), [c_e; if d_ex d <? 0 then c_minus else c_plus; c_0 + Z.abs (d_ex d) / 10; c_0 + Z.abs (d_ex d) mod 10], (d_ex d).
    rewrite Hf. split; [reflexivity|]. split; [apply HI; lia|]. split; [apply HDs|].
    split.
    { assert (Hx : Forall digit_char [c_0 + Z.abs (d_ex d) / 10; c_0 + Z.abs (d_ex d) mod 10]) by (unfold digit_char, c_0; repeat constructor; lia).
      assert (Hv : dec_value [c_0 + Z.abs (d_ex d) / 10; c_0 + Z.abs (d_ex d) mod 10] = Z.abs (d_ex d)).
      { cbn [dec_value length]. unfold c_0. change (10 ^ Z.of_nat 1) with 10. change (10 ^ Z.of_nat 0) with 1. lia. }
      destruct (Z.ltb_spec (d_ex d) 0).
      - replace (d_ex d) with (- dec_value [c_0 + Z.abs (d_ex d) / 10; c_0 + Z.abs (d_ex d) mod 10]) at 3 by lia. apply ex_neg; [left; reflexivity|discriminate|assumption].
      - replace (d_ex d) with (dec_value [c_0 + Z.abs (d_ex d) / 10; c_0 + Z.abs (d_ex d) mod 10]) at 3 by lia. apply ex_pos; [left; reflexivity|discriminate|assumption]. }
    split; [now rewrite firstn_skipn|]. split; [lia|]. split; [congruence|]. intros _. rewrite skipn_length, HL. lia.
Qed.
(** The digits of a number are unique. *)
Lemma same_length_digits a : forall b, length a = length b -> Forall digit_char a -> Forall digit_char b -> dec_value a = dec_value b -> a = b.
Proof.
  induction a as [|x a IH]; intros [|y b] L Ha Hb E; try discriminate; [reflexivity|]. injection L as L. inversion Ha; subst. inversion Hb; subst. cbn [dec_value] in E.
  pose proof (dec_value_bound _ H2). pose proof (dec_value_bound _ H4). pose proof (dec_value_nonneg _ H2). pose proof (dec_value_nonneg _ H4). rewrite L in *.
  unfold digit_char in *. assert (x = y) by nia. subst. f_equal. apply IH; auto. lia.
Qed.
Lemma lead_bound c r : Forall digit_char (c :: r) -> c <> 48 -> 10 ^ Z.of_nat (length r) <= dec_value (c :: r) < 10 ^ Z.of_nat (length (c :: r)).
Proof.
  intros H N. split; [|now apply dec_value_bound]. inversion H; subst. pose proof (dec_value_nonneg _ H3). cbn [dec_value]. unfold digit_char in *.
  pose proof (Z.pow_pos_nonneg 10 (Z.of_nat (length r)) ltac:(lia) ltac:(lia)). nia.
Qed.
Lemma int_text_unique a b : int_text a -> int_text b -> dec_value a = dec_value b -> a = b.
Proof.
  assert (Pos : forall c r, Forall digit_char (c :: r) -> c <> 48 -> 0 < dec_value (c :: r)).
  { intros c r H N. pose proof (lead_bound _ _ H N). pose proof (Z.pow_pos_nonneg 10 (Z.of_nat (length r)) ltac:(lia) ltac:(lia)). lia. }
  intros (Ha & [->|La]) (Hb & [->|Lb]) E.
  - reflexivity.
  - destruct b as [|c r]; [destruct Lb|]. pose proof (Pos _ _ Hb Lb). cbn [dec_value length] in E. change (10 ^ Z.of_nat 0) with 1 in E. cbn in *. lia.
  - destruct a as [|c r]; [destruct La|]. pose proof (Pos _ _ Ha La). cbn [dec_value length] in E. change (10 ^ Z.of_nat 0) with 1 in E. cbn in *. lia.
  - destruct a as [|c r]; [destruct La|]. destruct b as [|y b]; [destruct Lb|]. pose proof (lead_bound _ _ Ha La) as Ba. pose proof (lead_bound _ _ Hb Lb) as Bb. rewrite E in Ba.
    apply same_length_digits; auto. destruct (Nat.lt_trichotomy (length (c :: r)) (length (y :: b))) as [L|[L|L]]; [exfalso|exact L|exfalso].
    + assert (10 ^ Z.of_nat (length (c :: r)) <= 10 ^ Z.of_nat (length b)) by (apply Z.pow_le_mono_r; cbn [length] in *; lia). lia.
    + assert (10 ^ Z.of_nat (length (y :: b)) <= 10 ^ Z.of_nat (length r)) by (apply Z.pow_le_mono_r; cbn [length] in *; lia). lia.
Qed.
Lemma print_int_text neg ds : int_text ds -> dec_value ds <= 999999 ->
  let z := if neg : bool then - dec_value ds else dec_value ds in
  print_d z = Some (S_Json.sign neg ++ ds) \/ S_Json.sign neg ++ ds = bytes "-0" /\ z = 0.
Proof.
  intros H B z. pose proof (dec_value_nonneg _ (proj1 H)) as Nn. destruct (digits_int_text (dec_value ds)) as (ds' & E & Hi & Hv); [lia|].
  rewrite (int_text_unique _ _ Hi H Hv) in E. unfold print_d. destruct neg; cbn [S_Json.sign] in *; subst z.
  - destruct (Z.eq_dec (dec_value ds) 0) as [Z0|NZ].
    + right. split; [|lia]. rewrite (int_text_unique ds [48]); [reflexivity|exact H| |exact Z0]. split; [repeat constructor; unfold digit_char; lia|now left].
    + left. rewrite (proj2 (Z.ltb_lt _ _)) by lia. rewrite Z.opp_involutive, E. reflexivity.
  - left. rewrite (proj2 (Z.ltb_ge _ _)) by lia. exact E.
Qed.
Lemma scale6_ok k : forall fuel m e, 0 < m -> 100000 <= m * 10 ^ Z.of_nat k <= 999999 -> (k < fuel)%nat -> scale6 fuel m e = (m * 10 ^ Z.of_nat k, e - Z.of_nat k).
Proof.
  induction k as [|k IH]; intros [|f] m e Hm H L; try lia; cbn [scale6].
  - change (10 ^ Z.of_nat 0) with 1 in *. rewrite (proj2 (Z.ltb_ge m 100000)) by lia. f_equal; lia.
  - rewrite pow_S in *. pose proof (Z.pow_pos_nonneg 10 (Z.of_nat k) ltac:(lia) ltac:(lia)) as P. rewrite (proj2 (Z.ltb_lt m 100000)) by nia.
    rewrite IH; [f_equal; lia|lia|lia|lia].
Qed.
Lemma number_pg d : dec6_ok d -> exists v w, number_text read6 (show6 d) v /\ to_jval v = Some w /\ same_setting (JNum d) w.
Proof.
  intros Hok. change (show6 d) with (pg d). destruct (pg_json d Hok) as (ip & l & et & x & E & Hi & Hl & Het & Hv & Hs9 & H0 & Hex).
  destruct (strip_zeros_spec l) as (k & Hst). set (fr := strip_zeros l) in *.
  assert (Hfr : Forall digit_char fr) by (rewrite Hst in Hl; apply Forall_app in Hl; tauto).
  assert (Hsig : d_sig d = dec_value (ip ++ fr) * 10 ^ Z.of_nat k) by (rewrite <- Hv, Hst, app_assoc, dec_value_app, dec_value_zeros, repeat_length; lia).
  pose proof (Z.pow_pos_nonneg 10 (Z.of_nat k) ltac:(lia) ltac:(lia)) as Pk.
  assert (Hnn : 0 <= dec_value (ip ++ fr)) by (apply dec_value_nonneg, Forall_app; split; [apply Hi|exact Hfr]).
  assert (Case : fr = [] /\ et = [] \/ (fr <> [] \/ et <> [])) by (destruct fr, et; auto; right; [right|left|left]; discriminate).
  destruct Case as [(F0 & E0)|Fe].
  - rewrite F0, E0 in *. cbn [frac_text app] in E. rewrite app_nil_r in E, Hsig, Hnn.
    set (z := if d_neg d then - dec_value ip else dec_value ip). assert (B : dec_value ip <= 999999) by nia.
    exists (integer z), (JInt z). split; [rewrite E; apply nt_int; [exact Hi|reflexivity|unfold z; destruct (d_neg d); lia]|].
    assert (Bz : -999999 <= z <= 999999) by (unfold z; destruct (d_neg d); lia).
    split; [unfold integer; now rewrite (proj2 (Z.leb_le z 2147483647)) by lia|]. right. exists d, z. repeat split; try lia.
    change (text_of (PNum d)) with (pg d). rewrite E. apply print_int_text; auto.
  - assert (NZ : d_sig d <> 0). { intros Z0. destruct (H0 Z0) as (L0 & E0). destruct Fe as [F|F]; [apply F; unfold fr; now rewrite L0|now apply F]. }
    destruct Hok as [|[Hs He]]; [congruence|]. specialize (Hex NZ).
    exists (Real d), (JNum d). split; [|split; [reflexivity|now left]]. rewrite E. apply nt_real with x; auto; [tauto|].
    unfold read6. pose proof (scan_text (d_neg d) ip fr et x [] (int_text_ne _ Hi) (proj1 Hi) Hfr Het I) as S. rewrite app_nil_r in S.
    change (if d_neg d then [45] else []) with (S_Json.sign (d_neg d)) in S. rewrite S.
    assert (Pm : 0 < dec_value (ip ++ fr)) by nia. set (m := dec_value (ip ++ fr)) in *.
    rewrite (proj2 (Z.eqb_neq _ 0)) by (destruct (d_neg d); lia). replace (Z.abs ((if d_neg d then -1 else 1) * m)) with m by (destruct (d_neg d); lia).
    assert (K : (k < 6)%nat). { destruct (Nat.lt_ge_cases k 6); [assumption|]. assert (10 ^ Z.of_nat 6 <= 10 ^ Z.of_nat k) by (apply Z.pow_le_mono_r; lia). change (10 ^ Z.of_nat 6) with 1000000 in *. nia. }
    rewrite (scale6_ok k 6 m) by lia. rewrite <- Hsig. rewrite Hst, app_length, repeat_length in Hex. destruct d as [neg sig ex]. cbn [d_neg d_sig d_ex] in *. f_equal. f_equal.
    + destruct neg; [apply Z.ltb_lt|apply Z.ltb_ge]; lia.
    + lia.
Qed.

(* ------------------------------------------------------------------- the document *)
Local Notation kept := (S_Json.kept show6 read6).
Local Notation writable := (S_Json.writable_value show6 read6).
Lemma jval_writable n v : jval_ok v -> writable (S n) (of_jval v).
Proof.
  destruct v as [z|d|s|]; cbn; intros H; constructor; try lia; auto. left. destruct (number_pg d H) as (v & _ & T & _). now exists v.
Qed.
Lemma jval_kept v j : jval_ok v -> kept (of_jval v) j -> exists w, to_jval j = Some w /\ same_setting v w.
Proof.
  destruct v as [z|d|s|]; cbn; intros H K; inversion K; subst.
  - exists (JInt z). split; [unfold integer; now destruct (z <=? 2147483647)|now left].
  - destruct (number_pg d H) as (v & w & T & W & S). exists w. split; [|exact S].
    pose proof (decode_number_ok read6 _ _ T) as E1. pose proof (decode_number_ok read6 _ _ H1) as E2. rewrite E1 in E2. injection E2 as ->. exact W.
  - destruct (number_pg d H) as (v & w & T & _). pose proof (decode_number_ok read6 _ _ T) as E1. rewrite H1 in T.
    exfalso. apply number_quiet in T as _. rewrite H1 in E1. vm_compute in E1. discriminate.
  - exists (JStr s). split; [reflexivity|now left].
  - exists JNull. split; [reflexivity|now left].
Qed.
Definition entries (l : list (list Z * jval)) : list (list Z * json dec6) := map (fun p => (fst p, of_jval (snd p))) l.
Lemma online_set l : forall m, fold_left (fun m '(k, v) => obj_set k (of_jval v) m) l m = set_all (entries l) m.
Proof. induction l as [|[k v] l IH]; intros m; [reflexivity|]. cbn. apply IH. Qed.
Lemma last_entry name l : NoDup (map fst l) -> last_of name (entries l) = option_map of_jval (member name l).
Proof.
  induction l as [|[k v] l IH]; intros H; [reflexivity|]. inversion H as [|? ? Hk Hl]; subst. cbn [entries map last_of member fst snd]. change (map _ l) with (entries l). rewrite IH by exact Hl.
  destruct (str_eqb k name) eqn:E.
  - apply str_eqb_eq in E as ->. replace (member name l) with (@None jval); [reflexivity|]. clear -Hk. cbn in Hk. induction l as [|[a b] l IH]; [reflexivity|]. cbn in Hk |- *.
    rewrite str_ne by (intros ->; tauto). apply IH. tauto.
  - destruct (member name l); reflexivity.
Qed.
Lemma set_in {A} k (v : A) m p : In p (obj_set k v m) -> p = (k, v) \/ In p m.
Proof.
  induction m as [|[a w] m IH]; cbn; [intuition|]. destruct (key_lt a k); cbn; [intuition|]. destruct (str_eqb a k) eqn:E; cbn; [|intuition].
  apply str_eqb_eq in E as ->. intuition.
Qed.
Lemma set_all_in {A} ms : forall (m : list (list Z * A)) p, In p (set_all ms m) -> In p ms \/ In p m.
Proof. induction ms as [|[k v] ms IH]; intros m p H; [now right|]. apply IH in H as [H|H]; [left; now right|]. apply set_in in H as [->|H]; [left; now left|now right]. Qed.

Lemma online_ok l : Forall (fun p => Forall (fun c => 0 < c < 256) (fst p) /\ jval_ok (snd p)) l -> NoDup (map fst l) ->
  writable 2 (Obj (set_all (entries l) [])) /\
  forall m', kept_members show6 read6 (set_all (entries l) []) m' -> exists l', settings m' = Some l' /\ forall name, same_option (member name l) (member name l').
Proof.
  intros H N. set (o := set_all (entries l) []).
  assert (Ho : Forall (fun p => Forall (fun c => 0 < c < 256) (fst p) /\ exists x, snd p = of_jval x /\ jval_ok x) o).
  { apply Forall_forall. intros p Hp. apply set_all_in in Hp as [Hp|[]]. apply in_map_iff in Hp as ((k & x) & <- & Hx). apply (proj1 (Forall_forall _ _) H) in Hx. cbn in *. split; [tauto|]. exists x. tauto. }
  split.
  - constructor; [|apply set_all_sorted; constructor]. clearbody o. induction Ho as [|[k v] o (Hk & x & Hx & Hj) _ IH]; constructor; auto. cbn in Hx. subst v. now apply jval_writable.
  - intros m' K.
    assert (X : exists l', settings m' = Some l' /\ forall name, match obj_get name o, member name l' with
              | Some v, Some w => exists x, v = of_jval x /\ same_setting x w | None, None => True | _, _ => False end).
    { clearbody o. induction K as [|k v v' o m' Kv Km IH]; [exists []; split; [reflexivity|now intros]|]. inversion Ho as [|? ? (Hk & x & Hx & Hj) Ho']; subst. cbn in Hx. subst v.
      destruct (IH Ho') as (l' & E & M). destruct (jval_kept _ _ Hj Kv) as (w & W & S). exists ((k, w) :: l'). split.
      - unfold settings in *. cbn. rewrite W. cbn. unfold settings in E. cbn in E. now rewrite E.
      - intros name. cbn. destruct (str_eqb k name); [now exists x|apply M]. }
    destruct X as (l' & E & M). exists l'. split; [exact E|]. intros name. specialize (M name). unfold o in M. rewrite set_all_get in M by constructor. rewrite last_entry in M by exact N.
    unfold same_option. destruct (member name l) as [v|]; cbn [option_map obj_get] in M; destruct (member name l') as [w|]; auto.
    destruct M as (x & Ex & S). replace v with x; [exact S|]. destruct v, x; cbn in Ex; congruence.
Qed.
Lemma int_kept z j : int32 z -> kept (Int z) j -> j = Int z.
Proof. intros H K. inversion K; subst. unfold integer. now rewrite (proj2 (Z.leb_le z 2147483647)) by (unfold int32 in H; lia). Qed.
Lemma document_ok d : info_ok d -> writable 3 (document d) /\ forall j, kept (document d) j -> exists d', of_document j = Some d' /\ same_settings d d'.
Proof.
  intros [(S1 & S2) (I1 & I2 & I3) L O N]. destruct (online_ok _ O N) as (Wo & Ko).
  assert (Dk : document d = Obj ([(bytes "clf_num", Int (i_clf d)); (bytes "cls_num", Int (i_cls d)); (bytes "loss", Str (i_loss d)); (bytes "model", Str (i_model d));
                 (bytes "norm", Int (i_norm d)); (bytes "online", Obj (set_all (entries (i_online d)) []))] ++
                 match i_lambda d with Some v => [(bytes "regularizer", Obj [(bytes "lambda", of_jval v)])] | None => [] end)).
  { unfold document. rewrite online_set. destruct (i_lambda d); reflexivity. }
  rewrite Dk. clear Dk. set (o := set_all _ _) in *. unfold int32 in I1, I2, I3.
  assert (Nm : forall s, Forall (fun c => 0 <? c = true /\ c <? 256 = true) s -> Forall (fun c => 0 < c < 256) s) by (intros s; apply Forall_impl; intros c; rewrite !Z.ltb_lt; tauto).
  split.
  - constructor.
    + repeat (cbn [app]; constructor; [apply Nm; repeat constructor| |]); try (constructor; lia); try (now constructor); [exact Wo|].
      destruct (i_lambda d) as [v|]; [|constructor]. constructor; [apply Nm; repeat constructor| |constructor]. constructor; [|repeat constructor].
      constructor; [apply Nm; repeat constructor| |constructor]. now apply jval_writable.
    + destruct (i_lambda d); repeat (constructor; [|repeat (constructor; [apply key_lt_name; reflexivity|]); constructor]); constructor.
  - intros j K. inversion K as [| | | | | | | |m m' Km]; subst. destruct (i_lambda d) as [v|] eqn:El; cbn [app] in Km;
    repeat match goal with H : kept_members _ _ (_ :: _) _ |- _ => inversion H; clear H; subst | H : kept_members _ _ [] _ |- _ => inversion H; clear H; subst end;
    repeat match goal with H : kept (Int _) _ |- _ => apply int_kept in H; [subst|assumption] | H : kept (Str _) _ |- _ => inversion H; clear H; subst | H : kept (Obj _) _ |- _ => inversion H; clear H; subst end.
    + inversion H0 as [|? ? j0 ? ? Kv Kn]; subst. inversion Kn; subst. destruct (jval_kept _ _ L Kv) as (w & W & S). destruct (Ko _ H1) as (l' & El' & M).
      exists (mkinfo (i_model d) (i_cls d) (i_clf d) (i_loss d) (i_norm d) (Some w) l'). split.
      * change (of_document _) with (do online <- settings m'0; do x <- to_jval j0; Some (mkinfo (i_model d) (i_cls d) (i_clf d) (i_loss d) (i_norm d) (Some x) online)).
        rewrite El'. cbn [bind]. rewrite W. reflexivity.
      * repeat split; [rewrite El; exact S|exact M].
    + destruct (Ko _ H0) as (l' & El' & M). exists (mkinfo (i_model d) (i_cls d) (i_clf d) (i_loss d) (i_norm d) None l'). split.
      * change (of_document _) with (do online <- settings m'; Some (mkinfo (i_model d) (i_cls d) (i_clf d) (i_loss d) (i_norm d) None online)).
        rewrite El'. reflexivity.
      * repeat split; [rewrite El; exact I|exact M].
Qed.
(** Written, and read back. *)
Lemma round_trip (D : Type) (show : D -> list Z) read_double n v slack : (n <= 1000)%nat -> S_Json.writable_value show read_double n v ->
  exists a t v', write show v = Some (a ++ t ++ [10]) /\ blanks a /\ value_text read_double n v' t /\ S_Json.kept show read_double v v' /\
    parse read_double (a ++ t ++ [10]) slack = Some (Ok v' (10 :: slack)).
Proof.
  intros Hn H. destruct (proj1 (write_ok show read_double) n v H (mkwriter [] 0 true false []) eq_refl) as (s' & a & t & v' & E & (W & _) & Ha & K & T).
  exists a, t, v'. split; [unfold write; rewrite E; cbn [bind]; f_equal; cbn [after_value set_indented w_out]; rewrite W; cbn [w_out app]; now rewrite <- app_assoc|].
  split; [exact Ha|]. split; [exact T|]. split; [exact K|]. apply (parse_ok read_double n v' t a [10] slack Hn T Ha). intros _. cbn. unfold digit_char. lia.
Qed.
Lemma info_json_ok d slack : info_ok d -> json_ok write_info (parse_info slack) d.
Proof.
  intros H. destruct (document_ok d H) as (W & K). destruct (round_trip _ show6 read6 3 (document d) slack ltac:(lia) W) as (a & t & v' & E & Ha & T & Kv & _).
  destruct (K _ Kv) as (d' & E' & S).
  destruct (lines_ok (a ++ t)) as (ls & L1 & L2 & L3).
  { apply calm_blanks; [exact Ha|]. rewrite <- (app_nil_r t). now apply (proj1 (calm_ok read6) _ _ _ T). }
  exists ls, d'. split; [unfold write_info; rewrite E, app_assoc; exact L1|]. split; [exact L3|]. split; [|exact S].
  unfold parse_info. rewrite <- L2, joined_app, <- app_assoc.
  rewrite (parse_ok read6 3 v' (joined t) (joined a) _ slack); [exact E'|lia|now apply (proj1 (joined_ok read6))|now apply joined_blanks|]. intros _. cbn. unfold digit_char. lia.
Qed.
