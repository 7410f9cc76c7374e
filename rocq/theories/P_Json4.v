(** What the writer writes is a JSON text of the value. *)
From Coq Require Import String Sorted.
From Verif Require Import M_Base M_Str M_Text S_Text P_Str P_Parse M_Save M_Json S_Json P_Json P_Json2.

Lemma digits_lead fuel : forall n ds, 0 < n -> dec_digits fuel n = Some ds -> exists d r, ds = d :: r /\ d <> 48.
Proof.
  induction fuel as [|f IH]; intros n ds Hn; cbn [dec_digits]; [discriminate|]. unfold c_0. destruct (Z.ltb_spec n 10).
  - intros [= <-]. exists (48 + n), []. split; [reflexivity|lia].
  - destruct (dec_digits f (n / 10)) as [r|] eqn:E; [|discriminate]. cbn. intros [= <-].
    assert (1 <= n / 10) by (apply Z.div_le_lower_bound; lia). destruct (IH (n / 10) r ltac:(lia) E) as (d & q & -> & Hd). exists d, (q ++ [48 + n mod 10]). auto.
Qed.
Lemma digits_int_text n : 0 <= n <= 18446744073709551615 -> exists ds, dec_digits 20 n = Some ds /\ int_text ds /\ dec_value ds = n.
Proof.
  intros Hn. destruct (dec_digits_ok 20 n) as (ds & E & Hne & Hd & Hv); [change (10 ^ Z.of_nat 20) with 100000000000000000000; lia|lia|].
  exists ds. split; [exact E|]. split; [|exact Hv]. split; [exact Hd|]. destruct (Z.eq_dec n 0) as [->|].
  - left. now injection E as <-.
  - right. destruct (digits_lead _ n _ ltac:(lia) E) as (d & r & -> & ?). assumption.
Qed.

Lemma hex_digit_ok n : 0 <= n < 16 -> hex_value (hex_digit n) n.
Proof. intros H. unfold hex_digit, hex_value. destruct (Z.ltb_spec n 10); lia. Qed.
Lemma quote_char_ok c t s : byte c -> string_text t s -> string_text (quote_char c ++ t) (c :: s).
Proof.
  intros Hc H. unfold quote_char, byte in *.
  repeat match goal with |- context [if c =? ?k then _ else _] => destruct (Z.eqb_spec c k) as [->|]; [apply st_escape; [cbn; tauto|exact H]|] end.
  unfold is_control. destruct ((0 <? c) && (c <=? 31) || (c =? 0)) eqn:E.
  - assert (C : 0 <= c <= 31). { rewrite orb_true_iff, andb_true_iff, Z.ltb_lt, Z.leb_le, Z.eqb_eq in E. lia. }
    change (c :: s) with ([c] ++ s). 
    change (string_text (92 :: 117 :: [48; 48; hex_digit (c / 16); hex_digit (c mod 16)] ++ t) ([c] ++ s)).
    apply st_unicode with c; [|lia|constructor; lia|exact H].
    replace c with (4096 * 0 + 256 * 0 + 16 * (c / 16) + c mod 16) at 3 by (pose proof (Z.div_mod c 16); lia).
    constructor; [left; lia|left; lia|apply hex_digit_ok|apply hex_digit_ok]; [split; [apply Z.div_pos; lia|apply Z.div_lt_upper_bound; lia]|apply Z.mod_pos_bound; lia].
  - assert (C : 32 <= c). { rewrite orb_false_iff, andb_false_iff, Z.ltb_ge, Z.leb_gt, Z.eqb_neq in E. lia. }
    apply st_char; auto.
Qed.
Lemma quoted_ok s : Forall byte s -> exists t, quoted s = 34 :: t ++ [34] /\ string_text t s.
Proof.
  intros H. unfold quoted. destruct (existsb special s) eqn:E.
  - eexists. split; [reflexivity|]. clear E. induction H as [|c s Hc _ IH]; cbn; [constructor|]. now apply quote_char_ok.
  - eexists. split; [reflexivity|]. induction H as [|c s Hc _ IH]; [constructor|]. cbn [existsb] in E. apply orb_false_iff in E as [E1 E2].
    unfold special, byte in *. cbn [existsb] in E1. rewrite !orb_false_iff, !Z.eqb_neq in E1. unfold is_control in E1. rewrite andb_false_iff, Z.ltb_ge, Z.leb_gt in E1.
    apply st_char; [lia|lia|lia|auto].
Qed.
Lemma c_str_all s : Forall (fun c => 0 < c < 256) s -> c_str s = s.
Proof.
  unfold c_str. induction 1 as [|c s H _ IH]; [reflexivity|]. cbn. rewrite (proj2 (Z.eqb_neq c 0)) by lia. destruct (find_if _ s) as [a b]. cbn in *. now rewrite IH.
Qed.

Section P.
Context {D : Type}.
Variable show : D -> list Z.
Variable read_double : list Z -> option D.
Local Notation json := (json D).
Local Notation write_value := (write_value show).
Local Notation number_text := (number_text read_double).
Local Notation value_text := (value_text read_double).
Local Notation elements_text := (elements_text read_double).
Local Notation members_text := (members_text read_double).
Local Notation kept := (kept show read_double).
Local Notation kept_all := (kept_all show read_double).
Local Notation kept_members := (kept_members show read_double).
Local Notation writable_value := (writable_value show read_double).
Local Notation writable_all := (writable_all show read_double).
Local Notation writable_members := (writable_members show read_double).

Lemma print_integer n z : -9223372036854775808 <= z <= 18446744073709551615 -> exists t, print_d z = Some t /\ value_text (S n) (integer z) t.
Proof.
  intros Hz. unfold print_d. destruct (Z.ltb_spec z 0).
  - destruct (digits_int_text (- z)) as (ds & -> & Hi & Hv); [lia|]. cbn [bind]. eexists. split; [reflexivity|]. constructor.
    change (c_minus :: ds) with (S_Json.sign true ++ ds). apply nt_int; auto. lia.
  - destruct (digits_int_text z) as (ds & -> & Hi & Hv); [lia|]. eexists. split; [reflexivity|]. constructor.
    change ds with (S_Json.sign false ++ ds). apply nt_int; auto.
Qed.
Lemma leaf_ok n v : writable_value n v -> is_container v = false ->
  exists t v', kept v v' /\ value_text n v' t /\ forall s, write_value v s = Some (push_value t s).
Proof.
  intros H C. destruct H as [n|n b|n z Hz|n z Hz|n d Hd|n s Hs|n l Hl|n m Hm Hs]; cbn in C.
  - exists (bytes "null"), Null. repeat split; constructor.
  - exists (if b then bytes "true" else bytes "false"), (Bool b). repeat split; destruct b; constructor.
  - destruct (print_integer n z ltac:(lia)) as (t & E & T). exists t, (integer z). repeat split; [constructor|exact T|]. intros s. cbn. now rewrite E.
  - destruct (print_integer n z ltac:(lia)) as (t & E & T). exists t, (integer z). repeat split; [constructor|exact T|]. intros s. cbn. now rewrite E.
  - destruct Hd as [(v & Hv)|Hd].
    + exists (show d), v. repeat split; constructor; exact Hv.
    + exists (bytes "null"), Null. repeat split; [now apply k_nan|constructor|]. intros s. cbn. now rewrite Hd.
  - destruct (quoted_ok _ Hs) as (t & E & T). exists (quoted s), (Str s). (split; [constructor|]); (split; [rewrite E; now constructor|reflexivity]).
  - destruct l; [|discriminate]. exists (bytes "[]"), (Arr []). split; [repeat constructor|]. split; [|reflexivity]. change (bytes "[]") with (91 :: [] ++ [93]). apply vt_empty_array. constructor.
  - destruct m; [|discriminate]. exists (bytes "{}"), (Obj []). split; [repeat constructor|]. split; [|reflexivity]. change (bytes "{}") with (123 :: [] ++ [125]). apply vt_empty_object. constructor.
Qed.

Scheme wvalue_ind := Minimality for S_Json.writable_value Sort Prop
  with wall_ind := Minimality for S_Json.writable_all Sort Prop
  with wmembers_ind := Minimality for S_Json.writable_members Sort Prop.
Combined Scheme writable_ind from wvalue_ind, wall_ind, wmembers_ind.

Lemma blanks_app a b : blanks a -> blanks b -> blanks (a ++ b).
Proof. apply Forall_app_2 || (intros; apply Forall_app; auto). Qed.
Lemma blanks_line k : blanks (10 :: repeat 9 k).
Proof. constructor; [tauto|]. induction k; constructor; auto. Qed.
Lemma elements_blanks n l u b : elements_text n l u -> blanks b -> elements_text n l (u ++ b).
Proof.
  induction 1 as [n v a t c Ha Hc Hv|n v a t c l u Ha Hc Hv _ IH]; intros Hb.
  - rewrite <- !app_assoc. apply et_one; auto. now apply blanks_app.
  - rewrite <- !app_assoc. cbn [app]. apply et_more; auto.
Qed.
Lemma members_blanks n l u b : members_text n l u -> blanks b -> members_text n l (u ++ b).
Proof.
  induction 1 as [n k kt v a x c t d Ha Hx Hc Hd Hk Hv|n k kt v a x c t d l u Ha Hx Hc Hd Hk Hv _ IH]; intros Hb.
  - rewrite <- !app_assoc. cbn [app]. rewrite <- !app_assoc. cbn [app]. rewrite <- !app_assoc. cbn [app]. rewrite <- !app_assoc. apply mt_one; auto. now apply blanks_app.
  - rewrite <- !app_assoc. cbn [app]. rewrite <- !app_assoc. cbn [app]. rewrite <- !app_assoc. cbn [app]. rewrite <- !app_assoc. cbn [app]. apply mt_more; auto.
Qed.
(** [s'] is [s] with [u] written. *)
Definition wrote (s : writer) (u : list Z) (s' : writer) : Prop := w_out s' = w_out s ++ u /\ w_tabs s' = w_tabs s /\ w_add s' = false.
Lemma with_indent_ok s t : w_add s = false -> exists a, blanks a /\ wrote s (a ++ t) (write_with_indent t s).
Proof.
  intros A. unfold write_with_indent, wrote. destruct (w_indented s).
  - exists []. repeat split; [constructor|exact A].
  - exists (10 :: repeat 9 (w_tabs s)). split; [apply blanks_line|]. cbn. rewrite <- app_assoc. auto.
Qed.

Lemma texts_written n l' ts : Forall2 (fun v t => value_text n v t) l' ts -> ts <> [] ->
  forall s, w_add s = false -> exists u s', write_texts ts s = Some s' /\ wrote s u s' /\ elements_text n l' u.
Proof.
  induction 1 as [|v t l' ts Hv H IH]; [congruence|]. intros _ s A. destruct (with_indent_ok s t A) as (a & Ha & W1 & W2 & W3).
  destruct ts as [|t2 ts].
  - inversion H; subst. exists (a ++ t ++ []), (after_value (write_with_indent t s)). repeat split; [now rewrite app_nil_r|exact W2|exact W3|apply et_one; auto; constructor].
  - destruct (IH ltac:(discriminate) (after_value (emit [44] (write_with_indent t s)))) as (u & s' & E & (V1 & V2 & V3) & T); [exact W3|].
    exists (a ++ t ++ [] ++ 44 :: u), s'. split; [exact E|]. split; [|apply et_more; auto; constructor]. split; [|split; [rewrite V2; exact W2|exact V3]].
    rewrite V1. cbn [after_value set_indented emit w_out]. rewrite W1. rewrite <- !app_assoc. reflexivity.
Qed.
Lemma texts_joined n l' ts : Forall2 (fun v t => value_text n v t) l' ts -> ts <> [] -> forall a b, blanks a -> blanks b -> elements_text n l' (a ++ join_texts ts ++ b).
Proof.
  induction 1 as [|v t l' ts Hv H IH]; [congruence|]. intros _ a b Ha Hb. destruct ts as [|t2 ts].
  - inversion H; subst. cbn [join_texts]. now apply et_one.
  - change (join_texts (t :: t2 :: ts)) with (t ++ 44 :: 32 :: join_texts (t2 :: ts)). rewrite <- app_assoc. cbn [app].
    change (t ++ 44 :: ?x) with (t ++ [] ++ 44 :: x). apply et_more; auto; [constructor|].
    change (32 :: ?x) with ([32] ++ x). apply IH; [discriminate|repeat constructor; tauto|exact Hb].
Qed.
Lemma fill_ok n l : Forall (writable_value n) l -> existsb is_container l = false -> forall s, w_add s = true ->
  exists ts l', fill write_value l s = Some (set_child (w_child s ++ ts) s) /\ kept_all l l' /\ Forall2 (fun v t => value_text n v t) l' ts.
Proof.
  induction 1 as [|v l Hv _ IH]; intros C s A.
  - exists [], []. split; [cbn; rewrite app_nil_r; now destruct s|]. split; constructor.
  - cbn [existsb] in C. apply orb_false_iff in C as [C1 C2]. destruct (leaf_ok _ _ Hv C1) as (t & v' & K & T & W).
    destruct (IH C2 (set_child (w_child s ++ [t]) s) A) as (ts & l' & E & Kl & Tl). exists (t :: ts), (v' :: l').
    split; [|split; constructor; assumption]. cbn [fill]. rewrite W. cbn [bind]. unfold push_value. rewrite A. rewrite E. cbn. now rewrite <- app_assoc.
Qed.
Lemma kept_members_names m m' : kept_members m m' -> forall Rel : list Z -> list Z -> Prop,
  StronglySorted (fun p q : list Z * json => Rel (fst p) (fst q)) m -> StronglySorted (fun p q : list Z * json => Rel (fst p) (fst q)) m'.
Proof.
  intros H Rel. induction H as [|k v v' l l' Hv Hl IH]; [constructor|]. intros S. inversion S as [|? ? Hs Hf]; subst. constructor; [auto|]. cbn in *.
  clear - Hl Hf. induction Hl; constructor; inversion Hf; subst; cbn in *; auto.
Qed.

Definition Value (n : nat) (v : json) : Prop :=
  forall s, w_add s = false -> exists s' a t v', write_value v s = Some s' /\ wrote s (a ++ t) s' /\ blanks a /\ kept v v' /\ value_text n v' t.
Definition All (n : nat) (l : list json) : Prop :=
  Forall (writable_value n) l /\
  (l <> [] -> forall s, w_add s = false -> exists s' u l', write_elements write_value l s = Some s' /\ wrote s u s' /\ kept_all l l' /\ elements_text n l' u).
Definition Members (n : nat) (m : list (list Z * json)) : Prop :=
  m <> [] -> forall s, w_add s = false -> exists s' u m', write_members write_value m s = Some s' /\ wrote s u s' /\ kept_members m m' /\ members_text n m' u.

Lemma leaf_value n v : writable_value n v -> is_container v = false -> Value n v.
Proof.
  intros H C s A. destruct (leaf_ok _ _ H C) as (t & v' & K & T & W). exists (emit t s), [], t, v'. rewrite W. unfold push_value. rewrite A.
  repeat split; auto. constructor.
Qed.
(** The brackets around what is inside. *)
Lemma around s b1 b2 : w_add s = false ->
  let s1 := indent (write_with_indent b1 s) in w_add s1 = false /\
  forall u s2, wrote s1 u s2 -> exists a c, blanks a /\ blanks c /\ wrote s (a ++ b1 ++ (u ++ c) ++ b2) (write_with_indent b2 (unindent s2)).
Proof.
  intros A. destruct (with_indent_ok s b1 A) as (a & Ha & W1 & W2 & W3). split; [exact W3|]. intros u s2 (V1 & V2 & V3).
  destruct (with_indent_ok (unindent s2) b2 V3) as (c & Hc & U1 & U2 & U3). exists a, c. split; [exact Ha|]. split; [exact Hc|].
  split; [|split; [|exact U3]].
  - rewrite U1. cbn [unindent w_out]. rewrite V1. cbn [indent w_out]. rewrite W1. now rewrite <- !app_assoc.
  - rewrite U2. cbn [unindent w_tabs]. rewrite V2. cbn [indent w_tabs]. rewrite W2. reflexivity.
Qed.
Lemma write_ok :
  (forall n v, writable_value n v -> Value n v) /\ (forall n l, writable_all n l -> All n l) /\ (forall n m, writable_members n m -> Members n m).
Proof.
  apply writable_ind.
  - intros n. apply leaf_value; [constructor|reflexivity].
  - intros n b. apply leaf_value; [constructor|reflexivity].
  - intros n z Hz. apply leaf_value; [now constructor|reflexivity].
  - intros n z Hz. apply leaf_value; [now constructor|reflexivity].
  - intros n d Hd. apply leaf_value; [now constructor|reflexivity].
  - intros n s Hs. apply leaf_value; [now constructor|reflexivity].
  - intros n l Hl (HF & HE). destruct l as [|x l]; [apply leaf_value; [now constructor|reflexivity]|].
    intros s A. set (L := x :: l) in *. assert (NL : L <> []) by discriminate.
    assert (Un : write_value (Arr L) s =
      do (multi, s) <-
        (if (74 <=? u32 (u32 (Z.of_nat (length L)) * 3)) || existsb is_container L then Some (true, set_child [] s)
         else
           do s <- fill write_value L (set_add true (set_child [] s));
           let len := fold_left (fun a t => u32 (a + Z.of_nat (length t))) (w_child s) (u32 (4 + (u32 (Z.of_nat (length L)) - 1) * 2)) in
           Some (74 <=? len, set_add false s));
      if multi then
        let s := indent (write_with_indent [91] s) in
        do s <- (match w_child s with [] => write_elements write_value L s | ts => write_texts ts s end);
        Some (write_with_indent [93] (unindent s))
      else Some (emit (91 :: 32 :: join_texts (w_child s) ++ [32; 93]) s)) by reflexivity.
    rewrite Un. clear Un. destruct (_ || existsb is_container L) eqn:C.
    + cbn [bind]. set (s0 := set_child [] s). destruct (around s0 [91] [93] A) as (A1 & Ar). cbv zeta.
      assert (Ch : w_child (indent (write_with_indent [91] s0)) = []) by (unfold write_with_indent, s0; cbn; now destruct (w_indented s)).
      rewrite Ch. destruct (HE NL _ A1) as (s2 & u & l' & E & W & K & T). rewrite E. cbn [bind].
      destruct (Ar _ _ W) as (a & c & Ha & Hc & W'). eexists _, a, ([91] ++ (u ++ c) ++ [93]), (Arr l').
      split; [reflexivity|]. split; [exact W'|]. split; [exact Ha|]. split; [now constructor|]. cbn [app]. apply vt_array. now apply elements_blanks.
    + apply orb_false_iff in C as [_ C]. destruct (fill_ok n L HF C (set_add true (set_child [] s)) eq_refl) as (ts & l' & E & K & T).
      rewrite E. cbn [bind]. set (s1 := set_add false _).
      assert (Ch1 : w_child s1 = ts) by reflexivity. assert (Nts : ts <> []) by (intros ->; inversion T; subst; inversion K). cbn [set_child w_child set_add app].
      match goal with |- context [if 74 <=? ?x then _ else _] => destruct (74 <=? x) end.
      * destruct (around s1 [91] [93] eq_refl) as (A1 & Ar). cbv zeta.
        assert (Ch : w_child (indent (write_with_indent [91] s1)) = ts) by (unfold write_with_indent; now destruct (w_indented s1)).
        rewrite Ch. destruct (texts_written n l' ts T Nts _ A1) as (u & s2 & E2 & W & T2).
        destruct ts as [|t0 ts0]; [congruence|].
        rewrite E2. cbn [bind]. destruct (Ar _ _ W) as (a & c & Ha & Hc & W'). eexists _, a, ([91] ++ (u ++ c) ++ [93]), (Arr l').
        split; [reflexivity|]. split; [exact W'|]. split; [exact Ha|]. split; [now constructor|]. cbn [app]. apply vt_array. now apply elements_blanks.
      * eexists _, [], _, (Arr l'). split; [reflexivity|]. split; [split; [reflexivity|split; reflexivity]|]. split; [constructor|]. split; [now constructor|].
        rewrite Ch1. replace (32 :: join_texts ts ++ [32; 93]) with (([32] ++ join_texts ts ++ [32]) ++ [93]) by (cbn; now rewrite <- app_assoc).
        apply vt_array. apply texts_joined; auto; repeat constructor; tauto.
  - intros n m Hm HM Hs. destruct m as [|[k v] m]; [apply leaf_value; [now constructor|reflexivity]|].
    intros s A. destruct (around s [123] [125] A) as (A1 & Ar).
    destruct (HM ltac:(discriminate) (indent (write_with_indent [123] s)) A1) as (s2 & u & m' & E & W & K & T).
    destruct (Ar _ _ W) as (a & c & Ha & Hc & W'). exists (write_with_indent [125] (unindent s2)), a, ([123] ++ (u ++ c) ++ [125]), (Obj m').
    split; [cbn [M_Json.write_value]; rewrite E; reflexivity|]. split; [exact W'|]. split; [exact Ha|]. split; [now constructor|].
    cbn [app]. apply vt_object with m'; [now apply members_blanks|]. apply object_of_sorted. eapply kept_members_names; eassumption.
  - intros n. split; [constructor|congruence].
  - intros n v l Hw Hv Hl (HF & HE). split; [now constructor|]. intros _ s A. cbn [write_elements].
    set (s0 := if w_indented s then s else write_indent s).
    assert (W0 : exists a, blanks a /\ wrote s a s0).
    { unfold s0, wrote. destruct (w_indented s); [exists []; repeat split; [constructor|now rewrite app_nil_r|exact A]|].
      exists (10 :: repeat 9 (w_tabs s)). repeat split; [apply blanks_line|exact A]. }
    destruct W0 as (a0 & Ha0 & W1 & W2 & W3). destruct (Hv (set_indented true s0) W3) as (s1 & a & t & v' & E & (V1 & V2 & V3) & Ha & K & T).
    rewrite E. cbn [bind]. destruct l as [|y l].
    + eexists _, ((a0 ++ a) ++ t ++ []), [v']. split; [reflexivity|]. split; [|split; [repeat constructor; exact K|apply et_one; auto; [now apply blanks_app|constructor]]].
      split; [|split; [cbn in *; congruence|exact V3]]. cbn in *. rewrite V1, W1, app_nil_r. now rewrite <- !app_assoc.
    + destruct (HE ltac:(discriminate) (after_value (emit [44] (set_indented false s1))) V3) as (s2 & u & l' & E2 & (U1 & U2 & U3) & K2 & T2).
      exists s2, ((a0 ++ a) ++ t ++ [] ++ 44 :: u), (v' :: l'). split; [exact E2|]. split; [|split; [now constructor|apply et_more; auto; [now apply blanks_app|constructor]]].
      split; [|split; [cbn in *; congruence|exact U3]]. rewrite U1. cbn in *. rewrite V1, W1. now rewrite <- !app_assoc.
  - intros n. congruence.
  - intros n k v m Hk Hw Hv Hm HM _ s A. cbn [write_members]. rewrite (c_str_all _ Hk).
    destruct (quoted_ok k) as (kt & Q & Tk); [eapply Forall_impl; [|exact Hk]; unfold byte; cbn; lia|].
    destruct (with_indent_ok s (quoted k) A) as (a0 & Ha0 & W1 & W2 & W3).
    destruct (Hv (emit (bytes " : ") (write_with_indent (quoted k) s)) W3) as (s1 & a & t & v' & E & (V1 & V2 & V3) & Ha & K & T).
    rewrite E. cbn [bind]. assert (B32 : blanks [32]) by (repeat constructor; tauto). assert (B32a : blanks (32 :: a)) by (constructor; [tauto|exact Ha]).
    destruct m as [|y m].
    + eexists _, (a0 ++ 34 :: kt ++ 34 :: [32] ++ 58 :: (32 :: a) ++ t ++ []), [(k, v')]. split; [reflexivity|].
      split; [|split; [repeat constructor; exact K|apply mt_one; auto; constructor]].
      split; [|split; [cbn in *; congruence|exact V3]]. cbn [after_value set_indented w_out]. rewrite V1. cbn [emit w_out]. rewrite W1, Q, app_nil_r. cbn [app].
      rewrite <- !app_assoc. cbn [app]. rewrite <- !app_assoc. reflexivity.
    + destruct (HM ltac:(discriminate) (after_value (emit [44] s1)) V3) as (s2 & u & m' & E2 & (U1 & U2 & U3) & K2 & T2).
      exists s2, (a0 ++ 34 :: kt ++ 34 :: [32] ++ 58 :: (32 :: a) ++ t ++ [] ++ 44 :: u), ((k, v') :: m'). split; [exact E2|].
      split; [|split; [now constructor|apply mt_more; auto; constructor]].
      split; [|split; [cbn in *; congruence|exact U3]]. rewrite U1. cbn [after_value set_indented emit w_out]. rewrite V1. cbn [emit w_out]. rewrite W1, Q. cbn [app].
      rewrite <- !app_assoc. cbn [app]. rewrite <- !app_assoc. reflexivity.
Qed.

End P.
