(** Proofs about string helpers, registry and path strings. *)
From Verif Require Import M_Base M_Text S_Text M_Str S_Str P_Parse.
From Coq Require Import Lia.
Ltac Zify.zify_post_hook ::= Z.div_mod_to_equations.

(* ---------------------------------------------------------------- find_if *)
Lemma find_if_spec f l : let '(a, b) := find_if f l in
  l = a ++ b /\ Forall (fun c => f c = false) a /\ (b = [] \/ exists c r, b = c :: r /\ f c = true).
Proof.
  induction l as [|c l IH]; cbn [find_if]; [auto|]. destruct (f c) eqn:E.
  - split; [reflexivity|]. split; [constructor|]. right. eauto.
  - destruct (find_if f l) as (a, b). destruct IH as (I1 & I2 & I3). subst l. split; [reflexivity|]. split; [constructor; auto|exact I3].
Qed.
(** Splitting off a known prefix. *)
Lemma find_if_app f a b : Forall (fun c => f c = false) a -> (b = [] \/ exists c r, b = c :: r /\ f c = true) -> find_if f (a ++ b) = (a, b).
Proof.
  induction 1 as [|c a Hc Ha IH]; intros Hb; cbn [app find_if].
  - destruct Hb as [->|(c & r & -> & E)]; cbn; [reflexivity|]. now rewrite E.
  - rewrite Hc, (IH Hb). reflexivity.
Qed.
Lemma find_if_not_app f a b : Forall (fun c => f c = true) a -> (b = [] \/ exists c r, b = c :: r /\ f c = false) -> find_if_not f (a ++ b) = (a, b).
Proof.
  intros Ha Hb. apply find_if_app.
  - eapply Forall_impl; [|exact Ha]. cbn. intros c ->. reflexivity.
  - destruct Hb as [->|(c & r & -> & E)]; [auto|]. right. exists c, r. now rewrite E.
Qed.

(* ------------------------------------------------------------------ split *)
Lemma Forall_eq_dec d (l : list Z) : Forall (fun c => (c =? d) = true) l <-> Forall (fun c => c = d) l.
Proof. split; intros H; eapply Forall_impl; try exact H; cbn; intros; lia. Qed.
Lemma Forall_ne_dec d (l : list Z) : Forall (fun c => (c =? d) = false) l <-> Forall (fun c => c <> d) l.
Proof. split; intros H; eapply Forall_impl; try exact H; cbn; intros; lia. Qed.

Lemma split_loop_spec fuel : forall d l, (length l < fuel)%nat -> exists ps, split_loop fuel d l = Some ps /\ pieces d l ps.
Proof.
  induction fuel as [|f IH]; intros d l Hf; [lia|]. cbn [split_loop]. destruct l as [|c0 l0] eqn:El.
  - exists []. split; [reflexivity|]. constructor. constructor.
  - rewrite <- El in *. clear c0 l0 El. unfold find_if_not. assert (A := find_if_spec (fun c => negb (c =? d)) l).
    destruct (find_if (fun c => negb (c =? d)) l) as (pre, i). destruct A as (A1 & A2 & A3). cbn [snd].
    assert (Hp : Forall (fun c => c = d) pre) by (eapply Forall_impl; [|exact A2]; cbn; lia).
    destruct i as [|c i']. { exists []. split; [reflexivity|]. rewrite A1, app_nil_r. now constructor. }
    destruct A3 as [A3|(c' & r' & E & A3)]; [discriminate|]. injection E as <- <-.
    assert (B := find_if_spec (fun c => c =? d) (c :: i')). cbn [find_if] in *.
    destruct (c =? d) eqn:Ec; [discriminate|]. destruct (find_if (fun c => c =? d) i') as (w, j).
    destruct B as (B1 & B2 & B3). injection B1 as B1.
    destruct (IH d j) as (ps & E & P).
    { rewrite A1, B1 in Hf. rewrite app_length in Hf. cbn [length] in Hf. rewrite app_length in Hf. lia. }
    rewrite E. cbn [bind]. exists ((c :: w) :: ps). split; [reflexivity|]. rewrite A1, B1. change (c :: w ++ j) with ((c :: w) ++ j).
    constructor; [exact Hp|discriminate|now apply Forall_ne_dec| |exact P].
    destruct B3 as [->|(c' & r & -> & B3)]; [auto|]. right. exists r. f_equal. lia.
Qed.
Lemma str_split_spec d l : exists ps, str_split d l = Some ps /\ pieces d l ps.
Proof. apply split_loop_spec. lia. Qed.

Lemma pre_unique d : forall a w b w' : list Z, Forall (fun c => c = d) a -> Forall (fun c => c = d) b -> 
  (exists c r, w = c :: r /\ c <> d) -> (exists c r, w' = c :: r /\ c <> d) -> a ++ w = b ++ w' -> a = b /\ w = w'.
Proof.
  induction a as [|x a IH]; intros w b w' Ha Hb Hw Hw' E; destruct b as [|y b].
  - auto.
  - cbn in E. destruct Hw as (c & r & -> & Hc). injection E as -> _. inversion Hb; subst. congruence.
  - cbn in E. destruct Hw' as (c & r & -> & Hc). injection E as <- _. inversion Ha; subst. congruence.
  - cbn in E. injection E as <- E. inversion Ha; inversion Hb; subst. destruct (IH w b w') as (-> & ->); auto.
Qed.
Lemma word_unique d : forall a w b w' : list Z, Forall (fun c => c <> d) a -> Forall (fun c => c <> d) b ->
  (w = [] \/ exists r, w = d :: r) -> (w' = [] \/ exists r, w' = d :: r) -> a ++ w = b ++ w' -> a = b /\ w = w'.
Proof.
  induction a as [|x a IH]; intros w b w' Ha Hb Hw Hw' E; destruct b as [|y b].
  - auto.
  - cbn in E. inversion Hb; subst. destruct Hw as [Hw|(r & Hw)]; [discriminate|]. injection Hw as -> _. congruence.
  - cbn in E. inversion Ha; subst. destruct Hw' as [Hv|(r & Hv)]; [discriminate|]. injection Hv as -> _. congruence.
  - cbn in E. injection E as <- E. inversion Ha; inversion Hb; subst. destruct (IH w b w') as (-> & ->); auto.
Qed.
Lemma pieces_fun d l a : pieces d l a -> forall b, pieces d l b -> a = b.
Proof.
  induction 1 as [l H|pre w rest ps Hp Hw Hf Hr P IH]; intros b Hb.
  - inversion Hb as [|pre w rest ps Hp Hw Hf Hr P E]; [reflexivity|]. subst. exfalso.
    rewrite !Forall_app in H. destruct w; [congruence|]. destruct H as (_ & H & _). inversion H; inversion Hf; congruence.
  - inversion Hb as [l H E|pre' w' rest' ps' Hp' Hw' Hf' Hr' P' E].
    + subst. exfalso. rewrite !Forall_app in H. destruct w; [congruence|]. destruct H as (_ & H & _). inversion H; inversion Hf; congruence.
    + symmetry in E. destruct (pre_unique d pre (w ++ rest) pre' (w' ++ rest')) as (_ & E2); auto.
      { destruct w as [|c w]; [congruence|]. exists c, (w ++ rest). inversion Hf; auto. }
      { destruct w' as [|c w']; [congruence|]. exists c, (w' ++ rest'). inversion Hf'; auto. }
      destruct (word_unique d w rest w' rest') as (-> & ->); auto. f_equal. auto.
Qed.
Lemma pieces_join d ps : Forall (fun p => p <> [] /\ Forall (fun c => c <> d) p) ps -> pieces d (join d ps) ps.
Proof.
  induction ps as [|p ps IH]; intros H; [constructor; constructor|]. inversion H as [|? ? (H1 & H2) H3]; subst. specialize (IH H3).
  destruct ps as [|q ps].
  - cbn [join]. rewrite <- (app_nil_r p) at 1. change (p ++ []) with ([] ++ p ++ []). constructor; auto; constructor; constructor.
  - change (join d (p :: q :: ps)) with ([] ++ p ++ (d :: join d (q :: ps))). constructor; [constructor|exact H1|exact H2|right; eauto|].
    remember (join d (q :: ps)) as jj eqn:Ej. clear Ej. inversion IH as [|pre w rest ps' Hp Hw Hf Hr P E]; subst.
    change (d :: pre ++ q ++ rest) with ((d :: pre) ++ q ++ rest). constructor; auto.
Qed.

(* ------------------------------------------------------------------ strip *)
Lemma strip_spec s : exists pre rest, s = pre ++ strip s ++ rest /\
  Forall (fun c => c = 32 \/ c = 9) pre /\ Forall (fun c => c <> 32 /\ c <> 9) (strip s) /\
  (strip s = [] -> rest = []) /\ (rest = [] \/ exists c r, rest = c :: r /\ (c = 32 \/ c = 9)).
Proof.
  unfold strip, find_if_not. assert (A := find_if_spec (fun c => negb (is_blank c)) s).
  destruct (find_if (fun c => negb (is_blank c)) s) as (pre, i). destruct A as (A1 & A2 & A3). cbn [snd].
  assert (B := find_if_spec is_blank i). destruct (find_if is_blank i) as (w, rest) eqn:Ew. destruct B as (B1 & B2 & B3). cbn [fst].
  exists pre, rest. unfold is_blank in *. split; [congruence|]. split; [eapply Forall_impl; [|exact A2]; cbn; lia|].
  split; [eapply Forall_impl; [|exact B2]; cbn; lia|]. split.
  - intros ->. cbn in B1. subst i. destruct A3 as [->|(c & r & -> & E)]; [reflexivity|].
    destruct B3 as [?|(c' & r' & E' & E2)]; [discriminate|]. injection E' as <- <-. rewrite E2 in E. discriminate.
  - destruct B3 as [->|(c & r & -> & E)]; [auto|right]. exists c, r. split; [reflexivity|lia].
Qed.
Lemma strip_id s : Forall (fun c => c <> 32 /\ c <> 9) s -> strip s = s.
Proof.
  intros H. destruct s as [|c s]; [reflexivity|]. unfold strip. change (c :: s) with ([] ++ c :: s) at 1.
  rewrite (find_if_not_app is_blank [] (c :: s)); [|constructor|right; exists c, s; split; [reflexivity|inversion H; unfold is_blank; lia]].
  cbn [snd]. rewrite <- (app_nil_r (c :: s)) at 1. rewrite find_if_app; [reflexivity| |auto].
  eapply Forall_impl; [|exact H]. unfold is_blank. cbn. lia.
Qed.

(* ------------------------------------------------------------------ lower *)
Lemma lower_spec s : same_name s (lower s) /\ Forall (fun c => ~ 65 <= c <= 90) (lower s).
Proof.
  unfold same_name. induction s as [|c s (IH1 & IH2)]; cbn [lower map]; [auto|]. unfold to_lower at 1 3. unfold same_letter in *.
  destruct ((65 <=? c) && (c <=? 90)) eqn:E; split; constructor; auto; lia.
Qed.
Lemma lower_same a : forall b, same_name a b <-> lower a = lower b.
Proof.
  unfold same_name. induction a as [|x a IH]; intros [|y b]; cbn [lower map].
  - split; [reflexivity|constructor].
  - split; [inversion 1|discriminate].
  - split; [inversion 1|discriminate].
  - assert (S : same_letter x y <-> to_lower x = to_lower y).
    { unfold same_letter, to_lower. destruct ((65 <=? x) && (x <=? 90)) eqn:E1, ((65 <=? y) && (y <=? 90)) eqn:E2; split; intros; lia. }
    split.
    + intros H. inversion H; subst. f_equal; [now apply S|now apply IH].
    + intros H. injection H as H1 H2. constructor; [now apply S|now apply IH].
Qed.
Lemma lower_idem a : lower (lower a) = lower a.
Proof. apply lower_same. induction a as [|x a IH]; constructor; [|exact IH]. unfold same_letter, to_lower. destruct ((65 <=? x) && (x <=? 90)) eqn:E; lia. Qed.

(* --------------------------------------------------------------- registry *)
Lemma str_eqb_eq a : forall b, str_eqb a b = true <-> a = b.
Proof.
  induction a as [|x a IH]; intros [|y b]; cbn; try (split; [discriminate|discriminate]); [tauto|].
  rewrite andb_true_iff, IH, Z.eqb_eq. split; [intros (-> & ->); reflexivity|intros H; injection H; auto].
Qed.
Section R.
Context {A : Type}.
Implicit Types (m h : list (list Z * A)).
Lemma reg_find_some n m x : reg_find n m = Some x -> In (n, x) m.
Proof.
  induction m as [|(k, y) m IH]; cbn; [discriminate|]. destruct (str_eqb k n) eqn:E.
  - intros H. injection H as <-. apply str_eqb_eq in E. subst. auto.
  - auto.
Qed.
Lemma reg_find_none n m : reg_find n m = None <-> ~ In n (map fst m).
Proof.
  induction m as [|(k, y) m IH]; cbn; [tauto|]. destruct (str_eqb k n) eqn:E.
  - apply str_eqb_eq in E. subst. split; [discriminate|tauto].
  - rewrite IH. assert (k <> n) by (intros ->; rewrite (proj2 (str_eqb_eq n n) eq_refl) in E; discriminate). tauto.
Qed.
Lemma reg_find_unique n m x : NoDup (map fst m) -> In (n, x) m -> reg_find n m = Some x.
Proof.
  induction m as [|(k, y) m IH]; [intros _ []|]. cbn; intros N [E|I].
  - injection E as -> ->. now rewrite (proj2 (str_eqb_eq n n) eq_refl).
  - inversion N; subst. destruct (str_eqb k n) eqn:E; [|auto]. apply str_eqb_eq in E. subst. exfalso. apply H1. change n with (fst (n, x)). now apply in_map.
Qed.
(** The map after a history. *)
Lemma register_all_spec h : forall m, NoDup (map fst m) ->
  (forall m', register_all m h = Some m' -> m' = rev (map (fun e => (lower (fst e), snd e)) h) ++ m /\ NoDup (map fst m')) /\
  (register_all m h <> None <-> NoDup (map fst (rev (map (fun e => (lower (fst e), snd e)) h) ++ m))).
Proof.
  induction h as [|(n, x) h IH]; intros m N; cbn [register_all map rev].
  - split; [intros m' E; injection E as <-; auto|]. split; [auto|discriminate].
  - cbn [fst snd]. unfold register. destruct (reg_find (lower n) m) eqn:E; cbn [bind].
    + split; [discriminate|]. split; [congruence|]. intros H. exfalso. rewrite <- app_assoc in H. cbn [app] in H. rewrite map_app in H. cbn [map fst] in H.
      apply NoDup_remove_2 in H. apply H, in_or_app. right. apply reg_find_some in E. change (lower n) with (fst (lower n, a)). now apply in_map.
    + apply reg_find_none in E. destruct (IH ((lower n, x) :: m)) as (I1 & I2); [cbn; constructor; auto|].
      rewrite <- app_assoc. cbn [app]. split; [exact I1|exact I2].
Qed.
End R.

(* ------------------------------------------------------------ path strings *)
Lemma digits_value_horner l : forall a, digits_value a l = horner a l.
Proof. induction l as [|c l IH]; intros a; cbn [digits_value horner]; [reflexivity|]. rewrite IH. reflexivity. Qed.

Lemma print_d64_ok n : -9223372036854775808 <= n <= 9223372036854775807 -> exists s, print_d n = Some s /\ spelling s n /\ s <> [] /\ Forall (fun c => digit_char c \/ c = 45) s.
Proof.
  intros Hn. unfold print_d.
  assert (P : 10 ^ Z.of_nat 20 = 100000000000000000000) by reflexivity.
  assert (W : forall s, Forall digit_char s -> Forall (fun c => digit_char c \/ c = 45) s) by (intros s; apply Forall_impl; auto).
  destruct (Z.ltb_spec n 0).
  - destruct (dec_digits_ok 20 (- n)) as (ds & E & Hne & Hd & Hv); [lia|lia|].
    rewrite E. cbn [bind]. exists (c_minus :: ds). split; [reflexivity|]. split; [|split; [discriminate|]].
    + replace n with (- dec_value ds) by lia. now constructor.
    + constructor; auto.
  - destruct (dec_digits_ok 20 n) as (ds & E & Hne & Hd & Hv); [lia|lia|].
    exists ds. split; [assumption|]. split; [|split]; auto. rewrite <- Hv at 1. now constructor.
Qed.
Lemma is_digit_char c : is_digit c = true <-> digit_char c.
Proof. unfold is_digit, digit_char, c_0, c_9. lia. Qed.

Lemma stoll_ok s n : print_d n = Some s -> -9223372036854775808 <= n <= 9223372036854775807 -> stoll s = Parsed (n, length s).
Proof.
  intros E Hn. unfold print_d in E. assert (P : 10 ^ Z.of_nat 20 = 100000000000000000000) by reflexivity.
  assert (D : forall ds, ds <> [] -> Forall digit_char ds -> exists c r, ds = c :: r /\ digit_char c).
  { intros [|c r] ?; [congruence|]. intros HF. inversion HF; eauto. }
  assert (G : forall ds, Forall digit_char ds -> find_if_not is_digit ds = (ds, [])).
  { intros ds H. rewrite <- (app_nil_r ds) at 1. apply find_if_not_app; [|auto]. eapply Forall_impl; [|exact H]. intros c. apply is_digit_char. }
  assert (NS : forall c r, is_space c = false -> find_if_not is_space (c :: r) = ([], c :: r)).
  { intros c r H. apply (find_if_not_app is_space [] (c :: r)); [constructor|]. right. eauto. }
  destruct (Z.ltb_spec n 0).
  - destruct (dec_digits_ok 20 (- n)) as (ds & E' & Hne & Hd & Hv); [lia|lia|]. rewrite E' in E. cbn [bind] in E. injection E as <-.
    unfold stoll. rewrite NS by reflexivity. cbn [starts]. rewrite Z.eqb_refl. cbn [tl]. rewrite (G ds Hd).
    destruct ds as [|c r] eqn:Ed; [congruence|]. rewrite <- Ed in *. cbn [length Nat.add].
    rewrite digits_value_horner, horner_0, Hv. replace (- - n) with n by lia.
    replace ((-9223372036854775808 <=? n) && (n <=? 9223372036854775807)) with true by lia. reflexivity.
  - destruct (dec_digits_ok 20 n) as (ds & E' & Hne & Hd & Hv); [lia|lia|]. rewrite E' in E. injection E as <-.
    destruct (D ds Hne Hd) as (c & r & -> & Hc). unfold digit_char in Hc. unfold stoll. rewrite NS by (unfold is_space; lia).
    unfold starts, c_minus, c_plus. replace (c =? 45) with false by lia. replace (c =? 43) with false by lia.
    rewrite (G (c :: r) Hd). cbn [length Nat.add].
    rewrite digits_value_horner, horner_0, Hv.
    replace ((-9223372036854775808 <=? n) && (n <=? 9223372036854775807)) with true by lia. reflexivity.
Qed.
Lemma parse_addr_ok cast s n : print_d n = Some s -> -9223372036854775808 <= n <= 9223372036854775807 -> parse_addr cast s = Parsed (cast n).
Proof.
  intros E Hn. destruct (print_d64_ok n Hn) as (s' & E' & _ & _ & Hc). rewrite E in E'. injection E' as <-.
  unfold parse_addr. rewrite strip_id by (eapply Forall_impl; [|exact Hc]; unfold digit_char; cbn; lia).
  rewrite (stoll_ok s n E Hn). cbn [then_ fst snd]. rewrite nth_overflow by lia. reflexivity.
Qed.
Lemma path_split a b c d e : Forall (fun s => s <> [] /\ Forall (fun c => digit_char c \/ c = 45) s) [a; b; c; d; e] ->
  str_split 59 (a ++ [59] ++ b ++ [59] ++ c ++ [59] ++ d ++ [59] ++ e) = Some [a; b; c; d; e].
Proof.
  intros H. destruct (str_split_spec 59 (a ++ [59] ++ b ++ [59] ++ c ++ [59] ++ d ++ [59] ++ e)) as (ps & -> & P). f_equal.
  apply (pieces_fun _ _ _ P). apply (pieces_join 59 [a; b; c; d; e]). eapply Forall_impl; [|exact H]. cbn. intros s (H1 & H2). split; [exact H1|].
  eapply Forall_impl; [|exact H2]. unfold digit_char. cbn. lia.
Qed.
Lemma i64_range z : -9223372036854775808 <= i64 z <= 9223372036854775807.
Proof. unfold i64, two64. assert (X := Z.mod_pos_bound z 18446744073709551616 ltac:(lia)). destruct (z mod 18446744073709551616 <? 9223372036854775808) eqn:E; lia. Qed.
Lemma u64_i64 z : 0 <= z < two64 -> u64 (i64 z) = z.
Proof.
  intros H. unfold u64, i64, two64 in *. rewrite (Z.mod_small z) by lia. destruct (Z.ltb_spec z 9223372036854775808).
  - apply Z.mod_small. lia.
  - replace (z - 18446744073709551616) with (z + (-1) * 18446744073709551616) by lia. rewrite Z.mod_add by lia. apply Z.mod_small. lia.
Qed.
Lemma i32_id z : is_i32 z -> i32 z = z.
Proof.
  unfold is_i32, i32, two32. intros H. destruct (Z_lt_le_dec z 0).
  - replace (z mod 4294967296) with (z + 4294967296) by (rewrite <- (Z.mod_small (z + 4294967296) 4294967296) by lia; rewrite <- (Z.mod_add z 1 4294967296) by lia; f_equal; lia).
    replace (z + 4294967296 <? 2147483648) with false by lia. lia.
  - rewrite Z.mod_small by lia. replace (z <? 2147483648) with true by lia. reflexivity.
Qed.
