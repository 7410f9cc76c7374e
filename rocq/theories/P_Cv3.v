(** Proofs about M_Cv: the scores and the slices. *)
From Coq Require Import String Reals Lra Permutation.
From Verif Require Import M_Base M_Num M_Expr M_DataPoint M_Text M_Str M_Tools M_Cv S_Cv P_Cv P_Cv2.
Local Open Scope list_scope.
Local Open Scope nat_scope.

(* ---------------------------------------------------------------- the scores *)
Section Scores.
Notation rows := (list (list R)).
Lemma set_col_len {T} j col : forall m : list (list T), length (set_col j col m) = length m.
Proof. induction col as [|x c IH]; intros [|row m]; cbn; auto. Qed.
Lemma set_col_row {T} j : forall (col : list T) m k row, length col = length m -> nth_error m k = Some row ->
  exists x, nth_error col k = Some x /\ nth_error (set_col j col m) k = Some (upd j x row).
Proof.
  induction col as [|x c IH]; intros [|r m] [|k] row L E; cbn in *; try discriminate.
  - injection E as <-. eauto.
  - now apply IH; [lia|].
Qed.
Lemma set_cols_len {T} cols : forall j (m : list (list T)), length (set_cols j cols m) = length m.
Proof. induction cols as [|c r IH]; intros j m; cbn; [reflexivity|]. now rewrite IH, set_col_len. Qed.
Lemma set_cols_row {T} : forall (cols : list (list T)) j m k row, Forall (fun c => length c = length m) cols -> nth_error m k = Some row ->
  exists row', nth_error (set_cols j cols m) k = Some row' /\ length row' = length row /\
    (forall i, i < j \/ j + length cols <= i -> nth_error row' i = nth_error row i) /\
    (forall v c, nth_error cols v = Some c -> j + v < length row -> nth_error row' (j + v) = nth_error c k).
Proof.
  induction cols as [|c r IH]; intros j m k row F E; cbn [set_cols length].
  - exists row. repeat split; auto. intros [|v] c H; discriminate.
  - inversion F as [|? ? L F']; subst. destruct (set_col_row j c m k row L E) as (x & Ex & Es).
    destruct (IH (S j) (set_col j c m) k (upd j x row)) as (row' & A1 & A2 & A3 & A4); [now rewrite set_col_len|exact Es|].
    exists row'. split; [exact A1|]. split; [now rewrite A2, upd_len|]. split.
    + intros i Hi. rewrite A3 by lia. apply upd_off. lia.
    + intros [|v] c' Hc Hl; cbn in Hc.
      * injection Hc as <-. rewrite Nat.add_0_r in *. rewrite A3 by lia. now rewrite upd_at, Ex.
      * replace (j + S v) with (S j + v) by lia. apply A4; [exact Hc|rewrite upd_len; lia].
Qed.
Lemma sum_right l : forall a, fold_left Rplus l a = (a + fold_right Rplus 0 l)%R.
Proof. induction l as [|x l IH]; intros a; cbn; [lra|]. rewrite IH. lra. Qed.
Lemma upd_end {T} (x y : T) l : upd (length l) x (l ++ [y]) = l ++ [x].
Proof. induction l; cbn; [reflexivity|]. now f_equal. Qed.
Lemma table_row fold size cols k : 0 < fold -> length cols = fold -> Forall (fun c => length c = size) cols -> k < size ->
  exists vals, nth_error (table Rnum fold cols (no_scores Rnum size fold)) k = Some (vals ++ [mean vals]) /\ length vals = fold /\
    forall v c, nth_error cols v = Some c -> nth_error vals v = nth_error c k.
Proof.
  intros Hf Lc F Hk. unfold table, no_scores.
  set (z := repeat (zero Rnum) (fold + 1)).
  assert (E : nth_error (repeat z size) k = Some z) by (now apply nth_error_repeat).
  destruct (set_cols_row cols 0 (repeat z size) k z) as (row & A1 & A2 & A3 & A4); [now rewrite repeat_length|exact E|].
  set (m1 := set_cols 0 cols (repeat z size)) in *.
  destruct (set_col_row fold (map (fun row => n_div Rnum (fold_left (n_add Rnum) row (zero Rnum)) (n_int Rnum (Z.of_nat fold))) m1) m1 k row) as (x & Ex & Es);
    [now rewrite map_length|exact A1|].
  rewrite nth_error_map, A1 in Ex. cbn [option_map] in Ex. injection Ex as <-.
  assert (Lz : length z = fold + 1) by apply repeat_length.
  assert (last : nth_error row fold = Some 0%R).
  { rewrite A3 by lia. unfold z. rewrite nth_error_repeat by lia. reflexivity. }
  assert (D : row = firstn fold row ++ [0%R]).
  { rewrite <- (firstn_skipn fold row) at 1. f_equal.
    assert (S1 : length (skipn fold row) = 1) by (rewrite skipn_length; lia).
    destruct (skipn fold row) as [|y [|]] eqn:Es'; try discriminate S1. f_equal.
    assert (H : nth_error (skipn fold row) 0 = Some y) by now rewrite Es'.
    rewrite <- (firstn_skipn fold row) in last. rewrite nth_error_app2 in last by (rewrite firstn_length; lia).
    rewrite firstn_length, Nat.min_l, Nat.sub_diag in last by lia. congruence. }
  set (vals := firstn fold row) in *. assert (Lv : length vals = fold) by (unfold vals; rewrite firstn_length; lia).
  exists vals. split; [|split; [exact Lv|]].
  - rewrite Es. f_equal. match goal with |- upd _ ?e _ = _ => assert (Q : e = mean vals) end.
    { unfold mean. rewrite Lv. cbn. rewrite D, fold_left_app. cbn. change (zero Rnum) with 0%R. rewrite sum_right, <- INR_IZR_INZ. f_equal. lra. }
    rewrite Q. clearbody vals. rewrite D. replace fold with (length vals). apply upd_end.
  - intros v c Hc. assert (Hv : v < fold) by (rewrite <- Lc; apply nth_error_Some; congruence).
    rewrite <- (A4 v c Hc) by lia. cbn [plus]. rewrite D, nth_error_app1 by lia. reflexivity.
Qed.
Lemma column_rows j : forall (m : rows) c, column j m = Some c <-> Forall2 (fun row x => nth_error row j = Some x) m c.
Proof.
  induction m as [|row m IH]; intros c; cbn [column].
  - split; [intros E; injection E as <-; constructor|intros H; now inversion H].
  - destruct (nth_error row j) as [x|] eqn:E; cbn [bind].
    + destruct (column j m) as [r|] eqn:E2; cbn [bind].
      * split; [intros H; injection H as <-; constructor; [exact E|now apply IH]|intros H; inversion H; subst]. f_equal. f_equal; [congruence|].
        apply IH in H4. congruence.
      * split; [discriminate|]. intros H; inversion H; subst. apply IH in H4. congruence.
    + split; [discriminate|]. intros H; inversion H; subst. congruence.
Qed.
(** The first largest number of a list. *)
Definition first_max (l : list R) (i : nat) : Prop :=
  exists x, nth_error l i = Some x /\ forall j y, nth_error l j = Some y -> (y <= x)%R /\ ((j < i)%nat -> (y < x)%R).
Lemma argmax_from_ok : forall l pre b x, first_max pre b -> nth_error pre b = Some x -> first_max (pre ++ l) (argmax_from Rnum (length pre) b x l).
Proof.
  induction l as [|y l IH]; intros pre b x H E; cbn [argmax_from].
  - assert (T : n_le Rnum x x = true) by (cbn; destruct (Rle_dec x x) as [|n]; [reflexivity|exfalso; apply n; lra]). rewrite T, app_nil_r. exact H.
  - assert (T : n_le Rnum x x = true) by (cbn; destruct (Rle_dec x x) as [|n]; [reflexivity|exfalso; apply n; lra]). rewrite T. cbn [negb].
    destruct H as (x' & Ex & H). rewrite E in Ex. injection Ex as <-.
    assert (Lb : b < length pre) by (apply nth_error_Some; congruence).
    replace (pre ++ y :: l) with ((pre ++ [y]) ++ l) by now rewrite <- app_assoc. replace (S (length pre)) with (length (pre ++ [y])) by (rewrite app_length; cbn; lia).
    cbn. destruct (Rle_dec y x) as [Hy|Hy].
    + apply IH; [|now rewrite nth_error_app1]. exists x. rewrite nth_error_app1 by exact Lb. split; [exact E|].
      intros j z Ez. destruct (Nat.lt_ge_cases j (length pre)) as [Hj|Hj]; [rewrite nth_error_app1 in Ez by exact Hj; now apply H|].
      rewrite nth_error_app2 in Ez by exact Hj. destruct (j - length pre) as [|[|]]; cbn in Ez; try discriminate. injection Ez as <-. split; [exact Hy|lia].
    + apply IH; [|rewrite nth_error_app2, Nat.sub_diag by lia; reflexivity]. exists y. rewrite nth_error_app2, Nat.sub_diag by lia. split; [reflexivity|].
      intros j z Ez. destruct (Nat.lt_ge_cases j (length pre)) as [Hj|Hj].
      * rewrite nth_error_app1 in Ez by exact Hj. destruct (H j z Ez). split; [lra|intros _; lra].
      * rewrite nth_error_app2 in Ez by exact Hj. destruct (j - length pre) as [|[|]]; cbn in Ez; try discriminate. injection Ez as <-. split; [lra|lia].
Qed.
Lemma argmax_ok l i : argmax Rnum l = Some i -> first_max l i.
Proof.
  destruct l as [|x l]; [discriminate|]. intros E. injection E as <-. apply (argmax_from_ok l [x] 0 x); [|reflexivity].
  exists x. split; [reflexivity|]. intros [|[|j]] y H; try discriminate. injection H as <-. split; [lra|lia].
Qed.
End Scores.

(* ---------------------------------------------------------------- the slices *)
Lemma str_eqb_iff : forall a b : list Z, str_eqb a b = true <-> a = b.
Proof.
  induction a as [|x a IH]; intros [|y b]; cbn; try (split; [discriminate|discriminate]); [tauto|].
  rewrite Bool.andb_true_iff, Z.eqb_eq, IH. split; [intros (-> & ->); reflexivity|intros E; injection E; auto].
Qed.
Section Slices.
Context {F : Type}.
Variable one_split : nat -> (nat -> F) -> Prop.
Variable split_data : nat -> list Z -> dir F -> Z * dir F.
Hypothesis Sp : splits one_split split_data.
Variable dtype : list Z.
(** There is no slice, or the slices are those of one split, and the next number is free. *)
Definition tidy (d : dir F) (t : list Z) : Prop := (forall i, d i t = None) \/ exists n, 0 < n /\ one_set one_split d t n /\ d n t = None.
Lemma remove_other i t (d : dir F) j u : ~ (j = i /\ u = t) -> remove i t d j u = d j u.
Proof.
  intros H. unfold remove. destruct (Nat.eqb_spec j i) as [->|]; cbn; [|reflexivity].
  destruct (str_eqb u t) eqn:E; [apply str_eqb_iff in E; exfalso; auto|reflexivity].
Qed.
Lemma remove_same i t (d : dir F) : remove i t d i t = None.
Proof. unfold remove. rewrite Nat.eqb_refl. cbn. now rewrite (proj2 (str_eqb_iff t t) eq_refl). Qed.
Lemma split_file_ok n t d d1 : 0 < n -> (forall u, tidy d u) -> split_file split_data dtype n (Some t) d = (true, d1) ->
  one_set one_split d1 t n /\ forall u, tidy d1 u.
Proof.
  intros Hn T. unfold split_file. set (ex := there n t d).
  assert (NoneAt : forall u, (if ex then remove n t d else d) n u = (if ex then remove n t d else d) n u) by reflexivity.
  set (d0 := if ex then remove n t d else d) in *.
  assert (D0 : d0 n t = None).
  { unfold d0. destruct ex eqn:E; [apply remove_same|]. unfold ex, there in E. destruct (d n t); [discriminate|reflexivity]. }
  assert (D1 : forall j u, ~ (j = n /\ u = t) -> d0 j u = d j u).
  { intros j u H. unfold d0. destruct ex; [now apply remove_other|reflexivity]. }
  destruct (forallb (fun i => there i t d) (seq 0 n)) eqn:Ef; cbn [andb].
  - destruct ex eqn:Ex; cbn [negb].
    2: { intros E. injection E as <-. unfold d0 in *. clear NoneAt D1.
      rewrite forallb_forall in Ef. destruct (T t) as [H|(k & Hk & (g & G1 & G2) & G3)].
      - exfalso. assert (X := Ef 0 ltac:(apply in_seq; lia)). unfold there in X. rewrite H in X. discriminate.
      - assert (k = n) as ->; [|split; [exists g; auto|exact T]].
        destruct (Nat.lt_trichotomy k n) as [H|[H|H]]; [|exact H|].
        + exfalso. assert (X := Ef k ltac:(apply in_seq; lia)). unfold there in X. rewrite G3 in X. discriminate.
        + exfalso. rewrite (G2 n H) in D0. discriminate. }
    destruct (split_data n t d0) as [ret d2] eqn:Es. destruct (Z.eqb_spec ret 0) as [->|]; [|discriminate]. intros E. injection E as <-.
    destruct (Sp _ _ _ _ Es) as (g & G1 & G2 & G3). split; [exists g; auto|]. intros u. destruct (list_eq_dec Z.eq_dec u t) as [->|Hu].
    + right. exists n. split; [exact Hn|]. split; [exists g; auto|]. rewrite G3 by lia. exact D0.
    + assert (Q : forall i, d2 i u = d i u) by (intros i; rewrite G3, D1 by tauto; reflexivity).
      destruct (T u) as [H|(k & Hk & (g' & H1 & H2) & H3)]; [left; intros i; now rewrite Q|right]. exists k. split; [exact Hk|]. split; [exists g'; split; [exact H1|intros i Hi; rewrite Q; auto]|now rewrite Q].
  - destruct (split_data n t d0) as [ret d2] eqn:Es. destruct (Z.eqb_spec ret 0) as [->|]; [|discriminate]. intros E. injection E as <-.
    destruct (Sp _ _ _ _ Es) as (g & G1 & G2 & G3). split; [exists g; auto|]. intros u. destruct (list_eq_dec Z.eq_dec u t) as [->|Hu].
    + right. exists n. split; [exact Hn|]. split; [exists g; auto|]. rewrite G3 by lia. exact D0.
    + assert (Q : forall i, d2 i u = d i u) by (intros i; rewrite G3, D1 by tauto; reflexivity).
      destruct (T u) as [H|(k & Hk & (g' & H1 & H2) & H3)]; [left; intros i; now rewrite Q|right]. exists k. split; [exact Hk|]. split; [exists g'; split; [exact H1|intros i Hi; rewrite Q; auto]|now rewrite Q].
Qed.
Lemma calls_tidy l d d1 : Forall (fun c => 0 < fst c /\ snd c <> None) l -> (forall u, tidy d u) -> calls (split_file split_data dtype) l d d1 -> forall u, tidy d1 u.
Proof.
  intros Hl T C. induction C as [|n t d d2 l d3 E C IH]; [exact T|]. inversion Hl as [|? ? (H1 & H2) Hl']; subst. cbn in *.
  destruct t as [t|]; [|contradiction]. apply IH; [exact Hl'|]. now apply (split_file_ok n t d d2).
Qed.
End Slices.
