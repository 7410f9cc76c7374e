(** Proofs about line reading. *)
From Verif Require Import M_Base M_DataPoint M_Text S_Text.
Ltac Zify.zify_post_hook ::= Z.div_mod_to_equations.

Definition nul_free (l : list Z) : Prop := ~ In 0 l.

Lemma cstr_id l : nul_free l -> cstr l = l.
Proof.
  unfold nul_free. induction l as [|c l IH]; cbn [cstr In]; intros H; [reflexivity|].
  destruct (Z.eqb_spec c 0); [exfalso; apply H; auto|]. rewrite IH; auto.
Qed.

Lemma has_nl_In l : existsb (Z.eqb c_nl) l = true <-> In 10 l.
Proof.
  rewrite existsb_exists. split.
  - intros (x & H & E). apply Z.eqb_eq in E. unfold c_nl in E. now subst.
  - intros H. exists 10. split; [assumption|reflexivity].
Qed.
Lemma has_nl_false l : ~ In 10 l -> existsb (Z.eqb c_nl) l = false.
Proof. intros H. destruct (existsb _ l) eqn:E; [|reflexivity]. apply has_nl_In in E. tauto. Qed.

(** The same with a natural number of characters. *)
Fixpoint take_line_nat (k : nat) (l : list Z) : list Z * list Z :=
  match k, l with
  | O, _ => ([], l)
  | _, [] => ([], [])
  | S k', c :: r =>
    if c =? c_nl then ([c], r)
    else let (a, b) := take_line_nat k' r in (c :: a, b)
  end.

Lemma take_line_eq l : forall k, take_line k l = take_line_nat (Z.to_nat k) l.
Proof.
  induction l as [|c l IH]; intros k; cbn [take_line].
  - destruct (Z.to_nat k); reflexivity.
  - destruct (Z.leb_spec k 0).
    + replace (Z.to_nat k) with O by lia. reflexivity.
    + replace (Z.to_nat k) with (S (Z.to_nat (k - 1))) by lia. cbn [take_line_nat].
      rewrite IH. reflexivity.
Qed.
(** take_line_nat on a text without newline in its first k characters, or reaching the newline. *)
Lemma take_line_nat_short k : forall b rest, ~ In 10 b -> (k <= length b)%nat ->
  take_line_nat k (b ++ rest) = (firstn k b, skipn k b ++ rest).
Proof.
  induction k as [|k IH]; intros b rest Hb Hk; [destruct b; reflexivity|].
  destruct b as [|c b]; cbn [length] in Hk; [lia|].
  cbn [app take_line_nat firstn skipn]. cbn [In] in Hb.
  destruct (Z.eqb_spec c c_nl); [unfold c_nl in *; tauto|].
  rewrite IH by (auto; lia). reflexivity.
Qed.
Lemma take_line_nat_full b : forall k rest, ~ In 10 b -> (length b < k)%nat ->
  take_line_nat k (b ++ 10 :: rest) = (b ++ [10], rest).
Proof.
  induction b as [|c b IH]; intros k rest Hb Hk; (destruct k as [|k]; [lia|]); cbn [app take_line_nat].
  - reflexivity.
  - cbn [In length] in *. destruct (Z.eqb_spec c c_nl); [unfold c_nl in *; tauto|].
    rewrite IH by (auto; lia). reflexivity.
Qed.
Lemma take_line_nat_end b : forall k, ~ In 10 b -> (length b <= k)%nat ->
  take_line_nat k b = (b, []).
Proof.
  induction b as [|c b IH]; intros k Hb Hk; (destruct k as [|k]; cbn [length] in *; try lia);
    cbn [take_line_nat]; try reflexivity.
  cbn [In] in *. destruct (Z.eqb_spec c c_nl); [unfold c_nl in *; tauto|].
  rewrite IH by (auto; lia). reflexivity.
Qed.

Lemma fgets_some n file : file <> [] -> fgets n file = Some (take_line_nat (Z.to_nat (n - 1)) file).
Proof. intros H. rewrite <- take_line_eq. destruct file; [congruence|reflexivity]. Qed.

Lemma nul_free_app a b : nul_free (a ++ b) <-> nul_free a /\ nul_free b.
Proof. unfold nul_free. rewrite in_app_iff. tauto. Qed.

(** The loop, when the line is terminated: [pre] already read (and fills the buffer), [b'] still
    to come. *)
Lemma loop_term fuel : forall pre b' rest n,
  ~ In 10 (pre ++ b') -> nul_free (pre ++ b') ->
  Z.of_nat (length pre) = n - 1 -> 1 < n ->
  2 * Z.of_nat (length (pre ++ b' ++ [10])) <= 2147483647 ->
  (length b' + 1 < fuel)%nat ->
  exists n', read_line_loop fuel pre n (b' ++ 10 :: rest) = Some (pre ++ b' ++ [10], n', rest) /\
    n < n' <= 2 * Z.of_nat (length (pre ++ b' ++ [10])) /\
    Z.of_nat (length (pre ++ b' ++ [10])) < n'.
Proof.
  induction fuel as [|fuel IH]; intros pre b' rest n Hnl Hnul Hlen Hn Hb Hf; [lia|].
  rewrite in_app_iff in Hnl. apply nul_free_app in Hnul as [Hnp Hnb].
  cbn [read_line_loop]. rewrite cstr_id by auto. rewrite has_nl_false by tauto.
  rewrite !app_length in Hb. cbn [length] in Hb.
  replace (2147483647 <? n * 2) with false by lia.
  rewrite fgets_some by (destruct b'; discriminate).
  destruct (Nat.le_gt_cases (Z.to_nat (n * 2 - Z.of_nat (length pre) - 1)) (length b')) as [Hs|Hs].
  - rewrite take_line_nat_short by tauto || assumption.
    set (k := Z.to_nat (n * 2 - Z.of_nat (length pre) - 1)) in *.
    destruct (IH (pre ++ firstn k b') (skipn k b') rest (n * 2)) as (n' & E & Hn').
    + rewrite <- app_assoc, firstn_skipn, in_app_iff. tauto.
    + rewrite <- app_assoc, firstn_skipn. apply nul_free_app; auto.
    + rewrite app_length, firstn_length_le by lia. lia.
    + lia.
    + rewrite <- app_assoc, (app_assoc (firstn k b')), firstn_skipn, !app_length. cbn [length]. lia.
    + rewrite skipn_length. lia.
    + exists n'. rewrite <- app_assoc, (app_assoc (firstn k b')), firstn_skipn in E.
      rewrite <- app_assoc, (app_assoc (firstn k b')), firstn_skipn in Hn'.
      split; [exact E|]. lia.
  - rewrite take_line_nat_full by tauto || assumption.
    destruct fuel as [|fuel]; [lia|]. cbn [read_line_loop].
    rewrite cstr_id by (rewrite !nul_free_app; repeat split; auto; intros [H|[]]; lia).
    replace (existsb (Z.eqb c_nl) (pre ++ b' ++ [10])) with true
      by (symmetry; apply has_nl_In; rewrite !in_app_iff; cbn; tauto).
    eexists. split; [reflexivity|]. rewrite !app_length. cbn [length]. lia.
Qed.

(** A terminated line. *)
Lemma read_line_term b rest n : ~ In 10 b -> nul_free b -> 2 <= n <= 2147483647 ->
  2 * Z.of_nat (length (b ++ [10])) <= 2147483647 ->
  exists n', read_line n ((b ++ [10]) ++ rest) = Some (Status_OK, b ++ [10], n', rest) /\
    n <= n' <= Z.max n (2 * Z.of_nat (length (b ++ [10]))) /\
    Z.of_nat (length (b ++ [10])) < n'.
Proof.
  intros Hnl Hnul Hn Hb. unfold read_line.
  rewrite fgets_some by (destruct b; discriminate).
  rewrite <- app_assoc. cbn [app].
  assert (Hnul1 : nul_free (b ++ [10])).
  { apply nul_free_app. split; auto. intros [H|[]]; lia. }
  rewrite app_length in Hb. cbn [length] in Hb.
  destruct (Nat.le_gt_cases (Z.to_nat (n - 1)) (length b)) as [Hs|Hs].
  - rewrite take_line_nat_short by assumption. set (k := Z.to_nat (n - 1)) in *.
    destruct (loop_term (S (length (b ++ 10 :: rest))) (firstn k b) (skipn k b) rest n)
      as (n' & E & H1 & H2).
    + now rewrite firstn_skipn.
    + now rewrite firstn_skipn.
    + rewrite firstn_length_le by lia. lia.
    + lia.
    + rewrite app_assoc, firstn_skipn, app_length. cbn [length]. lia.
    + rewrite skipn_length, app_length. cbn [length]. lia.
    + rewrite app_assoc, firstn_skipn in E, H1, H2. rewrite app_length in H1, H2.
      cbn [length] in H1, H2.
      exists n'. rewrite E. cbn [bind]. rewrite cstr_id by auto. split; [reflexivity|].
      rewrite app_length. cbn [length]. lia.
  - rewrite take_line_nat_full by assumption. cbn [read_line_loop].
    rewrite cstr_id by auto.
    replace (existsb (Z.eqb c_nl) (b ++ [10])) with true
      by (symmetry; apply has_nl_In; rewrite in_app_iff; cbn; tauto).
    cbn [bind]. rewrite cstr_id by auto. eexists. split; [reflexivity|].
    rewrite app_length. cbn [length]. lia.
Qed.

(** An unterminated last line: the loop doubles once more after everything was read. *)
Lemma loop_unterm fuel : forall pre b' n,
  ~ In 10 (pre ++ b') -> nul_free (pre ++ b') ->
  Z.of_nat (length pre) <= n - 1 -> (b' <> [] -> Z.of_nat (length pre) = n - 1) -> 1 < n ->
  4 * Z.of_nat (length (pre ++ b')) + 4 <= 2147483647 -> 2 * n <= 2147483647 ->
  (length b' < fuel)%nat ->
  exists n', read_line_loop fuel pre n b' = Some (pre ++ b', n', []) /\
    2 * n <= n' <= Z.max (2 * n) (4 * Z.of_nat (length (pre ++ b'))) /\
    Z.of_nat (length (pre ++ b')) < n'.
Proof.
  induction fuel as [|fuel IH]; intros pre b' n Hnl Hnul Hlen Hfull Hn Hb H2n Hf; [lia|].
  pose proof Hnl as Hnl0. pose proof Hnul as Hnul0.
  rewrite in_app_iff in Hnl. apply nul_free_app in Hnul as [Hnp Hnb].
  cbn [read_line_loop]. rewrite cstr_id by auto. rewrite has_nl_false by tauto.
  replace (2147483647 <? n * 2) with false by lia.
  destruct b' as [|c b'].
  { cbn [fgets]. rewrite app_nil_r. eexists. split; [reflexivity|]. lia. }
  specialize (Hfull ltac:(discriminate)).
  rewrite fgets_some by discriminate. set (b := c :: b') in *.
  assert (Lb : (1 <= length b)%nat) by (unfold b; cbn [length]; lia).
  rewrite app_length in Hb.
  destruct (Nat.le_gt_cases (length b) (Z.to_nat (n * 2 - Z.of_nat (length pre) - 1))) as [Hs|Hs].
  - rewrite take_line_nat_end by tauto || assumption.
    destruct (IH (pre ++ b) [] (n * 2)) as (n' & E & H1 & H2); rewrite ?app_nil_r; auto.
    + rewrite app_length. lia.
    + congruence.
    + lia.
    + rewrite app_length; lia.
    + lia.
    + cbn [length]. lia.
    + rewrite app_nil_r in E, H1, H2. exists n'. split; [exact E|].
      rewrite app_length in *. lia.
  - set (k := Z.to_nat (n * 2 - Z.of_nat (length pre) - 1)) in *.
    assert (T : take_line_nat k b = (firstn k b, skipn k b)).
    { rewrite <- (app_nil_r b) at 1. rewrite take_line_nat_short by (tauto || lia).
      now rewrite app_nil_r. }
    rewrite T.
    destruct (IH (pre ++ firstn k b) (skipn k b) (n * 2)) as (n' & E & H1 & H2);
      rewrite <- ?app_assoc, ?firstn_skipn; auto.
    + rewrite app_length, firstn_length_le by lia. lia.
    + intros _. rewrite app_length, firstn_length_le by lia. lia.
    + lia.
    + rewrite app_length. lia.
    + lia.
    + rewrite skipn_length. lia.
    + rewrite <- app_assoc, firstn_skipn in E, H1, H2. exists n'. split; [exact E|].
      rewrite app_length in *. lia.
Qed.

Lemma read_line_unterm b n : b <> [] -> ~ In 10 b -> nul_free b -> 2 <= n -> 2 * n <= 2147483647 ->
  4 * Z.of_nat (length b) + 4 <= 2147483647 ->
  exists n', read_line n b = Some (Status_OK, b, n', []) /\ 2 * n <= n' <=
    Z.max (2 * n) (4 * Z.of_nat (length b)) /\ Z.of_nat (length b) < n'.
Proof.
  intros Hne Hnl Hnul Hn H2n Hb. unfold read_line. rewrite fgets_some by assumption.
  set (k := Z.to_nat (n - 1)).
  assert (T : take_line_nat k b = (firstn k b, skipn k b)).
  { destruct (Nat.le_gt_cases k (length b)).
    - rewrite <- (app_nil_r b) at 1. rewrite take_line_nat_short by assumption. now rewrite app_nil_r.
    - rewrite firstn_all2, skipn_all2 by lia. apply take_line_nat_end; auto. lia. }
  rewrite T.
  destruct (loop_unterm (S (length b)) (firstn k b) (skipn k b) n) as (n' & E & H1 & H2);
    rewrite ?firstn_skipn; auto; try lia.
  - rewrite firstn_length. lia.
  - intros Hs. destruct (Nat.le_gt_cases k (length b)).
    + rewrite firstn_length_le by lia. lia.
    + rewrite skipn_all2 in Hs by lia. congruence.
  - rewrite skipn_length. lia.
  - rewrite firstn_skipn in E, H1, H2. exists n'. rewrite E. cbn [bind]. rewrite cstr_id by auto. auto.
Qed.

Lemma read_line_eof n : read_line n [] = Some (Status_EndOfFile, [], n, []).
Proof. reflexivity. Qed.

(** All lines of a file. *)
Definition short_lines (L : Z) (ls : list (list Z)) : Prop :=
  Forall (fun l => Z.of_nat (length l) <= L) ls.

Lemma read_lines_l ls file : is_lines ls file -> nul_free file -> forall fuel n,
  2 <= n < 1073741824 -> short_lines 536870910 ls -> (length ls < fuel)%nat ->
  exists n', read_lines fuel n file = Some (ls, Status_EndOfFile, n') /\ n <= n'.
Proof.
  induction 1 as [|b Hne Hnl|b ls file Hnl Hls IH]; intros Hnul fuel n Hn HL Hf;
    (destruct fuel as [|fuel]; [lia|]); cbn [read_lines].
  - rewrite read_line_eof. cbn [bind]. eexists. split; [reflexivity|lia].
  - cbn [length] in Hf. inversion HL; subst.
    destruct (read_line_unterm b n) as (n' & E & H3 & H4); auto; try lia. rewrite E. cbn [bind].
    destruct fuel as [|fuel]; [lia|]. cbn [read_lines]. rewrite read_line_eof. cbn [bind].
    eexists. split; [reflexivity|lia].
  - cbn [length] in Hf. inversion HL; subst. apply nul_free_app in Hnul as [Hnb Hnf].
    apply nul_free_app in Hnb as [Hnb _].
    destruct (read_line_term b file n) as (n' & E & H3 & H4); auto; try lia.
    rewrite E. cbn [bind].
    destruct (IH Hnf fuel n') as (n'' & E2 & H5); auto; try lia.
    rewrite E2. cbn [bind]. eexists. split; [reflexivity|lia].
Qed.

Lemma is_lines_length ls file : is_lines ls file -> (length ls <= length file)%nat.
Proof.
  induction 1; cbn [length]; try lia.
  - destruct b; [congruence|cbn [length]; lia].
  - rewrite !app_length. cbn [length]. lia.
Qed.

(** Every file has lines. *)
Lemma is_lines_exists file : exists ls, is_lines ls file.
Proof.
  assert (G : forall file pre, ~ In 10 pre -> exists ls, is_lines ls (pre ++ file)).
  { clear file. intros file. induction file as [|c file IH]; intros pre Hp.
    - rewrite app_nil_r. destruct pre; [exists []; constructor|].
      eexists [_]. apply is_lines_last; [discriminate|assumption].
    - destruct (Z.eq_dec c 10) as [->|Hc].
      + destruct (IH [] (fun x => x)) as (ls & H). exists ((pre ++ [10]) :: ls).
        replace (pre ++ 10 :: file) with ((pre ++ [10]) ++ ([] ++ file))
          by now rewrite <- app_assoc.
        now constructor.
      + destruct (IH (pre ++ [c])) as (ls & H).
        { rewrite in_app_iff. cbn. intros [|[|[]]]; tauto. }
        exists ls. now rewrite <- app_assoc in H. }
  apply (G file []). auto.
Qed.

(** Files all of whose lines are terminated. *)
Definition terminated (ls : list (list Z)) : Prop := Forall (fun l => In 10 l) ls.

Lemma read_lines_term_l ls file : is_lines ls file -> nul_free file -> terminated ls ->
  forall fuel n L, 2 <= n <= 2147483647 -> short_lines L ls -> 2 * L <= 2147483647 ->
  (length ls < fuel)%nat ->
  exists n', read_lines fuel n file = Some (ls, Status_EndOfFile, n') /\ n <= n' <= Z.max n (2 * L).
Proof.
  induction 1 as [|b Hne Hnl|b ls file Hnl Hls IH]; intros Hnul Ht fuel n L Hn HL HL2 Hf;
    (destruct fuel as [|fuel]; [lia|]); cbn [read_lines].
  - rewrite read_line_eof. cbn [bind]. eexists. split; [reflexivity|lia].
  - inversion Ht; subst. tauto.
  - cbn [length] in Hf. inversion HL; subst. inversion Ht; subst.
    apply nul_free_app in Hnul as [Hnb Hnf].
    apply nul_free_app in Hnb as [Hnb _].
    destruct (read_line_term b file n) as (n' & E & H3' & H4'); auto; try lia.
    rewrite E. cbn [bind].
    destruct (IH Hnf H4 fuel n' L) as (n'' & E2 & H5); auto; try lia.
    rewrite E2. cbn [bind]. eexists. split; [reflexivity|lia].
Qed.

Lemma passes_term_l ls file : is_lines ls file -> nul_free file -> terminated ls ->
  short_lines 1073741823 ls -> forall k n, 2 <= n <= 2147483647 ->
  exists n', read_passes k n file = Some (repeat ls k, n').
Proof.
  intros H Hnul Ht HL. induction k as [|k IH]; intros n Hn; cbn [read_passes repeat].
  - eauto.
  - destruct (read_lines_term_l ls file H Hnul Ht (S (length file)) n 1073741823)
      as (n' & E & Hn'); auto; try lia.
    { apply is_lines_length in H. lia. }
    rewrite E. cbn [bind]. destruct (IH n') as (n'' & E2); [lia|]. rewrite E2. cbn [bind]. eauto.
Qed.
