From Verif Require Import M_Base M_Text M_Str S_Filter P_DataPoint P_Str M_Filter.
From Coq Require Import Lia.

(* ---------------------------------------------------------------- lines *)
Lemma get_lines_nonl l cur rest : no_newline l -> get_lines cur (l ++ rest) = get_lines (rev l ++ cur) rest.
Proof.
  revert cur. induction l as [|c l IH]; intros cur H; [reflexivity|]. inversion H as [|? ? Hc Hl]; subst.
  cbn [app get_lines]. unfold c_nl. replace (c =? 10) with false by lia. rewrite (IH (c :: cur) Hl). cbn [rev]. rewrite <- app_assoc. reflexivity.
Qed.
Lemma get_lines_line l rest : no_newline l -> get_lines [] (l ++ [10] ++ rest) = l :: get_lines [] rest.
Proof.
  intros H. rewrite get_lines_nonl by auto. cbn [app get_lines]. unfold c_nl. cbn [Z.eqb Pos.eqb].
  rewrite app_nil_r, rev_involutive. reflexivity.
Qed.
Lemma get_lines_last l : no_newline l -> l <> [] -> get_lines [] l = [l].
Proof.
  intros H Hne. rewrite <- (app_nil_r l) at 1. rewrite get_lines_nonl by auto. rewrite app_nil_r. cbn [get_lines].
  destruct (rev l) as [|c r] eqn:E. { apply (f_equal (@rev Z)) in E. rewrite rev_involutive in E. cbn in E. congruence. }
  rewrite <- E, rev_involutive. reflexivity.
Qed.
Lemma entry_nonl e : entry_ok e -> no_newline (entry_text e).
Proof.
  unfold no_newline. destruct e as [b t|sp p ds r]; cbn [entry_ok entry_text]; intros H.
  - destruct H as (Hb & Ht). apply Forall_app; split; [eapply Forall_impl; [|exact Hb]; cbn; lia|]. apply Forall_app; split; [repeat constructor; lia|exact Ht].
  - destruct H as (Hs & Hd & _ & Hr & _). apply Forall_app; split; [eapply Forall_impl; [|exact Hs]; cbn; lia|].
    apply Forall_app; split; [destruct p; repeat constructor; lia|]. apply Forall_app; split; [eapply Forall_impl; [|exact Hd]; cbn; lia|exact Hr].
Qed.
Lemma entry_nonempty e : entry_ok e -> entry_text e <> [].
Proof.
  destruct e as [b t|sp p ds r]; cbn [entry_ok entry_text]; intros H E.
  - apply app_eq_nil in E as (_ & E). discriminate.
  - apply app_eq_nil in E as (_ & E). apply app_eq_nil in E as (_ & E). apply app_eq_nil in E as (-> & _). destruct H as (_ & _ & H & _). cbn in H. lia.
Qed.
Lemma get_lines_entries es tail : Forall entry_ok es -> get_lines [] (lines_text es ++ tail) = map entry_text es ++ get_lines [] tail.
Proof.
  induction es as [|e es IH]; intros H; [reflexivity|]. inversion H; subst. unfold lines_text in *. cbn [map concat].
  rewrite <- !app_assoc. rewrite get_lines_line by (apply entry_nonl; auto). rewrite IH by auto. reflexivity.
Qed.
Lemma get_lines_file es b : Forall entry_ok es -> get_lines [] (file_of es b) = map entry_text es.
Proof.
  intros H. destruct b; unfold file_of.
  - rewrite <- (app_nil_r (lines_text es)), get_lines_entries by auto. cbn. apply app_nil_r.
  - destruct es as [|e0 es0] eqn:E; [reflexivity|]. destruct (@exists_last _ (e0 :: es0)) as (es' & e & E'); [discriminate|]. rewrite E' in *. clear E E' e0 es0.
    apply Forall_app in H as (H1 & H2). inversion H2; subst.
    assert (Q : lines_text (es' ++ [e]) = (lines_text es' ++ entry_text e) ++ [10]). { unfold lines_text. rewrite map_app, concat_app. cbn [map concat]. rewrite app_nil_r, app_assoc. reflexivity. }
    rewrite Q, removelast_last, get_lines_entries by auto. rewrite map_app. f_equal. cbn [map]. apply get_lines_last; [apply entry_nonl|apply entry_nonempty]; auto.
Qed.

(* ---------------------------------------------------------------- numbers *)
Lemma digits_value_dec ds : digits_value 0 ds = dec_val ds.
Proof.
  unfold dec_val. generalize 0. induction ds as [|c ds IH]; intros a; [reflexivity|]. cbn [digits_value fold_left]. rewrite IH. f_equal. lia.
Qed.
Lemma not_starts c l : (forall r, l <> c :: r) -> starts c l = false.
Proof. destruct l as [|d l]; [reflexivity|]. cbn. intros H. destruct (Z.eqb_spec c d); [subst; exfalso; apply (H l); auto|]. destruct (Z.eqb_spec d c); congruence. Qed.
Lemma stoi_entry sp p ds r : entry_ok (Index sp p ds r) -> exists n, stoi (entry_text (Index sp p ds r)) = Parsed (dec_val ds, n).
Proof.
  cbn [entry_ok entry_text]. intros (Hs & Hd & Hv & _ & Hr).
  assert (Hne : ds <> []) by (intros ->; cbn in Hv; lia).
  assert (HD : find_if_not is_digit (ds ++ r) = (ds, r)).
  { apply find_if_not_app; [eapply Forall_impl; [|exact Hd]; unfold is_digit, c_0, c_9; cbn; intros; lia|].
    destruct r as [|c r']; [auto|right]. exists c, r'. split; [auto|]. specialize (Hr c r' eq_refl). unfold is_digit, c_0, c_9. lia. }
  assert (HS : forall q, (exists c q', q = c :: q' /\ is_space c = false) -> find_if_not is_space (sp ++ q) = (sp, q)).
  { intros q (c & q' & -> & Hc). apply find_if_not_app; [eapply Forall_impl; [|exact Hs]; unfold is_space; cbn; intros; lia|]. right. eauto. }
  destruct ds as [|d ds']; [congruence|]. assert (Hd1 : 48 <= d <= 57) by (inversion Hd; auto).
  unfold stoi, stoll.
  destruct p; cbn [app].
  - rewrite HS by (exists 43; eexists; split; reflexivity). change (starts c_minus (43 :: d :: ds' ++ r)) with false. change (starts c_plus (43 :: d :: ds' ++ r)) with true. cbv iota. cbn [tl].
    change (d :: ds' ++ r) with ((d :: ds') ++ r). rewrite HD. rewrite digits_value_dec.
    replace (_ && _) with true by lia. cbn [then_ fst snd]. replace (_ && _) with true by lia. eauto.
  - rewrite HS by (exists d; eexists; split; [reflexivity|unfold is_space; lia]).
    rewrite !not_starts by (intros q Q; injection Q; unfold c_plus, c_minus; lia).
    change (d :: ds' ++ r) with ((d :: ds') ++ r). rewrite HD. rewrite digits_value_dec.
    replace (_ && _) with true by lia. cbn [then_ fst snd]. replace (_ && _) with true by lia. eauto.
Qed.
Lemma entry_comment e : entry_ok e -> starts 35 (snd (find_if_not is_blank (entry_text e))) = match e with Comment _ _ => true | _ => false end.
Proof.
  destruct e as [b t|sp p ds r]; cbn [entry_ok entry_text].
  - intros (Hb & _). rewrite (find_if_not_app is_blank b ([35] ++ t)); [reflexivity| |right; exists 35; eexists; split; reflexivity].
    eapply Forall_impl; [|exact Hb]. unfold is_blank. cbn. intros. lia.
  - intros (Hs & Hd & Hv & _). destruct ds as [|d ds']; [cbn in Hv; lia|]. assert (Hd1 : 48 <= d <= 57) by (inversion Hd; auto).
    assert (Q : exists c q, (if p then [43] else []) ++ (d :: ds') ++ r = c :: q /\ c <> 35 /\ c <> 32 /\ c <> 9).
    { destruct p; cbn [app]; eexists; eexists; (split; [reflexivity|lia]). }
    destruct Q as (c & q & -> & Hc). clear Hd Hv Hd1. induction sp as [|a sp IH].
    + cbn. unfold find_if_not. cbn. unfold is_blank. replace (_ || _) with false by lia. cbn. apply Z.eqb_neq. lia.
    + inversion Hs; subst. cbn [app]. unfold find_if_not in *. cbn [find_if]. destruct (is_blank a) eqn:B; cbn [negb].
      * destruct (find_if _ (sp ++ c :: q)). cbn [snd] in *. auto.
      * cbn [snd starts]. apply Z.eqb_neq. lia.
Qed.
Lemma stoi_no_number l : no_number l -> stoi l = Rejected /\ starts 35 (snd (find_if_not is_blank l)) = false.
Proof.
  intros (sp & sg & t & -> & Hnl & Hs & Hg & Ht). assert (Hn : forall c q, t = c :: q -> c <> 10).
  { intros c q ->. unfold no_newline in Hnl. rewrite !Forall_app in Hnl. destruct Hnl as (_ & _ & H). inversion H; auto. } clear Hnl.
  assert (HS : forall q, (forall c q', q = c :: q' -> is_space c = false) -> find_if_not is_space (sp ++ q) = (sp, q)).
  { intros q Hq. apply find_if_not_app; [eapply Forall_impl; [|exact Hs]; unfold is_space; cbn; intros; lia|]. destruct q as [|c q']; [auto|right]. eauto. }
  assert (HD : find_if_not is_digit t = ([], t)).
  { apply (find_if_not_app is_digit [] t); [constructor|]. destruct t as [|c r]; [auto|right]. exists c, r. split; [auto|]. destruct (Ht c r eq_refl) as (H & _). unfold is_digit, c_0, c_9. lia. }
  split.
  - unfold stoi, stoll. rewrite HS.
    2:{ intros c q' E. destruct Hg as [-> | [-> | ->]]; cbn [app] in E.
        - destruct (Ht c q' E) as (_ & H). specialize (H eq_refl). specialize (Hn c q' E). unfold is_space. lia.
        - injection E as <- _. reflexivity.
        - injection E as <- _. reflexivity. }
    destruct Hg as [-> | [-> | ->]]; cbn [app].
    + rewrite !not_starts by (intros q E; destruct (Ht _ _ E) as (_ & H); specialize (H eq_refl); unfold c_minus, c_plus in H; lia). rewrite HD. reflexivity.
    + change (starts c_minus (43 :: t)) with false. change (starts c_plus (43 :: t)) with true. cbv iota. cbn [tl]. rewrite HD. reflexivity.
    + change (starts c_minus (45 :: t)) with true. cbv iota. cbn [tl]. rewrite HD. reflexivity.
  - assert (Q : forall c q, sg ++ t = c :: q -> c <> 35).
    { intros c q E. destruct Hg as [-> | [-> | ->]]; cbn [app] in E; [|injection E as <- _; lia|injection E as <- _; lia]. destruct (Ht _ _ E) as (_ & H). specialize (H eq_refl). lia. }
    assert (B : forall c q, sg ++ t = c :: q -> is_blank c = false).
    { intros c q E. unfold is_blank. destruct Hg as [-> | [-> | ->]]; cbn [app] in E; [|injection E as <- _; reflexivity|injection E as <- _; reflexivity]. destruct (Ht _ _ E) as (_ & H). specialize (H eq_refl). lia. }
    clear HS HD Ht Hn. generalize dependent (sg ++ t). intros q Q B. induction sp as [|a sp IH].
    + rewrite (find_if_not_app is_blank [] q); [|constructor|destruct q; [auto|right; eauto]]. apply not_starts. cbn [snd]. intros r E. apply (Q 35 r); auto.
    + inversion Hs; subst. cbn [app]. unfold find_if_not in *. cbn [find_if]. destruct (is_blank a) eqn:Ba; cbn [negb].
      * destruct (find_if _ (sp ++ q)). cbn [snd] in *. auto.
      * cbn [snd starts]. apply Z.eqb_neq. lia.
Qed.

(* ---------------------------------------------------------------- loop *)
Lemma sel_entries es tail acc : Forall entry_ok es -> sel_lines (map entry_text es ++ tail) acc = sel_lines tail (acc ++ chosen es).
Proof.
  revert acc. induction es as [|e es IH]; intros acc H; [cbn; rewrite app_nil_r; reflexivity|]. inversion H as [|? ? He Hes]; subst.
  cbn [map app sel_lines]. rewrite entry_comment by auto. destruct e as [b t|sp p ds r].
  - rewrite (IH acc Hes). reflexivity.
  - destruct (stoi_entry _ _ _ _ He) as (n & ->). cbn [fst]. destruct He as (_ & _ & Hv & _).
    unfold u32, two32. rewrite Z.mod_small by lia. replace (dec_val ds <=? 0) with false by lia.
    rewrite (IH _ Hes). unfold chosen. cbn [map concat]. rewrite <- !app_assoc. reflexivity.
Qed.
Lemma chosen_range es : Forall entry_ok es -> Forall (fun i => 1 <= i <= 2147483647) (chosen es).
Proof.
  induction es as [|e es IH]; intros H; [constructor|]. inversion H as [|? ? He Hes]; subst. unfold chosen in *. cbn [map concat].
  apply Forall_app; split; [|auto]. destruct e; [constructor|]. destruct He as (_ & _ & Hv & _). repeat constructor; lia.
Qed.
Lemma max_bound l a : (forall x, In x (a :: l) -> x <= fold_left Z.max l a) /\ In (fold_left Z.max l a) (a :: l).
Proof.
  revert a. induction l as [|b l IH]; intros a; cbn [fold_left].
  - split; [intros x [-> | []]; lia|left; auto].
  - destruct (IH (Z.max a b)) as (H1 & H2). split.
    + intros x [-> | [-> | Hx]]; [| |apply H1; right; auto].
      * assert (Z.max x b <= fold_left Z.max l (Z.max x b)) by (apply H1; left; auto). lia.
      * assert (Z.max a x <= fold_left Z.max l (Z.max a x)) by (apply H1; left; auto). lia.
    + destruct H2 as [H2 | H2]; [|right; right; auto]. rewrite <- H2. destruct (Z.max_spec a b) as [(_ & ->) | (_ & ->)]; [right; left; auto|left; auto].
Qed.
Lemma set_flags_ok idx fl : Forall (fun i => 0 <= i < Z.of_nat (length fl)) idx ->
  exists fl', set_flags idx fl = Some fl' /\ length fl' = length fl /\
    forall j, 0 <= j -> nth (Z.to_nat j) fl' false = (nth (Z.to_nat j) fl false || existsb (Z.eqb j) idx).
Proof.
  revert fl. induction idx as [|i idx IH]; intros fl H; cbn [set_flags].
  - eexists. split; [reflexivity|]. split; [auto|]. intros. cbn. rewrite orb_false_r. reflexivity.
  - inversion H as [|? ? Hi Hr]; subst. replace (i <? _) with true by lia. rewrite wr_upd by lia. cbn [bind].
    destruct (IH (upd (Z.to_nat i) true fl)) as (fl' & -> & L & G).
    { rewrite upd_length. exact Hr. }
    eexists. split; [reflexivity|]. rewrite upd_length in L. split; [exact L|]. intros j Hj. rewrite G by auto. cbn [existsb].
    destruct (Z.eqb_spec j i).
    + subst. rewrite nth_upd by lia. rewrite Nat.eqb_refl. cbn. rewrite orb_true_r. reflexivity.
    + rewrite nth_upd by lia. replace (Z.to_nat j =? Z.to_nat i)%nat with false by (symmetry; apply Nat.eqb_neq; lia). reflexivity.
Qed.
