(** Reports after a setting; settings that can be reached. *)
From Coq Require Import String Lia.
From Verif Require Import M_Base M_Text M_Str P_Str M_Num M_Expr M_Loss M_Online M_Filter M_Save M_Param S_Param P_Param P_Param2 P_Param3 Props_Param M_Info S_Info P_Info P_Info2 P_Info3.
Local Open Scope string_scope.
Local Open Scope list_scope.
Local Open Scope Z_scope.

Lemma stoi_range s v n : stoi s = Parsed (v, n) -> - 2 ^ 31 <= v < 2 ^ 31.
Proof.
  unfold stoi. destruct (stoll s) as [x| |]; cbn [then_]; try discriminate. destruct ((-2147483648 <=? fst x) && (fst x <=? 2147483647)) eqn:E; [|discriminate].
  intros H. injection H as ->. apply andb_true_iff in E. destruct E as (A & B). apply Z.leb_le in A, B. cbn [fst] in A, B. lia.
Qed.
Lemma to_int_range s v : to_int s = Some v -> - 2 ^ 31 <= v < 2 ^ 31.
Proof. unfold to_int. destruct (stoi s) as [(x, n)| |] eqn:E; try discriminate. intros H. injection H as <-. now apply stoi_range in E. Qed.

Section P.
Context {R : Type}.
Variable N : num R.
Variable stof : list Z -> parsed R.
Variable files : list Z -> option (list Z).
Variable show : R -> list Z.
Notation cfg := (cfg (R:=R)).
Notation setp := (set_parameter N stof files).
Notation vld := (valid N stof files).

Lemma frame_sym k name (c c' : cfg) : frame k name c c' -> frame k name c' c.
Proof.
  intros F. destruct F as [f1 f2 f3 f4 f5 f6 f7 f8 f9 f10 f11 f12 f13]. constructor; intros; try (symmetry; auto; fail).
  - destruct (f3 H). auto.
  - destruct (f9 H) as (A & B & C). auto.
Qed.
Lemma reports_keep k classes name (c c' : cfg) n w : frame k name c c' -> n <> name -> ~ (has_reg k RegPlain = true /\ name = "B" /\ n = "lambda") ->
  reports N k classes c n w -> reports N k classes c' n w.
Proof.
  intros F Hn HB H. destruct H as [m n E|m n E Hm| | | | | | |].
  - assert (S : sets_r k name m = false).
    { apply Bool.not_true_is_false. intros S. destruct (shown_names _ _ _ _ _ E) as (Hs & M1 & M2 & M3 & M4).
      assert (Hs' : names name (real_names k m) = true) by (unfold sets_r in S; destruct m; try congruence; now rewrite orb_false_r in S).
      destruct (rmem_eq_dec m Mlambda) as [->|Hm].
      - cbn [shown] in E. destruct (has_reg k RegNone) eqn:Hg; [discriminate|]. injection E as <-. cbn [real_names] in Hs'. rewrite Hg in Hs'. cbn [negb when] in Hs'.
        destruct (has_reg k RegPlain) eqn:Hp; cbn in Hs'; rewrite ?orb_false_r in Hs'.
        + apply orb_true_iff in Hs'. destruct Hs' as [Hs'|Hs']; apply String.eqb_eq in Hs'; subst name; [apply HB; auto|now apply Hn].
        + apply String.eqb_eq in Hs'. subst name. now apply Hn.
      - clear E S. destruct m; try congruence; cbn [real_names] in *; destruct k; cbn in Hs, Hs'; rewrite ?orb_false_r in *;
          try discriminate Hs; apply String.eqb_eq in Hs; apply String.eqb_eq in Hs'; congruence. }
    rewrite <- (fr_r _ _ _ _ F m S). constructor. rewrite <- E. destruct m; try reflexivity; cbn [shown].
    + now rewrite (fr_r _ _ _ _ F MActive S).
    + rewrite (fr_cost _ _ _ _ F); [reflexivity|]. intros ->. discriminate S.
  - assert (S : sets_z k name m = false). { apply Bool.not_true_is_false. intros S. apply Hn. symmetry. eapply int_single; eauto. }
    rewrite <- (fr_z _ _ _ _ F m S). now constructor.
  - rewrite <- (proj1 (fr_dim _ _ _ _ F (fun h => Hn (eq_sym h)))). constructor.
  - rewrite <- (fr_lazy _ _ _ _ F (fun h => Hn (eq_sym h))). constructor.
  - constructor.
  - constructor.
  - constructor.
  - rewrite <- (proj1 (fr_loss _ _ _ _ F (fun h => Hn (eq_sym h)))). constructor.
  - rewrite <- (fr_norm _ _ _ _ F (fun h => Hn (eq_sym h))). constructor.
Qed.

Lemma echo_own k classes name value (c c' : cfg) w : 1 < classes -> setp k classes name value c = Done c' -> reports N k classes c' name w ->
  echoed stof (f_dim c) value name w.
Proof.
  intros Hc E. pose proof (proj1 (C59_accepts N stof files k classes name value c Hc) (ex_intro _ _ E)) as V.
  destruct (C59_effect N stof files _ _ _ _ _ _ Hc E) as (F & W). intros H. inversion H as [m n Es|m n Es Hm| | | | | | |]; subst.
  - destruct (shown_names _ _ _ _ _ Es) as (Hs & M1 & M2 & M3 & M4). apply E_real. symmetry. apply (nw_r _ _ _ _ _ _ _ _ _ W); auto. unfold sets_r. now rewrite Hs.
  - assert (S : sets_z k name m = true) by now apply names_In. pose proof (nw_z _ _ _ _ _ _ _ _ _ W m S) as X.
    destruct (to_int value) as [z|] eqn:Ez; [|discriminate]. cbn [option_map] in X. injection X as X.
    destruct m; try congruence; cbn [int_names] in Es.
    + destruct Es as [<-|[]]. rewrite X. now apply E_int.
    + rewrite X. destruct k; cbn in Es; try contradiction; destruct Es as [<-|[]]; now apply E_int.
    + rewrite X. unfold when in Es. destruct (is_alma k); [|destruct Es]. destruct Es as [<-|[]]. now apply E_int.
    + rewrite X. unfold when in Es. destruct (is_fofs k); [|destruct Es]. destruct Es as [<-|[]]. now apply E_B.
  - destruct (nw_dim _ _ _ _ _ _ _ _ _ W eq_refl) as (X & _). destruct (to_int value) as [z|] eqn:Ez; [|discriminate]. cbn [option_map] in X. injection X as ->. now apply E_dim.
  - pose proof (nw_lazy _ _ _ _ _ _ _ _ _ W eq_refl) as X. destruct (f_lazy c').
    + rewrite <- (proj1 X eq_refl). apply E_text. right. now apply X.
    + apply E_lazy. intros Hv. apply X in Hv. discriminate.
  - apply valid_slot in V. unfold valid_at in V. rewrite slot_o' in V by (cbn; tauto). intuition try discriminate. subst value. apply E_text. left. discriminate.
  - apply valid_slot in V. unfold valid_at in V. rewrite slot_o' in V by (cbn; tauto). intuition try discriminate. now apply E_int.
  - apply valid_slot in V. unfold valid_at in V. rewrite slot_o' in V by (cbn; tauto). intuition try discriminate. now apply E_int.
  - destruct (nw_loss _ _ _ _ _ _ _ _ _ W eq_refl) as (l & El & Ev & _). rewrite El, <- Ev. apply E_text. left. discriminate.
  - pose proof (nw_norm _ _ _ _ _ _ _ _ _ W eq_refl) as X. now apply E_norm.
Qed.

Lemma shown_has k c m name : names name (real_names k m) = true -> m <> Mthresh -> m <> Mt0 -> m <> MActive -> m <> MCost -> (name = "B" -> has_reg k RegPlain = false) -> shown N k c m = Some name.
Proof.
  intros Hn M1 M2 M3 M4 HB. destruct m; try congruence; cbn [shown]; cbn [real_names] in Hn; destruct k; cbn in Hn |- *; rewrite ?orb_false_r in Hn; try discriminate Hn;
    try (apply String.eqb_eq in Hn; now subst name).
  all: apply orb_true_iff in Hn; destruct Hn as [Hn|Hn]; apply String.eqb_eq in Hn; subst name; [|reflexivity]; specialize (HB eq_refl); discriminate HB.
Qed.
Lemma echo_there k classes name value (c c' : cfg) : 1 < classes -> setp k classes name value c = Done c' ->
  (exists w, reports N k classes c' name w) \/ silent N stof k name value.
Proof.
  intros Hc E. pose proof (proj1 (C59_accepts N stof files k classes name value c Hc) (ex_intro _ _ E)) as V.
  destruct (C59_effect N stof files _ _ _ _ _ _ Hc E) as (F & W). pose proof V as V0. destruct V0 as [m x name value Hn Hx Hok Hco|m v name value Hn Hv Hok _| | | | | | | | | |].
  - destruct (rmem_eq_dec m Mthresh) as [->|M1].
    { right. left. cbn in Hn. destruct (has_reg k RegL1 || has_reg k RegLazy); [|discriminate]. cbn in Hn. rewrite orb_false_r in Hn. apply String.eqb_eq in Hn. now subst name. }
    destruct (rmem_eq_dec m Mt0) as [->|M2].
    { right. left. cbn in Hn. destruct (has_reg k RegLazy); [|discriminate]. cbn in Hn. rewrite orb_false_r in Hn. apply String.eqb_eq in Hn. now subst name. }
    destruct (rmem_eq_dec m MActive) as [->|M3].
    { cbn in Hn. rewrite orb_false_r in Hn. apply String.eqb_eq in Hn. subst name. pose proof (nw_r _ _ _ _ _ _ _ _ _ W MActive eq_refl ltac:(discriminate) ltac:(discriminate)) as X.
      destruct (n_le N (one N) (f_r c' MActive)) eqn:El; [left; eexists; apply (R_real N k classes c' MActive); cbn; now rewrite El|]. right. right. right. split; [reflexivity|]. exists (f_r c' MActive). auto. }
    destruct (rmem_eq_dec m MCost) as [->|M4].
    { left. cbn in Hn. rewrite orb_false_r in Hn. apply String.eqb_eq in Hn. subst name. eexists. apply (R_real N k classes c' MCost). cbn. now rewrite (nw_cost _ _ _ _ _ _ _ _ _ W eq_refl). }
    destruct (has_reg k RegPlain && (name =? "B")%string) eqn:Hp.
    { right. right. left. apply andb_true_iff in Hp. destruct Hp as (Hp & Hb). apply String.eqb_eq in Hb. auto. }
    left. eexists. apply (R_real N k classes c' m name). apply shown_has; auto. intros ->. now rewrite andb_true_r in Hp.
  - left. destruct (zmem_eq_dec m MInit) as [->|Hm].
    + eexists. apply (R_int N k classes c' MIter); [now apply names_In|discriminate].
    + eexists. apply (R_int N k classes c' m); [now apply names_In|exact Hm].
  - left. eexists. apply R_dim.
  - left. eexists. apply R_lazy.
  - right. now left.
  - right. now left.
  - left. eexists. apply R_model.
  - left. eexists. apply R_cls.
  - left. eexists. apply R_clf.
  - left. eexists. apply R_loss.
  - left. eexists. apply R_norm.
  - right. now left.
Qed.

(** What accepted settings and trainings keep. *)
Record inv (k : cls) (classes : Z) (c : cfg) : Prop := {
  iv_cost : f_cost c = true -> classes = 2 /\ real_ok N MCost (f_r c MCost);
  iv_int : forall m n, In n (int_names k m) -> m <> MB -> int_ok m (f_z c m) /\ - 2 ^ 31 <= f_z c m < 2 ^ 31;
  iv_B : 0 <= f_z c MB;
  iv_dim : 1 <= f_dim c;
  iv_loss : exists i l, f_loss c = Some (i, l) /\ suits k classes l = true;
  iv_norm : k = TALMA2 -> f_norm c = NormL2
}.
Lemma inv_create k classes : 1 < classes -> inv k classes (create N k classes).
Proof.
  intros Hc. constructor; cbn [create f_cost f_dim f_loss f_norm f_z]; try discriminate; try lia.
  - intros m n H Hm. destruct m; cbn; try lia; try congruence.
  - destruct (usable_create N k classes Hc) as (i & l & E & H & _). eauto.
  - now intros ->.
Qed.
Lemma valid_int k classes name value m : vld k classes name value -> names name (int_names k m) = true -> exists v, to_int value = Some v /\ int_ok m v.
Proof.
  intros V Hn. apply valid_slot in V. unfold valid_at in V. rewrite (slot_int _ _ _ Hn) in V. destruct m; try exact V; destruct V as (v & H1 & H2 & _); exists v; auto.
Qed.
Lemma inv_set k classes name value c c' : 1 < classes -> inv k classes c -> setp k classes name value c = Done c' -> inv k classes c'.
Proof.
  intros Hc I E. pose proof (proj1 (C59_accepts N stof files k classes name value c Hc) (ex_intro _ _ E)) as V.
  destruct (C59_effect N stof files _ _ _ _ _ _ Hc E) as (F & W). constructor.
  - intros H. destruct (String.eqb_spec name "cost_margin") as [->|Hn].
    + pose proof V as V0. apply valid_slot in V0. unfold valid_at in V0. rewrite (slot_real k "cost_margin" MCost eq_refl) in V0. destruct V0 as (x & Hx & Hok & Hcl). split; [auto|].
      pose proof (nw_r _ _ _ _ _ _ _ _ _ W MCost eq_refl ltac:(discriminate) ltac:(discriminate)) as X. rewrite Hx in X. injection X as ->. exact Hok.
    + rewrite (fr_cost _ _ _ _ F Hn) in H. rewrite (fr_r _ _ _ _ F MCost) by (unfold sets_r; cbn; apply String.eqb_neq in Hn; now rewrite Hn). now apply (iv_cost _ _ _ I).
  - intros m n Hin Hm. destruct (sets_z k name m) eqn:S.
    + destruct (valid_int _ _ _ _ _ V S) as (v & Hv & Hok). pose proof (nw_z _ _ _ _ _ _ _ _ _ W m S) as X. rewrite Hv in X. cbn [option_map] in X. injection X as X.
      apply to_int_range in Hv. destruct m; try congruence; rewrite X; auto.
    + rewrite (fr_z _ _ _ _ F m S). now apply (iv_int _ _ _ I m n).
  - destruct (sets_z k name MB) eqn:S; [|rewrite (fr_z _ _ _ _ F MB S); apply (iv_B _ _ _ I)].
    pose proof (nw_z _ _ _ _ _ _ _ _ _ W MB S) as X. destruct (to_int value); [|discriminate]. injection X as ->. apply Z.mod_pos_bound. reflexivity.
  - destruct (String.eqb_spec name "dim") as [->|Hn].
    + destruct (nw_dim _ _ _ _ _ _ _ _ _ W eq_refl) as (X & _). destruct (to_int value); [|discriminate]. cbn in X. injection X as ->. pose proof (iv_dim _ _ _ I). lia.
    + rewrite (proj1 (fr_dim _ _ _ _ F Hn)). apply (iv_dim _ _ _ I).
  - destruct (String.eqb_spec name "loss") as [->|Hn].
    + destruct (nw_loss _ _ _ _ _ _ _ _ _ W eq_refl) as (l & El & _ & Hs & _). eauto.
    + rewrite (proj1 (fr_loss _ _ _ _ F Hn)). apply (iv_loss _ _ _ I).
  - intros Hk. destruct (String.eqb_spec name "norm") as [->|Hn].
    + pose proof (nw_norm _ _ _ _ _ _ _ _ _ W eq_refl) as X. apply valid_slot in V. unfold valid_at in V. rewrite slot_o' in V by (cbn; tauto).
      assert (Y : exists n, norm_word value n /\ (k = TALMA2 -> n = NormL2)) by (intuition discriminate). destruct Y as (n & Hw & Hk2). specialize (Hk2 Hk). subst n.
      apply read_norm_word in X. apply read_norm_word in Hw. congruence.
    + rewrite (fr_norm _ _ _ _ F Hn). now apply (iv_norm _ _ _ I).
Qed.
Lemma inv_train k classes c r c' : inv k classes c -> step N stof files k classes OTrain c = Some (r, c') -> inv k classes c'.
Proof.
  intros I E. apply train_keeps in E. destruct E as (E1 & E2 & E3 & E4 & E5 & E6 & E7 & E8 & _). destruct I as [i1 i2 i3 i4 i5 i6].
  constructor; rewrite ?E1, ?E2, ?E3, ?E5, ?E6, ?E8; assumption.
Qed.
Lemma inv_run k classes os : 1 < classes -> (forall name value, In (OSet name value) os -> vld k classes name value) ->
  forall c l c', inv k classes c -> steps N stof files k classes os c = Some (l, c') -> inv k classes c'.
Proof.
  intros Hc. induction os as [|o os IH]; intros H c l c' I E; cbn [steps] in E.
  - injection E as <- <-. exact I.
  - destruct (step N stof files k classes o c) as [[r c1]|] eqn:E1; [|discriminate]. cbn in E.
    destruct (steps N stof files k classes os c1) as [[l2 c2]|] eqn:E2; [|discriminate]. injection E as <- <-.
    refine (IH (fun n v h => H n v (or_intror h)) c1 l2 c2 _ E2). destruct o as [n v|].
    + destruct (valid_step N stof files _ _ _ _ _ _ _ Hc (H n v (or_introl eq_refl)) E1) as (_ & Ed). now apply (inv_set _ _ _ _ _ _ Hc I Ed).
    + now apply (inv_train _ _ _ _ _ I E1).
Qed.

Lemma reachable k classes os l c' : 1 < classes -> n_le N (one N) (zero N) = false ->
  (forall m, m <> MActive -> m <> MCost -> real_names k m <> [] -> real_ok N m (f_r (create N k classes) m)) ->
  (forall z t, 0 <= z < 2 ^ 31 -> print_d z = Some t -> to_real stof t <> None) ->
  (forall name value, In (OSet name value) os -> vld k classes name value) ->
  steps N stof files k classes os (create N k classes) = Some (l, c') ->
  f_dim c' < 2 ^ 31 -> (k = TFOFS -> 0 < f_z c' MB < 2 ^ 31) ->
  (forall m n, shown N k c' m = Some n -> stof (show (f_r c' m)) = Parsed (f_r c' m)) ->
  proper N stof show k classes c'.
Proof.
  intros Hc Hz Hdef Ht Hv E Hd HB Hrt. pose proof (inv_run k classes os Hc Hv _ _ _ (inv_create k classes Hc) E) as I. constructor.
  - intros m n Es. split; [|now apply Hrt with n]. destruct (shown_names _ _ _ _ _ Es) as (Hs & M1 & M2 & M3 & M4).
    destruct (rmem_eq_dec m MCost) as [->|M5].
    { apply (iv_cost _ _ _ I). cbn [shown] in Es. destruct (f_cost c'); [reflexivity|discriminate]. }
    destruct (C59_ranges N stof files k classes os l c' m Hc Hv E M1 M2 M3) as [Heq|Hok]; [|exact Hok].
    destruct (rmem_eq_dec m MActive) as [->|M6].
    { cbn [shown] in Es. rewrite Heq in Es. cbn [create f_r] in Es. rewrite Hz in Es. discriminate. }
    rewrite Heq. apply Hdef; auto. intros X. rewrite X in Hs. discriminate.
  - intros H. now apply (iv_cost _ _ _ I).
  - intros m n Hin Hm. destruct (zmem_eq_dec m MB) as [->|Hne].
    + cbn [int_names] in Hin. unfold when in Hin. destruct (is_fofs k) eqn:Hk; [|destruct Hin]. assert (k = TFOFS) by (destruct k; try discriminate Hk; reflexivity).
      specialize (HB H). cbn [int_ok]. unfold u32, two32. rewrite Z.mod_small by lia. lia.
    + destruct (iv_int _ _ _ I m n Hin Hne) as (A & B). split; [exact A|split; [exact B|congruence]].
  - intros _ t Et. destruct (iv_int _ _ _ I MIter "t" (or_introl eq_refl) ltac:(discriminate)) as (A & B). cbn in A. apply (Ht (f_z c' MIter)); [lia|exact Et].
  - pose proof (iv_dim _ _ _ I). lia.
  - apply (iv_loss _ _ _ I).
  - apply (iv_norm _ _ _ I).
Qed.
End P.
