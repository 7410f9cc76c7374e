(** The reported settings, set again: what they leave. *)
From Coq Require Import String Lia.
From Verif Require Import M_Base M_Text M_Str P_Str M_Num M_Expr M_Loss M_Online M_Filter M_Save M_Param S_Param P_Param P_Param2 P_Param3 Props_Param M_Info S_Info P_Info P_Info2.
Local Open Scope string_scope.
Local Open Scope list_scope.
Local Open Scope Z_scope.

Section P.
Context {R : Type}.
Variable N : num R.
Variable stof : list Z -> parsed R.
Variable files : list Z -> option (list Z).
Variable show : R -> list Z.
Notation cfg := (cfg (R:=R)).
Notation setp := (set_parameter N stof files).
Notation vld := (valid N stof files).
Notation params := (get_parameters show N).

Lemma reported_valid k classes c n v t : 1 < classes < 2 ^ 31 -> proper N stof show k classes c -> reports N k classes c n v -> writes show v t -> vld k classes n t.
Proof.
  intros Hc P H W. destruct H as [m n E|m n E Hm| | | | | | |]; cbn [writes] in W; subst.
  - destruct (pr_real _ _ _ _ _ _ P m n E) as (Hok & Hp). destruct (shown_names _ _ _ _ _ E) as (Hn & _).
    apply (V_real N stof files k classes m (f_r c m)); [exact Hn|unfold to_real; now rewrite Hp|exact Hok|].
    intros ->. apply (pr_cost _ _ _ _ _ _ P). cbn [shown] in E. destruct (f_cost c); [reflexivity|discriminate].
  - destruct (pr_int _ _ _ _ _ _ P m n E Hm) as (Hok & Hr & _).
    apply (V_int N stof files k classes m (f_z c m)); [now apply names_In|now apply to_int_print|exact Hok|].
    intros [->| ->] Hg; [congruence|]. now apply (pr_time _ _ _ _ _ _ P Hg).
  - pose proof (pr_dim _ _ _ _ _ _ P) as Hd. apply (V_dim N stof files k classes (f_dim c)). apply to_int_print; [lia|exact W].
  - apply V_lazy.
  - apply V_model.
  - apply V_cls. apply to_int_print; [lia|exact W].
  - apply V_clf. apply to_int_print; [destruct (classes =? 2); lia|exact W].
  - destruct (pr_loss _ _ _ _ _ _ P) as (i & l & E & Hs). rewrite E. now apply V_loss.
  - apply (V_norm N stof files k classes (f_norm c)); [now apply norm_own|apply (pr_norm _ _ _ _ _ _ P)].
Qed.

Lemma proper_fits k classes c : 1 < classes < 2 ^ 31 -> proper N stof show k classes c -> forall n z, reports N k classes c n (LInt z) -> - 2 ^ 63 <= z < 2 ^ 63.
Proof.
  intros Hc P n z H. inversion H as [|m n' E Hm| | | | | | |]; subst.
  - destruct (pr_int _ _ _ _ _ _ P _ _ E Hm) as (_ & Hr & _). lia.
  - pose proof (pr_dim _ _ _ _ _ _ P). lia.
  - lia.
  - destruct (classes =? 2); lia.
  - destruct (f_norm c); lia.
Qed.

Lemma restore k classes c l c2 : 1 < classes < 2 ^ 31 -> proper N stof show k classes c ->
  NoDup (map fst l) -> (forall n t, In (n, t) l <-> exists v, reports N k classes c n v /\ writes show v t) ->
  chain N stof files k classes l (create N k classes) c2 -> restored N k classes c c2.
Proof.
  intros Hc P ND IN C. assert (Hc1 : 1 < classes) by lia.
  assert (REP : forall n t, In (n, t) l -> exists v, reports N k classes c n v) by (intros n t H; apply IN in H; destruct H as (v & H & _); eauto).
  assert (INT : forall n z, reports N k classes c n (LInt z) -> exists t, In (n, t) l /\ print_d z = Some t).
  { intros n z H. destruct (print_d64_ok z) as (t & E & _); [pose proof (proper_fits _ _ _ Hc P _ _ H); lia|]. exists t. split; [|exact E]. apply IN. exists (LInt z). auto. }
  constructor.
  - intros m n E. pose proof (R_real N k classes c m n E) as H. destruct (shown_names _ _ _ _ _ E) as (Hn & M1 & M2 & M3 & M4).
    destruct (chain_at N stof files (fun x => f_r x m) k classes l _ _ n (show (f_r c m)) Hc1 C ND) as (a & b & _ & E2 & _ & _ & W).
    + apply IN. exists (LReal (f_r c m)). split; [exact H|reflexivity].
    + intros n' w a b Hin Hne F. destruct (REP _ _ Hin) as (v & Hv). apply (fr_r _ _ _ _ F). apply Bool.not_true_is_false. intros S. apply Hne. eapply reported_sets; eauto.
    + rewrite E2. pose proof (nw_r _ _ _ _ _ _ _ _ _ W m) as X. unfold to_real in X. destruct (pr_real _ _ _ _ _ _ P m n E) as (_ & Hp). rewrite Hp in X.
      assert (S : sets_r k n m = true) by (unfold sets_r; now rewrite Hn). specialize (X S M1 M2). congruence.
  - intros m n Hin Hm. destruct (INT _ _ (R_int N k classes c m n Hin Hm)) as (t & Ht & Et).
    destruct (chain_at N stof files (fun x => f_z x m) k classes l _ _ n t Hc1 C ND Ht) as (a & b & _ & E2 & _ & _ & W).
    + intros n' w a b Hin' Hne F. apply (fr_z _ _ _ _ F). apply Bool.not_true_is_false. intros S. apply Hne. eapply int_single; eauto.
    + rewrite E2. destruct (pr_int _ _ _ _ _ _ P _ _ Hin Hm) as (_ & Hr & HB). assert (S : sets_z k n m = true) by now apply names_In.
      pose proof (nw_z _ _ _ _ _ _ _ _ _ W m S) as X. rewrite (to_int_print _ _ Hr Et) in X. cbn [option_map] in X.
      destruct m; try congruence. unfold u32, two32 in X. rewrite Z.mod_small in X by (specialize (HB eq_refl); lia). congruence.
  - destruct (INT _ _ (R_int N k classes c MIter "t" (or_introl eq_refl) ltac:(discriminate))) as (t & Ht & Et).
    destruct (chain_at N stof files (fun x => f_z x MInit) k classes l _ _ "t" t Hc1 C ND Ht) as (a & b & _ & E2 & _ & _ & W).
    + intros n' w a b Hin' Hne F. apply (fr_z _ _ _ _ F). cbn. apply String.eqb_neq in Hne. now rewrite Hne.
    + rewrite E2. destruct (pr_int _ _ _ _ _ _ P MIter "t" (or_introl eq_refl) ltac:(discriminate)) as (_ & Hr & _).
      pose proof (nw_z _ _ _ _ _ _ _ _ _ W MInit eq_refl) as X. rewrite (to_int_print _ _ Hr Et) in X. cbn [option_map] in X. congruence.
  - intros ->. split.
    + pose proof (R_real N TALMA2 classes c Malpha "alpha" eq_refl) as H.
      destruct (chain_at N stof files (fun x => (f_r x MBinv, f_r x Malpha)) TALMA2 classes l _ _ "alpha" (show (f_r c Malpha)) Hc1 C ND) as (a & b & _ & E2 & _ & _ & W).
      * apply IN. exists (LReal (f_r c Malpha)). split; [exact H|reflexivity].
      * intros n' w a b Hin Hne F. apply String.eqb_neq in Hne. f_equal; apply (fr_r _ _ _ _ F); unfold sets_r; cbn; rewrite Hne; reflexivity.
      * injection E2 as E2 E3. rewrite E2. rewrite (nw_binv _ _ _ _ _ _ _ _ _ W eq_refl). f_equal.
        pose proof (nw_r _ _ _ _ _ _ _ _ _ W Malpha eq_refl ltac:(discriminate) ltac:(discriminate)) as X. unfold to_real in X.
        destruct (pr_real _ _ _ _ _ _ P Malpha "alpha" eq_refl) as (_ & Hp). rewrite Hp in X. congruence.
    + destruct (INT _ _ (R_int N TALMA2 classes c Mp "p" (or_introl eq_refl) ltac:(discriminate))) as (t & Ht & Et).
      destruct (chain_at N stof files (fun x => (f_r x Msp1, f_z x Mp)) TALMA2 classes l _ _ "p" t Hc1 C ND Ht) as (a & b & _ & E2 & _ & _ & W).
      * intros n' w a b Hin Hne F. apply String.eqb_neq in Hne. f_equal; [apply (fr_r _ _ _ _ F)|apply (fr_z _ _ _ _ F)]; unfold sets_r, sets_z; cbn; rewrite Hne; reflexivity.
      * injection E2 as E2 E3. rewrite E2. rewrite (nw_sp1 _ _ _ _ _ _ _ _ _ W eq_refl).
        destruct (pr_int _ _ _ _ _ _ P Mp "p" (or_introl eq_refl) ltac:(discriminate)) as (_ & Hr & _).
        pose proof (nw_z _ _ _ _ _ _ _ _ _ W Mp eq_refl) as X. rewrite (to_int_print _ _ Hr Et) in X. cbn [option_map] in X. injection X as ->. reflexivity.
  - pose proof (pr_dim _ _ _ _ _ _ P) as Hd. destruct (INT _ _ (R_dim N k classes c)) as (t & Ht & Et).
    destruct (chain_at N stof files (fun x => f_dim x) k classes l _ _ "dim" t Hc1 C ND Ht) as (a & b & E1 & E2 & _ & _ & W).
    + intros n' w a b _ Hne F. apply (fr_dim _ _ _ _ F Hne).
    + rewrite E2. destruct (nw_dim _ _ _ _ _ _ _ _ _ W eq_refl) as (X & _). rewrite (to_int_print (f_dim c)) in X by (auto; lia). cbn [option_map] in X. injection X as X.
      rewrite E1 in X. unfold u32, two32 in X. rewrite Z.mod_small in X by lia. cbn [create f_dim] in X. lia.
  - destruct (chain_at N stof files (fun x => f_lazy x) k classes l _ _ "lazy_update" (bytes (if f_lazy c then "true" else "false")) Hc1 C ND) as (a & b & E1 & E2 & _ & _ & W).
    + apply IN. eexists. split; [apply R_lazy|reflexivity].
    + intros n' w a b _ Hne F. apply (fr_lazy _ _ _ _ F Hne).
    + rewrite E2. pose proof (nw_lazy _ _ _ _ _ _ _ _ _ W eq_refl) as X. destruct (f_lazy c); [now apply X|]. destruct (f_lazy b); [|reflexivity].
      destruct X as (X & _). specialize (X eq_refl). discriminate.
  - destruct (f_cost c) eqn:Ec.
    + destruct (chain_at N stof files (fun x => f_cost x) k classes l _ _ "cost_margin" (show (f_r c MCost)) Hc1 C ND) as (a & b & E1 & E2 & _ & _ & W).
      * apply IN. exists (LReal (f_r c MCost)). split; [constructor; cbn; now rewrite Ec|reflexivity].
      * intros n' w a b _ Hne F. apply (fr_cost _ _ _ _ F Hne).
      * rewrite E2. apply (nw_cost _ _ _ _ _ _ _ _ _ W eq_refl).
    + change false with (f_cost (create N k classes)). apply (chain_off N stof files (fun x => f_cost x) k classes l _ _ Hc1 C). intros n v a b Hin F. apply (fr_cost _ _ _ _ F).
      destruct (REP _ _ Hin) as (w & Hw). destruct (not_reported _ _ _ _ _ _ Hw) as (_ & _ & _ & _ & _ & _ & X). intros ->. now rewrite X in Ec.
  - destruct (INT _ _ (R_norm N k classes c)) as (t & Ht & Et).
    destruct (chain_at N stof files (fun x => f_norm x) k classes l _ _ "norm" t Hc1 C ND Ht) as (a & b & E1 & E2 & _ & _ & W).
    + intros n' w a b _ Hne F. apply (fr_norm _ _ _ _ F Hne).
    + rewrite E2. pose proof (nw_norm _ _ _ _ _ _ _ _ _ W eq_refl) as X. eapply norm_inj; eauto.
  - destruct (pr_loss _ _ _ _ _ _ P) as (i & lk & El & Hs).
    destruct (chain_at N stof files (fun x => f_loss x) k classes l _ _ "loss" (loss_name lk) Hc1 C ND) as (a & b & E1 & E2 & _ & _ & W).
    + apply IN. exists (LStr (loss_name lk)). split; [|reflexivity]. pose proof (R_loss N k classes c) as H. now rewrite El in H.
    + intros n' w a b _ Hne F. apply (fr_loss _ _ _ _ F Hne).
    + rewrite E2. destruct (nw_loss _ _ _ _ _ _ _ _ _ W eq_refl) as (l' & Eb & En & _). rewrite Eb, El. cbn [option_map snd].
      pose proof (find_loss_name l') as X. rewrite <- En, find_loss_name in X. congruence.
  - apply (chain_off N stof files (fun x => f_r x Mthresh) k classes l _ _ Hc1 C). intros n v a b Hin F. apply (fr_r _ _ _ _ F).
    destruct (REP _ _ Hin) as (w & Hw). destruct (not_reported _ _ _ _ _ _ Hw) as (X & _). unfold sets_r. cbn. apply String.eqb_neq in X. destruct (has_reg k RegL1 || has_reg k RegLazy); cbn; [now rewrite X|reflexivity].
  - intros Hs. change (zero N) with (f_r (create N k classes) MActive). apply (chain_off N stof files (fun x => f_r x MActive) k classes l _ _ Hc1 C). intros n v a b Hin F. apply (fr_r _ _ _ _ F).
    destruct (REP _ _ Hin) as (w & Hw). destruct (not_reported _ _ _ _ _ _ Hw) as (_ & _ & _ & _ & _ & X & _). unfold sets_r. cbn. rewrite !orb_false_r. apply String.eqb_neq. intros ->. now apply X.
  - change None with (f_filter (create N k classes)). apply (chain_off N stof files (fun x => f_filter x) k classes l _ _ Hc1 C). intros n v a b Hin F. apply (fr_filter _ _ _ _ F).
    destruct (REP _ _ Hin) as (w & Hw). now destruct (not_reported _ _ _ _ _ _ Hw) as (_ & _ & X & _).
  - apply (chain_off N stof files (fun x => f_show x) k classes l _ _ Hc1 C). intros n v a b Hin F. destruct (REP _ _ Hin) as (w & Hw).
    destruct (not_reported _ _ _ _ _ _ Hw) as (_ & _ & _ & X & Y & _). now apply (fr_show _ _ _ _ F).
Qed.

Lemma restored_info k classes c c2 : n_le N (one N) (zero N) = false -> restored N k classes c c2 -> model_info N k classes c2 = model_info N k classes c.
Proof.
  intros Hz RS.
  assert (RR : forall m, shown N k c m <> None -> f_r c2 m = f_r c m).
  { intros m H. destruct (shown N k c m) as [n|] eqn:E; [|congruence]. apply (rs_real _ _ _ _ _ RS m n E). }
  assert (RZ : forall m, int_names k m <> [] -> m <> MInit -> f_z c2 m = f_z c m).
  { intros m H Hm. destruct (int_names k m) as [|n r] eqn:E; [congruence|]. apply (rs_int _ _ _ _ _ RS m n); [rewrite E; now left|exact Hm]. }
  assert (Hact : n_le N (one N) (f_r c2 MActive) = n_le N (one N) (f_r c MActive)).
  { destruct (n_le N (one N) (f_r c MActive)) eqn:E; [rewrite RR; [exact E|cbn; now rewrite E]|]. rewrite (rs_active _ _ _ _ _ RS); [exact Hz|cbn; now rewrite E]. }
  assert (Hlo : match f_loss c2 with Some (_, l) => loss_name l | None => [] end = match f_loss c with Some (_, l) => loss_name l | None => [] end).
  { pose proof (rs_loss _ _ _ _ _ RS) as H. destruct (f_loss c2) as [(i, l)|], (f_loss c) as [(j, l')|]; cbn in H; congruence. }
  assert (Ho : info_online N k classes c2 = info_online N k classes c).
  { unfold info_online, info_model. rewrite Hact, Hlo, (rs_norm _ _ _ _ _ RS), (rs_dim _ _ _ _ _ RS), (rs_lazy _ _ _ _ _ RS), (rs_cost _ _ _ _ _ RS).
    rewrite (RR MBias) by (cbn; discriminate). rewrite (RZ MIter) by discriminate.
    assert (El : reg_of k <> RegNone -> f_r c2 Mlambda = f_r c Mlambda).
    { intros H. apply RR. cbn. destruct k; cbn in *; congruence. }
    assert (Ea : n_le N (one N) (f_r c MActive) = true -> f_r c2 MActive = f_r c MActive) by (intros E; apply RR; cbn; now rewrite E).
    assert (Ec : f_cost c = true -> f_r c2 MCost = f_r c MCost) by (intros E; apply RR; cbn; now rewrite E).
    destruct (n_le N (one N) (f_r c MActive)); [rewrite (Ea eq_refl)|]; (destruct (f_cost c); [rewrite (Ec eq_refl)|]); destruct (reg_of k); try rewrite El by discriminate; reflexivity. }
  unfold model_info. rewrite Ho. destruct k; try reflexivity;
    repeat match goal with
    | |- context [f_r c2 ?m] => rewrite (RR m) by (cbn; discriminate)
    | |- context [f_z c2 ?m] => rewrite (RZ m) by (cbn; discriminate)
    end; reflexivity.
Qed.
End P.
