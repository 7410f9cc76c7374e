(** Numbers stay numbers: the virtual functions of every model. *)
From Coq Require Import Reals Lra.
From Verif Require Import M_Base M_Num M_Expr M_Loss M_Online M_Olm M_OlmSel M_Heap M_Algs S_Expr S_Online S_Session
  S_Nan P_DataPoint P_Expr P_Online P_Predict P_Step P_Safe P_Session P_Session2 P_Real P_Conf2 P_Nan P_Nan2 P_Nan3.
Local Open Scope R_scope.

Definition nums (c : core (R:=xreal)) : Prop :=
  Forall fins (c_ws c) /\ fins (c_g c) /\ fin (c_eta c) /\ fin (c_b0 c) /\ fin (c_margin c) /\
  (forall m, c_cost c = Some m -> fin m).
(** The state of a model besides the weights, apart from heaps and scores. *)
Definition st_ok (k : kind (R:=xreal)) : state_of k -> Prop :=
  match k return state_of k -> Prop with
  | KPerceptron | KPA | KPA1 _ | KPA2 _ | KOGD _ _ => fun _ => True
  | KSTG _ _ _ _ _ => fun last => fins last
  | KFOBOS_L1 _ _ _ _ => fun z => lazy_ok z
  | KPET _ _ _ | KFOFS _ _ => fun _ => True
  | KRDA _ | KRDA_L1 _ _ _ | KERDA_L1 _ _ _ _ => fun ut => Forall fins ut
  | KALMA2 _ _ _ => fun k => (1 <= k)%Z
  | KSOP _ => fun s => Forall (above 0) (fst s) /\ Forall fins (snd s)
  | KAROW _ => fun Ss => Forall (Forall (within (one Xnum))) Ss
  | KCW a _ _ | KECCW a _ _ => fun Ss => Forall (Forall (within a)) Ss
  | KSOFS _ _ => fun s => Forall (Forall (within (one Xnum))) (s_vecs s)
  | KAdaFOBOS d => fun Hs => Forall (Forall (atleast d)) Hs
  | KAdaFOBOS_OFS d _ => fun s => Forall (Forall (atleast d)) (s_vecs s)
  | KAdaFOBOS_L1 d _ _ => fun s => Forall (Forall (atleast d)) (fst s) /\ lazy_ok (snd s)
  | KAdaRDA d | KAdaRDA_L1 d _ _ => fun s => Forall (fun Hu => Forall (atleast d) (fst Hu) /\ fins (snd Hu)) s
  | KAdaRDA_OFS d _ => fun s => Forall (Forall (atleast d)) (s_vecs (fst s)) /\ Forall fins (snd s)
  end.

Lemma nums_ws c ws : nums c -> Forall fins ws -> nums (set_ws c ws).
Proof. intros (A & B) H. split; [exact H|exact B]. Qed.
Lemma nums_eta c e : nums c -> fin e -> nums (set_eta c e).
Proof. intros (A & B & C & D) H. split; [exact A|]. split; [exact B|]. split; [exact H|exact D]. Qed.
Lemma nums_margin c m : nums c -> fin m -> nums (set_margin c m).
Proof. intros (A & B & C & D & E & F) H. repeat (split; [assumption|]). exact F. Qed.
Lemma nums_bias c : nums c -> fin (bias_eta Xnum c).
Proof. intros (A & B & C & D & E & F). apply fin_mul; assumption. Qed.
Lemma nums_updated c b : nums c -> nums (set_updated c b).
Proof. intros H. exact H. Qed.
Lemma nums_end th c : nums c -> nums (linear_end (finalize_l1 Xnum th) c).
Proof.
  intros H. apply nums_updated, nums_ws; [exact H|]. destruct H as (A & _). rewrite Forall_map. eapply Forall_impl; [|exact A]. intros w. apply finalize_fin.
Qed.
Lemma nums_dim d c : nums c -> nums (linear_update_dim Xnum d c).
Proof.
  intros H. unfold linear_update_dim. destruct (_ <? _)%nat; [|exact H]. destruct H as (A & B). split; [|exact B]. cbn. rewrite Forall_map.
  eapply Forall_impl; [|exact A]. intros w Hw. apply grow_vals; auto with num.
Qed.
Lemma grows_vals (P : xreal -> Prop) d d' v ls : P v -> Forall (Forall P) ls -> Forall (Forall P) (map (grow d d' v) ls).
Proof. intros Hv H. rewrite Forall_map. eapply Forall_impl; [|exact H]. intros l Hl. now apply grow_vals. Qed.
Lemma Forall_rep {A} (P : A -> Prop) a n : P a -> Forall P (repeat a n).
Proof. intros H. apply Forall_forall. intros x Hx. apply repeat_spec in Hx. now subst. Qed.

(* ------------------------------------------------------------- initial state *)
Lemma init_ok k n : forall loss, params_ok k loss -> st_ok k (init_of Xnum k n).
Proof.
  intros loss H. destruct k; cbn [st_ok init_of params_ok state_of] in *; auto; try lia.
  - destruct H as (A & B & C). split; [exact C|]. split; [apply fin_zero|]. constructor; auto with num.
  - apply Forall_rep. constructor; auto with num.
  - apply Forall_rep. constructor; auto with num.
  - apply Forall_rep. constructor; auto with num.
  - cbn [fst snd]. split; [constructor; auto; apply nn_zero|]. apply Forall_rep. constructor; auto with num.
  - apply Forall_rep. constructor; auto. apply within_self, pos_one.
  - apply Forall_rep. constructor; auto. apply within_self, pos_one.
  - destruct H as (A & _). apply Forall_rep. constructor; auto. now apply within_self.
  - destruct H as (A & _). apply Forall_rep. constructor; auto. now apply within_self.
  - apply Forall_rep. constructor; auto. now apply atleast_self.
  - destruct H as (A & B). cbn [fst snd]. split; [apply Forall_rep; constructor; auto; now apply atleast_self|].
    split; [exact B|]. split; [apply fin_zero|]. constructor; auto with num.
  - cbn. apply Forall_rep. constructor; auto. now apply atleast_self.
  - apply Forall_rep. cbn. split; constructor; auto with num. now apply atleast_self.
  - destruct H as (A & B). apply Forall_rep. cbn. split; constructor; auto with num. now apply atleast_self.
  - cbn. split; apply Forall_rep; constructor; auto with num. now apply atleast_self.
Qed.

(* ------------------------------------------------------------- growth *)
Lemma sigma_grow_ok (P : xreal -> Prop) a d (c : core) Ss c' Ss' : P a -> Forall (Forall P) Ss ->
  sigma_grow Xnum a d c Ss = Some (c', Ss') -> Forall (Forall P) Ss'.
Proof. intros Ha HS E. unfold sigma_grow in E. destruct (_ <? _)%nat; injection E as <- <-; [now apply grows_vals|exact HS]. Qed.
Lemma sel2_grow_ok (P : xreal -> Prop) a d (c : core) s c' s' : P a -> Forall (Forall P) (s_vecs s) ->
  sel2_grow Xnum a d c s = Some (c', s') -> Forall (Forall P) (s_vecs s').
Proof.
  intros Ha HS E. unfold sel2_grow in E. destruct (_ <? _)%nat; [|injection E as <- <-; exact HS]. cbv zeta in E. dob E Q1. destruct p as (c1, vs). dob E Q2.
  injection E as <- <-. cbn. eapply sigma_grow_ok; eauto.
Qed.
Lemma grow_ok k loss d c e c' e' : params_ok k loss -> st_ok k e -> a_grow (alg_of Xnum k) d c e = Some (c', e') -> st_ok k e'.
Proof.
  intros HP HS E. destruct k; cbn [st_ok alg_of state_of params_ok] in *; auto.
  - cbn [stg a_grow] in E. unfold stg_grow in E. destruct (_ <? _)%nat; injection E as <- <-; [apply grow_vals; auto with num|exact HS].
  - cbn [fobos_l1 a_grow] in E. unfold grow_none in E. injection E as _ <-. exact HS.
  - cbn [rda a_grow] in E. unfold rda_grow in E. destruct (_ <? _)%nat; injection E as <- <-; [apply grows_vals; auto with num|exact HS].
  - cbn [rda_l1 a_grow] in E. unfold rda_grow in E. destruct (_ <? _)%nat; injection E as <- <-; [apply grows_vals; auto with num|exact HS].
  - cbn [erda_l1 a_grow] in E. unfold rda_grow in E. destruct (_ <? _)%nat; injection E as <- <-; [apply grows_vals; auto with num|exact HS].
  - cbn [alma2 a_grow] in E. unfold grow_none in E. injection E as _ <-. exact HS.
  - cbn [sop a_grow] in E. unfold sop_grow in E. destruct e as (X, v). destruct HS as (A & B). cbn [fst snd] in *.
    destruct (_ <? _)%nat; injection E as <- <-; cbn [fst snd]; [|auto]. split; [apply grow_vals; auto; apply nn_zero|apply grows_vals; auto with num].
  - cbn [arow a_grow] in E. eapply sigma_grow_ok; [apply within_self, pos_one|exact HS|exact E].
  - cbn [sofs a_grow] in E. eapply sel2_grow_ok; [apply within_self, pos_one|exact HS|exact E].
  - cbn [cw a_grow] in E. eapply sigma_grow_ok; [apply within_self, HP|exact HS|exact E].
  - cbn [eccw a_grow] in E. eapply sigma_grow_ok; [apply within_self, HP|exact HS|exact E].
  - cbn [ada_fobos a_grow] in E. eapply sigma_grow_ok; [apply atleast_self, HP|exact HS|exact E].
  - cbn [ada_fobos_l1 a_grow] in E. dob E Q1. destruct p as (c1, H1). injection E as <- <-. destruct HS as (A & B). cbn [fst snd].
    split; [|exact B]. eapply sigma_grow_ok; [apply atleast_self, HP|exact A|exact Q1].
  - cbn [ada_fobos_ofs a_grow] in E. eapply sel2_grow_ok; [apply atleast_self, HP|exact HS|exact E].
  - cbn [ada_rda a_grow] in E. unfold ada_rda_grow in E. destruct (_ <? _)%nat; injection E as <- <-; [|exact HS].
    rewrite Forall_map. eapply Forall_impl; [|exact HS]. intros (H, u) (A & B). cbn [fst snd] in *. split; apply grow_vals; auto with num. apply atleast_self, HP.
  - cbn [ada_rda_l1 a_grow] in E. unfold ada_rda_grow in E. destruct (_ <? _)%nat; injection E as <- <-; [|exact HS].
    rewrite Forall_map. eapply Forall_impl; [|exact HS]. intros (H, u) (A & B). cbn [fst snd] in *. split; apply grow_vals; auto with num. apply atleast_self, HP.
  - cbn [ada_rda_ofs a_grow] in E. unfold ada_rda_ofs_grow in E. destruct e as (s, ut). dob E Q1. destruct p as (c1, s1). injection E as <- <-.
    destruct HS as (A & A'). cbn [fst snd] in *. split; [eapply sel2_grow_ok; [apply atleast_self, HP|exact A|exact Q1]|].
    destruct (_ <? _)%nat; [apply grows_vals; auto with num|exact A'].
Qed.
Lemma reg_begin_ok k p e e' : st_ok k e -> a_reg_begin (alg_of Xnum k) p e = Some e' -> st_ok k e'.
Proof.
  intros HS E. destruct k; cbn [alg_of] in E; try (cbn in E; injection E as <-; exact HS).
  - cbn [fobos_l1 a_reg_begin] in E. injection E as <-. now apply lazy_begin_ok.
  - cbn [ada_fobos_l1 a_reg_begin] in E. injection E as <-. destruct HS. split; [assumption|now apply lazy_begin_ok].
Qed.
Lemma reg_end_ok k p it e e' : st_ok k e -> a_reg_end (alg_of Xnum k) p it e = Some e' -> st_ok k e'.
Proof.
  intros HS E. destruct k; cbn [alg_of] in E; try (cbn in E; injection E as <-; exact HS).
  - cbn [fobos_l1 a_reg_end] in E. eapply lazy_end_ok; eauto.
  - cbn [ada_fobos_l1 a_reg_end] in E. dob E Q1. injection E as <-. destruct HS. split; [assumption|]. eapply lazy_end_ok; eauto.
Qed.

(* ------------------------------------------------------------- BeginTrain *)
Definition kept (c c' : core (R:=xreal)) : Prop := nums c' /\ c_iter c' = c_iter c.
Lemma dim_iter d (c : core (R:=xreal)) : c_iter (linear_update_dim Xnum d c) = c_iter c.
Proof. unfold linear_update_dim. now destruct (_ <? _)%nat. Qed.
Lemma sel1_grow_kept d c s c' s' : nums c -> sel1_grow Xnum d c s = Some (c', s') -> kept c c'.
Proof.
  intros Hc E. unfold sel1_grow in E. destruct (_ <? _)%nat; [|injection E as <- <-; now split]. destruct s as (ab, h). cbv zeta in E. dob E Q1. injection E as <- <-.
  split; [now apply nums_dim|apply dim_iter].
Qed.
Lemma sel1_begin_kept B c s c' s' : nums c -> sel1_begin Xnum B c s = Some (c', s') -> kept c c'.
Proof.
  intros Hc E. unfold sel1_begin in E. destruct B as [|B]; [injection E as <- <-; now split|]. dob E Q1. destruct p as (c1, s1). dob E Q2. dob E Q3. injection E as <- <-.
  destruct (_ <? _)%nat; [eapply sel1_grow_kept; eauto|injection Q1 as <- <-; now split].
Qed.
Lemma sel2_grow_kept a d c s c' s' : nums c -> sel2_grow Xnum a d c s = Some (c', s') -> kept c c'.
Proof.
  intros Hc E. unfold sel2_grow in E. destruct (_ <? _)%nat eqn:Ed; [|injection E as <- <-; now split]. cbv zeta in E. dob E Q1. destruct p as (c1, vs). dob E Q2. injection E as <- <-.
  unfold sigma_grow in Q1. rewrite Ed in Q1. injection Q1 as <- <-. split; [now apply nums_dim|apply dim_iter].
Qed.
Lemma sel2_begin_ok (P : xreal -> Prop) cmp a B c s c' s' : P a -> nums c -> Forall (Forall P) (s_vecs s) ->
  sel2_begin Xnum cmp a B c s = Some (c', s') -> kept c c' /\ Forall (Forall P) (s_vecs s').
Proof.
  intros Ha Hc HS E. unfold sel2_begin in E. destruct B as [|B]; [injection E as <- <-; split; [now split|exact HS]|]. dob E Q1. destruct p as (c1, s1). dob E Q2. cbv zeta in E. dob E Q3. injection E as <- <-.
  cbn [s_vecs]. destruct (_ <? _)%nat; [|injection Q1 as <- <-; split; [now split|exact HS]].
  split; [eapply sel2_grow_kept; eauto|eapply sel2_grow_ok; eauto].
Qed.
Lemma alma_margin_fin al sp k : pos al -> pos sp -> (1 <= k)%Z -> fin (alma_margin Xnum al sp k).
Proof.
  intros Ha Hs Hk. unfold alma_margin. apply fin_div; [|apply pos_nz, pos_sqrt, pos_int; lia].
  apply fin_mul; [|now apply pos_fin]. apply fin_mul; [auto with num|]. apply fin_div; [auto with num|]. now apply pos_nz.
Qed.
Lemma begin_ok k loss c e c' e' : params_ok k loss -> nums c -> st_ok k e -> a_begin (alg_of Xnum k) c e = Some (c', e') ->
  kept c c' /\ st_ok k e'.
Proof.
  intros HP Hc HS E. destruct k; cbn [alg_of] in E; try (cbn in E; injection E as <- <-; split; [now split|exact HS]).
  - cbn [stg a_begin] in E. injection E as <- <-. split; [now split|]. apply Forall_rep. auto with num.
  - cbn [pet a_begin] in E. split; [eapply sel1_begin_kept; eauto|exact I].
  - cbn [alma2 a_begin] in E. injection E as <- <-. split; [|exact HS]. destruct HP as (HA & HB & HC). split; [|reflexivity]. apply nums_margin; [exact Hc|].
    now apply alma_margin_fin.
  - cbn [sofs a_begin] in E. eapply (sel2_begin_ok (within (one Xnum))) in E; eauto. apply within_self, pos_one.
  - cbn [ada_fobos_ofs a_begin] in E. eapply (sel2_begin_ok (atleast delta)) in E; eauto. apply atleast_self, HP.
  - cbn [ada_rda_ofs a_begin] in E. dob E Q1. destruct p as (c1, s1). injection E as <- <-. destruct HS as (A & A').
    destruct (sel2_begin_ok (atleast delta) _ _ _ _ _ _ _ (atleast_self _ HP) Hc A Q1) as (D & F). split; [exact D|]. cbn [st_ok fst snd].
    split; [exact F|]. destruct (_ <? _)%nat; [apply grows_vals; auto with num|exact A'].
  - cbn [fofs a_begin] in E. split; [eapply sel1_begin_kept; eauto|exact I].
Qed.

(* ------------------------------------------------------------- TrainPredict *)
Lemma rda_assign_fin c ev f ut c' : nums c -> Forall fins ut -> (forall u, fins u -> vals fin (ev u)) -> (forall v, fin v -> fin (f v)) ->
  rda_assign Xnum c ev f ut = Some c' -> nums c' /\ c_iter c' = c_iter c.
Proof.
  intros Hc Hu He Hf E. unfold rda_assign in E. dob E Q1. injection E as <-. split; [|reflexivity]. apply nums_ws; [exact Hc|].
  pose proof (nums_bias _ Hc) as Hb. destruct Hc as (A & B & C & D).
  eapply (zip_class_vals fins fins); [exact A|exact Hu| |exact Q1]. intros w u w' Hw Hu' Ew. cbv beta in Ew. dob Ew Q2. dob Ew Q3.
  eapply wr_vals; [| |exact Ew].
  - eapply assign_vals; [exact Hw| |exact Q2]. two fin fin; [cbn [vals]; auto with num|now apply He|intros; cbv beta; auto with num].
  - apply fin_mul; [auto with num|]. apply Hf. eapply (rd_vals fin); [|eassumption]; assumption.
Qed.
Lemma pos_t it : (0 <= it)%Z -> pos (n_add Xnum (n_int Xnum it) (n_lit Xnum 1 (-20))).
Proof. intros H. apply pos_add'; [now apply nn_int|apply pos_lit; lia]. Qed.
Lemma lower_iter k (c : core (R:=xreal)) : start_ok k c -> (0 <= c_iter c)%Z.
Proof. destruct k; cbn; lia. Qed.
(** The counter has been increased by one when TrainPredict runs. *)
Lemma prep_ok k loss p c e c' e' : params_ok k loss -> nums c -> st_ok k e -> fin_point p ->
  start_ok k (set_iter c (c_iter c - 1)) -> a_prep (alg_of Xnum k) p c e = Some (c', e') -> nums c' /\ st_ok k e'.
Proof.
  intros HP Hc HS Hp Hi E. pose proof (lower_iter _ _ Hi) as Hi0. cbn [set_iter c_iter] in Hi0. apply (feats_vals fin) in Hp. pose proof (nums_bias _ Hc) as Hb.
  destruct k; cbn [alg_of] in E; try (cbn in E; injection E as <- <-; split; [exact Hc|exact HS]).
  - cbn [stg a_prep] in E. unfold stg_prep in E. dob E Q1. destruct p0 as (ws, last). injection E as <- <-. destruct HP as (P1 & P2 & P3). destruct Hc as (A & B & C & D).
    destruct (stg_classes_fin _ _ _ _ _ _ (fin_mul _ _ C P3) P3 Hb _ _ _ _ A HS Q1) as (F & G). split; [apply nums_ws; [now repeat split|exact F]|exact G].
  - cbn [fobos_l1 a_prep] in E. unfold fobos_prep in E. dob E Q1. injection E as <- <-. split; [|exact HS]. apply nums_ws; [exact Hc|]. destruct HS as (S1 & S2 & S3). destruct Hc as (A & B & C & D).
    eapply mapM_vals; [exact A| |exact Q1]. intros w w' Hw Ew. cbv beta in Ew. dob Ew Q2. eapply upd0_fin; [| |exact Ew]; [|intros; cbv beta; auto with num].
    unfold fobos_trunc in Q2. eapply assign_vals; [exact Hw| |exact Q2]. vf.
  - cbn [rda a_prep] in E. unfold rda_prep in E. cbv zeta in E. dob E Q1. injection E as <- <-. split; [|exact HS].
    assert (Ht : nz (n_mul Xnum (n_add Xnum (n_int Xnum (c_iter c - 1)) (n_lit Xnum 1 (-20))) sigma)) by (apply pos_nz, pos_mul; [apply pos_t; lia|exact HP]).
    eapply rda_assign_fin in Q1; [apply Q1| |exact HS| |]; [apply nums_eta; [exact Hc|]; apply fin_div; auto with num|intros; vf|auto].
  - cbn [rda_l1 a_prep] in E. unfold rda_l1_prep in E. cbv zeta in E. dob E Q1. injection E as <- <-. split; [|exact HS]. destruct HP as (P1 & P2). cbn [start_ok set_iter c_iter] in Hi.
    assert (Ht0 : pos (n_sub Xnum (n_int Xnum (c_iter c)) (one Xnum))).
    { eexists. split; [reflexivity|]. assert (IZR 2 <= IZR (c_iter c)) by (apply IZR_le; lia). lra. }
    assert (Ht : nz (n_mul Xnum (n_sub Xnum (n_int Xnum (c_iter c)) (one Xnum)) sigma)) by (apply pos_nz, pos_mul; assumption).
    eapply rda_assign_fin in Q1; [apply Q1| |exact HS| |]; [apply nums_eta; [exact Hc|]; apply fin_div; auto with num|intros; vf|intros; cbv beta; auto with num].
  - cbn [erda_l1 a_prep] in E. unfold erda_l1_prep in E. cbv zeta in E. dob E Q1. injection E as <- <-. split; [|exact HS]. destruct HP as (P1 & P2 & P3).
    assert (Ht0 : pos (n_add Xnum (n_int Xnum (c_iter c - 1)) (n_lit Xnum 1 (-20)))) by (apply pos_t; lia). set (t := n_add Xnum _ _) in *.
    pose proof (pos_sqrt _ Ht0) as Ht1. assert (Ht : nz (n_mul Xnum (n_sqrt Xnum t) sigma)) by (apply pos_nz, pos_mul; assumption).
    eapply rda_assign_fin in Q1; [apply Q1| |exact HS| |]; [apply nums_eta; [exact Hc|]; apply fin_div; auto with num|intros; vf; auto 8 with num|intros; auto 8 with num].
  - cbn [sop a_prep] in E. unfold sop_prep in E. destruct e as (X, v). dob E Q1. injection E as <- <-. split; [|exact HS]. destruct HS as (A & B). cbn [fst snd] in *.
    apply nums_ws; [exact Hc|]. eapply (zip_class_vals fins fins); [apply Hc|exact B| |exact Q1]. intros w vc w' Hw Hv Ew. eapply assign_vals; [exact Hw| |exact Ew].
    two fin pos; [exact Hv| |intros; apply fin_div; auto; now apply pos_nz]. two pos (above 0); [| |intros; now apply pos_add].
    + two pos (above 0); [exact HP|exact A|intros; now apply pos_add].
    + exists fin. split; [exact Hp|]. intros; now apply nn_square.
  - cbn [ada_fobos_l1 a_prep] in E. unfold ada_fobos_l1_prep in E. destruct e as (Hs, z). dob E Q1. injection E as <- <-. split; [|exact HS]. destruct HS as (S0 & S1 & S2 & S3). cbn [fst snd] in *.
    destruct HP as (P1 & P2). apply nums_ws; [exact Hc|]. destruct Hc as (A & B & C & D).
    eapply (zip_class_vals fins (Forall (atleast delta))); [exact A|exact S0| |exact Q1]. intros w H w' Hw HH Ew. cbv beta in Ew. dob Ew Q2. dob Ew Q3.
    assert (Hh : nz x). { apply pos_nz. eapply atleast_pos; [exact P1|]. eapply (rd_vals (atleast delta)); [|eassumption]; assumption. }
    eapply upd0_fin; [| |exact Ew].
    + eapply assign_vals; [exact Hw| |exact Q2]. two fin fin; [vf| |intros; cbv beta; auto with num].
      two fin (atleast delta); [vf|exact HH|]. intros u v Hu Hv. apply fin_div; [exact Hu|]. apply pos_nz. eapply atleast_pos; eauto.
    + intros b Hb'. apply fin_trunc; [exact Hb'|]. apply fin_div; auto with num.
  - cbn [ada_rda_l1 a_prep] in E. unfold ada_rda_l1_prep in E. cbv zeta in E. dob E Q1. injection E as <- <-. split; [|exact HS]. destruct HP as (P1 & P2).
    apply nums_ws; [exact Hc|]. destruct Hc as (A & B & C & D).
    eapply (zip_class_vals fins (fun Hu => Forall (atleast delta) (fst Hu) /\ fins (snd Hu))); [exact A|exact HS| |exact Q1]. intros w (H, u) w' Hw (HH & Hu) Ew. cbn [fst snd] in *.
    dob Ew Q2. dob Ew Q3. dob Ew Q4.
    assert (Hh : nz x0). { apply pos_nz. eapply atleast_pos; [exact P1|]. eapply (rd_vals (atleast delta)); [|eassumption]; assumption. }
    assert (Hu0 : fin x) by (eapply (rd_vals fin); [|eassumption]; assumption).
    eapply wr_vals; [| |exact Ew].
    + eapply assign_vals; [exact Hw| |exact Q2]. two fin (atleast delta); [vf|exact HH|]. intros a b Ha Hb'. apply fin_div; [exact Ha|]. apply pos_nz. eapply atleast_pos; eauto.
    + apply fin_div; [|exact Hh]. auto 6 with num.
Qed.
