(** Whole sessions, continued: the session theorem and its instances for the registered models. *)
From Verif Require Import M_Base M_Num M_Expr M_Loss M_Online M_Olm M_OlmSel M_Heap M_Algs S_Expr
  S_Online S_Heap S_Session P_DataPoint P_Expr P_Online P_Predict P_Step P_Safe P_SafeOlm P_Heap
  P_SafeSel P_SafeSel2 P_Session.
From Coq Require Import Sorted.

Section P.
Context {R : Type}.
Variable N : num R.
Local Notation zero := (zero N).
Local Notation one := (one N).

Lemma gsafe_weaken {E} lo lo' (a : alg (R:=R) E) I Q : lo <= lo' -> gsafe N lo a I Q -> gsafe N lo' a I Q.
Proof.
  intros Hl (H1 & H2 & H3 & H4 & H5 & H6).
  assert (W : forall p : point R, wf_point lo' p -> wf_point lo p) by (intros p; now apply wf_point_weaken).
  split; [exact H1|]. split; [intros; eapply H2; eauto|]. split; [intros; eapply H3; eauto|].
  split; [intros; eapply H4; eauto|]. split; [intros; eapply H5; eauto|]. intros; eapply H6; eauto.
Qed.

Section Session.
Context {E : Type}.
Variables (a : alg (R:=R) E) (J I : list (list R) -> nat -> E -> Prop)
  (Q : list Z -> list R -> list R -> Prop) (lo : Z) (n : nat) (k : loss_kind)
  (pre : point R -> option (point R)).
Hypothesis Hlo : 0 <= lo.
Hypothesis HS : gsafe N lo a I Q.
Hypothesis HE : end_ok a I.
Hypothesis HB : begin_ok a J I.
Hypothesis Hk : loss_ok n k.

Definition good (c : core) : Prop := wf_core (R:=R) c /\ length (c_ws c) = n /\ c_loss c = k.
Definition ready (s : core * E) : Prop := good (fst s) /\ I (c_ws (fst s)) (c_dim (fst s)) (snd s).

Lemma train_step_safe d c e dp evs : accepts lo n pre (fst d) -> ready (c, e) ->
  exists c' e' dp' evs', train_step N a pre d (c, e, dp, evs) = Some (c', e', dp', evs') /\ ready (c', e').
Proof.
  intros (x & Ex & Hx & Hlab) ((Hc & Hn & Hl) & HI). cbn [fst snd] in *. destruct d as (p, rnd). cbn [fst] in *.
  unfold train_step, train_point. rewrite Ex. cbn [bind].
  destruct (iterate_safe N lo a I Q x rnd c e Hlo HS Hx Hc HI)
    as (lab & ps & c' & e' & Ei & Hc' & HI' & Hn' & Hd' & Hl' & _).
  { rewrite Hn, Hl. exact Hk. }
  { now rewrite Hn. }
  rewrite Ei. cbn [bind].
  assert (Hr : ready ((if lab =? p_label x then c' else set_err c' (c_err c' + 1)), e')).
  { destruct (lab =? p_label x); (split; [split; [exact Hc'|split; cbn; congruence]|exact HI']). }
  match goal with |- context [next_show dp <=? ?z] => destruct (next_show dp <=? z) end;
    eexists _, _, _, _; (split; [reflexivity|exact Hr]).
Qed.
Lemma fold_safe b : forall c e dp evs, Forall (fun d => accepts lo n pre (fst d)) b -> ready (c, e) ->
  exists c' e' dp' evs', foldM (train_step N a pre) b (c, e, dp, evs) = Some (c', e', dp', evs') /\
    ready (c', e').
Proof.
  induction b as [|d b IH]; intros c e dp evs HF Hr; cbn [foldM].
  - eexists _, _, _, _. split; [reflexivity|exact Hr].
  - inversion HF; subst. destruct (train_step_safe d c e dp evs) as (c1 & e1 & dp1 & evs1 & E1 & Hr1); auto.
    rewrite E1. cbn [bind]. auto.
Qed.
Lemma batches_safe bs : forall c e dp evs,
  Forall (Forall (fun d => accepts lo n pre (fst d))) bs -> ready (c, e) ->
  exists c' e' dp' evs', foldM (fun b st => foldM (train_step N a pre) b st) bs (c, e, dp, evs)
    = Some (c', e', dp', evs') /\ ready (c', e').
Proof.
  induction bs as [|d b IH]; intros c e dp evs HF Hr; cbn [foldM].
  - eexists _, _, _, _. split; [reflexivity|exact Hr].
  - inversion HF; subst. destruct (fold_safe d c e dp evs) as (c1 & e1 & dp1 & evs1 & E1 & Hr1); auto.
    rewrite E1. cbn [bind]. auto.
Qed.
Lemma train_batches_safe bs c e dp : Forall (Forall (fun d => accepts lo n pre (fst d))) bs ->
  forall reinit : bool, (reinit = true -> exists c0 e0, a_begin a c e = Some (c0, e0) /\ ready (c0, e0)) ->
  (reinit = false -> ready (c, e)) ->
  exists c' e' dp' evs', train_batches N a pre bs reinit (c, e, dp) = Some (c', e', dp', evs') /\
    ready (c', e').
Proof.
  intros HF reinit Ht Hf. unfold train_batches.
  assert (E0 : exists c0 e0, (if reinit then a_begin a c e else Some (c, e)) = Some (c0, e0) /\ ready (c0, e0)).
  { destruct reinit; [now apply Ht|]. eexists _, _. split; [reflexivity|auto]. }
  destruct E0 as (c0 & e0 & -> & Hr). cbn [bind].
  destruct (batches_safe bs c0 e0 dp [] HF Hr) as (c1 & e1 & dp1 & evs1 & E1 & Hr1). rewrite E1. cbn [bind].
  eexists _, _, _, _. split; [reflexivity|]. exact Hr1.
Qed.
Lemma test_rows c data : good c -> Forall (accepts lo n pre) data ->
  exists rows, mapM (test_point N pre c) data = Some rows.
Proof.
  intros (Hc & _) HF. induction HF as [|p data (x & Ex & Hx & _) HF IH]; cbn [mapM]; [eauto|].
  unfold test_point at 1. rewrite Ex. cbn [bind].
  destruct (predict_spec N zero c x lo Hlo Hc Hx) as (lab & _ & ->). cbn [bind].
  destruct IH as (rows & ->). cbn [bind]. eauto.
Qed.
Lemma test_safe c e data : good c -> Forall (accepts lo n pre) data ->
  (c_updated c = true -> I (c_ws c) (c_dim c) e) ->
  exists rows errs c' e', test N a pre data c e = Some (rows, errs, c', e') /\ good c' /\
    ((c_updated c = false /\ c' = c /\ e' = e) \/ (c_updated c = true /\ ready (c', e'))).
Proof.
  intros Hg HF HI. unfold test. destruct (c_updated c) eqn:Eu.
  - destruct Hg as (Hc & Hn & Hl).
    destruct (HE c e Hc (HI eq_refl)) as (c1 & e1 & E1 & (Hc1 & Hn1 & Hd1 & Hl1) & HI1).
    rewrite E1. cbn [bind]. assert (Hg1 : good c1) by (split; [auto|split; congruence]).
    destruct (test_rows c1 data Hg1 HF) as (rows & ->). cbn [bind].
    eexists _, _, _, _. split; [reflexivity|]. split; auto. right. split; auto. split; auto.
  - cbn [bind]. destruct (test_rows c data Hg HF) as (rows & ->). cbn [bind].
    eexists _, _, _, _. split; [reflexivity|]. split; auto.
Qed.

(** The states of a session: untouched, or trained at least once. *)
Definition state_ok (c0 : core) (e0 : E) (s : core * E * bool) : Prop :=
  let '(c, e, reinit) := s in
  (c = c0 /\ e = e0 /\ reinit = true) \/ ready (c, e).
Lemma session_safe us c0 e0 : good c0 -> J (c_ws c0) (c_dim c0) e0 -> c_updated c0 = false ->
  (In UReset us -> begin_ok a I I) -> Forall (use_ok lo n pre) us ->
  forall c e r, state_ok c0 e0 (c, e, r) -> (r = true -> (c = c0 /\ e = e0) \/ begin_ok a I I) ->
  exists c' e' r', session N a pre us (c, e, r) = Some (c', e', r') /\ state_ok c0 e0 (c', e', r').
Proof.
  intros Hg0 HJ Hu0 HR HU. induction HU as [|u us Hu HU IH]; intros c e r Hst Hr; unfold session in *;
    cbn [foldM].
  - eexists _, _, _. split; [reflexivity|auto].
  - assert (Hready : ready (c, e) -> begin_ok a I I ->
      exists c1 e1, a_begin a c e = Some (c1, e1) /\ ready (c1, e1)).
    { intros ((Hc & Hn & Hl) & HI) Hb. cbn [fst snd] in *.
      destruct (Hb c e Hc HI) as (c1 & e1 & E1 & (Hc1 & Hn1 & Hl1) & HI1). exists c1, e1. split; auto.
      split; auto. split; auto. cbn. split; congruence. }
    assert (Hfresh : exists c1 e1, a_begin a c0 e0 = Some (c1, e1) /\ ready (c1, e1)).
    { destruct Hg0 as (Hc & Hn & Hl).
      destruct (HB c0 e0 Hc HJ) as (c1 & e1 & E1 & (Hc1 & Hn1 & Hl1) & HI1). exists c1, e1. split; auto.
      split; auto. split; auto. cbn. split; congruence. }
    assert (HR' : In UReset us -> begin_ok a I I) by (intros; apply HR; now right).
    destruct u as [bs|data|]; cbn [use_step use_ok] in *.
    + destruct (train_batches_safe bs c e (ExpShow 2 2 1) Hu r) as (c1 & e1 & dp1 & evs1 & E1 & Hr1).
      { intros ->. destruct (Hr eq_refl) as [(-> & ->)|Hb]; [exact Hfresh|].
        destruct Hst as [(-> & -> & _)|Hst]; [exact Hfresh|]. apply Hready; auto. }
      { intros ->. destruct Hst as [(_ & _ & Hx)|Hst]; [discriminate|auto]. }
      rewrite E1. cbn [bind]. apply IH; auto; [now right|discriminate].
    + destruct (test_safe c e data) as (rows & errs & c1 & e1 & E1 & Hg1 & Hcase); auto.
      { destruct Hst as [(-> & _)|(Hg & _)]; auto. }
      { intros Hx. destruct Hst as [(-> & -> & _)|(_ & HI)]; [congruence|auto]. }
      rewrite E1. cbn [bind]. apply IH; auto.
      * destruct Hcase as [(Hux & -> & ->)|(_ & Hrd)]; [exact Hst|]. now right.
      * intros Hrt. destruct (Hr Hrt) as [(-> & ->)|]; [|auto]. left.
        destruct Hcase as [(_ & -> & ->)|(Hx & _)]; auto. congruence.
    + assert (Hb : begin_ok a I I) by (apply HR; now left). apply IH; auto.
      destruct Hst as [(-> & -> & _)|Hst]; [now left|now right].
Qed.
End Session.

(** ** The registered models *)
Definition inv_of (P : Prop) (k : kind (R:=R)) : list (list R) -> nat -> state_of k -> Prop :=
  match k return list (list R) -> nat -> state_of k -> Prop with
  | KPerceptron | KPA | KPA1 _ | KPA2 _ | KOGD _ _ => fun _ _ _ => True
  | KSTG _ _ _ _ _ => fun _ d last => length last = d
  | KFOBOS_L1 _ _ _ _ => fun _ d z => length (z_last z) = d
  | KPET _ _ B | KFOFS _ B => sel1_inv N P B
  | KRDA _ | KRDA_L1 _ _ _ | KERDA_L1 _ _ _ _ => fun ws => shape (length ws)
  | KALMA2 _ _ _ => fun _ _ _ => True
  | KSOP _ => fun ws d s => length (fst s) = d /\ shape (length ws) d (snd s)
  | KAROW _ | KCW _ _ _ | KECCW _ _ _ | KAdaFOBOS _ => fun ws => shape (length ws)
  | KSOFS _ B | KAdaFOBOS_OFS _ B => sel2_inv N P B
  | KAdaFOBOS_L1 _ _ _ => fun ws d s => shape (length ws) d (fst s) /\ length (z_last (snd s)) = d
  | KAdaRDA _ | KAdaRDA_L1 _ _ _ => fun ws => shape2 (length ws)
  | KAdaRDA_OFS _ B => sel2u_inv N P B
  end.
Definition pre_of (P : Prop) (k : kind (R:=R)) : list (list R) -> nat -> state_of k -> Prop :=
  match k return list (list R) -> nat -> state_of k -> Prop with
  | KSTG _ _ _ _ _ => fun _ _ _ => True
  | KPET _ _ B | KFOFS _ B => sel1_pre N P B
  | KSOFS _ B | KAdaFOBOS_OFS _ B => sel2_pre N P B
  | KAdaRDA_OFS _ B => sel2u_pre N P B
  | k => inv_of P k
  end.
Definition rel_of (k : kind (R:=R)) : list Z -> list R -> list R -> Prop :=
  match k with
  | KPET _ _ _ | KFOFS _ _ | KALMA2 _ _ _ | KSOFS _ _ | KAdaFOBOS_OFS _ _ | KAdaRDA_OFS _ _ =>
    fun _ => same_len
  | _ => local
  end.
Lemma gsafe_of P k : gsafe N (lo_of k) (alg_of N k) (inv_of P k) (rel_of k).
Proof.
  destruct k; cbn [alg_of inv_of rel_of lo_of].
  - apply (safe_gsafe N 0 _ _ _ (safe_perceptron N)).
  - apply (safe_gsafe N 0 _ _ _ (safe_pa N)).
  - apply (safe_gsafe N 0 _ _ _ (safe_pa1 N C)).
  - apply (safe_gsafe N 0 _ _ _ (safe_pa2 N C)).
  - apply (safe_gsafe N 0 _ _ _ (safe_ogd N eta0 power_t)).
  - apply (safe_gsafe N 0 _ _ _ (safe_stg N eta0 power_t lam thresh k)).
  - apply (safe_gsafe N 0 _ _ _ (safe_fobos_l1 N eta0 power_t)).
  - apply gsafe_pet.
  - apply (safe_gsafe N 0 _ _ _ (safe_rda N sigma)).
  - apply (safe_gsafe N 0 _ _ _ (safe_rda_l1 N sigma lam thresh)).
  - apply (safe_gsafe N 0 _ _ _ (safe_erda_l1 N sigma lam rou thresh)).
  - apply (safe_gsafe N 0 _ _ _ (safe_alma2 N alpha C sp1)).
  - apply (safe_gsafe N 0 _ _ _ (safe_sop N a)).
  - apply (safe_gsafe N 0 _ _ _ (safe_arow N r)).
  - apply gsafe_sofs.
  - apply (safe_gsafe N 0 _ _ _ (safe_cw N a phi bias_on)).
  - apply (safe_gsafe N 0 _ _ _ (safe_eccw N a phi bias_on)).
  - apply (safe_gsafe N 0 _ _ _ (safe_ada_fobos N delta)).
  - apply (safe_gsafe N 0 _ _ _ (safe_ada_fobos_l1 N delta)).
  - apply gsafe_ada_fobos_ofs.
  - apply (safe_gsafe N 0 _ _ _ (safe_ada_rda N delta)).
  - apply (safe_gsafe N 0 _ _ _ (safe_ada_rda_l1 N delta lam thresh)).
  - apply gsafe_ada_rda_ofs.
  - apply gsafe_fofs.
Qed.
Lemma end_of P k : end_ok (alg_of N k) (inv_of P k).
Proof.
  destruct k; cbn [alg_of inv_of]; try (now apply end_none_ok).
  - apply end_stg.
  - apply end_fobos_l1.
  - apply end_rda.
  - apply end_rda_l1.
  - apply end_erda_l1.
  - apply end_sop.
  - apply end_ada_fobos_l1.
  - apply end_ada_rda.
  - apply end_ada_rda_l1.
  - apply end_ada_rda_ofs.
Qed.
Lemma begin_of P k : begin_ok (alg_of N k) (pre_of P k) (inv_of P k).
Proof.
  destruct k; cbn [alg_of inv_of pre_of]; try (now apply begin_none_ok).
  - apply begin_stg.
  - intros c e Hc Hp. now apply sel1_begin_ok.
  - intros c e Hc _. eexists _, _. split; [reflexivity|]. split; [split; [exact Hc|split; reflexivity]|exact I].
  - intros c e Hc Hp. unfold sofs. cbn [a_begin].
    destruct (sel2_begin_ok N P B (cmp_max N) one c e Hc Hp) as (s' & H1 & H2 & H3). eauto.
  - intros c e Hc Hp. unfold ada_fobos_ofs. cbn [a_begin].
    destruct (sel2_begin_ok N P B (cmp_min N) delta c e Hc Hp) as (s' & H1 & H2 & H3). eauto.
  - apply sel2u_begin_ok.
  - intros c e Hc Hp. now apply sel1_begin_ok.
Qed.
Lemma inv_pre k ws d e : inv_of False k ws d e -> pre_of False k ws d e.
Proof.
  destruct k; cbn [inv_of pre_of]; auto using sel1_inv_pre, sel2_inv_pre.
  intros (H1 & H2). split; auto using sel2_inv_pre.
Qed.
Lemma begin_again k : begin_ok (alg_of N k) (inv_of False k) (inv_of False k).
Proof. intros c e Hc HI. apply (begin_of False k c e Hc). now apply inv_pre. Qed.

Lemma shape_repeat (v : R) n : shape n 1 (repeat [v] n).
Proof.
  split; [apply repeat_length|]. rewrite Forall_forall. intros w Hw. apply repeat_spec in Hw. now subst.
Qed.
Lemma shape2_repeat (u v : R) n : shape2 n 1 (repeat ([u], [v]) n).
Proof.
  split; [apply repeat_length|]. rewrite Forall_forall. intros w Hw. apply repeat_spec in Hw. now subst.
Qed.
Lemma blank_1 ws : blank N 1 ws.
Proof. intros i Hi. lia. Qed.
Lemma pre_init P k n : pre_of P k (repeat [zero] n) 1 (init_of N k n).
Proof.
  assert (L : length (repeat [zero] n) = n) by apply repeat_length.
  assert (B1 : P -> blank N 1 (repeat [zero] n)) by (intros _; apply blank_1).
  destruct k; cbn [pre_of inv_of init_of]; try exact I; try reflexivity; rewrite ?L;
    try apply shape_repeat; try apply shape2_repeat.
  - split; [now left|]. split; auto.
  - split; [reflexivity|]. cbn [snd]. rewrite ?L. apply shape_repeat.
  - unfold sel2_pre. rewrite L. split; [apply shape_repeat|]. split; [now left|]. split; auto.
  - split; [cbn [fst]; rewrite ?L; apply shape_repeat|reflexivity].
  - unfold sel2_pre. rewrite L. split; [apply shape_repeat|]. split; [now left|]. split; auto.
  - split; cbn [fst snd]; [|rewrite L; apply shape_repeat].
    unfold sel2_pre. rewrite L. split; [apply shape_repeat|]. split; [now left|]. split; auto.
  - split; [now left|]. split; auto.
Qed.
Lemma fresh_wf n c : fresh N n c -> wf_core c /\ length (c_ws c) = n.
Proof.
  intros (Hn & Hw & Hd & Hg & _). 
  assert (L : length (c_ws c) = n) by (rewrite Hw; apply repeat_length).
  split; auto. split; [lia|]. split.
  - intros E0. rewrite E0 in L. simpl in L. lia.
  - split; [|lia]. rewrite Hw, Hd. apply (proj2 (shape_repeat zero n)).
Qed.

Lemma session_of (P : Prop) k n c0 loss us pre : fresh N n c0 -> c_loss c0 = loss -> loss_ok n loss ->
  (In UReset us -> P -> False) -> Forall (use_ok (lo_of k) n pre) us ->
  exists c e r, session N (alg_of N k) pre us (c0, init_of N k n, true) = Some (c, e, r) /\
    wf_core c /\ length (c_ws c) = n /\ c_loss c = loss /\
    ((c = c0 /\ e = init_of N k n /\ r = true) \/ inv_of P k (c_ws c) (c_dim c) e).
Proof.
  intros Hf Hl Hk HP HU. destruct (fresh_wf n c0 Hf) as (Hc & Hn).
  assert (Hlo : 0 <= lo_of k) by (destruct k; cbn; lia).
  assert (HR : In UReset us -> begin_ok (alg_of N k) (inv_of P k) (inv_of P k)).
  { intros Hin c e Hc' HI. assert (HPF : P -> False) by auto.
    assert (W1 : forall ws d x, inv_of P k ws d x -> inv_of False k ws d x).
    { intros ws d x. destruct k; cbn [inv_of]; auto; unfold sel2u_inv, sel1_inv, sel2_inv; clear; intuition. }
    assert (W2 : forall ws d x, inv_of False k ws d x -> inv_of P k ws d x).
    { intros ws d x. destruct k; cbn [inv_of]; auto; unfold sel2u_inv, sel1_inv, sel2_inv; clear - HPF; intuition. }
    destruct (begin_again k c e Hc' (W1 _ _ _ HI)) as (c1 & e1 & E1 & H1 & H2). exists c1, e1. auto. }
  destruct (session_safe (alg_of N k) (pre_of P k) (inv_of P k) (rel_of k) (lo_of k) n loss pre Hlo
    (gsafe_of P k) (end_of P k) (begin_of P k) Hk us c0 (init_of N k n)) with (c := c0) (e := init_of N k n) (r := true)
    as (c' & e' & r' & E1 & Hst); auto.
  - split; auto.
  - destruct Hf as (_ & Hw & Hd & _). rewrite Hw, Hd. apply pre_init.
  - apply Hf.
  - left. auto.
  - exists c', e', r'. split; [exact E1|]. destruct Hst as [(-> & -> & ->)|((Hc' & Hn' & Hl') & HI)].
    + split; [auto|]. split; [auto|]. split; [auto|]. left. auto.
    + split; [auto|]. split; [auto|]. split; [auto|]. right. auto.
Qed.

(** ** Budget *)
Lemma sparse_budget d h c B : wf_core c -> c_dim c = d -> heap_wf h -> h_K h = B ->
  sparse_in N d h (c_ws c) -> within_budget N B c.
Proof.
  intros Hc Hd (_ & L2 & _) HK HS. exists (map S (h_pos2id h)). split; [rewrite map_length; lia|].
  intros w i v Hw Hi Hn Hv. destruct i as [|i]; [easy|].
  destruct (wf_len c w Hc Hw) as (Lw & _). pose proof (nth_error_len _ _ _ Hv) as Hlt.
  rewrite (HS i) in Hv; [congruence|lia| |auto].
  intros Hkp. apply Hn. apply in_map. exact Hkp.
Qed.
Lemma session_budget k B n c0 loss us pre : budget_of k = Some B -> (1 <= B)%nat -> fresh N n c0 ->
  c_loss c0 = loss -> loss_ok n loss -> ~ In UReset us -> Forall (use_ok (lo_of k) n pre) us ->
  forall c e r, session N (alg_of N k) pre us (c0, init_of N k n, true) = Some (c, e, r) ->
  within_budget N B c.
Proof.
  intros Hb HB Hf Hl Hk Hr HU c e r E.
  destruct (session_of True k n c0 loss us pre Hf Hl Hk) as (c' & e' & r' & E' & Hc & Hn & _ & Hcase);
    [tauto|auto|].
  rewrite E' in E. inv E. destruct Hcase as [(-> & _)|HI].
  - exists []. split; [simpl; lia|]. intros w i v Hw Hi _ Hv. destruct Hf as (_ & Hws & _).
    rewrite Hws in Hw. apply repeat_spec in Hw. subst w. destruct i as [|[|]]; [easy|discriminate..].
  - destruct k; cbn in Hb; inv Hb; cbn [inv_of] in HI.
    + destruct HI as [(-> & _)|(_ & _ & W & _ & HK & HS)]; [lia|]. eapply sparse_budget; eauto.
    + destruct HI as [(-> & _)|(_ & (_ & _ & W & _ & HK) & HS)]; [lia|]. eapply sparse_budget; eauto.
    + destruct HI as [(-> & _)|(_ & (_ & _ & W & _ & HK) & HS)]; [lia|]. eapply sparse_budget; eauto.
    + destruct HI as ([(-> & _)|(_ & (_ & _ & W & _ & HK) & HS)] & _); [lia|]. eapply sparse_budget; eauto.
    + destruct HI as [(-> & _)|(_ & _ & W & _ & HK & HS)]; [lia|]. eapply sparse_budget; eauto.
Qed.
End P.
