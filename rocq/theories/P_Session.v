(** Whole sessions: no registered model ever leaves its arrays, whatever is trained and tested; the
    feature-selection models stay within their budget. *)
From Verif Require Import M_Base M_Num M_Expr M_Loss M_Online M_Olm M_OlmSel M_Heap M_Algs S_Expr
  S_Online S_Heap P_DataPoint P_Expr P_Online P_Predict P_Step P_Safe P_SafeOlm P_Heap P_SafeSel
  P_SafeSel2.
From Coq Require Import Sorted.

Section P.
Context {R : Type}.
Variable N : num R.
Local Notation zero := (zero N).
Local Notation one := (one N).
Local Notation len_is d := (fun w : list R => length w = d).

(** What EndTrain keeps. *)
Definition ended (c c' : core (R:=R)) : Prop :=
  wf_core c' /\ length (c_ws c') = length (c_ws c) /\ c_dim c' = c_dim c /\ c_loss c' = c_loss c.
Definition end_ok {E} (a : alg (R:=R) E) (I : list (list R) -> nat -> E -> Prop) : Prop :=
  forall c e, wf_core c -> I (c_ws c) (c_dim c) e ->
  exists c' e', a_end a c e = Some (c', e') /\ ended c c' /\ I (c_ws c') (c_dim c') e'.
(** What BeginTrain keeps; the dimension may grow. *)
Definition begun (c c' : core (R:=R)) : Prop :=
  wf_core c' /\ length (c_ws c') = length (c_ws c) /\ c_loss c' = c_loss c.
Definition begin_ok {E} (a : alg (R:=R) E) (J I : list (list R) -> nat -> E -> Prop) : Prop :=
  forall c e, wf_core c -> J (c_ws c) (c_dim c) e ->
  exists c' e', a_begin a c e = Some (c', e') /\ begun c c' /\ I (c_ws c') (c_dim c') e'.

Lemma ended_same_len c ws b : wf_core (R:=R) c -> Forall2 same_len (c_ws c) ws ->
  ended c (set_updated (set_ws c ws) b).
Proof.
  intros Hc H. assert (F : framed same_len c (set_ws c ws)) by now apply framed_set_ws.
  destruct (framed_wf _ _ _ wrel_len F Hc) as (Hw & Hl).
  split; [exact Hw|]. split; [exact Hl|]. split; reflexivity.
Qed.
Lemma ended_wf c ws b : wf_core (R:=R) c -> length ws = length (c_ws c) ->
  Forall (len_is (c_dim c)) ws -> ended c (set_updated (set_ws c ws) b).
Proof.
  intros Hc L F. apply ended_same_len; auto. eapply lens_rel; eauto. apply Hc.
Qed.
(** Finalising keeps the sizes. *)
Lemma finalize_shape th n d ws : shape (R:=R) n d ws -> shape n d (map (finalize_l1 N th) ws).
Proof.
  intros (L & F). split; [now rewrite map_length|]. rewrite Forall_forall in *. intros w Hw.
  apply in_map_iff in Hw as (u & <- & Hu). unfold finalize_l1. rewrite map_length. auto.
Qed.
Lemma wf_shape c : wf_core (R:=R) c -> shape (length (c_ws c)) (c_dim c) (c_ws c).
Proof. intros Hc. split; auto. apply Hc. Qed.
Lemma end_none_ok {E} (a : alg (R:=R) E) I : a_end a = end_none -> end_ok a I.
Proof.
  intros Ha c e Hc HI. rewrite Ha. exists (set_updated c false), e. split; [reflexivity|].
  split; [|exact HI]. split; [exact Hc|]. repeat split.
Qed.
Lemma begin_none_ok {E} (a : alg (R:=R) E) I : a_begin a = begin_none -> begin_ok a I I.
Proof.
  intros Ha c e Hc HI. rewrite Ha. exists c, e. split; [reflexivity|].
  split; [|exact HI]. split; [exact Hc|]. repeat split.
Qed.

(** mapM and zip_class over the classes with size-preserving bodies. *)
Lemma mapM_shape (f : list R -> option (list R)) n d ws : shape n d ws ->
  (forall w, In w ws -> exists w', f w = Some w' /\ length w' = d) ->
  exists ws', mapM f ws = Some ws' /\ shape n d ws'.
Proof.
  intros (L & F) H. subst n. clear F. induction ws as [|w ws IH]; cbn [mapM].
  - exists []. repeat split. constructor.
  - destruct (H w (or_introl eq_refl)) as (w' & E & Lw). rewrite E. cbn [bind].
    destruct IH as (ws' & E' & (L' & F')). { intros. apply H. now right. }
    rewrite E'. cbn [bind]. eexists. split; [reflexivity|]. split; simpl; auto.
Qed.
Lemma zip_shape {A} (f : list R -> A -> option (list R)) (J : A -> Prop) d ws es :
  length es = length ws -> Forall (len_is d) ws -> Forall J es ->
  (forall w e, length w = d -> J e -> exists w', f w e = Some w' /\ length w' = d) ->
  exists ws', zip_class f ws es = Some ws' /\ shape (length ws) d ws'.
Proof.
  intros HL HF HJ H. revert es HL HJ. induction ws as [|w ws IH]; intros [|e es] HL HJ;
    simpl in HL; try lia; cbn [zip_class].
  - exists []. repeat split. constructor.
  - inversion HF; subst. inversion HJ; subst. destruct (H w e) as (w' & E & Lw); auto. rewrite E. cbn [bind].
    destruct (IH H3 es) as (ws' & E' & (L' & F')); [lia|auto|]. rewrite E'. cbn [bind].
    eexists. split; [reflexivity|]. split; simpl; auto.
Qed.
Lemma dense_len (op : R -> R -> R) e (w : list R) d : length w = d -> dense_eq d e ->
  (typ e = Some TDense \/ typ e = Some TValue) ->
  exists w', calc op w e = Some w' /\ length w' = d.
Proof.
  intros <- H Ht. rewrite (calc_dense zero) by auto. eexists. split; [reflexivity|]. apply imap_length.
Qed.
Ltac dense_step w' Lw :=
  match goal with |- context [calc ?op ?w ?e] =>
    let E := fresh "E" in
    destruct (dense_len op e w (length w)) as (w' & E & Lw);
      [reflexivity | simpl; repeat split; auto; try lia; try congruence | simpl; auto |
       rewrite E; cbn [bind]; clear E]
  end.
Ltac end_done := eexists _, _; split; [reflexivity|].

(** ** EndTrain *)
Lemma end_stg eta0 power_t lam th k : end_ok (stg N eta0 power_t lam th k)
  (fun _ d last => length last = d).
Proof.
  intros c last Hc HI. unfold stg. cbn [a_end]. unfold stg_end.
  match goal with |- context [mapM ?f (c_ws c)] =>
    destruct (mapM_shape f _ _ _ (wf_shape c Hc)) as (ws & E & Hs) end.
  { intros w Hw. destruct (wf_len c w Hc Hw) as (Lw & _).
    apply dense_len; simpl; auto. }
  rewrite E. cbn [bind]. end_done.
  pose proof (finalize_shape th _ _ _ Hs) as (L & F). split; [|exact HI].
  unfold linear_end. cbn [c_ws set_ws]. apply (ended_wf c _ false); auto.
Qed.
Lemma end_fobos_l1 eta0 power_t : end_ok (fobos_l1 N eta0 power_t)
  (fun _ d z => length (z_last z) = d).
Proof.
  intros c z Hc HI. unfold fobos_l1. cbn [a_end]. unfold fobos_end.
  match goal with |- context [mapM ?f (c_ws c)] =>
    destruct (mapM_shape f _ _ _ (wf_shape c Hc)) as (ws & E & Hs) end.
  { intros w Hw. destruct (wf_len c w Hc Hw) as (Lw & L1). cbv beta.
    dense_step w1 Lw1. rewrite (upd0_spec N) by lia. eexists. split; [reflexivity|].
    rewrite upd_length. lia. }
  rewrite E. cbn [bind]. end_done.
  pose proof (finalize_shape (z_thresh z) _ _ _ Hs) as (L & F). split; [|exact HI].
  unfold linear_end. cbn [c_ws set_ws]. apply (ended_wf c _ false); auto.
Qed.
(** The RDA family: the weights are recomputed from the gradient sums. *)
Lemma rda_assign_dense c e f ut : wf_core c -> shape (length (c_ws c)) (c_dim c) ut ->
  (forall u : list R, length u = c_dim c -> dense_eq (c_dim c) (e u) /\ typ (e u) = Some TDense) ->
  exists ws, rda_assign N c e f ut = Some (set_ws c ws) /\ shape (length (c_ws c)) (c_dim c) ws.
Proof.
  intros Hc (L & F) He. unfold rda_assign.
  match goal with |- context [zip_class ?f (c_ws c) ut] =>
    destruct (zip_shape f (len_is (c_dim c)) (c_dim c) (c_ws c) ut) as (ws & E & Hs) end; auto.
  { apply Hc. }
  { intros w u Lw Lu. cbv beta. destruct (He u Lu) as (H1 & H2). pose proof (proj1 Hc).
    edestruct (dense_len assign (emul N (EScalar (n_opp N (c_eta c))) (e u)) w (c_dim c)) as (w1 & E & L1);
      [auto|simpl; auto|simpl; rewrite H2; auto|].
    rewrite E. cbn [bind]. rewrite (rd0 N) by lia. cbn [bind]. rewrite wr_upd by lia.
    eexists. split; [reflexivity|]. now rewrite upd_length. }
  rewrite E. cbn [bind]. eauto.
Qed.
Lemma end_rda sigma : end_ok (rda N sigma) (fun ws => shape (length ws)).
Proof.
  intros c ut Hc HI. unfold rda. cbn [a_end]. unfold rda_end. cbv zeta.
  match goal with |- context [rda_assign N ?c1 ?e ?f ut] =>
    destruct (rda_assign_dense c1 e f ut Hc HI) as (ws & E & (L & F)) end; [simpl; auto|].
  rewrite E. cbn [bind]. end_done. split; [apply (ended_wf c _ false); auto|].
  cbn [c_ws c_dim set_updated set_ws set_eta] in *. now rewrite L.
Qed.
Lemma end_rda_l1 sigma lam th : end_ok (rda_l1 N sigma lam th) (fun ws => shape (length ws)).
Proof.
  intros c ut Hc HI. unfold rda_l1. cbn [a_end]. unfold rda_l1_end. cbv zeta.
  match goal with |- context [rda_assign N ?c1 ?e ?f ut] =>
    destruct (rda_assign_dense c1 e f ut Hc HI) as (ws & E & Hs) end; [simpl; auto|].
  rewrite E. cbn [bind]. end_done. pose proof (finalize_shape th _ _ _ Hs) as (L & F).
  cbn [c_ws c_dim set_updated set_ws set_eta] in *.
  split; [apply (ended_wf c _ false); auto|]. cbn. now rewrite L.
Qed.
Lemma end_erda_l1 sigma lam rou th : end_ok (erda_l1 N sigma lam rou th) (fun ws => shape (length ws)).
Proof.
  intros c ut Hc HI. unfold erda_l1. cbn [a_end]. unfold erda_l1_end. cbv zeta.
  match goal with |- context [rda_assign N ?c1 ?e ?f ut] =>
    destruct (rda_assign_dense c1 e f ut Hc HI) as (ws & E & Hs) end; [simpl; auto|].
  rewrite E. cbn [bind]. end_done. pose proof (finalize_shape th _ _ _ Hs) as (L & F).
  cbn [c_ws c_dim set_updated set_ws set_eta] in *.
  split; [apply (ended_wf c _ false); auto|]. cbn. now rewrite L.
Qed.
Lemma end_sop a : end_ok (sop N a) (fun ws d s => length (fst s) = d /\ shape (length ws) d (snd s)).
Proof.
  intros c (X, v) Hc (HX & L & F). cbn [fst snd] in *. unfold sop. cbn [a_end]. unfold sop_end.
  match goal with |- context [zip_class ?f (c_ws c) v] =>
    destruct (zip_shape f (len_is (c_dim c)) (c_dim c) (c_ws c) v) as (ws & E & (Lw & Fw)) end; auto.
  { apply Hc. }
  { intros w u Hw Hu. apply dense_len; simpl; auto. }
  rewrite E. cbn [bind]. end_done. split; [apply (ended_wf c _ false); auto|].
  cbn. rewrite Lw. repeat split; auto.
Qed.
Lemma end_ada_fobos_l1 delta : end_ok (ada_fobos_l1 N delta)
  (fun ws d s => shape (length ws) d (fst s) /\ length (z_last (snd s)) = d).
Proof.
  intros c (Hs, z) Hc ((L & F) & Hz). cbn [fst snd] in *. unfold ada_fobos_l1. cbn [a_end].
  unfold ada_fobos_l1_end. pose proof (proj1 Hc) as Hd.
  match goal with |- context [zip_class ?f (c_ws c) Hs] =>
    destruct (zip_shape f (len_is (c_dim c)) (c_dim c) (c_ws c) Hs) as (ws & E & S) end; auto.
  { apply Hc. }
  { intros w u Hw Hu. cbv beta. dense_step w1 Lw1. rewrite (rd0 N) by lia. cbn [bind].
    rewrite (upd0_spec N) by lia. eexists. split; [reflexivity|]. rewrite upd_length. lia. }
  rewrite E. cbn [bind]. end_done. pose proof (finalize_shape (z_thresh z) _ _ _ S) as (Lw & Fw).
  unfold linear_end. cbn [c_ws set_ws].
  split; [apply (ended_wf c _ false); auto|]. cbn. rewrite Lw. repeat split; auto.
Qed.
Lemma ada_assign_dense eta b0 e w H d : (1 <= d)%nat -> length w = d -> length H = d ->
  dense_eq d e -> typ e = Some TDense ->
  exists w', ada_rda_assign N eta b0 e w H = Some w' /\ length w' = d.
Proof.
  intros Hd Hw HH He Ht. unfold ada_rda_assign.
  destruct (dense_len assign (ediv N (emul N (EScalar (n_opp N eta)) e) (EDense H)) w d)
    as (w1 & E & L1); auto; [simpl; auto|simpl; rewrite Ht; auto|].
  rewrite E. cbn [bind]. rewrite (upd0_spec N) by lia. eexists. split; [reflexivity|].
  rewrite upd_length. lia.
Qed.
Lemma end_ada_rda delta : end_ok (ada_rda N delta) (fun ws => shape2 (length ws)).
Proof.
  intros c s Hc (L & F). unfold ada_rda. cbn [a_end]. unfold ada_rda_end.
  match goal with |- context [zip_class ?f (c_ws c) s] =>
    destruct (zip_shape f (fun Hu => length (fst Hu) = c_dim c /\ length (snd Hu) = c_dim c)
      (c_dim c) (c_ws c) s) as (ws & E & (Lw & Fw)) end; auto.
  { apply Hc. }
  { intros w Hu Hw (H1 & H2). apply ada_assign_dense; auto. apply Hc. }
  rewrite E. cbn [bind]. end_done. split; [apply (ended_wf c _ false); auto|].
  cbn. rewrite Lw. split; auto.
Qed.
Lemma end_ada_rda_l1 delta lam th : end_ok (ada_rda_l1 N delta lam th) (fun ws => shape2 (length ws)).
Proof.
  intros c s Hc (L & F). unfold ada_rda_l1. cbn [a_end]. unfold ada_rda_l1_end. cbv zeta.
  match goal with |- context [zip_class ?f (c_ws c) s] =>
    destruct (zip_shape f (fun Hu => length (fst Hu) = c_dim c /\ length (snd Hu) = c_dim c)
      (c_dim c) (c_ws c) s) as (ws & E & S) end; auto.
  { apply Hc. }
  { intros w Hu Hw (H1 & H2). apply ada_assign_dense; simpl; auto. apply Hc. }
  rewrite E. cbn [bind]. end_done. pose proof (finalize_shape th _ _ _ S) as (Lw & Fw).
  unfold linear_end. cbn [c_ws set_ws].
  split; [apply (ended_wf c _ false); auto|]. cbn. rewrite Lw. split; auto.
Qed.
Lemma end_ada_rda_ofs P delta B : end_ok (ada_rda_ofs N delta B) (sel2u_inv N P B).
Proof.
  intros c (s, ut) Hc (HI & Hu). cbn [fst snd] in *. unfold ada_rda_ofs. cbn [a_end].
  unfold ada_rda_ofs_end.
  pose proof (combine_shape2 _ _ _ _ (sel2_inv_shape N _ _ _ _ _ HI) Hu) as (L & F).
  match goal with |- context [zip_class ?f (c_ws c) ?es] =>
    destruct (zip_shape f (fun Hu => length (fst Hu) = c_dim c /\ length (snd Hu) = c_dim c)
      (c_dim c) (c_ws c) es) as (ws & E & (Lw & Fw)) end; auto.
  { apply Hc. }
  { intros w Hv Hw (H1 & H2). apply ada_assign_dense; auto. apply Hc. }
  rewrite E. cbn [bind].
  destruct HI as [(-> & HK & Hv)|(HB & Hs & HP)].
  - end_done. split; [apply (ended_wf c _ false); auto|].
    split; cbn [fst snd c_ws set_updated set_ws c_dim]; rewrite ?Lw; auto. left. rewrite Lw. auto.
  - destruct B as [|B]; [lia|]. pose proof (scores_len _ _ _ _ Hs) as Lsc.
    pose proof Hs as (Hv & Hsum & Hh & HN & HK). pose proof (proj1 Hc) as Hd.
    destruct (offer_ids_ok N (cmp_min N) (c_dim c) (skipn 1 (sel2_scores s))
      (map Z.of_nat (seq 0 (c_dim c - 1))) (s_heap s) ws (fun _ => False))
      as (h & ws' & E' & W & EN & EK & HF' & Lw' & Hz); auto.
    { rewrite skipn_length. lia. }
    { intros i Hi. apply in_map_iff in Hi as (k & <- & Hk). apply in_seq in Hk. lia. }
    { tauto. }
    rewrite E'. cbn [bind]. end_done.
    split; [apply (ended_wf c _ false); auto; lia|].
    split; cbn [fst snd c_ws set_updated set_ws c_dim]; [|rewrite Lw', Lw; auto].
    right. rewrite Lw', Lw. split; auto. split.
    + split; [exact Hv|]. split; [exact Hsum|]. cbn [s_heap]. split; auto. split; congruence.
    + intros _ j Hj Hnk. apply Hz; auto. right. apply in_map_iff. exists j. split; auto.
      apply in_seq. lia.
Qed.

(** ** BeginTrain *)
Lemma begin_stg eta0 power_t lam th k : begin_ok (stg N eta0 power_t lam th k)
  (fun _ _ _ => True) (fun _ d last => length last = d).
Proof.
  intros c e Hc _. end_done. split; [split; [exact Hc|]; repeat split|]. apply repeat_length.
Qed.
(** All weights besides the bias are zero. *)
Definition blank (d : nat) (ws : list (list R)) : Prop := forall i, (S i < d)%nat -> zeroed N ws i.
Lemma blank_grow d c : wf_core c -> blank (c_dim c) (c_ws c) ->
  blank (Nat.max (c_dim c) d) (c_ws (linear_update_dim N d c)).
Proof.
  intros Hc H i Hi. apply (sparse_grow N d c heap_empty Hc); auto.
  intros j Hj _. now apply H.
Qed.
Lemma begun_grow d c : wf_core c -> begun c (linear_update_dim N d c).
Proof.
  intros Hc. destruct (wf_update_dim N d c Hc) as (H1 & H2 & H3). split; auto. split; auto.
  unfold linear_update_dim. destruct (_ <? _)%nat; reflexivity.
Qed.
Lemma begun_refl c : wf_core (R:=R) c -> begun c c.
Proof. intros. split; auto. Qed.
(** A heap before BeginTrain: not yet set up, or of the right size. *)
Definition heap_pre (d : nat) (h : heap) : Prop := h_K h = O \/ (heap_wf h /\ h_N h = (d - 1)%nat).
Definition sel1_pre (P : Prop) (B : nat) (ws : list (list R)) (d : nat) (s : sel1 (R:=R)) : Prop :=
  heap_pre d (snd s) /\ (P -> blank d ws) /\ (B = O -> h_K (snd s) = O).
Lemma add_abs_all_ok d ws : forall ab, Forall (len_is d) ws -> length ab = d ->
  exists ab', add_abs_all N ws ab = Some ab' /\ length ab' = d.
Proof.
  induction ws as [|w ws IH]; intros ab HF Hl; cbn [add_abs_all]; [eauto|]. inversion HF; subst.
  destruct (dense_len (n_add N) (eL1 N (EDense w)) ab (length w)) as (a1 & E & L1);
    [auto|simpl; auto|simpl; auto|].
  rewrite E. cbn [bind]. apply IH; auto; congruence.
Qed.
Lemma sel1_begin_grow P B c s : wf_core c -> sel1_pre P (S B) (c_ws c) (c_dim c) s ->
  exists c1 s1, (if (c_dim c <? S B + 1)%nat then sel1_grow N (S B + 1) c s else Some (c, s)) = Some (c1, s1)
  /\ begun c c1 /\ (S B + 1 <= c_dim c1)%nat /\ (P -> blank (c_dim c1) (c_ws c1)).
Proof.
  intros Hc (Hh & HP & _). destruct s as (ab, h). cbn [snd] in Hh.
  destruct (Nat.ltb_spec (c_dim c) (S B + 1)) as [Hd|Hd].
  - unfold sel1_grow. replace (c_dim c <? S B + 1)%nat with true by lia.
    destruct (wf_update_dim N (S B + 1) c Hc) as (_ & Ed & _).
    assert (Eh : exists h', heap_set_N h (S B + 1 - 1) = Some h').
    { destruct Hh as [HK|(Hh & HN)].
      - unfold heap_set_N. rewrite HK. eauto.
      - destruct (set_N_spec h (S B + 1 - 1) Hh) as (h' & E & _); [lia|]. eauto. }
    destruct Eh as (h' & ->). cbn [bind]. eexists _, _. split; [reflexivity|].
    split; [now apply begun_grow|]. split; [lia|]. intros HPp. rewrite Ed. apply blank_grow; auto.
  - eexists _, _. split; [reflexivity|]. split; [now apply begun_refl|]. auto.
Qed.
Lemma sel1_begin_ok P B c s : wf_core c -> sel1_pre P B (c_ws c) (c_dim c) s ->
  exists c' s', sel1_begin N B c s = Some (c', s') /\ begun c c' /\
    sel1_inv N P B (c_ws c') (c_dim c') s'.
Proof.
  intros Hc Hpre. unfold sel1_begin. destruct B as [|B].
  - exists c, s. split; [reflexivity|]. split; [now apply begun_refl|]. left. split; auto. now apply Hpre.
  - destruct (sel1_begin_grow P B c s Hc Hpre) as (c1 & s1 & E & Hb & Hd & HP). rewrite E. cbn [bind].
    destruct (add_abs_all_ok (c_dim c1) (c_ws c1) (repeat zero (c_dim c1))) as (ab & E1 & L1).
    { apply (proj1 Hb). }
    { apply repeat_length. }
    rewrite E1. cbn [bind].
    destruct (heap_init_spec (cmp_min N) (skipn 1 ab) (c_dim c1 - 1) (S B)) as (h & Eh & W & EN & EK & _);
      [lia|rewrite skipn_length; lia|].
    rewrite Eh. cbn [bind]. eexists _, _. split; [reflexivity|]. split; [exact Hb|].
    right. cbn [fst snd]. split; [lia|]. split; [auto|]. split; [auto|]. split; [auto|]. split; [auto|].
    intros HPp i Hi _. apply HP; auto.
Qed.
Lemma sel1_inv_pre B ws d s : sel1_inv N False B ws d s -> sel1_pre False B ws d s.
Proof.
  intros [(-> & H)|(H1 & H2 & H3 & H4 & H5 & _)]; (split; [|split; [easy|]]); auto.
  - now left.
  - right. auto.
  - lia.
Qed.

Definition sel2_pre (P : Prop) (B : nat) (ws : list (list R)) (d : nat) (s : sel2 (R:=R)) : Prop :=
  shape (length ws) d (s_vecs s) /\ heap_pre d (s_heap s) /\ (P -> blank d ws) /\
  (B = O -> h_K (s_heap s) = O).
Lemma add_vecs_ok d vs : forall acc, Forall (len_is d) vs -> length acc = d ->
  exists acc', add_vecs N vs acc = Some acc' /\ length acc' = d.
Proof.
  induction vs as [|w ws IH]; intros ab HF Hl; cbn [add_vecs]; [eauto|]. inversion HF; subst.
  destruct (dense_len (n_add N) (EDense w) ab (length w)) as (a1 & E & L1);
    [auto|simpl; auto|simpl; auto|].
  rewrite E. cbn [bind]. apply IH; auto; congruence.
Qed.
Lemma sel2_begin_grow P B a c s : wf_core c -> sel2_pre P (S B) (c_ws c) (c_dim c) s ->
  exists s1, (if (c_dim c <? S B + 1)%nat then sel2_grow N a (S B + 1) c s else Some (c, s))
     = Some (linear_update_dim N (S B + 1) c, s1)
  /\ shape (length (c_ws c)) (c_dim (linear_update_dim N (S B + 1) c)) (s_vecs s1)
  /\ (P -> blank (c_dim (linear_update_dim N (S B + 1) c)) (c_ws (linear_update_dim N (S B + 1) c))).
Proof.
  intros Hc (Hv & Hh & HP & _).
  destruct (wf_update_dim N (S B + 1) c Hc) as (_ & Ed & _). rewrite Ed.
  destruct (Nat.ltb_spec (c_dim c) (S B + 1)) as [Hd|Hd].
  - unfold sel2_grow, sigma_grow. replace (c_dim c <? S B + 1)%nat with true by lia. cbn [bind].
    assert (Eh : exists h', heap_set_N (s_heap s) (S B + 1 - 1) = Some h').
    { destruct Hh as [HK|(Hh & HN)].
      - unfold heap_set_N. rewrite HK. eauto.
      - destruct (set_N_spec (s_heap s) (S B + 1 - 1) Hh) as (h' & E & _); [lia|]. eauto. }
    destruct Eh as (h' & ->). cbn [bind]. eexists. split; [reflexivity|]. split.
    + cbn [s_vecs]. pose proof (shape_grow _ _ (S B + 1) a _ Hv) as Hg.
      now replace (c_dim c <? S B + 1)%nat with true in Hg by lia.
    + intros. apply blank_grow; auto.
  - rewrite linear_grow_eq by lia. replace (Nat.max (c_dim c) (S B + 1)) with (c_dim c) by lia. eauto.
Qed.
Lemma sel2_begin_ok P B cmp a c s : wf_core c -> sel2_pre P B (c_ws c) (c_dim c) s ->
  exists s', sel2_begin N cmp a B c s
      = Some (match B with O => c | _ => linear_update_dim N (B + 1) c end, s') /\
    begun c (match B with O => c | _ => linear_update_dim N (B + 1) c end) /\
    sel2_inv N P B (c_ws (match B with O => c | _ => linear_update_dim N (B + 1) c end))
      (c_dim (match B with O => c | _ => linear_update_dim N (B + 1) c end)) s'.
Proof.
  intros Hc Hpre. unfold sel2_begin. destruct B as [|B].
  - exists s. split; [reflexivity|]. split; [now apply begun_refl|]. left.
    destruct Hpre as (H1 & H2 & H3 & H4). auto.
  - destruct (sel2_begin_grow P B a c s Hc Hpre) as (s1 & E & Hv & HP). rewrite E. cbn [bind].
    pose proof (begun_grow (S B + 1) c Hc) as Hb.
    destruct (wf_update_dim N (S B + 1) c Hc) as (_ & Ed & _).
    set (c1 := linear_update_dim N (S B + 1) c) in *.
    assert (Es : exists sum, match s_vecs s1 with [_] => Some (s_sum s1)
       | vs => add_vecs N vs (repeat zero (c_dim c1)) end = Some sum /\
       (length (c_ws c1) <> 1%nat -> length sum = c_dim c1)).
    { destruct Hv as (L & F). rewrite <- (proj1 (proj2 Hb)) in L.
      destruct (s_vecs s1) as [|v [|v2 vs]] eqn:Ev.
      - edestruct (add_vecs_ok (c_dim c1) [] (repeat zero (c_dim c1))) as (sm & Ea & La);
          [constructor|apply repeat_length|]. eauto.
      - eexists. split; [reflexivity|]. simpl in L. lia.
      - edestruct (add_vecs_ok (c_dim c1) (v :: v2 :: vs) (repeat zero (c_dim c1))) as (sm & Ea & La);
          [exact F|apply repeat_length|]. eauto. }
    destruct Es as (sum & -> & Hsum). cbn [bind].
    assert (Lsc : length (sel2_scores (mksel2 (s_vecs s1) sum (s_heap s1))) = c_dim c1).
    { destruct Hv as (L & F). rewrite <- (proj1 (proj2 Hb)) in L. unfold sel2_scores. cbn [s_vecs s_sum].
      destruct (s_vecs s1) as [|v [|v2 vs]] eqn:Ev.
      - apply Hsum. simpl in L. lia.
      - now inversion F.
      - apply Hsum. simpl in L. lia. }
    destruct (heap_init_spec cmp (skipn 1 (sel2_scores (mksel2 (s_vecs s1) sum (s_heap s1))))
      (c_dim c1 - 1) (S B)) as (h & Eh & W & EN & EK & _); [lia|rewrite skipn_length; lia|].
    rewrite Eh. cbn [bind]. eexists. split; [reflexivity|]. split; [exact Hb|].
    right. split; [lia|]. split.
    + rewrite <- (proj1 (proj2 Hb)) in Hv. split; [exact Hv|]. split; [exact Hsum|]. auto.
    + intros HPp i Hi _. apply HP; auto.
Qed.
Lemma sel2_inv_pre B ws d s : sel2_inv N False B ws d s -> sel2_pre False B ws d s.
Proof.
  intros [(-> & H & Hv)|(H1 & (Hv & Hs & Hh & HN & HK) & _)];
    (split; [auto|split; [|split; [easy|]]]); auto.
  - now left.
  - right. auto.
  - lia.
Qed.
Definition sel2u_pre (P : Prop) (B : nat) (ws : list (list R)) (d : nat) (su : sel2u (R:=R)) : Prop :=
  sel2_pre P B ws d (fst su) /\ shape (length ws) d (snd su).
Lemma sel2u_begin_ok P B delta : begin_ok (ada_rda_ofs N delta B) (sel2u_pre P B) (sel2u_inv N P B).
Proof.
  intros c (s, ut) Hc (Hs & Hu). cbn [fst snd] in *. unfold ada_rda_ofs. cbn [a_begin fst snd].
  destruct (sel2_begin_ok P B (cmp_min N) delta c s Hc Hs) as (s' & E & Hb & HI).
  rewrite E. cbn [bind]. end_done. split; [exact Hb|]. split; cbn [fst snd]; auto.
  rewrite (proj1 (proj2 Hb)). destruct B as [|B].
  - replace (c_dim c <? c_dim c)%nat with false by lia. auto.
  - destruct (wf_update_dim N (S B + 1) c Hc) as (_ & Ed & _). rewrite Ed.
    pose proof (shape_grow _ _ (Nat.max (c_dim c) (S B + 1)) zero _ Hu) as Hg.
    replace (Nat.max (c_dim c) (Nat.max (c_dim c) (S B + 1))) with (Nat.max (c_dim c) (S B + 1)) in Hg by lia.
    exact Hg.
Qed.
End P.
