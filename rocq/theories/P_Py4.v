(** Proofs for M_Py: single calls. *)
From Coq Require Import String.
From Verif Require Import M_Base M_Num M_Expr M_Text M_Str M_Cmd M_Capi P_Capi M_Py S_Py P_Py P_Py2 P_Py3.
Local Open Scope list_scope.
Local Open Scope Z_scope.

Section P.
Context {R MD W C : Type}.
Variable N : num R.
Variable Y : pylib R MD W C.
Notation state := (st (model MD) (list reader) W).

Lemma load_src d pass o (s : state) : iter_at (o_iter o) s = Some [] ->
  match source d pass with
  | None => load_data N Y d pass o s = PRaise o s
  | Some r => if y_good Y r (s_world s) then load_data N Y d pass o s = PRet tt o (store (o_iter o) (OIter [r]) s)
              else load_data N Y d pass o s = PRaise o (store (o_iter o) (OIter []) s)
  end.
Proof.
  intros Ei. destruct d as [p [f|]|x y]; cbn [source]; [|reflexivity|]; unfold load_data, sol_load_data; rewrite Ei; cbn [l_add py_library]; unfold add_reader;
  match goal with |- context [y_good Y ?r (s_world s)] => destruct (y_good Y r (s_world s)) end; reflexivity.
Qed.
Lemma src_readable alive d pass r : labelled alive d -> source d pass = Some r -> forallb (readable alive) [r] = true.
Proof.
  destruct d as [p [f|]|x y]; cbn; intros H E; inversion E; subst; cbn; [reflexivity|]. destruct H as (A & y' & -> & B). now rewrite A, B.
Qed.
Lemma loaded d pass o (s : state) m cb : ready o s m cb ->
  match source d pass with
  | None => exists s1, load_data N Y d pass o s = PRaise o s1 /\ ready o s1 m cb /\ s_world s1 = s_world s
  | Some r => if y_good Y r (s_world s) then exists s1, load_data N Y d pass o s = PRet tt o s1 /\ model_at (o_model o) s1 = Some (m, cb) /\ iter_at (o_iter o) s1 = Some [r] /\ s_world s1 = s_world s
              else exists s1, load_data N Y d pass o s = PRaise o s1 /\ ready o s1 m cb /\ s_world s1 = s_world s
  end.
Proof.
  intros (Em & Ei). assert (Ld := load_src d pass o s Ei). destruct (source d pass) as [r|].
  - destruct (y_good Y r (s_world s)).
    + destruct (put_iter [] o s [] [r] Ei) as (A & B & _ & E). eexists. split; [exact Ld|]. auto.
    + destruct (put_iter [] o s [] [] Ei) as (A & B & _ & E). eexists. split; [exact Ld|]. split; [split; auto|auto].
  - exists s. split; [exact Ld|]. split; [split; auto|auto].
Qed.
Lemma fit_one alive d pass o (s : state) m cb : ready o s m cb -> labelled alive d -> callable alive cb = true ->
  match source d pass with
  | None => exists s1, fit N Y alive d pass o s = PRaise o s1 /\ ready o s1 m cb /\ s_world s1 = s_world s
  | Some r =>
    if y_good Y r (s_world s) then
      match y_train Y m [r] (s_world s) with
      | Rate e m' => exists s1, fit N Y alive d pass o s = PRet (n_sub N (one N) e) o s1 /\ ready o s1 m' cb /\ s_world s1 = s_world s
      | Refused m' => exists s1, fit N Y alive d pass o s = PRet (n_sub N (one N) (zero N)) o s1 /\ model_at (o_model o) s1 = Some (m', cb) /\ iter_at (o_iter o) s1 = Some [r] /\ s_world s1 = s_world s
      | TrainThrows => fit N Y alive d pass o s = PCrash
      end
    else exists s1, fit N Y alive d pass o s = PRaise o s1 /\ ready o s1 m cb /\ s_world s1 = s_world s
  end.
Proof.
  intros Rd La Cb. assert (Ld := loaded d pass o s m cb Rd). assert (Sr := src_readable alive d pass). destruct Rd as (Em & _). destruct (handle_of _ _ _ Em) as (a & Ea). unfold fit. rewrite Ea. cbv iota. destruct (source d pass) as [r|].
  2: { destruct Ld as (s1 & E & K). rewrite E. cbn [andthen]. eauto. }
  destruct (y_good Y r (s_world s)).
  2: { destruct Ld as (s1 & E & K). rewrite E. cbn [andthen]. eauto. }
  destruct Ld as (s1 & E & B & Ei1 & Ew). rewrite E. cbn [andthen]. try rewrite <- Ea. rewrite B, Ei1. unfold reading. rewrite Ei1. rewrite (Sr r La eq_refl). cbn [snd fst]. rewrite Cb, andb_false_r.
  unfold sol_train. rewrite B, Ei1. cbn [l_train py_library fst snd]. rewrite Ew. destruct (y_train Y m [r] (s_world s)) as [e m'|m'|]; cbn [call].
  - destruct (put_both o s1 (m, cb) [r] (m', cb) [] a Ea B Ei1) as (A & A' & _). eexists. split; [reflexivity|]. split; [split; [exact A|exact A']|now rewrite !world_store].
  - destruct (put_both o s1 (m, cb) [r] (m', cb) [r] a Ea B Ei1) as (A & A' & _). eexists. split; [reflexivity|]. split; [exact A|]. split; [exact A'|now rewrite !world_store].
  - reflexivity.
Qed.
Lemma score_one alive d o (s : state) m cb : ready o s m cb -> labelled alive d ->
  match source d 1 with
  | None => exists s1, score N Y alive d o s = PRaise o s1 /\ ready o s1 m cb /\ s_world s1 = s_world s
  | Some r =>
    if y_good Y r (s_world s) then
      match y_test Y m [r] (s_world s) with
      | Some (e, m') => exists s1, score N Y alive d o s = PRet (n_sub N (one N) e) o s1 /\ ready o s1 m' cb /\ s_world s1 = s_world s
      | None => score N Y alive d o s = PCrash
      end
    else exists s1, score N Y alive d o s = PRaise o s1 /\ ready o s1 m cb /\ s_world s1 = s_world s
  end.
Proof.
  intros Rd La. assert (Ld := loaded d 1 o s m cb Rd). assert (Sr := src_readable alive d 1). destruct Rd as (Em & _). destruct (handle_of _ _ _ Em) as (a & Ea). unfold score. rewrite Ea. cbv iota. destruct (source d 1) as [r|].
  2: { destruct Ld as (s1 & E & K). rewrite E. cbn [andthen]. eauto. }
  destruct (y_good Y r (s_world s)).
  2: { destruct Ld as (s1 & E & K). rewrite E. cbn [andthen]. eauto. }
  destruct Ld as (s1 & E & B & Ei1 & Ew). rewrite E. cbn [andthen]. try rewrite <- Ea. unfold reading. rewrite Ei1. rewrite (Sr r La eq_refl).
  unfold sol_test. rewrite B, Ei1. cbn [l_test py_library fst snd]. rewrite Ew. destruct (y_test Y m [r] (s_world s)) as [(e, m')|]; cbn [call]; [|reflexivity].
  destruct (put_both o s1 (m, cb) [r] (m', cb) [] a Ea B Ei1) as (A & A' & _). 
  replace (mkst (s_heap s1) (s_world s)) with s1 by (rewrite <- Ew; now destruct s1).
  eexists. split; [reflexivity|]. split; [split; [exact A|exact A']|now rewrite !world_store].
Qed.
Lemma predict_one alive d o (s : state) m cb : ready o s m cb -> labelled alive d ->
  match source d 1 with
  | None => exists s1, predict N Y alive d o s = PRaise o s1 /\ ready o s1 m cb /\ s_world s1 = s_world s
  | Some r =>
    if y_good Y r (s_world s) then
      match y_predict Y m [r] (s_world s) with
      | Some (cs, m') => exists s1, predict N Y alive d o s = PRet cs o s1 /\ ready o s1 m' cb /\ s_world s1 = s_world s
      | None => predict N Y alive d o s = PCrash
      end
    else exists s1, predict N Y alive d o s = PRaise o s1 /\ ready o s1 m cb /\ s_world s1 = s_world s
  end.
Proof.
  intros Rd La. assert (Ld := loaded d 1 o s m cb Rd). assert (Sr := src_readable alive d 1). destruct Rd as (Em & _). destruct (handle_of _ _ _ Em) as (a & Ea). unfold predict. rewrite Ea. cbv iota. destruct (source d 1) as [r|].
  2: { destruct Ld as (s1 & E & K). rewrite E. cbn [andthen]. eauto. }
  destruct (y_good Y r (s_world s)).
  2: { destruct Ld as (s1 & E & K). rewrite E. cbn [andthen]. eauto. }
  destruct Ld as (s1 & E & B & Ei1 & Ew). rewrite E. cbn [andthen]. try rewrite <- Ea. unfold reading. rewrite Ei1. rewrite (Sr r La eq_refl).
  rewrite B. cbn [fst snd]. rewrite Ew. destruct (y_predict Y m [r] (s_world s)) as [(e, m')|]; [|reflexivity].
  destruct (put_both o s1 (m, cb) [r] (m', cb) [] a Ea B Ei1) as (A & A' & _). eexists. split; [reflexivity|]. split; [split; [exact A|exact A']|now rewrite !world_store].
Qed.
End P.
