(** Proofs for M_Py: the same as sol_train and sol_test. *)
From Coq Require Import String.
From Verif Require Import M_Base M_Num M_Expr M_Text M_Str M_Cmd M_Capi P_Capi M_Py S_Py P_Py P_Py2.
Local Open Scope list_scope.
Local Open Scope Z_scope.

Section P.
Context {R MD W C : Type}.
Variable N : num R.
Variable Y : pylib R MD W C.
Variable py_int : list Z -> option Z.
Notation L := (py_library N Y).
Notation state := (st (model MD) (list reader) W).
Notation heap := (list (option (obj (model MD) (list reader)))).

Lemma setd_eq l : forall m cb, set_direct L (m, cb) l true =
  match psetd Y m l with Some (m', true) => Some (inl (m', cb)) | Some (_, false) => Some (inr 4) | None => None end.
Proof.
  induction l as [|(n, v) l IH]; intros m cb; cbn [set_direct psetd]; [reflexivity|]. cbn [l_set py_library fst snd].
  destruct (y_set Y n v m); [apply IH|reflexivity|reflexivity].
Qed.
Lemma load_file p f n o (s : state) : iter_at (o_iter o) s = Some [] ->
  if y_good Y (RFile p f n) (s_world s)
  then load_data N Y (DPath p (Some f)) n o s = PRet tt o (store (o_iter o) (OIter [RFile p f n]) s)
  else exists s1, load_data N Y (DPath p (Some f)) n o s = PRaise o s1 /\ s_world s1 = s_world s.
Proof.
  intros Ei. unfold load_data, sol_load_data. rewrite Ei. cbn [l_add py_library]. unfold add_reader. destruct (y_good Y (RFile p f n) (s_world s)).
  - reflexivity.
  - eexists. split; [reflexivity|]. now destruct (o_iter o).
Qed.
Lemma world_store h x (s : state) : s_world (store h x s) = s_world s.
Proof. now destruct h. Qed.
Lemma fit_file alive p f n o (s : state) m : model_at (o_model o) s = Some m -> iter_at (o_iter o) s = Some [] -> callable alive (snd m) = true ->
  match (if y_good Y (RFile p f n) (s_world s) then Some (y_train Y (fst m) [RFile p f n] (s_world s)) else None) with
  | None => exists s1, fit N Y alive (DPath p (Some f)) n o s = PRaise o s1 /\ s_world s1 = s_world s
  | Some TrainThrows => fit N Y alive (DPath p (Some f)) n o s = PCrash
  | Some (Rate e m') => exists s1, fit N Y alive (DPath p (Some f)) n o s = PRet (n_sub N (one N) e) o s1 /\ s_world s1 = s_world s /\ model_at (o_model o) s1 = Some (m', snd m)
  | Some (Refused m') => exists s1, fit N Y alive (DPath p (Some f)) n o s = PRet (n_sub N (one N) (zero N)) o s1 /\ s_world s1 = s_world s /\ model_at (o_model o) s1 = Some (m', snd m)
  end.
Proof.
  intros Em Ei Cb. destruct (handle_of _ _ _ Em) as (a & Ea). assert (Ld := load_file p f n o s Ei). unfold fit. rewrite Ea. cbv iota.
  destruct (y_good Y (RFile p f n) (s_world s)).
  2: { destruct Ld as (s1 & E & Ew). rewrite E. cbn [andthen]. eauto. }
  rewrite Ld. cbn [andthen]. destruct (put_iter [] o s [] [RFile p f n] Ei) as (Ei1 & B & _ & Ew). set (s1 := store (o_iter o) (OIter [RFile p f n]) s) in *.
  specialize (B m Em). try rewrite <- Ea. rewrite B, Ei1. unfold reading. rewrite Ei1. cbn [forallb readable andb]. rewrite Cb, andb_false_r.
  unfold sol_train. rewrite B, Ei1. cbn [l_train py_library]. rewrite Ew.
  destruct (y_train Y (fst m) [RFile p f n] (s_world s)) as [e m'|m'|] eqn:Et; cbn [call].
  - destruct (put_both o s1 m [RFile p f n] (m', snd m) [] a Ea B Ei1) as (A & _ & _). eexists. split; [reflexivity|]. split; [now rewrite !world_store|exact A].
  - destruct (put_both o s1 m [RFile p f n] (m', snd m) [RFile p f n] a Ea B Ei1) as (A & _ & _). eexists. split; [reflexivity|]. split; [now rewrite !world_store|exact A].
  - reflexivity.
Qed.
Lemma score_file alive p f o (s : state) m : model_at (o_model o) s = Some m -> iter_at (o_iter o) s = Some [] ->
  match (if y_good Y (RFile p f 1) (s_world s) then Some (y_test Y (fst m) [RFile p f 1] (s_world s)) else None) with
  | None => exists s1, score N Y alive (DPath p (Some f)) o s = PRaise o s1 /\ s_world s1 = s_world s
  | Some None => score N Y alive (DPath p (Some f)) o s = PCrash
  | Some (Some (e, m')) => exists s1, score N Y alive (DPath p (Some f)) o s = PRet (n_sub N (one N) e) o s1 /\ s_world s1 = s_world s
  end.
Proof.
  intros Em Ei. destruct (handle_of _ _ _ Em) as (a & Ea). assert (Ld := load_file p f 1 o s Ei). unfold score. rewrite Ea. cbv iota.
  destruct (y_good Y (RFile p f 1) (s_world s)).
  2: { destruct Ld as (s1 & E & Ew). rewrite E. cbn [andthen]. eauto. }
  rewrite Ld. cbn [andthen]. destruct (put_iter [] o s [] [RFile p f 1] Ei) as (Ei1 & B & _ & Ew). set (s1 := store (o_iter o) (OIter [RFile p f 1]) s) in *.
  specialize (B m Em). unfold reading. rewrite Ei1. cbn [forallb readable andb].
  unfold sol_test. rewrite B, Ei1. cbn [l_test py_library]. rewrite Ew.
  destruct (y_test Y (fst m) [RFile p f 1] (s_world s)) as [(e, m')|] eqn:Et; cbn [call]; [|reflexivity].
  eexists. split; [reflexivity|]. now rewrite !world_store.
Qed.
(** load into an object without a model. *)
Lemma load_new path o (s : state) : iter_at (o_iter o) s = Some [] ->
  (forall m, exists t c, lookup (bytes "model") (y_info Y m) <> None /\ lookup (bytes "cls_num") (y_info Y m) = Some t /\ py_int t = Some c) ->
  match y_load Y path (s_world s) with
  | None => exists o1, load N Y py_int path o s = PRet false o1 s /\ o_model o1 = None
  | Some m => exists o1 s1 cb, load N Y py_int path o s = PRet true o1 s1 /\ model_at (o_model o1) s1 = Some (m, cb) /\ iter_at (o_iter o1) s1 = Some [] /\ s_world s1 = s_world s
  end.
Proof.
  intros Ei Inf. unfold load, sol_restore_model. cbn [l_load py_library]. destruct (y_load Y path (s_world s)) as [m|].
  2: { cbn [call]. eexists. split; reflexivity. }
  cbn [alloc call]. set (h := s_heap s). set (s1 := mkst (h ++ [Some (OModel (m, CDefault))]) (s_world s)).
  assert (Ei1 : iter_at (o_iter o) s1 = Some []).
  { apply iter_is in Ei. apply iter_is. destruct (o_iter o) as [b|]; [|discriminate Ei]. unfold at_ in *. cbn [s_heap s1]. fold h in Ei.
    rewrite nth_error_app1; [exact Ei|]. apply nth_error_Some. intros F. rewrite F in Ei. discriminate. }
  assert (Em1 : model_at (Some (length h)) s1 = Some (m, CDefault)) by (apply model_is; unfold at_; cbn [s_heap s1]; now rewrite nth_app_new).
  unfold get_params. cbn [o_model]. rewrite Em1. cbn [andthen fst].
  destruct (Inf m) as (t & c & I1 & I2 & I3). destruct (lookup (bytes "model") (y_info Y m)); [|contradiction]. rewrite I2, I3. cbn [o_model o_iter o_algo o_classes o_verbose].
  destruct (o_verbose o); cbn [andthen].
  - do 3 eexists. split; [reflexivity|]. cbn [o_model o_iter]. split; [exact Em1|]. split; [exact Ei1|reflexivity].
  - set (o4 := mksol (Some (length h)) (o_iter o) Freed c false).
    assert (E4 : inspect_learning CNone o4 s1 = PRet tt o4 (store (o_model o4) (OModel (m, CNone)) s1)) by (unfold inspect_learning; cbn [o_model o4]; rewrite Em1; reflexivity).
    rewrite E4. cbn [andthen].
    destruct (put_model [] o4 s1 (length h) (m, CDefault) (m, CNone) eq_refl Em1) as (A & B & _).
    do 3 eexists. split; [reflexivity|]. split; [exact A|]. split; [now apply B|rewrite world_store; reflexivity].
Qed.
(** Settings. *)
Lemma set_one n v o (s : state) m : model_at (o_model o) s = Some m -> iter_at (o_iter o) s = Some [] ->
  match y_set Y n v (fst m) with
  | SetOk m' => exists s1, set_params N Y [(n, v)] o s = PRet tt o s1 /\ model_at (o_model o) s1 = Some (m', snd m) /\ iter_at (o_iter o) s1 = Some [] /\ s_world s1 = s_world s
  | SetInvalid _ => exists s1, set_params N Y [(n, v)] o s = PRaise o s1 /\ s_world s1 = s_world s
  | SetThrows => set_params N Y [(n, v)] o s = PCrash
  end.
Proof.
  intros Em Ei. destruct (handle_of _ _ _ Em) as (a & Ea). unfold set_params. rewrite Ea. cbv iota. cbn [set_loop]. unfold sol_set_model_parameter. rewrite Em. cbn [l_set py_library].
  destruct (y_set Y n v (fst m)) as [m'|m'|]; cbn [call Z.eqb]; [| |reflexivity].
  - destruct (put_model [] o s a m (m', snd m) Ea Em) as (A & B & _). eexists. split; [reflexivity|]. rewrite <- Ea. split; [exact A|]. split; [now apply B|apply world_store].
  - eexists. split; [reflexivity|apply world_store].
Qed.
End P.
