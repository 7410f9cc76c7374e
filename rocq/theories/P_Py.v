(** Proofs for M_Py. *)
From Coq Require Import String.
From Verif Require Import M_Base M_Num M_Expr M_Text M_Str M_Cmd M_Capi P_Capi M_Py S_Py.
Local Open Scope list_scope.
Local Open Scope Z_scope.

Section P.
Context {R MD W C : Type}.
Variable N : num R.
Variable Y : pylib R MD W C.
Variable py_int : list Z -> option Z.
Notation L := (py_library N Y).
Notation state := (st (model MD) (list reader) W).
Notation heap := (list (option (obj (model MD) (list reader)))).

Lemma nth_app_new {A} (h : list A) x : nth_error (h ++ [x]) (length h) = Some x.
Proof. rewrite nth_error_app2 by lia. now rewrite Nat.sub_diag. Qed.
(** Settings one after the other. *)
Fixpoint psetd (m : MD) (l : list (list Z * list Z)) : option (MD * bool) :=
  match l with
  | [] => Some (m, true)
  | (n, v) :: r => match y_set Y n v m with SetOk m' => psetd m' r | SetInvalid m' => Some (m', false) | SetThrows => None end
  end.
Lemma poke_at (h : heap) a o : nth_error h a <> None -> nth_error (poke a o h) a = Some o.
Proof. intros H. rewrite nth_poke, Nat.eqb_refl. destruct (nth_error h a); [reflexivity|contradiction]. Qed.
Lemma poke_poke (h : heap) x y : forall a, poke a x (poke a y h) = poke a x h.
Proof. induction h as [|c h IH]; intros [|a]; cbn; try reflexivity. now rewrite IH. Qed.
Lemma poke_id (h : heap) x : forall a, nth_error h a = Some x -> poke a x h = h.
Proof. induction h as [|c h IH]; intros [|a] E; cbn in *; try discriminate; [congruence|]. now rewrite IH. Qed.
(** set_loop on an object with a model: nothing but the model changes. *)
Lemma set_loop_eq l : forall o (h : heap) w a m cb, o_model o = Some a -> nth_error h a = Some (Some (OModel (m, cb))) ->
  set_loop N Y l o (mkst h w) =
  match psetd m l with
  | Some (m', true) => PRet tt o (mkst (poke a (Some (OModel (m', cb))) h) w)
  | Some (m', false) => PRaise o (mkst (poke a (Some (OModel (m', cb))) h) w)
  | None => PCrash
  end.
Proof.
  induction l as [|(n, v) l IH]; intros o h w a m cb E Ea; cbn [set_loop psetd].
  - now rewrite poke_id.
  - rewrite E. unfold sol_set_model_parameter, model_at, at_. cbn [s_heap]. rewrite Ea. cbn [l_set py_library fst snd].
    destruct (y_set Y n v m) as [m'|m'|]; cbn [call Z.eqb store s_heap s_world]; [|reflexivity|reflexivity].
    rewrite (IH o _ w a m' cb E) by (apply poke_at; congruence). destruct (psetd m' l) as [(m2, [])|]; try reflexivity; now rewrite poke_poke.
Qed.

(** __cinit__ in closed form. *)
Definition first_callback (verbose : bool) : callback := if verbose then CDefault else CNone.
Lemma cinit_none classes batch buf verbose ps (h : heap) w :
  cinit N Y None classes batch buf verbose ps (mkst h w) =
  PRet tt (mksol None (Some (length h)) (Literal (bytes "none")) (-1) verbose) (mkst (h ++ [Some (OIter [])]) w).
Proof. unfold cinit. cbn. destruct verbose; reflexivity. Qed.
Lemma cinit_some k al classes batch buf verbose ps (h : heap) w :
  cinit N Y (Some (k, al)) classes batch buf verbose ps (mkst h w) =
  match y_create Y al classes with
  | None => match ps with
            | [] => PRet tt (mksol None (Some (length h)) (Buffer k al) classes verbose) (mkst (h ++ [Some (OIter [])]) w)
            | _ => PRaise (mksol None None (Buffer k al) classes false) (mkst h w)
            end
  | Some m => match psetd m ps with
              | Some (m', true) => PRet tt (mksol (Some (length h)) (Some (S (length h))) (Buffer k al) classes verbose)
                                     (mkst (h ++ [Some (OModel (m', first_callback verbose)); Some (OIter [])]) w)
              | Some (m', false) => PRaise (mksol (Some (length h)) None (Buffer k al) classes false) (mkst (h ++ [None]) w)
              | None => PCrash
              end
  end.
Proof.
  unfold cinit, sol_create_model. cbn [l_create py_library]. destruct (y_create Y al classes) as [m|].
  - cbn [alloc call s_heap s_world]. set (o := mksol (Some (length h)) None (Buffer k al) classes false).
    assert (E : set_params N Y ps o (mkst (h ++ [Some (OModel (m, CDefault))]) w) = set_loop N Y ps o (mkst (h ++ [Some (OModel (m, CDefault))]) w))
      by (destruct ps; reflexivity).
    rewrite (set_loop_eq ps o _ w (length h) m CDefault eq_refl (nth_app_new _ _)) in E.
    match goal with |- match ?t with _ => _ end = _ => change t with (set_params N Y ps o (mkst (h ++ [Some (OModel (m, CDefault))]) w : state)) end.
    rewrite E. destruct (psetd m ps) as [(m', [])|]; [| |reflexivity].
    + rewrite poke1. unfold sol_create_iter, alloc. cbn [s_heap s_world call o_model o_iter o_algo o_classes o_verbose o]. rewrite <- app_assoc, app_length, Nat.add_1_r. cbn [app].
      destruct verbose; cbn [andthen o_model o_iter o_algo o_classes]; [reflexivity|].
      unfold inspect_learning, model_at, at_. cbn [o_model o_iter s_heap]. rewrite nth1. cbn [store s_heap s_world]. rewrite poke1. reflexivity.
    + rewrite poke1. unfold dealloc, sol_release_iter, sol_release_model. cbn [o_iter o_model M_Capi.seq o]. unfold model_at, at_. cbn [s_heap]. rewrite nth1.
      cbn [free s_heap s_world M_Capi.seq]. rewrite poke1. reflexivity.
  - cbn [call]. destruct ps as [|p ps]; cbn [set_params o_model].
    + unfold sol_create_iter, alloc. cbn [s_heap s_world call o_model o_iter o_algo o_classes o_verbose]. destruct verbose; reflexivity.
    + reflexivity.
Qed.

(* ---------------------------------------------------------------- states between operations *)
(** The handles are good, and every object that is not among the first ones is the object's. *)
Definition holds (o : sol) (s : state) : Prop :=
  (exists i, iter_at (o_iter o) s = Some i) /\ (o_model o = None \/ exists m, model_at (o_model o) s = Some m).
Definition owns (h0 : heap) (o : sol) (s : state) : Prop :=
  (forall a, (a < length h0)%nat -> nth_error (s_heap s) a = nth_error h0 a) /\
  (forall a x, nth_error (s_heap s) a = Some (Some x) -> (a < length h0)%nat \/ o_model o = Some a \/ o_iter o = Some a) /\
  (forall a, o_model o = Some a \/ o_iter o = Some a -> (length h0 <= a)%nat) /\ (length h0 <= length (s_heap s))%nat.

Lemma at_store (s : state) a x b : at_ (Some a) s <> None -> at_ (Some b) (store (Some a) x s) = if Nat.eqb b a then Some x else at_ (Some b) s.
Proof.
  unfold at_. cbn [store s_heap]. intros H. rewrite nth_poke. destruct (Nat.eqb_spec b a) as [->|]; [|reflexivity].
  destruct (nth_error (s_heap s) a); [reflexivity|contradiction].
Qed.
Lemma model_is h (s : state) m : model_at h s = Some m <-> at_ h s = Some (OModel m).
Proof. unfold model_at. destruct (at_ h s) as [[x|x]|]; split; intros H; try discriminate; congruence. Qed.
Lemma iter_is h (s : state) i : iter_at h s = Some i <-> at_ h s = Some (OIter i).
Proof. unfold iter_at. destruct (at_ h s) as [[x|x]|]; split; intros H; try discriminate; congruence. Qed.
Lemma poke_len (h : heap) x : forall a, length (poke a x h) = length h.
Proof. induction h as [|c h IH]; intros [|a]; cbn; auto. Qed.
(** A write to the model or the iterator of the object. *)
Lemma owns_store h0 o s a x : at_ (Some a) s <> None -> (o_model o = Some a \/ o_iter o = Some a) -> owns h0 o s -> owns h0 o (store (Some a) x s).
Proof.
  intros At Ha (A & B & D & E). assert (La := D a Ha). split; [|split; [|split]].
  - intros b Hb. cbn [store s_heap]. rewrite nth_poke. destruct (Nat.eqb_spec b a); [lia|]. now apply A.
  - intros b y. cbn [store s_heap]. rewrite nth_poke. destruct (Nat.eqb_spec b a) as [->|]; [auto|]. apply B.
  - exact D.
  - cbn [store s_heap]. rewrite poke_len. exact E.
Qed.
Lemma owns_world h0 o (hp : heap) (w w' : W) : owns h0 o (mkst hp w) -> owns h0 o (mkst hp w').
Proof. exact (fun H => H). Qed.

(** The model of the object is written. *)
Lemma put_model h0 o s a m m' : o_model o = Some a -> model_at (o_model o) s = Some m ->
  let s' := store (o_model o) (OModel m') s in
  model_at (o_model o) s' = Some m' /\ (forall i, iter_at (o_iter o) s = Some i -> iter_at (o_iter o) s' = Some i) /\ (owns h0 o s -> owns h0 o s').
Proof.
  intros Ea Em. cbn zeta. apply model_is in Em. rewrite Ea in *. assert (At : at_ (Some a) s <> None) by congruence. split; [|split].
  - apply model_is. rewrite at_store by exact At. now rewrite Nat.eqb_refl.
  - intros i Ei. apply iter_is in Ei. apply iter_is. destruct (o_iter o) as [b|]; [|discriminate Ei]. rewrite at_store by exact At.
    destruct (Nat.eqb_spec b a) as [->|]; [congruence|exact Ei].
  - apply owns_store; auto.
Qed.
Lemma put_iter h0 o s i i' : iter_at (o_iter o) s = Some i ->
  let s' := store (o_iter o) (OIter i') s in
  iter_at (o_iter o) s' = Some i' /\ (forall m, model_at (o_model o) s = Some m -> model_at (o_model o) s' = Some m) /\ (owns h0 o s -> owns h0 o s') /\
  s_world s' = s_world s.
Proof.
  intros Ei. cbn zeta. apply iter_is in Ei. destruct (o_iter o) as [a|] eqn:Ea; [|discriminate Ei]. assert (At : at_ (Some a) s <> None) by congruence.
  split; [|split; [|split]].
  - apply iter_is. rewrite at_store by exact At. now rewrite Nat.eqb_refl.
  - intros m Em. apply model_is in Em. apply model_is. destruct (o_model o) as [b|]; [|discriminate Em]. rewrite at_store by exact At.
    destruct (Nat.eqb_spec b a) as [->|]; [congruence|exact Em].
  - intros H. apply owns_store; [exact At|now right|exact H].
  - reflexivity.
Qed.

(** What no operation destroys. *)
Definition kept (o : sol) (s s1 : state) : Prop := forall h0, owns h0 o s -> owns h0 o s1.
Lemma kept_trans o s s1 s2 : kept o s s1 -> kept o s1 s2 -> kept o s s2.
Proof. unfold kept. auto. Qed.
Lemma load_data_cases d pass o s i : iter_at (o_iter o) s = Some i ->
  exists s1, kept o s s1 /\ (forall m, model_at (o_model o) s = Some m -> model_at (o_model o) s1 = Some m) /\
  ((load_data N Y d pass o s = PRaise o s1 /\ iter_at (o_iter o) s1 = Some i) \/
   exists r, load_data N Y d pass o s = PRet tt o s1 /\ iter_at (o_iter o) s1 = Some (i ++ [r]) /\ forall alive, labelled alive d -> readable alive r = true).
Proof.
  intros Ei.
  assert (G : forall r, (forall alive, labelled alive d -> readable alive r = true) ->
    load_data N Y d pass o s = (let '(ret, i') := add_reader Y r i (s_world s) in let s1 := store (o_iter o) (OIter i') s in if ret =? 0 then PRet tt o s1 else PRaise o s1) ->
    exists s1, kept o s s1 /\ (forall m, model_at (o_model o) s = Some m -> model_at (o_model o) s1 = Some m) /\
    ((load_data N Y d pass o s = PRaise o s1 /\ iter_at (o_iter o) s1 = Some i) \/
     exists r, load_data N Y d pass o s = PRet tt o s1 /\ iter_at (o_iter o) s1 = Some (i ++ [r]) /\ forall alive, labelled alive d -> readable alive r = true)).
  { intros r Hr E. unfold add_reader in E. destruct (y_good Y r (s_world s)); cbn [Z.eqb] in E; cbv zeta in E.
    - exists (store (o_iter o) (OIter (i ++ [r])) s). split; [intros h0; now destruct (put_iter h0 o s i (i ++ [r]) Ei) as (_ & _ & K & _)|].
      destruct (put_iter [] o s i (i ++ [r]) Ei) as (A & B & _ & _). split; [exact B|]. right. exists r. auto.
    - exists (store (o_iter o) (OIter i) s). split; [intros h0; now destruct (put_iter h0 o s i i Ei) as (_ & _ & K & _)|].
      destruct (put_iter [] o s i i Ei) as (A & B & _ & _). split; [exact B|]. left. auto. }
  destruct d as [p [f|]|x y].
  - apply (G (RFile p f pass)); [reflexivity|]. unfold load_data, sol_load_data. rewrite Ei. cbn [l_add py_library]. destruct (add_reader Y (RFile p f pass) i (s_world s)). reflexivity.
  - exists s. split; [intros h0 H; exact H|]. split; [auto|]. left. auto.
  - apply (G (RArray x y pass)).
    + intros alive (Hx & y' & -> & Hy). cbn. now rewrite Hx, Hy.
    + unfold load_data. rewrite Ei. reflexivity.
Qed.
(** Writing model and iterator. *)
Lemma put_both o s m i m' i' a : o_model o = Some a -> model_at (o_model o) s = Some m -> iter_at (o_iter o) s = Some i ->
  let s' := store (o_iter o) (OIter i') (store (o_model o) (OModel m') s) in
  model_at (o_model o) s' = Some m' /\ iter_at (o_iter o) s' = Some i' /\ kept o s s'.
Proof.
  intros Ea Em Ei. cbn zeta. destruct (put_model [] o s a m m' Ea Em) as (A & B & _). assert (Ei1 := B i Ei).
  destruct (put_iter [] o _ i i' Ei1) as (A1 & B1 & _ & _). split; [now apply B1|]. split; [exact A1|].
  intros h0 Ho. destruct (put_model h0 o s a m m' Ea Em) as (_ & _ & K). destruct (put_iter h0 o _ i i' Ei1) as (_ & _ & K1 & _). now apply K1, K.
Qed.

(** One operation. *)
Lemma holds_intro o (s : state) m i : model_at (o_model o) s = Some m -> iter_at (o_iter o) s = Some i -> holds o s.
Proof. intros A B. split; eauto. Qed.
Lemma handle_of o (s : state) m : model_at (o_model o) s = Some m -> exists a, o_model o = Some a.
Proof. destruct (o_model o); [eauto|discriminate]. Qed.

(** The results of fit on an object with a model, with [i] unread readers. *)
Lemma fit_cases alive d pass o s m i : model_at (o_model o) s = Some m -> iter_at (o_iter o) s = Some i ->
  fit N Y alive d pass o s = PCrash \/
  (exists s1, fit N Y alive d pass o s = PRaise o s1 /\ model_at (o_model o) s1 = Some m /\ iter_at (o_iter o) s1 = Some i /\ kept o s s1) \/
  (exists e s1 m' , fit N Y alive d pass o s = PRet e o s1 /\ model_at (o_model o) s1 = Some (m', snd m) /\ kept o s s1 /\
     (iter_at (o_iter o) s1 = Some [] \/ exists j w, y_train Y (fst m) j w = Refused m' /\ iter_at (o_iter o) s1 = Some j)) \/
  (fit N Y alive d pass o s = PBad /\ ~ (forallb (readable alive) i = true /\ labelled alive d /\ callable alive (snd m) = true)).
Proof.
  intros Em Ei. destruct (handle_of _ _ _ Em) as (a & Ea). unfold fit. rewrite Ea. cbv iota.
  destruct (load_data_cases d pass o s i Ei) as (s1 & K & Em1 & [(E & Ei1)|(r & E & Ei1 & Lb)]); rewrite E; cbn [andthen].
  { right. left. exists s1. rewrite <- Ea. auto. }
  specialize (Em1 m Em). rewrite <- Ea. rewrite Em1, Ei1.
  assert (Tr : call (sol_train L (o_model o) (o_iter o) s1) (fun err s2 => PRet (n_sub N (one N) err) o s2) =
    match y_train Y (fst m) (i ++ [r]) (s_world s1) with
    | Rate err m' => PRet (n_sub N (one N) err) o (store (o_iter o) (OIter []) (store (o_model o) (OModel (m', snd m)) s1))
    | Refused m' => PRet (n_sub N (one N) (zero N)) o (store (o_iter o) (OIter (i ++ [r])) (store (o_model o) (OModel (m', snd m)) s1))
    | TrainThrows => PCrash
    end).
  { unfold sol_train. rewrite Em1, Ei1. cbn [l_train py_library]. destruct (y_train Y (fst m) (i ++ [r]) (s_world s1)); reflexivity. }
  rewrite Tr. unfold reading. rewrite Ei1.
  assert (Bd : ~ (forallb (readable alive) i = true /\ labelled alive d /\ callable alive (snd m) = true) \/
    (forallb (readable alive) (i ++ [r]) = true /\ callable alive (snd m) = true)).
  { destruct (callable alive (snd m)); [|left; intros (_ & _ & F); discriminate]. rewrite forallb_app. cbn. rewrite andb_true_r.
    destruct (forallb (readable alive) i); [|left; intros (F & _); discriminate]. cbn. destruct (readable alive r) eqn:Er; [right; auto|].
    left. intros (_ & Ld & _). rewrite (Lb _ Ld) in Er. discriminate. }
  destruct (y_train Y (fst m) (i ++ [r]) (s_world s1)) as [err m'|m'|] eqn:Et.
  - destruct Bd as [Bd|(B1 & B2)].
    + destruct (forallb (readable alive) (i ++ [r])); [|right; right; right; auto].
      destruct (y_shows Y (fst m) && negb (callable alive (snd m))); [right; right; right; auto|].
      right. right. left. destruct (put_both o s1 m (i ++ [r]) (m', snd m) [] a Ea Em1 Ei1) as (A & B & K1). do 3 eexists. split; [reflexivity|].
      split; [exact A|]. split; [eapply kept_trans; eassumption|]. left. exact B.
    + rewrite B1, B2, andb_false_r. right. right. left. destruct (put_both o s1 m (i ++ [r]) (m', snd m) [] a Ea Em1 Ei1) as (A & B & K1). do 3 eexists. split; [reflexivity|].
      split; [exact A|]. split; [eapply kept_trans; eassumption|]. left. exact B.
  - right. right. left. destruct (put_both o s1 m (i ++ [r]) (m', snd m) (i ++ [r]) a Ea Em1 Ei1) as (A & B & K1). do 3 eexists. split; [reflexivity|].
    split; [exact A|]. split; [eapply kept_trans; eassumption|]. right. eauto.
  - destruct Bd as [Bd|(B1 & B2)].
    + destruct (forallb (readable alive) (i ++ [r])); [|right; right; right; auto].
      destruct (y_shows Y (fst m) && negb (callable alive (snd m))); [right; right; right; auto|]. now left.
    + rewrite B1, B2, andb_false_r. now left.
Qed.
(** score and predict. *)
Lemma score_cases alive d o s m i : model_at (o_model o) s = Some m -> iter_at (o_iter o) s = Some i ->
  score N Y alive d o s = PCrash \/
  (exists s1, score N Y alive d o s = PRaise o s1 /\ model_at (o_model o) s1 = Some m /\ iter_at (o_iter o) s1 = Some i /\ kept o s s1) \/
  (exists e s1 m', score N Y alive d o s = PRet e o s1 /\ model_at (o_model o) s1 = Some (m', snd m) /\ iter_at (o_iter o) s1 = Some [] /\ kept o s s1) \/
  (score N Y alive d o s = PBad /\ ~ (forallb (readable alive) i = true /\ labelled alive d)).
Proof.
  intros Em Ei. destruct (handle_of _ _ _ Em) as (a & Ea). unfold score. rewrite Ea. cbv iota.
  destruct (load_data_cases d 1 o s i Ei) as (s1 & K & Em1 & [(E & Ei1)|(r & E & Ei1 & Lb)]); rewrite E; cbn [andthen].
  { right. left. exists s1. rewrite <- Ea. auto. }
  specialize (Em1 m Em). rewrite <- Ea. unfold reading. rewrite Ei1.
  destruct (forallb (readable alive) (i ++ [r])) eqn:Fr.
  2: { right. right. right. split; [reflexivity|]. intros (F & Ld). rewrite forallb_app, F in Fr. cbn in Fr. rewrite (Lb _ Ld) in Fr. discriminate. }
  unfold sol_test. rewrite Em1, Ei1. cbn [l_test py_library]. destruct (y_test Y (fst m) (i ++ [r]) (s_world s1)) as [(err, m')|]; [|now left].
  right. right. left. cbn [call]. destruct (put_both o s1 m (i ++ [r]) (m', snd m) [] a Ea Em1 Ei1) as (A & B & K1). do 3 eexists. split; [reflexivity|].
  destruct s1. split; [exact A|]. split; [exact B|]. eapply kept_trans; eassumption.
Qed.
Lemma predict_cases alive d o s m i : model_at (o_model o) s = Some m -> iter_at (o_iter o) s = Some i ->
  predict N Y alive d o s = PCrash \/
  (exists s1, predict N Y alive d o s = PRaise o s1 /\ model_at (o_model o) s1 = Some m /\ iter_at (o_iter o) s1 = Some i /\ kept o s s1) \/
  (exists e s1 m', predict N Y alive d o s = PRet e o s1 /\ model_at (o_model o) s1 = Some (m', snd m) /\ iter_at (o_iter o) s1 = Some [] /\ kept o s s1) \/
  (predict N Y alive d o s = PBad /\ ~ (forallb (readable alive) i = true /\ labelled alive d)).
Proof.
  intros Em Ei. destruct (handle_of _ _ _ Em) as (a & Ea). unfold predict. rewrite Ea. cbv iota.
  destruct (load_data_cases d 1 o s i Ei) as (s1 & K & Em1 & [(E & Ei1)|(r & E & Ei1 & Lb)]); rewrite E; cbn [andthen].
  { right. left. exists s1. rewrite <- Ea. auto. }
  specialize (Em1 m Em). rewrite <- Ea. unfold reading. rewrite Ei1.
  destruct (forallb (readable alive) (i ++ [r])) eqn:Fr.
  2: { right. right. right. split; [reflexivity|]. intros (F & Ld). rewrite forallb_app, F in Fr. cbn in Fr. rewrite (Lb _ Ld) in Fr. discriminate. }
  rewrite Em1. destruct (y_predict Y (fst m) (i ++ [r]) (s_world s1)) as [(err, m')|]; [|now left].
  right. right. left. destruct (put_both o s1 m (i ++ [r]) (m', snd m) [] a Ea Em1 Ei1) as (A & B & K1). do 3 eexists. split; [reflexivity|].
  split; [exact A|]. split; [exact B|]. eapply kept_trans; eassumption.
Qed.
(** set_params, inspect_learning, save. *)
Lemma set_cases l o s m : model_at (o_model o) s = Some m ->
  set_params N Y l o s = PCrash \/
  exists s1 m', (set_params N Y l o s = PRet tt o s1 \/ set_params N Y l o s = PRaise o s1) /\ model_at (o_model o) s1 = Some (m', snd m) /\
    (forall i, iter_at (o_iter o) s = Some i -> iter_at (o_iter o) s1 = Some i) /\ kept o s s1.
Proof.
  intros Em. destruct (handle_of _ _ _ Em) as (a & Ea). destruct m as (m, cb).
  assert (E : set_params N Y l o s = set_loop N Y l o s) by (unfold set_params; rewrite Ea; destruct l; reflexivity).
  rewrite E. clear E. destruct s as [h w]. assert (En : nth_error h a = Some (Some (OModel (m, cb)))).
  { apply model_is in Em. rewrite Ea in Em. unfold at_ in Em. cbn in Em. destruct (nth_error h a); [congruence|discriminate]. }
  rewrite (set_loop_eq l o h w a m cb Ea En). destruct (psetd m l) as [(m', b)|]; [|now left]. right.
  exists (store (o_model o) (OModel (m', cb)) (mkst h w)), m'. destruct (put_model [] o (mkst h w) a (m, cb) (m', cb) Ea Em) as (A & B & _).
  split; [rewrite Ea; destruct b; auto|]. split; [exact A|]. split; [exact B|].
  intros h0. now destruct (put_model h0 o (mkst h w) a (m, cb) (m', cb) Ea Em) as (_ & _ & K).
Qed.
Lemma inspect_some h o (s : state) m : model_at (o_model o) s = Some m ->
  exists s1, inspect_learning h o s = PRet tt o s1 /\ model_at (o_model o) s1 = Some (fst m, h) /\
    (forall i, iter_at (o_iter o) s = Some i -> iter_at (o_iter o) s1 = Some i) /\ kept o s s1.
Proof.
  intros Em. destruct (handle_of _ _ _ Em) as (a & Ea). 
  exists (store (o_model o) (OModel (fst m, h)) s). split; [unfold inspect_learning; rewrite Em, Ea; reflexivity|]. destruct (put_model [] o s a m (fst m, h) Ea Em) as (A & B & _).
  split; [exact A|]. split; [exact B|]. intros h0. now destruct (put_model h0 o s a m (fst m, h) Ea Em) as (_ & _ & K).
Qed.
(** A new model in the place of none. *)
Lemma load_cases path o s i : iter_at (o_iter o) s = Some i ->
  exists o1 s1, (load N Y py_int path o s = PRaise o1 s1 \/ exists b, load N Y py_int path o s = PRet b o1 s1) /\ o_iter o1 = o_iter o /\
    iter_at (o_iter o1) s1 = Some i /\ (o_model o1 = None \/ exists m, model_at (o_model o1) s1 = Some m /\ (snd m = CDefault \/ snd m = CNone)) /\
    (o_model o = None -> forall h0, owns h0 o s -> owns h0 o1 s1).
Proof.
  intros Ei. unfold load, sol_restore_model. cbn [l_load py_library]. destruct (y_load Y path (s_world s)) as [m|].
  2: { cbn [call]. do 2 eexists. split; [right; eexists; reflexivity|]. cbn. split; [reflexivity|]. split; [exact Ei|]. split; [now left|]. intros Hn h0 (A & B & D & E).
       split; [exact A|]. split; [intros a x H; destruct (B a x H) as [|[F|]]; auto; rewrite Hn in F; discriminate|]. split; [intros a [F|F]; [discriminate|apply D; auto]|exact E]. }
  cbn [alloc call]. set (h := s_heap s). set (s1 := mkst (h ++ [Some (OModel (m, CDefault))]) (s_world s)).
  assert (Ei1 : iter_at (o_iter o) s1 = Some i).
  { apply iter_is in Ei. apply iter_is. destruct (o_iter o) as [b|]; [|discriminate Ei]. unfold at_ in *. cbn [s_heap s1]. fold h in Ei.
    rewrite nth_error_app1; [exact Ei|]. apply nth_error_Some. intros F. rewrite F in Ei. discriminate. }
  assert (Em1 : model_at (Some (length h)) s1 = Some (m, CDefault)) by (apply model_is; unfold at_; cbn [s_heap s1]; now rewrite nth_app_new).
  assert (Ow : forall o1, o_model o1 = Some (length h) -> o_iter o1 = o_iter o -> o_model o = None -> forall h0, owns h0 o s -> owns h0 o1 s1).
  { intros o1 E1 E2 Hn h0 (A & B & D & E). fold h in A, B, E. split; [|split; [|split]]; cbn [s_heap s1].
    - intros a Ha. rewrite nth_error_app1 by lia. now apply A.
    - intros a x. destruct (Nat.lt_ge_cases a (length h)) as [Lt|Ge].
      + rewrite nth_error_app1 by exact Lt. intros H. destruct (B a x H) as [|[F|F]]; auto; [rewrite Hn in F; discriminate|rewrite E2; auto].
      + intros H. right. left. rewrite E1. f_equal. assert (a < length (h ++ [Some (OModel (m, CDefault))]))%nat by (apply nth_error_Some; congruence).
        rewrite app_length in *. cbn in *. lia.
    - intros a [F|F]; [rewrite E1 in F; injection F as <-; exact E|rewrite E2 in F; apply D; auto].
    - rewrite app_length. lia. }
  unfold get_params. cbn [o_model]. rewrite Em1. cbn [andthen fst].
  destruct (lookup (bytes "model") (y_info Y m)) as [t|].
  2: { do 2 eexists. split; [left; reflexivity|]. cbn. split; [reflexivity|]. split; [exact Ei1|]. split; [right; eauto|]. now apply Ow. }
  cbn [o_model o_iter o_algo o_classes o_verbose].
  destruct (lookup (bytes "cls_num") (y_info Y m)) as [t'|].
  2: { do 2 eexists. split; [left; reflexivity|]. cbn. split; [reflexivity|]. split; [exact Ei1|]. split; [right; eauto|]. now apply Ow. }
  destruct (py_int t') as [c|].
  2: { do 2 eexists. split; [left; reflexivity|]. cbn. split; [reflexivity|]. split; [exact Ei1|]. split; [right; eauto|]. now apply Ow. }
  destruct (o_verbose o); cbn [andthen].
  - do 2 eexists. split; [right; eexists; reflexivity|]. cbn. split; [reflexivity|]. split; [exact Ei1|]. split; [right; eauto|]. now apply Ow.
  - set (o4 := mksol (Some (length h)) (o_iter o) Freed c false). destruct (inspect_some CNone o4 s1 _ Em1) as (s2 & E & A & B & K). rewrite E. cbn [andthen].
    exists o4, s2. split; [right; eexists; reflexivity|]. split; [reflexivity|]. split; [now apply B|]. split; [right; eauto|]. intros Hn h0 H0. apply K. now apply (Ow o4).
Qed.
End P.
