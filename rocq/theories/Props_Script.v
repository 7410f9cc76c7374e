(** C71: the Python scripts sol_train.py and sol_test.py. *)
From Coq Require Import String SpecFloat.
From Verif Require Import M_Base M_Num M_Expr M_Text M_Str M_Cmd M_Capi M_Cv M_Py S_Py P_Py Props_Py M_Script S_Script P_Script.
Local Open Scope list_scope.
Local Open Scope Z_scope.

Section P.
Context {R MD W C : Type}.
Variable N : num R.
Variable Y : pylib R MD W C.
Variable py_int : list Z -> option Z.
Variable py_str : pyval -> list Z.
Variable cross : dict -> W -> option (dict * W).
Variable cached : W -> option (option dict).
Notation state := (st (model MD) (list reader) W).

(** train gives the accuracy and the files sol_train gives for the parameters it has chosen, and raises an exception where sol_train fails. *)
Theorem C71_trains alive dt k al d output cv retrain (s : state) d1 w1 d2 batch buf verbose ps :
  choose cross cached cv retrain d (s_world s) = (Some (d1, w1), d2) ->
  ~ has_key d1 (bytes "algo") -> ~ has_key d1 (bytes "class_num") -> keywords py_str d1 = Some (batch, buf, verbose, ps) -> output <> Some [] ->
  snd (train N Y py_str cross cached alive dt (k, al) d output cv retrain s) = d2 /\
  match direct_train N (py_library N Y) (mkplan (Create al (d_classes dt)) ps true (d_path dt) (match output with Some path => path | None => [] end) (d_type dt) (d_pass dt) batch buf) w1 with
  | Ended code printed w2 =>
    if code =? 0 then exists accuracy o s2, printed = [accuracy] /\ fst (train N Y py_str cross cached alive dt (k, al) d output cv retrain s) = Accuracy accuracy o s2 /\ s_world s2 = w2
    else exists s2, fst (train N Y py_str cross cached alive dt (k, al) d output cv retrain s) = Raised s2 /\ s_world s2 = w1
  | Threw => fst (train N Y py_str cross cached alive dt (k, al) d output cv retrain s) = Died
  | M_Capi.Undef => False
  end.
Proof.
  intros Ech Ka Kc Kw Out. unfold train. rewrite Ech. split; [reflexivity|]. cbn [fst]. unfold make.
  assert (A : is_key d1 "algo" = false) by (unfold is_key; destruct (dget (bytes "algo") d1) eqn:E; [exfalso; apply Ka, dget_key; congruence|reflexivity]).
  assert (B : is_key d1 "class_num" = false) by (unfold is_key; destruct (dget (bytes "class_num") d1) eqn:E; [exfalso; apply Kc, dget_key; congruence|reflexivity]).
  rewrite A, B, Kw. cbn [orb]. set (s1 := mkst (s_heap s) w1 : state). set (p := mkplan _ _ _ _ _ _ _ _ _).
  assert (T := C70_trains N Y p k al (d_classes dt) verbose alive s1 eq_refl eq_refl). subst p. cbn [t_batch t_buf t_settings t_input t_format t_pass t_output s_world s1] in T. fold s1 in T.
  destruct (direct_train N (py_library N Y) _ w1) as [code printed w2| |].
  - destruct T as [(Hc & -> & -> & T)|(-> & acc & o & s2 & s3 & -> & E1 & E2 & E3)].
    + destruct (Z.eqb_spec code 0); [contradiction|]. destruct T as [(o & s2 & E & Ew)|(o & s2 & o2 & s3 & E & F & Ew)]; rewrite E; cbn [then_]; [eauto|].
      unfold fit_save. rewrite F. cbn [then_]. eauto.
    + cbn [Z.eqb]. exists acc. rewrite E1. cbn [then_]. unfold fit_save. rewrite E2. cbn [then_]. destruct output as [[|c path]|].
      * contradiction.
      * destruct E3 as (s4 & E3 & Ew). rewrite E3. cbn [then_]. eauto.
      * eauto.
  - destruct T as [T|(o & s2 & T & F)]; rewrite T; [reflexivity|]. cbn [then_]. unfold fit_save. now rewrite F.
  - exact T.
Qed.
(** What train has chosen: without cross validation the caller's parameters; else these overridden by the best ones.  Cross validation gets the
    caller's parameters without B and lambda.  The caller's dictionary is then the one chosen. *)
Theorem C71_chosen cv retrain d w d1 w1 d2 : proper d -> (forall e w best w', cross e w = Some (best, w') -> proper best) -> (forall best, cached w = Some (Some best) -> proper best) ->
  choose cross cached cv retrain d w = (Some (d1, w1), d2) ->
  d2 = d1 /\ proper d1 /\
  if cv then exists best, overridden d best d1 /\
    ((retrain = false /\ cached w = Some (Some best) /\ w1 = w) \/
     (retrain = true \/ cached w = None) /\ exists extra, cross extra w = Some (best, w1) /\ proper extra /\ forall k v, has extra k v <-> has d k v /\ k <> bytes "B" /\ k <> bytes "lambda")
  else d1 = d /\ w1 = w.
Proof.
  intros Pd Pc Pl. unfold choose. destruct cv; cbn [negb].
  2: { intros H. inversion H; subst. auto. }
  assert (Ov : forall e best, proper e -> proper best -> (forall k, dget k e = dget k d) -> overridden d best (update str_eqb e best)).
  { intros e best Pe Pb Ee k v. rewrite <- !dget_has by (auto using update_proper). rewrite dget_update by exact Pb. assert (Hk := dget_key k best). rewrite Ee.
    destruct (dget k best) as [x|]; split.
    - intros H. now left.
    - intros [H|(Hn & _)]; [exact H|]. exfalso. apply Hn, Hk. discriminate.
    - intros H. right. split; [|exact H]. intros F. apply Hk in F. contradiction.
    - intros [H|(_ & H)]; [discriminate|exact H]. }
  assert (Go : forall (Hx : retrain = true \/ cached w = None),
    (let param_B := dget (bytes "B") d in let e1 := ddel (bytes "B") d in let param_lambda := dget (bytes "lambda") e1 in let e2 := ddel (bytes "lambda") e1 in
     match cross e2 w with
     | None => (None, e2)
     | Some (best, w1) => let d3 := update str_eqb (dput (bytes "lambda") param_lambda (dput (bytes "B") param_B e2)) best in (Some (d3, w1), d3)
     end) = (Some (d1, w1), d2) ->
    d2 = d1 /\ proper d1 /\ exists best, overridden d best d1 /\
    ((retrain = false /\ cached w = Some (Some best) /\ w1 = w) \/
     (retrain = true \/ cached w = None) /\ exists extra, cross extra w = Some (best, w1) /\ proper extra /\ forall k v, has extra k v <-> has d k v /\ k <> bytes "B" /\ k <> bytes "lambda")).
  { intros Hx. cbn zeta. set (e2 := ddel (bytes "lambda") (ddel (bytes "B") d)). assert (P2 : proper e2) by (now apply ddel_proper, ddel_proper).
    destruct (cross e2 w) as [(best, w')|] eqn:Ex; [|discriminate]. intros H. inversion H; subst. clear H. assert (Pb := Pc _ _ _ _ Ex).
    split; [reflexivity|]. split; [apply update_proper, dput_proper, dput_proper; exact P2|]. exists best. split.
    - apply Ov; [apply dput_proper, dput_proper; exact P2|exact Pb|]. intros k. rewrite !dget_dput. unfold e2. rewrite !dget_ddel.
      assert (Ne : str_eqb (bytes "B") (bytes "lambda") = false) by reflexivity. rewrite Ne.
      destruct (str_eqb (bytes "lambda") k) eqn:El; [apply str_eqb_iff in El; subst k; rewrite Ne; destruct (dget (bytes "lambda") d), (dget (bytes "B") d); reflexivity|].
      destruct (str_eqb (bytes "B") k) eqn:Eb; [apply str_eqb_iff in Eb; subst k|]; destruct (dget (bytes "lambda") d), (dget (bytes "B") d); reflexivity.
    - right. split; [exact Hx|]. exists e2. split; [exact Ex|]. split; [exact P2|]. intros k v. rewrite <- (dget_has k e2 v P2), <- (dget_has k d v Pd). unfold e2. rewrite !dget_ddel.
      destruct (str_eqb (bytes "lambda") k) eqn:El; [apply str_eqb_iff in El; subst k; split; [discriminate|intros (_ & _ & F); contradiction]|].
      destruct (str_eqb (bytes "B") k) eqn:Eb; [apply str_eqb_iff in Eb; subst k; split; [discriminate|intros (_ & F & _); contradiction]|].
      split; [|tauto]. intros H. split; [exact H|]. split; intros ->; rewrite str_eqb_refl in *; discriminate. }
  destruct retrain; [intros H; exact (Go (or_introl eq_refl) H)|]. destruct (cached w) as [[best|]|] eqn:Ec; [|discriminate|intros H; exact (Go (or_intror eq_refl) H)].
  intros H. inversion H; subst. assert (Pb := Pl best eq_refl). split; [reflexivity|]. split; [now apply update_proper|]. exists best. split; [now apply Ov|]. left. auto.
Qed.
(** A task of cross validation makes its model with the point of the grid overridden by the extra parameters (cv.py:162-163).  These are the
    settings of the final model, if no parameter is both given and searched and neither B nor lambda is given. *)
Theorem C71_validated d extra best d1 : proper d -> proper extra -> proper best -> overridden d best d1 ->
  (forall k v, has extra k v <-> has d k v /\ k <> bytes "B" /\ k <> bytes "lambda") ->
  (forall k, has_key best k -> ~ has_key d k) -> ~ has_key d (bytes "B") -> ~ has_key d (bytes "lambda") ->
  same_dict (update str_eqb best extra) d1.
Proof.
  intros Pd Pe Pb Ov Ex Dj NB NL k v. rewrite (Ov k v). rewrite <- dget_has by (now apply update_proper). rewrite dget_update by exact Pe.
  assert (He : forall v, dget k extra = Some v <-> has d k v).
  { intros x. rewrite dget_has by exact Pe. rewrite Ex. split; [tauto|]. intros H. split; [exact H|]. split; intros ->; apply has_has_key in H; contradiction. }
  destruct (dget k extra) as [x|] eqn:E.
  - assert (Hd : has d k x) by (now apply He). split.
    + intros H. inversion H; subst. right. split; [|exact Hd]. intros F. apply (Dj k F). eapply has_has_key; exact Hd.
    + intros [H|(_ & H)]; [exfalso; apply (Dj k); [eapply has_has_key; exact H|eapply has_has_key; exact Hd]|]. apply He in H. exact H.
  - rewrite dget_has by exact Pb. split; [now left|]. intros [H|(_ & H)]; [exact H|]. apply He in H. discriminate.
Qed.
(** finetune never gives a result: the model loads and its name is read (undefined), or an exception is raised. *)
Theorem C71_finetune alive dt path d output (s : state) :
  (forall m, exists t c, lookup (bytes "model") (y_info Y m) <> None /\ lookup (bytes "cls_num") (y_info Y m) = Some t /\ py_int t = Some c) ->
  (keywords py_str (init_params d) <> None -> y_load Y path (s_world s) <> None -> fst (finetune N Y py_int py_str alive dt path d output s) = Undef) /\
  (keywords py_str (init_params d) = None \/ y_load Y path (s_world s) = None -> exists s', fst (finetune N Y py_int py_str alive dt path d output s) = Raised s').
Proof.
  intros Inf. unfold finetune. cbn [fst]. unfold make. destruct s as [h w]. cbn [s_world].
  assert (Nk : forall n, (forall p, In p (init_params d) -> fst p <> bytes n) -> is_key (init_params d) n = false).
  { intros n H. unfold is_key. destruct (dget (bytes n) (init_params d)) eqn:E; [|reflexivity]. exfalso. assert (K : has_key (init_params d) (bytes n)) by (apply dget_key; congruence).
    unfold has_key in K. apply in_map_iff in K as (q & Hq & Hi). exact (H q Hi Hq). }
  assert (K1 : is_key (init_params d) "algo" = false) by (apply Nk; intros q Hq E; apply filter_In in Hq as (_ & Hq); rewrite E in Hq; discriminate Hq).
  assert (K2 : is_key (init_params d) "class_num" = false) by (apply Nk; intros q Hq E; apply filter_In in Hq as (_ & Hq); rewrite E in Hq; discriminate Hq).
  rewrite K1, K2.
  cbn [orb]. destruct (keywords py_str (init_params d)) as [(((batch, buf), verbose), ps)|].
  2: { split; [contradiction|]. intros _. eauto. }
  rewrite (cinit_none N Y). cbn [then_].
  set (o := mksol None (Some (length h)) (Literal (bytes "none")) (-1) verbose). set (s1 := mkst (h ++ [Some (OIter [])]) w : state).
  assert (It : iter_at (o_iter o) s1 = Some []) by (apply iter_is; unfold at_; cbn [s_heap s1 o o_iter]; now rewrite nth_app_new).
  destruct (y_load Y path w) as [m|] eqn:El.
  - split; [intros _ _|intros [F|F]; discriminate]. destruct (Inf m) as (t & c & I1 & I2 & I3).
    destruct (C70_load N Y py_int path o s1 m t c It El I1 I2 I3) as (o1 & s2 & E & _ & _ & _ & _ & Nm). rewrite E. cbn [then_]. rewrite Nm. reflexivity.
  - split; [contradiction|]. intros _. unfold load, sol_restore_model. cbn [l_load py_library s_world s1]. rewrite El. cbn [call then_ name o_algo o].
    destruct (map _ _) as [|(a, b) l]; cbn [set_params o_model then_]; unfold fit_save, fit; cbn [o_model then_]; eauto.
Qed.
(** The same is true of sol_test.py. *)
Theorem C71_test_script alive dt path batch buf (s : state) :
  (forall m, exists t c, lookup (bytes "model") (y_info Y m) <> None /\ lookup (bytes "cls_num") (y_info Y m) = Some t /\ py_int t = Some c) ->
  match y_load Y path (s_world s) with
  | Some _ => test_script N Y py_int alive dt path batch buf s = Undef
  | None => exists s', test_script N Y py_int alive dt path batch buf s = Raised s'
  end.
Proof.
  intros Inf. unfold test_script. destruct s as [h w]. rewrite (cinit_none N Y). cbn [then_ s_world].
  set (o := mksol None (Some (length h)) (Literal (bytes "none")) (-1) false). set (s1 := mkst (h ++ [Some (OIter [])]) w : state).
  assert (It : iter_at (o_iter o) s1 = Some []) by (apply iter_is; unfold at_; cbn [s_heap s1 o o_iter]; now rewrite nth_app_new).
  destruct (y_load Y path w) as [m|] eqn:El.
  - destruct (Inf m) as (t & c & I1 & I2 & I3). destruct (C70_load N Y py_int path o s1 m t c It El I1 I2 I3) as (o1 & s2 & E & _ & _ & _ & _ & Nm).
    rewrite E. cbn [then_]. rewrite Nm. reflexivity.
  - unfold load, sol_restore_model. cbn [l_load py_library s_world s1]. rewrite El. cbn [call then_ name o_algo o]. unfold score. cbn [o_model then_]. eauto.
Qed.
End P.
(** --params: items with one '=' are set as given, in order. *)
Theorem C71_items l d : Forall (fun p => ~ In 61 (fst p) /\ ~ In 61 (snd p)) l -> proper d ->
  exists d', set_items (map (fun p => fst p ++ 61 :: snd p) l) d = Some d' /\ proper d' /\
    (NoDup (map fst l) -> overridden d (map (fun p => (fst p, PText (snd p))) l) d').
Proof.
  intros F P. rewrite (items_ok l d F). eexists. split; [reflexivity|]. split; [now apply update_proper|]. intros Nd k v.
  set (e := map (fun p => (fst p, PText (snd p))) l). assert (Pe : proper e) by (unfold proper, e; rewrite map_map; exact Nd).
  rewrite <- !dget_has by (auto using update_proper). rewrite dget_update by exact Pe. assert (Hk := dget_key k e). destruct (dget k e) as [x|]; split.
  - intros H. now left.
  - intros [H|(Hn & _)]; [exact H|]. exfalso. apply Hn, Hk. discriminate.
  - intros H. right. split; [|exact H]. intros G. apply Hk in G. contradiction.
  - intros [H|(_ & H)]; [discriminate|exact H].
Qed.

(* ------------------------------------------------------------ cases *)
(** str, and cross validation that chooses eta = 1 if it is given no parameter "broken". *)
Definition text_of (v : pyval) : list Z := match v with PInt z => [z + 48] | PBool true => bytes "True" | PBool false => bytes "False" | PText t => t end.
Definition best1 : dict := [(bytes "eta", PText (bytes "1"))].
Definition cross1 (d : dict) (w : list (list Z)) : option (dict * list (list Z)) := if is_key d "broken" then None else Some (best1, bytes "cv" :: w).
Definition a_file : dataset := mkdataset (bytes "a") (bytes "svm") 1 2.
Notation train1 := (train f32num small text_of cross1 (fun _ => None) all a_file (0%nat, bytes "ogd")).
Example C71_trains_witness : let d := [(bytes "norm", PText (bytes "L2")); (bytes "verbose", PBool true); (bytes "batch_size", PInt 7)] in
  exists d1 w1 d2, choose cross1 (fun _ => None) true false d (s_world st0) = (Some (d1, w1), d2) /\ ~ has_key d1 (bytes "algo") /\ ~ has_key d1 (bytes "class_num") /\
  keywords text_of d1 = Some (7, 2, true, [(bytes "norm", bytes "L2"); (bytes "eta", bytes "1")]) /\
  match fst (train1 d (Some (bytes "m")) true false st0) with Accuracy r _ s => r = f32_lit 75 (-2) /\ s_world s = bytes "m" :: bytes "cv" :: s_world st0 | _ => False end.
Proof.
  do 3 eexists. split; [vm_compute; reflexivity|]. split; [|split; [|split; [reflexivity|vm_compute; auto]]]; cbn; intros H; repeat (destruct H as [H|H]; [discriminate H|]); exact H.
Qed.
Example C71_chosen_witness : let d := [(bytes "B", PText (bytes "3")); (bytes "norm", PText (bytes "L2"))] in proper d /\ proper best1 /\
  choose cross1 (fun _ => None) true true d [] = (Some ([(bytes "norm", PText (bytes "L2")); (bytes "B", PText (bytes "3")); (bytes "eta", PText (bytes "1"))], [bytes "cv"]),
                                                  [(bytes "norm", PText (bytes "L2")); (bytes "B", PText (bytes "3")); (bytes "eta", PText (bytes "1"))]).
Proof. split; [|split; [|reflexivity]]; unfold proper; cbn; repeat constructor; cbn; intros H; repeat (destruct H as [H|H]; [discriminate H|]); exact H. Qed.
Example C71_validated_witness : let d := [(bytes "norm", PText (bytes "L2"))] in
  proper d /\ overridden d best1 [(bytes "norm", PText (bytes "L2")); (bytes "eta", PText (bytes "1"))] /\ (forall k, has_key best1 k -> ~ has_key d k) /\
  ~ has_key d (bytes "B") /\ ~ has_key d (bytes "lambda").
Proof.
  cbn zeta. split; [repeat constructor; cbn; tauto|]. split; [|split; [|split]].
  - intros k v. cbn. split.
    + intros [H|[H|[]]]; inversion H; subst; [right; split; [intros [F|[]]; discriminate|now left]|left; now left].
    + tauto.
  - intros k [<-|[]] [F|[]]. discriminate.
  - intros [F|[]]; discriminate.
  - intros [F|[]]; discriminate.
Qed.
Example C71_finetune_witness : let d := [(bytes "norm", PText (bytes "L2")); (bytes "batch_size", PInt 7)] in
  keywords text_of (init_params d) = Some (7, 2, false, []) /\ y_load small (bytes "a") (s_world st0) <> None /\ y_load small (bytes "zz") (s_world st0) = None /\
  lookup (bytes "cls_num") [(bytes "model", bytes "ogd"); (bytes "cls_num", bytes "2")] = Some (bytes "2") /\ int_of (bytes "2") = Some 2.
Proof. repeat split; vm_compute; try reflexivity; discriminate. Qed.
Example C71_items_witness : set_items [bytes "eta=2"; bytes "norm=L1"] [(bytes "norm", PText (bytes "None"))] = Some [(bytes "norm", PText (bytes "L1")); (bytes "eta", PText (bytes "2"))].
Proof. vm_compute. reflexivity. Qed.

(* ------------------------------------------------------------ what goes wrong *)
(** A parameter that is both given and searched: all points of the grid are validated with the value given, and the model is made with
    another one. *)
Theorem C71_both_refuted : exists d1 d2 w, let d := [(bytes "eta", PText (bytes "5"))] in
  choose cross1 (fun _ => None) true false d [] = (Some (d1, w), d2) /\ has (update str_eqb best1 d) (bytes "eta") (PText (bytes "5")) /\
  has d1 (bytes "eta") (PText (bytes "1")) /\ ~ same_dict (update str_eqb best1 d) d1.
Proof.
  do 3 eexists. split; [vm_compute; reflexivity|]. split; [now left|]. split; [now left|]. intros H.
  destruct (proj1 (H (bytes "eta") (PText (bytes "5"))) (or_introl eq_refl)) as [F|[]]. discriminate F.
Qed.
(** B and lambda are not those of the models validated. *)
Theorem C71_budget_refuted : exists d extra d1 d2 w, cross1 extra [] = Some (best1, w) /\ choose cross1 (fun _ => None) true false d [] = (Some (d1, w), d2) /\
  (forall k v, has extra k v <-> has d k v /\ k <> bytes "B" /\ k <> bytes "lambda") /\ ~ same_dict (update str_eqb best1 extra) d1.
Proof.
  exists [(bytes "B", PText (bytes "3"))], []. do 3 eexists. split; [reflexivity|]. split; [vm_compute; reflexivity|]. split.
  - intros k v. cbn. split; [tauto|]. intros ([H|[]] & A & _). inversion H; subst. contradiction.
  - intros H. destruct (proj2 (H (bytes "B") (PText (bytes "3"))) (or_introl eq_refl)) as [F|[]]. discriminate F.
Qed.
(** The default dictionary is one for all calls: a later call without parameters and without cross validation uses the best ones of an earlier one. *)
Theorem C71_default_refuted : exists r d1 ps, train1 [] None true false st0 = (r, d1) /\ keywords text_of d1 = Some (256, 2, false, ps) /\ In (bytes "eta", bytes "1") ps /\
  choose cross1 (fun _ => None) false false d1 [] = (Some (d1, []), d1).
Proof. do 3 eexists. split; [vm_compute; reflexivity|]. split; [vm_compute; reflexivity|]. split; [now left|reflexivity]. Qed.
(** An exception in cross validation takes B and lambda out of the caller's dictionary. *)
Theorem C71_lost_refuted : exists d d1, has_key d (bytes "B") /\ choose cross1 (fun _ => None) true true d [] = (None, d1) /\ ~ has_key d1 (bytes "B").
Proof. exists [(bytes "B", PInt 3); (bytes "broken", PInt 1)]. eexists. split; [now left|]. split; [vm_compute; reflexivity|]. intros [F|[]]. discriminate F. Qed.
(** The rest of a value behind a second '=' is lost; an item without one, or a number of examples given as a setting, raises. *)
Theorem C71_items_refuted : exists item, set_items [item] [] = Some [(bytes "path", PText (bytes "a"))] /\ item = bytes "path=a=b" /\ set_items [bytes "path"] [] = None /\
  forall d, set_items [bytes "batch_size=9"] [(bytes "batch_size", PInt 256)] = Some d -> keywords text_of d = None.
Proof. exists (bytes "path=a=b"). repeat split. intros d H. vm_compute in H. inversion H; subst. reflexivity. Qed.

Print Assumptions C71_trains.
Print Assumptions C71_chosen.
Print Assumptions C71_validated.
Print Assumptions C71_finetune.
Print Assumptions C71_test_script.
Print Assumptions C71_items.
Print Assumptions C71_both_refuted.
Print Assumptions C71_budget_refuted.
Print Assumptions C71_default_refuted.
Print Assumptions C71_lost_refuted.
Print Assumptions C71_items_refuted.
