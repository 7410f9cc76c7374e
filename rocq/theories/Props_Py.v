(** C70: the Python class SOL (python/pysol.pyx). *)
From Coq Require Import String SpecFloat.
From Verif Require Import M_Base M_Num M_Expr M_Text M_Str P_Str M_Cmd M_Capi P_Capi M_Py S_Py P_Py P_Py2 P_Py3 P_Py4.
Local Open Scope list_scope.
Local Open Scope Z_scope.

Section P.
Context {R MD W C : Type}.
Variable N : num R.
Variable Y : pylib R MD W C.
Variable py_int : list Z -> option Z.
Notation state := (st (model MD) (list reader) W).

(** No careful program leaves defined behaviour, whatever the classes do (also raise, fail to open, load or save), unless Train gives up because
    of its settings. *)
Theorem C70_safe algo classes batch buf verbose ps (s : state) o s1 has alive l :
  never_refuses Y -> cinit N Y algo classes batch buf verbose ps s = PRet tt o s1 ->
  (has = true -> o_model o <> None) -> (forall k t, algo = Some (k, t) -> alive k = true) ->
  careful has true (option_map fst algo) [] alive l ->
  fst (run N Y py_int l o s1 alive) <> Undefined.
Proof.
  intros NR E Hh Hk Ca. assert (G := cinit_cases N Y py_int algo classes batch buf verbose ps s). rewrite E in G. destruct G as ((_ & Hm) & _ & Ei & _ & Hc & Ha).
  apply (run_safe N Y py_int has (option_map fst algo) l NR true [] alive o s1); [|exact Ca]. split; [exact Ei|]. split; [|split; [intros k []|]].
  - destruct Hm as [Hm|(m & Hm)]; [now left|]. right. exists m. split; [exact Hm|]. intros k Hk'. destruct (Hc m Hm); congruence.
  - intros _. split; [exact Hh|]. destruct (o_algo o) as [t|k t|]; [exact I| |contradiction]. subst algo. cbn. split; [reflexivity|]. eapply Hk; reflexivity.
Qed.
(** Creating an object never leaves defined behaviour; if it raises an exception nothing is left behind.  After any program that does not load
    into an object with a model, the end of the object leaves nothing behind. *)
Theorem C70_released algo classes batch buf verbose ps (s : state) :
  cinit N Y algo classes batch buf verbose ps s <> PBad /\
  (forall o s1, cinit N Y algo classes batch buf verbose ps s = PRaise o s1 -> same_objects (s_heap s1) (s_heap s) /\ s_world s1 = s_world s) /\
  (forall o s1 alive l v o2 s2 a2 vs, cinit N Y algo classes batch buf verbose ps s = PRet tt o s1 -> no_reload (run1 N Y py_int) l o s1 alive ->
     run N Y py_int l o s1 alive = (Goes v o2 s2 a2, vs) -> exists s3, dealloc o2 s2 = Ret tt s3 /\ same_objects (s_heap s3) (s_heap s) /\ s_world s3 = s_world s2).
Proof.
  assert (G := cinit_cases N Y py_int algo classes batch buf verbose ps s). split; [|split].
  - intros E. now rewrite E in G.
  - intros o s1 E. rewrite E in G. exact G.
  - intros o s1 alive l v o2 s2 a2 vs E Nr Er. rewrite E in G. destruct G as (H & O & _).
    destruct (run_keeps N Y py_int (s_heap s) l _ _ _ _ _ _ _ _ H O Nr Er) as (H2 & O2). now apply dealloc_ok.
Qed.
(** SOL(algo, classes, ...).fit(path, type, passes), then save: the accuracy is the one sol_train prints for the same order and the files are the
    same; where sol_train fails, an exception is raised; where an exception ends sol_train, it ends Python. *)
Theorem C70_trains p k al classes verbose alive (s : state) :
  t_source p = Create al classes -> t_complete p = true ->
  match direct_train N (py_library N Y) p (s_world s) with
  | Undef => False
  | Threw => cinit N Y (Some (k, al)) classes (t_batch p) (t_buf p) verbose (t_settings p) s = PCrash \/
      exists o s1, cinit N Y (Some (k, al)) classes (t_batch p) (t_buf p) verbose (t_settings p) s = PRet tt o s1 /\
        fit N Y alive (DPath (t_input p) (Some (t_format p))) (t_pass p) o s1 = PCrash
  | Ended code printed w =>
    (code <> 0 /\ printed = [] /\ w = s_world s /\
      ((exists o s1, cinit N Y (Some (k, al)) classes (t_batch p) (t_buf p) verbose (t_settings p) s = PRaise o s1 /\ s_world s1 = w) \/
       exists o s1 o2 s2, cinit N Y (Some (k, al)) classes (t_batch p) (t_buf p) verbose (t_settings p) s = PRet tt o s1 /\
         fit N Y alive (DPath (t_input p) (Some (t_format p))) (t_pass p) o s1 = PRaise o2 s2 /\ s_world s2 = w)) \/
    (code = 0 /\ exists accuracy o s1 s2, printed = [accuracy] /\
      cinit N Y (Some (k, al)) classes (t_batch p) (t_buf p) verbose (t_settings p) s = PRet tt o s1 /\
      fit N Y alive (DPath (t_input p) (Some (t_format p))) (t_pass p) o s1 = PRet accuracy o s2 /\
      match t_output p with [] => s_world s2 = w | path => exists s3, save N Y path o s2 = PRet tt o s3 /\ s_world s3 = w end)
  end.
Proof.
  intros Es Ec. destruct s as [h w]. cbn [s_world]. unfold direct_train. rewrite Es, Ec. cbn [l_create l_add l_iter l_train py_library].
  assert (Ci := cinit_some N Y k al classes (t_batch p) (t_buf p) verbose (t_settings p) h w).
  destruct (y_create Y al classes) as [m|].
  2: { left. split; [discriminate|]. split; [reflexivity|]. split; [reflexivity|]. destruct (t_settings p); [right|left]; rewrite Ci.
       - do 4 eexists. split; [reflexivity|]. split; [reflexivity|reflexivity].
       - do 2 eexists. split; reflexivity. }
  rewrite (setd_eq N Y). destruct (psetd Y m (t_settings p)) as [(m', [])|].
  - rewrite Ci. set (o := mksol (Some (length h)) (Some (S (length h))) (Buffer k al) classes verbose).
    set (s1 := mkst (h ++ [Some (OModel (m', first_callback verbose)); Some (OIter [])]) w : state).
    assert (Mo : model_at (o_model o) s1 = Some (m', first_callback verbose)) by (apply model_is; unfold at_; cbn [s_heap s1 o o_model]; now rewrite nth1).
    assert (It : iter_at (o_iter o) s1 = Some []) by (apply iter_is; unfold at_; cbn [s_heap s1 o o_iter]; now rewrite nth2).
    assert (F := fit_file N Y alive (t_input p) (t_format p) (t_pass p) o s1 _ Mo It ltac:(now destruct verbose)).
    cbn [fst snd s_world s1] in F. unfold add_reader. destruct (y_good Y (RFile (t_input p) (t_format p) (t_pass p)) w).
    2: { cbn. left. split; [discriminate|]. split; [reflexivity|]. split; [reflexivity|]. right. destruct F as (s2 & F & Fw). exists o, s1, o, s2. auto. }
    cbn [Z.eqb negb app fst snd]. destruct (y_train Y m' [RFile (t_input p) (t_format p) (t_pass p)] w) as [e m2|m2|]; cbn [snd].
    + right. split; [reflexivity|]. destruct F as (s2 & F & Fw & Fm). do 4 eexists. split; [reflexivity|]. split; [reflexivity|]. split; [exact F|].
      destruct (t_output p) as [|c path]; [exact Fw|]. unfold save, sol_save_model. cbn [o_model o] in *. rewrite Fm. cbn [l_save py_library fst]. rewrite Fw.
      destruct (y_save Y m2 (c :: path) w) as [ret w']. cbn [call]. eexists. split; reflexivity.
    + right. split; [reflexivity|]. destruct F as (s2 & F & Fw & Fm). do 4 eexists. split; [reflexivity|]. split; [reflexivity|]. split; [exact F|].
      destruct (t_output p) as [|c path]; [exact Fw|]. unfold save, sol_save_model. cbn [o_model o] in *. rewrite Fm. cbn [l_save py_library fst]. rewrite Fw.
      destruct (y_save Y m2 (c :: path) w) as [ret w']. cbn [call]. eexists. split; reflexivity.
    + right. do 2 eexists. split; [reflexivity|exact F].
  - left. split; [discriminate|]. split; [reflexivity|]. split; [reflexivity|]. left. rewrite Ci. do 2 eexists. split; reflexivity.
  - left. rewrite Ci. reflexivity.
Qed.
(** SOL().load(path), set_params(filter=...) if asked for, score(path, type): as sol_test without an output file. *)
Definition filter_of (f : option (list Z)) : list (list Z * list Z) := match f with None => [] | Some v => [(bytes "filter", v)] end.
Theorem C70_tests p classes verbose alive (s : state) :
  e_output p = [] ->
  (forall m, exists t c, lookup (bytes "model") (y_info Y m) <> None /\ lookup (bytes "cls_num") (y_info Y m) = Some t /\ py_int t = Some c) ->
  exists o s1, cinit N Y None classes (e_batch p) (e_buf p) verbose [] s = PRet tt o s1 /\ exists b o2 s2, load N Y py_int (e_model p) o s1 = PRet b o2 s2 /\
  let set := set_params N Y (filter_of (e_filter p)) o2 s2 in
  match direct_test N (py_library N Y) p (s_world s) with
  | Undef => False
  | Threw => set = PCrash \/ exists s3, set = PRet tt o2 s3 /\ score N Y alive (DPath (e_input p) (Some (e_format p))) o2 s3 = PCrash
  | Ended code printed w => w = s_world s /\
    (code <> 0 /\ printed = [] /\
      ((exists s3, set = PRaise o2 s3 /\ s_world s3 = w) \/
       exists s3 s4, set = PRet tt o2 s3 /\ score N Y alive (DPath (e_input p) (Some (e_format p))) o2 s3 = PRaise o2 s4 /\ s_world s4 = w) \/
     code = 0 /\ exists accuracy s3 s4, printed = [accuracy] /\ set = PRet tt o2 s3 /\
       score N Y alive (DPath (e_input p) (Some (e_format p))) o2 s3 = PRet accuracy o2 s4 /\ s_world s4 = w)
  end.
Proof.
  intros Eo Inf. destruct s as [h w]. cbn [s_world]. rewrite (cinit_none N Y). do 2 eexists. split; [reflexivity|].
  set (o := mksol None (Some (length h)) (Literal (bytes "none")) (-1) verbose). set (s1 := mkst (h ++ [Some (OIter [])]) w : state).
  assert (It : iter_at (o_iter o) s1 = Some []) by (apply iter_is; unfold at_; cbn [s_heap s1 o o_iter]; now rewrite nth_app_new).
  assert (Ld := load_new N Y py_int (e_model p) o s1 It Inf). change (s_world s1) with w in Ld. unfold direct_test. cbn [l_load l_set l_add l_iter l_test py_library].
  destruct (y_load Y (e_model p) w) as [m|].
  2: { destruct Ld as (o2 & Ld & Ln). exists false, o2, s1. split; [exact Ld|]. cbn zeta. split; [reflexivity|]. left. split; [discriminate|]. split; [reflexivity|].
       destruct (e_filter p) as [f|]; cbn [filter_of set_params]; rewrite ?Ln.
       - left. eexists. split; reflexivity.
       - right. exists s1, s1. split; [reflexivity|]. split; [|reflexivity]. unfold score. now rewrite Ln. }
  destruct Ld as (o2 & s2 & cb & Ld & Em & Ei & Ew). exists true, o2, s2. split; [exact Ld|]. cbn zeta.
  assert (Go : forall m1 s3, set_params N Y (filter_of (e_filter p)) o2 s2 = PRet tt o2 s3 -> model_at (o_model o2) s3 = Some (m1, cb) -> iter_at (o_iter o2) s3 = Some [] -> s_world s3 = w ->
    match (let '(ret, i) := add_reader Y (RFile (e_input p) (e_format p) 1) [] w in
      if negb (ret =? 0) then Ended ret [] w
      else match match y_test Y m1 i w with Some (err, m') => Some (err, (m', CDefault), [] : list reader, w) | None => None end with
           | Some (err, _, _, w') => Ended 0 [n_sub N (one N) err] w' | None => Threw end) with
    | Undef => False
    | Threw => set_params N Y (filter_of (e_filter p)) o2 s2 = PCrash \/ exists s3, set_params N Y (filter_of (e_filter p)) o2 s2 = PRet tt o2 s3 /\ score N Y alive (DPath (e_input p) (Some (e_format p))) o2 s3 = PCrash
    | Ended code printed w' => w' = w /\
      (code <> 0 /\ printed = [] /\
        ((exists s3, set_params N Y (filter_of (e_filter p)) o2 s2 = PRaise o2 s3 /\ s_world s3 = w') \/
         exists s3 s4, set_params N Y (filter_of (e_filter p)) o2 s2 = PRet tt o2 s3 /\ score N Y alive (DPath (e_input p) (Some (e_format p))) o2 s3 = PRaise o2 s4 /\ s_world s4 = w') \/
       code = 0 /\ exists accuracy s3 s4, printed = [accuracy] /\ set_params N Y (filter_of (e_filter p)) o2 s2 = PRet tt o2 s3 /\
         score N Y alive (DPath (e_input p) (Some (e_format p))) o2 s3 = PRet accuracy o2 s4 /\ s_world s4 = w')
    end).
  { intros m1 s3 Es Em3 Ei3 Ew3. assert (Sc := score_file N Y alive (e_input p) (e_format p) o2 s3 (m1, cb) Em3 Ei3). rewrite Ew3 in Sc. unfold add_reader.
    destruct (y_good Y (RFile (e_input p) (e_format p) 1) w); cbn [negb Z.eqb app].
    - cbn [fst] in *. destruct (y_test Y m1 [RFile (e_input p) (e_format p) 1] w) as [(err, m')|].
      + split; [reflexivity|]. right. split; [reflexivity|]. destruct Sc as (s4 & Sc & Sw). exists (n_sub N (one N) err), s3, s4. auto.
      + right. exists s3. auto.
    - split; [reflexivity|]. left. split; [discriminate|]. split; [reflexivity|]. right. destruct Sc as (s4 & Sc & Sw). exists s3, s4. auto. }
  destruct (e_filter p) as [f|]; cbn [filter_of] in *.
  - assert (St := set_one N Y (bytes "filter") f o2 s2 (m, cb) Em Ei). cbn [fst snd] in *. destruct (y_set Y (bytes "filter") f m) as [m1|m1|].
    + destruct St as (s3 & Es & Em3 & Ei3 & Ew3). specialize (Go m1 s3 Es Em3 Ei3 (eq_trans Ew3 Ew)). cbn [fst snd] in Go. exact Go.
    + split; [reflexivity|]. left. split; [discriminate|]. split; [reflexivity|]. left. destruct St as (s3 & Es & Ews). exists s3. split; [exact Es|congruence].
    + left. exact St.
  - specialize (Go m s2 eq_refl Em Ei Ew). cbn [fst snd] in Go. exact Go.
Qed.
(** Single calls: what is read is what the arguments name and nothing else, the results are those of the classes, the handler stays. *)
Theorem C70_fit alive d pass o (s : state) m h : ready o s m h -> labelled alive d -> callable alive h = true ->
  match source d pass with
  | None => exists s1, fit N Y alive d pass o s = PRaise o s1 /\ ready o s1 m h /\ s_world s1 = s_world s
  | Some r =>
    if y_good Y r (s_world s) then
      match y_train Y m [r] (s_world s) with
      | Rate e m' => exists s1, fit N Y alive d pass o s = PRet (n_sub N (one N) e) o s1 /\ ready o s1 m' h /\ s_world s1 = s_world s
      | Refused m' => exists s1, fit N Y alive d pass o s = PRet (n_sub N (one N) (zero N)) o s1 /\ model_at (o_model o) s1 = Some (m', h) /\ iter_at (o_iter o) s1 = Some [r] /\ s_world s1 = s_world s
      | TrainThrows => fit N Y alive d pass o s = PCrash
      end
    else exists s1, fit N Y alive d pass o s = PRaise o s1 /\ ready o s1 m h /\ s_world s1 = s_world s
  end.
Proof. apply fit_one. Qed.
Theorem C70_score alive d o (s : state) m h : ready o s m h -> labelled alive d ->
  match source d 1 with
  | None => exists s1, score N Y alive d o s = PRaise o s1 /\ ready o s1 m h /\ s_world s1 = s_world s
  | Some r =>
    if y_good Y r (s_world s) then
      match y_test Y m [r] (s_world s) with
      | Some (e, m') => exists s1, score N Y alive d o s = PRet (n_sub N (one N) e) o s1 /\ ready o s1 m' h /\ s_world s1 = s_world s
      | None => score N Y alive d o s = PCrash
      end
    else exists s1, score N Y alive d o s = PRaise o s1 /\ ready o s1 m h /\ s_world s1 = s_world s
  end.
Proof. apply score_one. Qed.
Theorem C70_predict alive d o (s : state) m h : ready o s m h -> labelled alive d ->
  match source d 1 with
  | None => exists s1, predict N Y alive d o s = PRaise o s1 /\ ready o s1 m h /\ s_world s1 = s_world s
  | Some r =>
    if y_good Y r (s_world s) then
      match y_predict Y m [r] (s_world s) with
      | Some (cs, m') => exists s1, predict N Y alive d o s = PRet cs o s1 /\ ready o s1 m' h /\ s_world s1 = s_world s
      | None => predict N Y alive d o s = PCrash
      end
    else exists s1, predict N Y alive d o s = PRaise o s1 /\ ready o s1 m h /\ s_world s1 = s_world s
  end.
Proof. apply predict_one. Qed.
(** An object without a model says so. *)
Theorem C70_no_model alive d pass path n v l o (s : state) : o_model o = None ->
  fit N Y alive d pass o s = PRaise o s /\ score N Y alive d o s = PRaise o s /\ predict N Y alive d o s = PRaise o s /\
  save N Y path o s = PRaise o s /\ set_params N Y ((n, v) :: l) o s = PRaise o s /\ set_params N Y [] o s = PRet tt o s.
Proof. intros E. unfold fit, score, predict, save, set_params. rewrite E. repeat split. Qed.
(** A new object: its name, number of classes and handler (none unless verbose), and no data waiting; the settings have been applied in order, and
    an exception is raised if one is refused.  inspect_learning sets the handler. *)
Theorem C70_new k al classes batch buf (verbose : bool) ps alive (s : state) :
  alive k = true ->
  match y_create Y al classes with
  | Some m =>
    match set_direct (py_library N Y) (m, if verbose then CDefault else CNone) ps true with
    | Some (inl (m', h)) => exists o s1, cinit N Y (Some (k, al)) classes batch buf verbose ps s = PRet tt o s1 /\ ready o s1 m' h /\
        name alive o s1 = PRet al o s1 /\ o_classes o = classes /\ o_verbose o = verbose /\ s_world s1 = s_world s /\
        forall h', exists s2, inspect_learning h' o s1 = PRet tt o s2 /\ ready o s2 m' h' /\ s_world s2 = s_world s
    | Some (inr _) => exists o s1, cinit N Y (Some (k, al)) classes batch buf verbose ps s = PRaise o s1 /\ s_world s1 = s_world s
    | None => cinit N Y (Some (k, al)) classes batch buf verbose ps s = PCrash
    end
  | None => match ps with
            | [] => exists o s1, cinit N Y (Some (k, al)) classes batch buf verbose ps s = PRet tt o s1 /\ o_model o = None /\ name alive o s1 = PRet al o s1
            | _ => exists o s1, cinit N Y (Some (k, al)) classes batch buf verbose ps s = PRaise o s1 /\ s_world s1 = s_world s
            end
  end.
Proof.
  intros Al. destruct s as [hp w]. assert (Ci := cinit_some N Y k al classes batch buf verbose ps hp w). cbn [s_world]. destruct (y_create Y al classes) as [m|].
  2: { destruct ps; rewrite Ci; do 2 eexists; split; try reflexivity. split; [reflexivity|]. unfold name. cbn [o_algo]. now rewrite Al. }
  rewrite (setd_eq N Y). destruct (psetd Y m ps) as [(m', [])|].
  - rewrite Ci. do 2 eexists. split; [reflexivity|]. set (o := mksol (Some (length hp)) (Some (S (length hp))) (Buffer k al) classes verbose).
    set (s1 := mkst (hp ++ [Some (OModel (m', first_callback verbose)); Some (OIter [])]) w : state).
    assert (Mo : model_at (o_model o) s1 = Some (m', first_callback verbose)) by (apply model_is; unfold at_; cbn [s_heap s1 o o_model]; now rewrite nth1).
    assert (It : iter_at (o_iter o) s1 = Some []) by (apply iter_is; unfold at_; cbn [s_heap s1 o o_iter]; now rewrite nth2).
    split; [split; [exact Mo|exact It]|]. split; [unfold name; cbn [o_algo o]; now rewrite Al|]. split; [reflexivity|]. split; [reflexivity|]. split; [reflexivity|].
    intros h'. exists (store (o_model o) (OModel (m', h')) s1). destruct (put_model [] o s1 (length hp) _ (m', h') eq_refl Mo) as (A & B & _).
    split; [unfold inspect_learning; rewrite Mo; reflexivity|]. split; [split; [exact A|now apply B]|now rewrite world_store].
  - do 2 eexists. split; [exact Ci|reflexivity].
  - exact Ci.
Qed.
(** A dictionary filled in an order has for each name the value assigned last. *)
Theorem C70_dictionary k (l : list (list Z * list Z)) v : lookup k l = Some v <-> exists a b, l = a ++ (k, v) :: b /\ ~ In k (map fst b).
Proof.
  assert (No : forall l, lookup k l = None <-> ~ In k (map fst l)).
  { clear. induction l as [|(n, x) l IH]; cbn; [tauto|]. destruct (lookup k l) as [y|]; [split; [discriminate|]; intros H; exfalso; apply H; right; destruct (in_dec (list_eq_dec Z.eq_dec) k (map fst l)) as [I|I]; [exact I|apply IH in I; discriminate]|].
    destruct (str_eqb n k) eqn:E; [apply P_Str.str_eqb_eq in E; subst; split; [discriminate|tauto]|]. split; [|reflexivity]. intros _ [->|H].
    - assert (F : str_eqb k k = true) by (now apply P_Str.str_eqb_eq). congruence.
    - now apply IH in H. }
  induction l as [|(n, x) l IH]; cbn [lookup].
  - split; [discriminate|]. intros ([|? ?] & b & E & _); discriminate.
  - destruct (lookup k l) as [y|] eqn:El.
    + rewrite IH. split.
      * intros (a & b & -> & H). now exists ((n, x) :: a), b.
      * intros ([|c a] & b & E & H); cbn in E; inversion E; subst; [|now exists a, b]. apply No in H. congruence.
    + destruct (str_eqb n k) eqn:E.
      * apply P_Str.str_eqb_eq in E. subst n. split.
        -- intros H. inversion H; subst. exists [], l. split; [reflexivity|now apply No].
        -- intros ([|c a] & b & F & H); cbn in F; inversion F; subst; [reflexivity|]. exfalso. apply (proj1 (No _) El). rewrite map_app. apply in_or_app. right. now left.
      * split; [discriminate|]. intros ([|c a] & b & F & H); cbn in F; inversion F; subst.
        -- assert (G : str_eqb k k = true) by (now apply P_Str.str_eqb_eq). congruence.
        -- exfalso. apply (proj1 (No _) El). rewrite map_app. apply in_or_app. right. now left.
Qed.
(** load: the model of the file, with the number of classes of its info and no handler unless verbose; its name cannot be read. *)
Theorem C70_load path o (s : state) m t c : iter_at (o_iter o) s = Some [] -> y_load Y path (s_world s) = Some m ->
  lookup (bytes "model") (y_info Y m) <> None -> lookup (bytes "cls_num") (y_info Y m) = Some t -> py_int t = Some c ->
  exists o1 s1, load N Y py_int path o s = PRet true o1 s1 /\ ready o1 s1 m (if o_verbose o then CDefault else CNone) /\ o_classes o1 = c /\ o_verbose o1 = o_verbose o /\ s_world s1 = s_world s /\
    forall alive, name alive o1 s1 = PBad.
Proof.
  intros Ei Ey I1 I2 I3. unfold load, sol_restore_model. cbn [l_load py_library]. rewrite Ey.
  cbn [alloc call]. set (h := s_heap s). set (s1 := mkst (h ++ [Some (OModel (m, CDefault))]) (s_world s)).
  assert (Ei1 : iter_at (o_iter o) s1 = Some []).
  { apply iter_is in Ei. apply iter_is. destruct (o_iter o) as [b|]; [|discriminate Ei]. unfold at_ in *. cbn [s_heap s1]. fold h in Ei.
    rewrite nth_error_app1; [exact Ei|]. apply nth_error_Some. intros F. rewrite F in Ei. discriminate. }
  assert (Em1 : model_at (Some (length h)) s1 = Some (m, CDefault)) by (apply model_is; unfold at_; cbn [s_heap s1]; now rewrite nth_app_new).
  unfold get_params. cbn [o_model]. rewrite Em1. cbn [andthen fst].
  destruct (lookup (bytes "model") (y_info Y m)); [|contradiction]. rewrite I2, I3. cbn [o_model o_iter o_algo o_classes o_verbose].
  destruct (o_verbose o); cbn [andthen].
  - do 2 eexists. split; [reflexivity|]. split; [split; [exact Em1|exact Ei1]|]. repeat split.
  - set (o4 := mksol (Some (length h)) (o_iter o) Freed c false).
    assert (E4 : inspect_learning CNone o4 s1 = PRet tt o4 (store (o_model o4) (OModel (m, CNone)) s1)) by (unfold inspect_learning; cbn [o_model o4]; rewrite Em1; reflexivity).
    rewrite E4. cbn [andthen].
    destruct (put_model [] o4 s1 (length h) (m, CDefault) (m, CNone) eq_refl Em1) as (A & B & _).
    do 2 eexists. split; [reflexivity|]. split; [split; [exact A|now apply B]|]. split; [reflexivity|]. split; [reflexivity|]. split; [now rewrite world_store|reflexivity].
Qed.
End P.

(* ------------------------------------------------------------ a small library *)
(** Models are their settings; the algorithm "ogd" exists, the setting "no" is refused, Train gives up with the setting "bad" until "good" is set, the
    files are those in the world; saving needs a path that is not "ro". *)
Definition hasn (n : string) (m : list (list Z * list Z)) : bool := existsb (fun p => str_eqb (fst p) (bytes n)) m.
Definition lib (strict : bool) : pylib f32 (list (list Z * list Z)) (list (list Z)) (list reader) := mkpylib
  (fun a _ => if str_eqb a (bytes "ogd") then Some [(bytes "model", a); (bytes "cls_num", bytes "2")] else None)
  (fun p w => if existsb (str_eqb p) w then Some [(bytes "model", bytes "ogd"); (bytes "cls_num", bytes "2")] else None)
  (fun n v m => if str_eqb n (bytes "no") then SetInvalid m else SetOk (m ++ [(n, v)]))
  (fun r w => match r with RFile p _ _ => existsb (str_eqb p) w | RArray _ _ _ => true end)
  (fun m i w => if strict && hasn "bad" m && negb (hasn "good" m) then Refused m else Rate (f32_lit 25 (-2)) (m ++ map (fun r => match r with RFile p _ _ => (bytes "read", p) | _ => (bytes "read", []) end) i))
  (fun m => true)
  (fun m i w => Some (f32_lit 5 (-1), m))
  (fun m i w => Some ([i], m))
  (fun m p w => if str_eqb p (bytes "ro") then (2, w) else (0, p :: w))
  (fun m => m).
Notation small := (lib true).
Definition all (k : nat) : bool := true.
Definition int_of (t : list Z) : option Z := match t with [c] => Some (c - 48) | _ => None end.
Definition st0 : st (model (list (list Z * list Z))) (list reader) (list (list Z)) := mkst [] [bytes "a"; bytes "b"].
Definition after_in (Y : pylib f32 (list (list Z * list Z)) (list (list Z)) (list reader)) (algo : option (nat * list Z)) (ps : list (list Z * list Z)) (l : list op) :=
  match cinit f32num Y algo 2 256 2 false ps st0 with PRet _ o s => run f32num Y int_of l o s all | PRaise _ _ => (Crashed, [VRaised]) | PCrash => (Crashed, []) | PBad => (Undefined, []) end.
Notation after := (after_in small).
Definition ogd : option (nat * list Z) := Some (0%nat, bytes "ogd").
Definition gone (x : outcome f32 (list (list Z * list Z)) (list (list Z)) (list reader) * list (value f32 (list reader))) : bool := match fst x with Undefined => true | _ => false end.
Definition file (n : string) : data := DPath (bytes n) (Some (bytes "svm")).

Example C70_safe_witness :
  let l := [PGet; PInspect (CObject 5); PFit (DArray 1 (Some 2%nat)) 3; PDrop 1; PDrop 2; PFit (file "a") 1; PScore (file "zz"); PName; PSet [(bytes "no", [])]; PSave (bytes "m"); PLoad (bytes "m"); PPredict (file "b")] in
  never_refuses (lib false) /\ careful true true (Some 0%nat) [] all l /\ gone (after_in (lib false) ogd [] l) = false /\
  map (fun v => match v with VRate r => Some (f32_eq r (f32_lit 75 (-2))) | VRaised => Some false | _ => None end) (snd (after_in (lib false) ogd [] l)) =
    [None; None; Some true; None; None; Some true; Some false; None; Some false; None; None; None].
Proof.
  split; [intros m i w m' E; discriminate E|]. split; [|split; vm_compute; reflexivity]. cbn. repeat split; try reflexivity; try (intros [H|[]]; discriminate H); try (intros []; discriminate); try (now exists 2%nat); discriminate.
Qed.
Example C70_released_witness :
  let l := [PFit (file "a") 1; PScore (file "b")] in
  exists o s1 v o2 s2 a2 vs, cinit f32num small ogd 2 256 2 false [] st0 = PRet tt o s1 /\ run f32num small int_of l o s1 all = (Goes v o2 s2 a2, vs) /\
  no_reload (run1 f32num small int_of) l o s1 all /\ length (s_heap s2) = 2%nat.
Proof. do 7 eexists. split; [reflexivity|]. split; [vm_compute; reflexivity|]. split; [|reflexivity]. cbn [no_reload]. repeat split; intros. Qed.
Example C70_trains_witness : let p := mkplan (Create (bytes "ogd") 2) [(bytes "eta", bytes "1")] true (bytes "a") (bytes "m") (bytes "svm") 2 256 2 in
  exists w, direct_train f32num (py_library f32num small) p [bytes "a"] = Ended 0 [f32_lit 75 (-2)] w /\ w = [bytes "m"; bytes "a"].
Proof. eexists. split; vm_compute; reflexivity. Qed.
Example C70_tests_witness : let p := mktest (bytes "b") (Some (bytes "f")) (bytes "a") [] (bytes "svm") 256 2 in
  direct_test f32num (py_library f32num small) p [bytes "a"; bytes "b"] = Ended 0 [f32_lit 5 (-1)] [bytes "a"; bytes "b"] /\
  direct_test f32num (py_library f32num small) p [bytes "a"] = Ended 4 [] [bytes "a"].
Proof. split; vm_compute; reflexivity. Qed.

Example C70_dictionary_witness : lookup (bytes "b") [(bytes "a", bytes "1"); (bytes "b", bytes "2"); (bytes "b", bytes "3"); (bytes "c", bytes "4")] = Some (bytes "3").
Proof. reflexivity. Qed.
(** Objects as in C70_fit, C70_score, C70_predict and C70_load, made as in C70_new. *)
Example C70_calls_witness : exists o s1, cinit f32num small ogd 3 256 2 true [(bytes "eta", bytes "1")] st0 = PRet tt o s1 /\
  ready o s1 [(bytes "model", bytes "ogd"); (bytes "cls_num", bytes "2"); (bytes "eta", bytes "1")] CDefault /\ labelled all (DArray 4 (Some 5%nat)) /\
  source (DArray 4 (Some 5%nat)) 2 = Some (RArray 4 (Some 5%nat) 2) /\ source (file "a") 2 = Some (RFile (bytes "a") (bytes "svm") 2) /\
  y_load small (bytes "b") (s_world s1) = Some [(bytes "model", bytes "ogd"); (bytes "cls_num", bytes "2")] /\ int_of (bytes "2") = Some 2.
Proof. do 2 eexists. split; [vm_compute; reflexivity|]. split; [split; reflexivity|]. split; [split; [reflexivity|now exists 5%nat]|]. repeat split. Qed.
Example C70_no_model_witness : exists o s1, cinit f32num small None 3 256 2 true [] st0 = PRet tt o s1 /\ o_model o = None.
Proof. do 2 eexists. split; vm_compute; reflexivity. Qed.

(* ------------------------------------------------------------ what goes wrong *)
(** The name of a loaded model is read from freed memory; so is that given to the constructor if the caller has not kept it. *)
Theorem C70_name_refuted : exists path, gone (after None [] [PLoad path]) = false /\ gone (after None [] [PLoad path; PName]) = true /\
  gone (after ogd [] [PName]) = false /\ gone (after ogd [] [PDrop 0; PName]) = true.
Proof. exists (bytes "a"). repeat split; vm_compute; reflexivity. Qed.
(** get_params of an object without a model; such an object is made of an algorithm that does not exist. *)
Theorem C70_get_refuted : exists algo, gone (after (Some (0%nat, algo)) [] [PGet]) = true /\ gone (after ogd [] [PGet]) = false.
Proof. exists (bytes "ogt"). split; vm_compute; reflexivity. Qed.
(** predict on a matrix without labels, which is how it is meant to be called. *)
Theorem C70_unlabelled_refuted : exists x, all x = true /\ gone (after ogd [] [PPredict (DArray x None)]) = true.
Proof. exists 1%nat. split; vm_compute; reflexivity. Qed.
(** A handler the program has no reference to any more is called. *)
Theorem C70_handler_refuted : exists k, gone (after ogd [] [PInspect (CObject k); PFit (file "a") 1]) = false /\
  gone (after ogd [] [PInspect (CObject k); PDrop k; PFit (file "a") 1]) = true.
Proof. exists 7%nat. split; vm_compute; reflexivity. Qed.
(** Train gives up because of a setting: fit reports the accuracy 1, and the data wait in the iterator.  If they are gone when a later fit comes to them,
    it reads freed memory; if they are in a file, the later fit trains on them too. *)
Theorem C70_refused_refuted : exists bad good : list Z * list Z,
  (forall k, (k = 1 \/ k = 2)%nat ->
    after ogd [bad] [PFit (DArray 1 (Some 2%nat)) 1; PDrop k; PSet [good]; PFit (file "b") 1] = (Undefined, [VRate (f32_int 1); VUnit; VUnit])) /\
  exists o s1 v o2 s2 a2 vs m cb, cinit f32num small ogd 2 256 2 false [bad] st0 = PRet tt o s1 /\
    run f32num small int_of [PFit (file "a") 1; PSet [good]; PFit (file "b") 1] o s1 all = (Goes v o2 s2 a2, vs) /\
    model_at (o_model o2) s2 = Some (m, cb) /\ In (bytes "read", bytes "a") m /\ In (bytes "read", bytes "b") m.
Proof.
  exists (bytes "bad", []), (bytes "good", []). split; [intros k [-> | ->]; vm_compute; reflexivity|].
  do 9 eexists. split; [reflexivity|]. split; [vm_compute; reflexivity|]. split; [vm_compute; reflexivity|]. split; vm_compute; tauto.
Qed.
(** load into an object that has a model leaves the old one behind; a failing load makes the object useless. *)
Theorem C70_reload_refuted : exists o s1 v o2 s2 a2 vs s3, cinit f32num small ogd 2 256 2 false [] st0 = PRet tt o s1 /\
  run f32num small int_of [PLoad (bytes "zz")] o s1 all = (Goes v o2 s2 a2, vs) /\ vs = [VBool false] /\ o_model o2 = None /\
  dealloc o2 s2 = Ret tt s3 /\ ~ same_objects (s_heap s3) (s_heap st0).
Proof.
  do 8 eexists. split; [reflexivity|]. split; [vm_compute; reflexivity|]. split; [reflexivity|]. split; [reflexivity|]. split; [vm_compute; reflexivity|].
  intros H. assert (F := proj1 (H 0%nat _) eq_refl). discriminate F.
Qed.
(** save reports nothing if the file cannot be written. *)
Theorem C70_save_refuted : exists o s1 v o2 s2 a2 vs, cinit f32num small ogd 2 256 2 false [] st0 = PRet tt o s1 /\
  run f32num small int_of [PSave (bytes "ro")] o s1 all = (Goes v o2 s2 a2, vs) /\ vs = [VUnit] /\ s_world s2 = s_world s1 /\
  sol_save_model (py_library f32num small) (o_model o) (bytes "ro") s1 = Ret 2 s2.
Proof. do 7 eexists. split; [reflexivity|]. split; [vm_compute; reflexivity|]. split; [reflexivity|]. split; vm_compute; reflexivity. Qed.
(** set_params may raise an exception after having changed the model. *)
Theorem C70_set_refuted : exists o s1 v o2 s2 a2 vs m cb, cinit f32num small ogd 2 256 2 false [] st0 = PRet tt o s1 /\
  run f32num small int_of [PSet [(bytes "eta", bytes "1"); (bytes "no", bytes "1")]] o s1 all = (Goes v o2 s2 a2, vs) /\ vs = [VRaised] /\
  model_at (o_model o2) s2 = Some (m, cb) /\ In (bytes "eta", bytes "1") m.
Proof. do 9 eexists. split; [reflexivity|]. split; [vm_compute; reflexivity|]. split; [reflexivity|]. split; [vm_compute; reflexivity|]. vm_compute; tauto. Qed.

Print Assumptions C70_safe.
Print Assumptions C70_released.
Print Assumptions C70_trains.
Print Assumptions C70_tests.
Print Assumptions C70_fit.
Print Assumptions C70_score.
Print Assumptions C70_predict.
Print Assumptions C70_no_model.
Print Assumptions C70_new.
Print Assumptions C70_load.
Print Assumptions C70_dictionary.
Print Assumptions C70_name_refuted.
Print Assumptions C70_get_refuted.
Print Assumptions C70_unlabelled_refuted.
Print Assumptions C70_handler_refuted.
Print Assumptions C70_refused_refuted.
Print Assumptions C70_reload_refuted.
Print Assumptions C70_save_refuted.
Print Assumptions C70_set_refuted.
