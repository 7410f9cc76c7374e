(** C68: the C interface and the program on top of it, compared with sol_train and sol_test. *)
From Coq Require Import String Lia SpecFloat.
From Verif Require Import M_Base M_Num M_Expr M_Loss M_Online M_Algs M_Text M_Str S_Text S_Str P_Str M_Save M_SaveF32 M_Json M_Cmd S_Cmd P_Cmd P_Cmd2 Props_Cmd
  Props_Online M_Capi S_Capi P_Capi.
Local Open Scope list_scope.
Local Open Scope Z_scope.

Section Line.
Context {R : Type}.
Variable read_float : list Z -> option R.
Ltac take D I S said m d s :=
  let G := fresh "G" in let F := fresh "F" in
  destruct (sane_get D m d S ltac:(cbn; tauto)) as (s & G);
  cbn [d_name str_opt int_opt oneof_opt help] in G;
  first [pose proof (final_s read_float D said m d s I ltac:(cbn; tauto) G) as F
        |pose proof (final_i read_float D said m d s I ltac:(cbn; tauto) G) as F];
  cbn [d_name str_opt int_opt oneof_opt help] in F.
Lemma lsol_unamb : unambiguous (R:=R) lsol_opts.
Proof. apply unamb_of; vm_compute; repeat (constructor; [cbn; intuition discriminate|]); constructor. Qed.
Lemma lsol_typed : forall d : decl R, In d lsol_opts -> typed (d_read d) (d_def d).
Proof. intros d Hd; repeat (destruct Hd as [<-|Hd]; [exact Logic.I|]); destruct Hd. Qed.
Lemma lsol_complete said : complete (R:=R) lsol_opts said <-> mentioned said (bytes "input").
Proof.
  split.
  - intros H. apply (H (str_opt "input" 105 true "")); [cbn; tauto|reflexivity|discriminate].
  - intros H d Hd. repeat (destruct Hd as [<-|Hd]; [discriminate || (intros; exact H)|]). destruct Hd.
Qed.
Lemma task_value said t : lsol_value read_float said "task" (VS t) -> t = bytes "train" \/ t = bytes "test".
Proof.
  intros (d & r & Hd & Hn & Hr & H).
  assert (Q : d = oneof_opt "task" 116 "train" ["train"; "test"]%string) by (repeat (destruct Hd as [<-|Hd]; [discriminate Hn || reflexivity|]); destruct Hd).
  subst d. injection Hr as <-. destruct H as [(_ & H)|(pre & v & post & _ & _ & H)].
  - injection H as ->. now left.
  - destruct H as (Hi & H). injection H as ->. destruct Hi as [<-|[<-|[]]]; auto.
Qed.
Lemma args_fun said a a' : args_of read_float said a -> args_of read_float said a' -> a = a'.
Proof.
  destruct a as [tr i fm c pa b bf out al mo fl l co], a' as [tr' i' fm' c' pa' b' bf' out' al' mo' fl' l' co'].
  unfold args_of, lsol_given, lsol_value. cbn [a_train a_input a_format a_classes a_pass a_batch a_buf a_output a_algo a_model a_filter a_settings a_complete].
  intros (H0 & _ & H1 & H2 & H3 & H4 & H5 & H6 & H7 & H8 & H9 & H10 & ps & P1 & P2) (H0' & _ & H1' & H2' & H3' & H4' & H5' & H6' & H7' & H8' & H9' & H10' & ps' & P1' & P2').
  pose proof (proj1 lsol_unamb : NoDup (map d_name (@lsol_opts R))) as U.
  assert (FS : forall n x y, final read_float lsol_opts said n (VS x) -> final read_float lsol_opts said n (VS y) -> x = y).
  { intros n x y A B. assert (E := final_fun read_float lsol_opts said n _ _ U A B). now injection E. }
  assert (FI : forall n x y, final read_float lsol_opts said n (VI x) -> final read_float lsol_opts said n (VI y) -> x = y).
  { intros n x y A B. assert (E := final_fun read_float lsol_opts said n _ _ U A B). now injection E. }
  assert (FG : forall n x y, match x with None => ~ mentioned said n | Some s => mentioned said n /\ final read_float lsol_opts said n (VS s) end ->
     match y with None => ~ mentioned said n | Some s => mentioned said n /\ final read_float lsol_opts said n (VS s) end -> x = y).
  { intros n [x|] [y|] A B; try tauto. f_equal. eapply FS; [apply A|apply B]. }
  assert (T : tr = tr').
  { assert (E := FS _ _ _ H0 H0'). destruct tr, tr'; try reflexivity; discriminate E. }
  rewrite (FS _ _ _ P1' P1) in P2'. destruct (params_spec ps) as (l0 & ok & _ & Hl). apply Hl in P2, P2'. destruct P2 as (-> & ->), P2' as (-> & ->).
  f_equal; eauto.
Qed.
Lemma lsol_legal prog args said ws : command read_float lsol_opts args said ws ->
  (mentioned said (bytes "show") /\ exists g, lsol_value read_float said "show" (VS g) /\ lsol_main read_float (prog :: args) = Some (LShow g)) \/
  ~ mentioned said (bytes "show") /\
  (mentioned said (bytes "help") /\ lsol_main read_float (prog :: args) = Some (LStop 0) \/
   ~ mentioned said (bytes "help") /\
   ((exists a, args_of read_float said a /\ lsol_main read_float (prog :: args) = Some (LArgs a)) \/
    ~ mentioned said (bytes "input") /\ lsol_main read_float (prog :: args) = Some (LStop (match args with [] => 0 | _ => 1 end)))).
Proof.
  intros C. unfold lsol_main. destruct (adds_some lsol_opts (proj1 lsol_unamb)) as (m & Em). rewrite Em. cbn [bind].
  destruct (command_parse read_float _ m prog args said ws lsol_unamb Em C) as (ok & s & Ep & Hw & I & Hok).
  pose proof (sane_parse read_float _ m (prog :: args) Em lsol_typed) as S. rewrite Ep in S. cbn [snd] in S. rewrite Ep. cbn zeta.
  take (lsol_opts (R:=R)) I S said (q_opts s) (oneof_opt (R:=R) "show" 115 "" [""; "model"; "loss"; "reader"; "writer"]%string) xg.
  assert (Ex : forall n, (exists d, In d (@lsol_opts R) /\ d_name d = bytes n) -> exists b, exist (bytes n) (q_opts s) = Some b /\ (b = true <-> mentioned said (bytes n))).
  { intros n Hn. destruct (inv_exist read_float _ said (q_opts s) (bytes n) I Hn) as (b & A & B). exists b. split; [exact A|]. destruct B. split; auto. }
  destruct (Ex "show"%string) as (b & Eb & Hb); [exists (oneof_opt "show" 115 "" [""; "model"; "loss"; "reader"; "writer"]%string); split; [cbn; tauto|reflexivity]|].
  destruct (Ex "help"%string) as (h & Eh & Hh); [exists help; split; [cbn; tauto|reflexivity]|].
  rewrite Eb. cbn [bind]. destruct b.
  { left. split; [now apply Hb|]. exists xg. rewrite G. auto. }
  right. split; [intros H; apply Hb in H; discriminate|]. rewrite Eh. cbn [bind]. destruct h.
  { left. split; [now apply Hh|]. now rewrite orb_true_r. }
  right. split; [intros H; apply Hh in H; discriminate|]. rewrite orb_false_r. rewrite lsol_complete in Hok. destruct ok.
  - left. cbn [negb]. rewrite andb_false_r. assert (Hi : mentioned said (bytes "input")) by now apply Hok.
    take (lsol_opts (R:=R)) I S said (q_opts s) (oneof_opt (R:=R) "task" 116 "train" ["train"; "test"]%string) xt.
    take (lsol_opts (R:=R)) I S said (q_opts s) (str_opt (R:=R) "input" 105 true "") xi.
    take (lsol_opts (R:=R)) I S said (q_opts s) (oneof_opt (R:=R) "format" 102 "svm" ["csv"; "svm"; "bin"]%string) xf.
    take (lsol_opts (R:=R)) I S said (q_opts s) (int_opt (R:=R) "classes" 99 false 2) xc.
    take (lsol_opts (R:=R)) I S said (q_opts s) (int_opt (R:=R) "pass" 112 false 1) xq.
    take (lsol_opts (R:=R)) I S said (q_opts s) (int_opt (R:=R) "batchsize" 98 false 256) xb.
    take (lsol_opts (R:=R)) I S said (q_opts s) (int_opt (R:=R) "bufsize" 0 false 2) xu.
    take (lsol_opts (R:=R)) I S said (q_opts s) (str_opt (R:=R) "output" 111 false "") xo.
    take (lsol_opts (R:=R)) I S said (q_opts s) (str_opt (R:=R) "algo" 97 false "") xa.
    take (lsol_opts (R:=R)) I S said (q_opts s) (str_opt (R:=R) "model" 109 false "") xm.
    take (lsol_opts (R:=R)) I S said (q_opts s) (str_opt (R:=R) "filter" 0 false "") xl.
    take (lsol_opts (R:=R)) I S said (q_opts s) (str_opt (R:=R) "params" 0 false "") xp.
    assert (Gv : forall n x, (exists d, In d (@lsol_opts R) /\ d_name d = bytes n) -> get_s (bytes n) (q_opts s) = Some x -> final read_float lsol_opts said (bytes n) (VS x) ->
      exists y, given n (q_opts s) = Some y /\ lsol_given read_float said n y).
    { intros n x Hn Gx Fx. destruct (Ex n Hn) as (b & E1 & E2). unfold given. rewrite E1. cbn [bind]. destruct b.
      - rewrite Gx. cbn [bind]. exists (Some x). split; [reflexivity|]. split; [now apply E2|exact Fx].
      - exists None. split; [reflexivity|]. intros H. apply E2 in H. discriminate. }
    destruct (Gv "output"%string xo) as (yo & Yo & Zo); [exists (str_opt "output" 111 false ""); split; [cbn; tauto|reflexivity]|assumption|assumption|].
    destruct (Gv "model"%string xm) as (ym & Ym & Zm); [exists (str_opt "model" 109 false ""); split; [cbn; tauto|reflexivity]|assumption|assumption|].
    destruct (Gv "filter"%string xl) as (yl & Yl & Zl); [exists (str_opt "filter" 0 false ""); split; [cbn; tauto|reflexivity]|assumption|assumption|].
    destruct (params_spec xp) as (l & co & El & Hl).
    exists (mkargs (str_eqb xt (bytes "train")) xi xf xc xq xb xu yo xa ym yl l co). split.
    + unfold args_of, lsol_value. cbn [a_train a_input a_format a_classes a_pass a_batch a_buf a_output a_algo a_model a_filter a_settings a_complete].
      split; [destruct (task_value said xt F0) as [E|E]; rewrite E in *; exact F0|]. repeat (split; [assumption|]). exists xp. split; [assumption|]. now apply Hl.
    + rewrite G0, G1, G2, G3, G4, G5, G6, Yo, G8, Ym, Yl, G11. cbn [bind]. rewrite El. reflexivity.
  - right. split; [intros H; apply Hok in H; discriminate|]. cbn [negb]. rewrite andb_true_r. cbn [length]. destruct args; reflexivity.
Qed.
(** lsol_c trains or tests as its command line says, and only then; otherwise it ends with 0 or 1 or shows classes. *)
Theorem C68_command (argv : list (list Z)) :
  (forall a, lsol_main read_float argv = Some (LArgs a) <->
    exists said ws, tells read_float lsol_opts argv said ws /\ ~ mentioned said (bytes "show") /\ ~ mentioned said (bytes "help") /\ args_of read_float said a) /\
  (exists r, lsol_main read_float argv = Some r /\ match r with LStop c => c = 0 \/ c = 1 | LShow _ => True | LArgs _ => True end).
Proof.
  assert (Hil : (exists prog args said ws, argv = prog :: args /\ command read_float lsol_opts args said ws) \/
    exists r, lsol_main read_float argv = Some r /\ match r with LStop c => c = 0 \/ c = 1 | LShow _ => True | LArgs _ => False end).
  { unfold lsol_main. destruct (adds_some lsol_opts (proj1 lsol_unamb)) as (m & Em). rewrite Em. cbn [bind].
    pose proof (sane_parse read_float _ m argv Em lsol_typed) as S. destruct (parse read_float m argv) as [ok s] eqn:Ep. cbn [snd] in S. destruct ok.
    - left. destruct (parse_command read_float _ m argv s Em Ep) as (prog & args & said & ws & -> & _ & C & _). exists prog, args, said, ws. auto.
    - right. set (dg := oneof_opt (R:=R) "show" 115 "" [""; "model"; "loss"; "reader"; "writer"]%string).
      destruct (sane_exist _ _ dg S ltac:(cbn; tauto)) as (b & Eb). destruct (sane_exist _ _ help S ltac:(cbn; tauto)) as (h & Eh). destruct (sane_get _ _ dg S ltac:(cbn; tauto)) as (g & Eg).
      cbn [d_name dg oneof_opt help] in Eb, Eh, Eg. rewrite Eb. cbn [bind]. destruct b; [rewrite Eg; cbn [bind]; exists (LShow g); split; [reflexivity|exact Logic.I]|]. rewrite Eh. cbn [bind]. destruct (_ || h); eexists; (split; [reflexivity|]); cbn; auto. }
  split.
  - intros a. split.
    + intros E. destruct Hil as [(prog & args & said & ws & -> & C)|(r & E' & H)]; [|rewrite E' in E; injection E as ->; contradiction].
      exists said, ws. split; [now exists prog, args|].
      destruct (lsol_legal prog args said ws C) as [(_ & g & _ & E')|(H1 & [(_ & E')|(H2 & [(a' & Ha & E')|(_ & E')])])]; rewrite E' in E; try discriminate.
      injection E as <-. auto.
    + intros (said & ws & (prog & args & -> & C) & H1 & H2 & Ha).
      destruct (lsol_legal prog args said ws C) as [(H & _)|(_ & [(H & _)|(_ & [(a' & Ha' & E')|(H & E')])])]; [contradiction|contradiction| |elim H; apply Ha].
      now rewrite (args_fun _ _ _ Ha Ha').
  - destruct Hil as [(prog & args & said & ws & -> & C)|(r & E & H)]; [|exists r; split; [exact E|]; destruct r; auto].
    destruct (lsol_legal prog args said ws C) as [(_ & g & _ & E)|(_ & [(_ & E)|(_ & [(a & _ & E)|(_ & E)])])]; rewrite E; eexists; (split; [reflexivity|]); cbn; auto.
    destruct args; auto.
Qed.
(** The options by name, their short forms and what holds without them. *)
Theorem C68_forms (prog i o m f : list Z) :
  (forall d, lsol_main read_float [prog; opt1 "i"; i; opt1 "d"; d] =
     Some (LArgs (mkargs true i (bytes "svm") 2 1 256 2 None [] None None [] true))) /\
  lsol_main read_float [prog; opt1 "t"; bytes "train"; opt1 "i"; i; opt1 "f"; bytes "csv"; opt1 "c"; bytes "3"; opt1 "p"; bytes "4"; opt1 "b"; bytes "5"; opt2 "bufsize"; bytes "6";
      opt1 "o"; o; opt1 "a"; bytes "pa"; opt2 "params"; bytes "C=7"] =
    Some (LArgs (mkargs true i (bytes "csv") 3 4 5 6 (Some o) (bytes "pa") None None [(bytes "C", bytes "7")] true)) /\
  lsol_main read_float [prog; opt2 "task"; bytes "train"; opt2 "input"; i; opt2 "format"; bytes "bin"; opt2 "classes"; bytes "3"; opt2 "pass"; bytes "4"; opt2 "batchsize"; bytes "5";
      opt2 "output"; o; opt2 "algo"; bytes "pa"; opt2 "params"; bytes "C"] =
    Some (LArgs (mkargs true i (bytes "bin") 3 4 5 2 (Some o) (bytes "pa") None None [] false)) /\
  lsol_main read_float [prog; opt1 "t"; bytes "test"; opt1 "i"; i; opt1 "m"; m; opt2 "filter"; f] =
    Some (LArgs (mkargs false i (bytes "svm") 2 1 256 2 None [] (Some m) (Some f) [] true)) /\
  lsol_main read_float [prog; opt2 "task"; bytes "test"; opt1 "i"; i; opt2 "model"; m; opt1 "o"; o] =
    Some (LArgs (mkargs false i (bytes "svm") 2 1 256 2 (Some o) [] (Some m) None [] true)) /\
  lsol_main read_float [prog; opt1 "s"; bytes "loss"] = Some (LShow (bytes "loss")) /\ lsol_main read_float [prog; opt2 "show"; bytes "model"] = Some (LShow (bytes "model")) /\
  lsol_main read_float [prog; opt1 "h"] = Some (LStop 0) /\ lsol_main read_float [prog; opt2 "help"; opt1 "i"; i] = Some (LStop 0) /\
  lsol_main read_float [prog] = Some (LStop 0) /\ lsol_main read_float [prog; opt1 "m"; m] = Some (LStop 1).
Proof. split; [intros d; vm_compute; reflexivity|]. vm_compute. auto 20. Qed.
End Line.

Section T.
Context {R MD IT W : Type}.
Variable N : num R.
Variable L : library R MD IT W.

(** Given the same order, lsol_c does to the files what sol_train does, and fails when sol_train fails; but it prints the error
    rate where sol_train prints the accuracy, and it returns the status of Save, which sol_train ignores. *)
Theorem C68_train (a : args) (p : plan) (h : list (option (obj MD IT))) (w : W) :
  same_training a p ->
  alike N (save_status L (a_output a) w) (direct_train N L p w) (outside (lsol_run L a (mkst h w))).
Proof.
  intros (Task & Src & E1 & E2 & E3 & E4 & E5 & E6 & E7 & E8). unfold lsol_run. rewrite Task, lsol_train_eq. unfold train_result, direct_train.
  assert (Es : source_model L a w = match t_source p with FromFile path => l_load L path w | Create al c => l_create L al c end).
  { unfold source_model. destruct (t_source p) as [path|al c]; [now rewrite Src|]. destruct Src as (-> & -> & Hal & ->). destruct al; [now elim Hal|reflexivity]. }
  rewrite Es. destruct (match t_source p with FromFile _ => _ | Create _ _ => _ end) as [m|]; [|cbn; repeat split; left; repeat split; discriminate].
  rewrite setd_direct, E1, E2, E3, E4, E5, E6, E7. pose proof (setd_code L (t_settings p) (t_complete p) m) as Q.
  destruct (setd L m (t_settings p) (t_complete p)) as [[m1 [c|c]]|]; [| |exact I].
  - destruct Q as (-> & _). cbn. split; [reflexivity|]. left. repeat split; discriminate.
  - destruct Q as [(-> & _)| ->]; [|cbn; split; [reflexivity|]; left; repeat split; discriminate]. change (0 =? 0) with true. cbv iota.
    destruct (l_add L _ _ _ _ w) as [c i]. destruct (c =? 0) eqn:Ec; cbn [negb].
    + destruct (l_train L m1 i w) as [[[err m2] i2]|]; [|exact I]. rewrite E8. destruct (t_output p) as [|x path].
      * cbn. split; [reflexivity|]. right. exists err. auto.
      * unfold save_status. destruct (l_save L m2 (x :: path) w) as [c2 w2] eqn:Sv. cbn. split; [reflexivity|]. right. exists err. repeat split. exists m2. now rewrite Sv.
    + cbn. split; [reflexivity|]. left. apply Z.eqb_neq in Ec. auto.
Qed.
(** lsol_c never leaves defined behaviour when it trains; and when it ends, everything it created is destroyed, except for the
    model if --params contains a part that is no setting. *)
Theorem C68_train_objects (a : args) (h : list (option (obj MD IT))) (w : W) :
  lsol_train L a (mkst h w) <> Bad /\
  forall c out s, lsol_train L a (mkst h w) = Ret (c, out) s ->
    exists new, s_heap s = h ++ new /\
      (Forall (eq None) new /\ ~ (a_complete a = false /\ exists m m', source_model L a w = Some m /\ accepted L m (a_settings a) m') \/
       c = 4 /\ a_complete a = false /\ exists m m', source_model L a w = Some m /\ accepted L m (a_settings a) m' /\ new = [Some (OModel m')]).
Proof.
  rewrite lsol_train_eq. unfold train_result. destruct (source_model L a w) as [m|].
  2:{ split; [discriminate|]. intros c out s E. injection E as _ _ <-. exists []. cbn [s_heap]. split; [now rewrite app_nil_r|]. left. split; [constructor|]. intros (_ & m & m' & E & _). discriminate. }
  pose proof (setd_code L (a_settings a) (a_complete a) m) as Q. destruct (setd L m (a_settings a) (a_complete a)) as [[m1 [c|c]]|] eqn:Es; [| |split; discriminate].
  - destruct Q as (-> & Co). split; [discriminate|]. intros c out s E. injection E as <- _ <-. exists [Some (OModel m1)]. split; [reflexivity|]. right.
    split; [reflexivity|]. split; [exact Co|]. exists m, m1. split; [reflexivity|]. split; [|reflexivity]. apply (proj1 (setd_accepted L _ (a_complete a) m1 m)). now rewrite Co in *.
  - assert (Na : ~ (a_complete a = false /\ exists m0 m', Some m = Some m0 /\ accepted L m0 (a_settings a) m')).
    { intros (Co & m0 & m' & E & A). injection E as <-. apply (proj2 (setd_accepted L _ (a_complete a) m' m)) in A. rewrite Co in *. rewrite Es in A. discriminate. }
    assert (F1 : Forall (eq (@None (obj MD IT))) [None]) by repeat constructor. assert (F2 : Forall (eq (@None (obj MD IT))) [None; None]) by repeat constructor.
    destruct (c =? 0).
    + destruct (l_add L _ _ _ _ w) as [c1 i]. destruct (c1 =? 0).
      * destruct (l_train L m1 i w) as [[[err m2] i2]|]; [|split; discriminate]. destruct (a_output a) as [path|].
        -- destruct (l_save L m2 path w) as [c2 w2]. split; [discriminate|]. intros c' out s E. injection E as _ _ <-. exists [None; None]; split; [reflexivity|left; split; assumption].
        -- split; [discriminate|]. intros c' out s E. injection E as _ _ <-. exists [None; None]; split; [reflexivity|left; split; assumption].
      * split; [discriminate|]. intros c' out s E. injection E as _ _ <-. exists [None; None]; split; [reflexivity|left; split; assumption].
    + split; [discriminate|]. intros c' out s E. injection E as _ _ <-. exists [None]; split; [reflexivity|left; split; assumption].
Qed.
(** lsol_c tests as sol_test does, again with the error rate instead of the accuracy, except that with --filter and a model that cannot
    be loaded it uses a null pointer. *)
Theorem C68_test (a : args) (p : test_plan) (h : list (option (obj MD IT))) (w : W) :
  same_testing a p ->
  (lsol_run L a (mkst h w) = Bad <-> l_load L (e_model p) w = None /\ e_filter p <> None) /\
  (lsol_run L a (mkst h w) <> Bad -> alike N (fun c => c = 0) (direct_test N L p w) (outside (lsol_run L a (mkst h w)))).
Proof.
  intros (Task & E1 & E2 & E3 & E4 & E5 & E6 & E7). unfold lsol_run. rewrite Task, lsol_test_eq. unfold test_result, direct_test. rewrite E1, E2, E3, E4, E5, E6, E7.
  assert (F4 : forall w', alike N (fun c => c = 0) (Ended (R:=R) 4 [] w') (Ended 4 [] w' : run R W)) by (intros w'; cbn; split; [reflexivity|]; left; repeat split; discriminate).
  destruct (l_load L (e_model p) w) as [m|].
  2:{ destruct (e_filter p) as [f|]; (split; [split; intros H; try discriminate H; try (split; [reflexivity|discriminate]); destruct H as (_ & H); try (now elim H); reflexivity|]).
      - intros H. now elim H.
      - intros _. apply F4. }
  assert (K : forall r : res MD IT W (Z * list R), r <> Bad -> (r = Bad <-> Some m = None /\ e_filter p <> None)) by (intros r H; split; [contradiction|intros (H' & _); discriminate]).
  destruct (match e_filter p with None => SetOk m | Some f => l_set L (bytes "filter") f m end) as [m1|m1|].
  - destruct (l_add L _ _ _ _ w) as [c i]. destruct (c =? 0) eqn:Ec; cbn [negb].
    + assert (Eo : match e_output p with [] => None | x :: path => Some (x :: path) end = match e_output p with [] => None | path => Some path end) by reflexivity.
      destruct (l_test L m1 i (match e_output p with [] => None | path => Some path end) w) as [[[[err m2] i2] w2]|]; (split; [apply K; discriminate|]); intros _; [|exact I].
      cbn. split; [reflexivity|]. right. exists err. auto.
    + split; [apply K; discriminate|]. intros _. cbn. split; [reflexivity|]. left. apply Z.eqb_neq in Ec. auto.
  - split; [apply K; discriminate|]. intros _. apply F4.
  - split; [apply K; discriminate|]. intros _. exact I.
Qed.
(** And a test that ends leaves nothing behind. *)
Theorem C68_test_objects (a : args) (h : list (option (obj MD IT))) (w : W) c out s :
  lsol_test L a (mkst h w) = Ret (c, out) s -> exists new, s_heap s = h ++ new /\ Forall (eq None) new.
Proof.
  rewrite lsol_test_eq. unfold test_result. assert (F : forall n, Forall (eq (@None (obj MD IT))) (repeat None n)) by (induction n; constructor; auto).
  assert (G : forall n (w' : W), s = mkst (h ++ repeat None n) w' -> exists new, s_heap s = h ++ new /\ Forall (eq None) new) by (intros n w' ->; cbn; eauto).
  intros E. destruct (a_model a) as [path|]; [|injection E as _ _ <-; apply (G 0%nat w); cbn; now rewrite app_nil_r].
  destruct (l_load L path w) as [m|]; [|destruct (a_filter a); [discriminate|]; injection E as _ _ <-; apply (G 0%nat w); cbn; now rewrite app_nil_r].
  destruct (match a_filter a with None => _ | Some _ => _ end) as [m1|m1|]; [|injection E as _ _ <-; now apply (G 1%nat w)|discriminate].
  destruct (l_add L _ _ _ _ w) as [c1 i]. destruct (c1 =? 0); [|injection E as _ _ <-; now apply (G 2%nat w)].
  destruct (l_test L m1 i (a_output a) w) as [[[[err m2] i2] w2]|]; [|discriminate]. injection E as _ _ <-. now apply (G 2%nat w2).
Qed.

(* ------------------------------------------------------------- all clients *)
(** A client that does not copy handles.  Whatever it does, its variables are null or refer to objects that exist, no two to the same one. *)
Theorem C68_handles (cs : list cmd) (w : W) (e : env) (s : st MD IT W) :
  Forall (fun c => ~ copies c) cs -> exec L cs (fun _ => None) (mkst [] w) = Ret e s ->
  (forall v, e v = None \/ exists o, sees e s v o) /\ (forall u v, e u <> None -> e u = e v -> u = v).
Proof.
  intros F E. assert (T : tidy e s).
  { assert (T0 : tidy (fun _ => None) (mkst [] w : st MD IT W)) by (split; discriminate). revert F T0 E. generalize (fun _ : nat => @None nat), (mkst [] w : st MD IT W).
    induction cs as [|c cs IH]; intros e0 s0 F T0 E; cbn [exec] in E; [now injection E as <- <-|]. inversion F; subst.
    destruct (exec1 L c e0 s0) as [e1 s1| |] eqn:E1; cbn [seq] in E; try discriminate. eapply IH; [assumption| |exact E]. eapply exec1_tidy; eassumption. }
  destruct T as (A & B). split.
  - intros v. destruct (e v) as [x|] eqn:Ev; [right|now left]. destruct (A v x Ev) as (o & O). exists o, x. auto.
  - intros u v Hu E'. destruct (e u) as [x|] eqn:Ex; [|now elim Hu]. eapply B; [exact Ex|now symmetry].
Qed.
(** A statement has defined behaviour if and only if it gets objects of the right kinds; so a program leaves defined behaviour if and
    only if it comes to a statement that does not. *)
Theorem C68_defined (cs : list cmd) (e : env) (s : st MD IT W) :
  exec L cs e s = Bad <-> exists pre c post e1 s1, cs = pre ++ c :: post /\ exec L pre e s = Ret e1 s1 /\ ~ proper e1 s1 c.
Proof.
  revert e s. induction cs as [|c cs IH]; intros e s; cbn [exec].
  - split; [discriminate|]. intros (pre & c & post & e1 & s1 & H & _). destruct pre; discriminate.
  - destruct (exec1 L c e s) as [e' s'| |] eqn:E; cbn [seq].
    + rewrite IH. split.
      * intros (pre & c' & post & e1 & s1 & -> & H1 & H2). exists (c :: pre), c', post, e1, s1. cbn [exec app]. rewrite E. auto.
      * intros ([|c0 pre] & c' & post & e1 & s1 & H & H1 & H2).
        -- injection H as <- <-. injection H1 as <- <-. elim H2. apply exec1_defined with (L := L). congruence.
        -- injection H as <- ->. cbn [exec] in H1. rewrite E in H1. cbn [seq] in H1. exists pre, c', post, e1, s1. auto.
    + split; [discriminate|]. intros ([|c0 pre] & c' & post & e1 & s1 & H & H1 & H2).
      * injection H as <- <-. injection H1 as <- <-. elim H2. apply exec1_defined with (L := L). congruence.
      * injection H as <- ->. cbn [exec] in H1. rewrite E in H1. discriminate.
    + split; [|reflexivity]. intros _. exists [], c, cs, e, s. split; [reflexivity|]. split; [reflexivity|].
      intros H. apply exec1_defined with (L := L) in H. contradiction.
Qed.
(** What a statement does not mention, it does not touch. *)
Theorem C68_separate (cs : list cmd) (c : cmd) (w : W) (e e' : env) (s s' : st MD IT W) (v : nat) (o : obj MD IT) :
  Forall (fun c => ~ copies c) (cs ++ [c]) -> exec L cs (fun _ => None) (mkst [] w) = Ret e s -> exec1 L c e s = Ret e' s' ->
  ~ mentions c v -> sees e s v o -> sees e' s' v o.
Proof.
  intros F E E1 M H. apply Forall_app in F. destruct F as (F & Fc). inversion Fc; subst. apply (exec1_frame L c e s e' s' v o); auto.
  destruct (C68_handles cs w e s F E) as (A & B). split.
  - intros u a Eu. destruct (A u) as [Hn|(x & b & Eb & X)]; [congruence|]. exists x. congruence.
  - intros u u' a Eu Eu'. apply B; congruence.
Qed.
(** After a release the variable is null, and releasing it again does nothing. *)
Theorem C68_release (v : nat) (e e' : env) (s s' : st MD IT W) :
  exec1 L (KRelModel v) e s = Ret e' s' \/ exec1 L (KRelIter v) e s = Ret e' s' ->
  e' v = None /\ exists e2 e3, exec1 L (KRelModel v) e' s' = Ret e2 s' /\ exec1 L (KRelIter v) e' s' = Ret e3 s' /\ forall u, e2 u = e' u /\ e3 u = e' u.
Proof.
  intros H. assert (Hv : e' v = None).
  { cbn [exec1] in H. unfold sol_release_model, sol_release_iter in H.
    destruct (e v); destruct H as [H|H]; cbn [seq] in H; try (destruct (model_at _ _)); try (destruct (iter_at _ _)); cbn [seq] in H; try discriminate; injection H as <- _; apply bind_same. }
  split; [exact Hv|]. cbn [exec1]. rewrite Hv. cbn [sol_release_model sol_release_iter seq]. eexists. eexists. split; [reflexivity|]. split; [reflexivity|].
  intros u. unfold bind_var. destruct (Nat.eqb_spec u v); subst; auto.
Qed.
(** A client that creates only into null variables loses nothing: there are as many objects as variables that are not null. *)
Theorem C68_no_leak (cs : list cmd) (w : W) (e : env) (s : st MD IT W) :
  Forall (fun c => ~ copies c) cs ->
  (forall pre c post e1 s1 v, cs = pre ++ c :: post -> exec L pre (fun _ => None) (mkst [] w) = Ret e1 s1 -> targets c = Some v -> e1 v = None) ->
  exec L cs (fun _ => None) (mkst [] w) = Ret e s ->
  exists vs, NoDup vs /\ (forall v, In v vs <-> e v <> None) /\ live s = length vs.
Proof.
  intros F. change (exists vs, NoDup vs /\ (forall v, In v vs <-> e v <> None) /\ live s = length vs) with (accounted e s).
  assert (A0 : accounted (fun _ => None) (mkst [] w : st MD IT W)) by (exists []; repeat split; [constructor|intros []|intros H; now elim H]).
  revert F A0. generalize (fun _ : nat => @None nat), (mkst [] w : st MD IT W).
  induction cs as [|c cs IH]; intros e0 s0 F A0 Tg E; cbn [exec] in E; [now injection E as <- <-|]. inversion F; subst.
  destruct (exec1 L c e0 s0) as [e1 s1| |] eqn:E1; cbn [seq] in E; try discriminate. eapply (IH e1 s1); [assumption| | |exact E].
  - eapply exec1_acc; [eassumption| |exact E1|exact A0]. intros v Hv. apply (Tg [] c cs e0 s0 v eq_refl eq_refl Hv).
  - intros pre c' post e2 s2 v -> X Hv. apply (Tg (c :: pre) c' post e2 s2 v); [reflexivity| |exact Hv]. cbn [exec]. rewrite E1. exact X.
Qed.
End T.

(* ------------------------------------------------------------- examples *)
(** A library with one class, the two-class perceptron, in single precision; files hold examples or text; reports are left empty. *)
Definition disk := list (list Z * (list (point f32) + list Z)).
Fixpoint on_disk (p : list Z) (w : disk) : option (list (point f32) + list Z) :=
  match w with [] => None | (q, x) :: r => if str_eqb q p then Some x else on_disk p r end.
Definition lib : library f32 (model (R:=f32)) (list (point f32)) disk :=
  mklib (fun name n => if str_eqb name (bytes "perceptron") && (n =? 2) then Some (mkmodel KPerceptron NoNorm (core0 1 LBool) (init_of f32num KPerceptron 1)) else None)
    (fun path w => match on_disk path w with Some (inr t) => match load f32num f32_strtof (parse_info []) 400 t with Some (Loaded m) => Some m | _ => None end | _ => None end)
    (fun n v m => if str_eqb n (bytes "model") && str_eqb v (bytes "perceptron") then SetOk m else SetInvalid m)
    (fun _ _ => [])
    (fun path _ pass i w => match on_disk path w with Some (inl d) => (0, i ++ concat (repeat d (Z.to_nat pass))) | _ => (4, i) end)
    (fun m i _ => match session f32num (alg_of f32num (m_kind m)) Some [fit i] (m_core m, m_state m, true) with
                  | Some (c, e, _) => Some (n_div f32num (n_int f32num (c_err c)) (n_int f32num (c_data c)), mkmodel (m_kind m) (m_norm m) c e, [])
                  | None => None end)
    (fun m i out w => match test f32num (alg_of f32num (m_kind m)) Some i (m_core m) (m_state m) with
                      | Some (rows, err, c, e) => Some (n_div f32num (n_int f32num err) (n_int f32num (Z.of_nat (length i))), mkmodel (m_kind m) (m_norm m) c e, [],
                          match out with None => w | Some path => (path, inr []) :: w end)
                      | None => None end)
    (fun m path w => match path with
       | [] => (2, w)
       | _ => match save f32num f32_print write_info 2 (m_norm m) (m_kind m) (m_core m) (m_state m) with Some t => (0, (path, inr t) :: w) | None => (2, w) end end).
Definition data : disk := [(bytes "x.svm", inl [pt 1 [(1, 2); (3, 1)]; pt (-1) [(2, 1); (3, 2)]; pt 1 [(1, 1)]; pt (-1) [(2, 4)]; pt 1 [(1, 5)]])].
(** The same on a disk that is full. *)
Definition unwritable : library f32 (model (R:=f32)) (list (point f32)) disk :=
  mklib (l_create lib) (l_load lib) (l_set lib) (l_iter lib) (l_add lib) (l_train lib) (l_test lib) (fun _ _ w => (2, w)).
Definition argv (l : list string) : list (list Z) := map bytes l.
Definition go (l : list string) (w : disk) : option (run f32 disk) :=
  match lsol_main (R:=f32) (fun _ => None) (argv l) with Some (LArgs a) => Some (outside (lsol_run lib a (mkst [] w))) | _ => None end.
Definition two_fifths : f32 := n_div f32num (F 2) (F 5).
Definition learned : disk :=
  match go ["lsol_c"; "-a"; "perceptron"; "-i"; "x.svm"; "--params"; "model=perceptron"; "-o"; "out"]%string data with Some (Ended _ _ w) => w | _ => [] end.
Definition the_plan : plan := mkplan (Create (bytes "perceptron") 2) [(bytes "model", bytes "perceptron")] true (bytes "x.svm") (bytes "out") (bytes "svm") 1 256 2.
Definition exam_plan (f : option (list Z)) (m : string) : test_plan := mktest (bytes m) f (bytes "x.svm") [] (bytes "svm") 256 2.
Definition exam_args (f : option (list Z)) (m : string) : args := mkargs false (bytes "x.svm") (bytes "svm") 2 1 256 2 None [] (Some (bytes m)) f [] true.
(** lsol_c trains a perceptron, stores it, loads and tests it; sol_train does the same. *)
Example C68_train_witness : exists a, lsol_main (R:=f32) (fun _ => None)
    (argv ["lsol_c"; "-a"; "perceptron"; "-i"; "x.svm"; "--params"; "model=perceptron"; "-o"; "out"]%string) = Some (LArgs a) /\
  same_training a the_plan /\ outside (lsol_train lib a (mkst [] data)) = Ended 0 [two_fifths] learned /\
  direct_train f32num lib the_plan data = Ended 0 [n_sub f32num (F 1) two_fifths] learned /\ length learned = 2%nat.
Proof. eexists. split; [vm_compute; reflexivity|]. split; [repeat split; discriminate|]. vm_compute. repeat split. Qed.
Example C68_test_witness : same_testing (exam_args None "out") (exam_plan None "out") /\
  go ["lsol_c"; "-t"; "test"; "-m"; "out"; "-i"; "x.svm"]%string learned = Some (Ended 0 [F 0] learned) /\
  direct_test f32num lib (exam_plan None "out") learned = Ended 0 [F 1] learned.
Proof. vm_compute. repeat split. Qed.
(** A client that trains with two iterators, releases and tests. *)
Definition client : list cmd :=
  [KModel 0 (bytes "perceptron") 2; KIter 1 256 2; KIter 2 256 2; KLoad 1 (bytes "x.svm") [] 1; KTrain 0 1; KRelIter 1; KRelIter 1; KLoad 2 (bytes "x.svm") [] 2;
   KTest 0 2 None; KSave 0 (bytes "m"); KRelModel 0].
Example C68_clients_witness : Forall (fun c => ~ copies c) client /\
  match exec lib client (fun _ => None) (mkst [] data) with
  | Ret e s => e 0%nat = None /\ e 1%nat = None /\ e 2%nat <> None /\ live s = 1%nat /\ sees_iter e s 2 /\ ~ proper e s (KTrain 0 2)
  | _ => False end.
Proof.
  split; [repeat constructor; intros []|].
  match goal with |- match ?x with _ => _ end => let y := eval vm_compute in x in change x with y end. cbv beta iota.
  split; [reflexivity|]. split; [reflexivity|]. split; [discriminate|]. split; [reflexivity|]. split; [eexists; exists 2%nat; split; reflexivity|].
  intros (H & _). destruct (H 0%nat eq_refl) as (m & a & E & _). discriminate E.
Qed.
(** Not so: what lsol_c calls the accuracy is the error rate. *)
Theorem C68_accuracy_refuted : exists a w w' rate, lsol_train lib a (mkst [] w) = Ret (0, [rate]) w' /\
  match direct_train f32num lib the_plan w with Ended 0 [accuracy] _ => same_training a the_plan /\ rate <> accuracy | _ => False end.
Proof.
  exists (mkargs true (bytes "x.svm") (bytes "svm") 2 1 256 2 (Some (bytes "out")) (bytes "perceptron") None None [(bytes "model", bytes "perceptron")] true), data.
  eexists. eexists. split; [vm_compute; reflexivity|]. vm_compute. repeat split; discriminate.
Qed.
(** Not so: a test with --filter and a model file that is missing uses a null pointer; sol_test ends with status 4. *)
Theorem C68_test_refuted : exists a p w, same_testing a p /\ lsol_test lib a (mkst [] w) = Bad /\ direct_test f32num lib p w = Ended 4 [] w.
Proof. exists (exam_args (Some (bytes "f.txt")) "none"), (exam_plan (Some (bytes "f.txt")) "none"), data. vm_compute. repeat split. Qed.
(** Not so: with --params "x" the model is not destroyed. *)
Theorem C68_released_refuted : exists a w s, lsol_main (R:=f32) (fun _ => None) (argv ["lsol_c"; "-a"; "perceptron"; "-i"; "x.svm"; "--params"; "x"]%string) = Some (LArgs a) /\
  lsol_train lib a (mkst [] w) = Ret (4, []) s /\ live s = 1%nat.
Proof. eexists. exists data. eexists. split; [vm_compute; reflexivity|]. split; [vm_compute; reflexivity|reflexivity]. Qed.
(** Not so: a model that cannot be saved is a failure of lsol_c, but not of sol_train. *)
Theorem C68_status_refuted : exists a p w c w1 w2 o1 o2, same_training a p /\ t_output p <> [] /\ outside (lsol_train unwritable a (mkst [] w)) = Ended c o1 w1 /\ c <> 0 /\
  direct_train f32num unwritable p w = Ended 0 o2 w2.
Proof.
  exists (mkargs true (bytes "x.svm") (bytes "svm") 2 1 256 2 (Some (bytes "out")) (bytes "perceptron") None None [(bytes "model", bytes "perceptron")] true), the_plan, data.
  eexists. eexists. eexists. eexists. eexists. split; [repeat split; discriminate|]. split; [discriminate|]. split; [vm_compute; reflexivity|]. split; [discriminate|vm_compute; reflexivity].
Qed.
(** Not so with copies: testing a handle for null does not help if it has been released through another variable. *)
Theorem C68_copy_refuted : exists cs e s, exec lib cs (fun _ => None) (mkst [] data) = Ret e s /\ e 1%nat <> None /\ exec1 lib (KRelModel 1) e s = Bad.
Proof. exists [KModel 0 (bytes "perceptron") 2; KCopy 1 0; KRelModel 0]. eexists. eexists. split; [vm_compute; reflexivity|]. split; [discriminate|reflexivity]. Qed.

Print Assumptions C68_command.
Print Assumptions C68_forms.
Print Assumptions C68_train.
Print Assumptions C68_train_objects.
Print Assumptions C68_test.
Print Assumptions C68_test_objects.
Print Assumptions C68_handles.
Print Assumptions C68_defined.
Print Assumptions C68_separate.
Print Assumptions C68_release.
Print Assumptions C68_no_leak.
Print Assumptions C68_accuracy_refuted.
Print Assumptions C68_test_refuted.
Print Assumptions C68_released_refuted.
Print Assumptions C68_status_refuted.
Print Assumptions C68_copy_refuted.
