(** C63: the command line of the tools. *)
From Coq Require Import String.
From Verif Require Import M_Base M_Text M_Str S_Text S_Str P_Str M_Cmd S_Cmd P_Cmd P_Cmd2.
Local Open Scope list_scope.
Local Open Scope Z_scope.

Section T.
Context {R : Type}.
Variable read_float : list Z -> option R.
Variable zero : R.
Notation command := (command read_float). Notation final := (final read_float).

(** Options can be declared if and only if their names differ. *)
Theorem C63_declare (D : list (decl R)) : (exists m, adds D [] = Some m) <-> NoDup (map d_name D).
Proof.
  pose proof (adds_spec D [] (NoDup_nil _)) as H. destruct (adds D []) as [m|]; split.
  - intros _. apply H.
  - eauto.
  - intros (m & E). discriminate.
  - intros Hn. exfalso. apply H. split; [exact Hn|]. intros d _ [].
Qed.

(** A command line is understood as it is written: the free words in order, which options are there, and for each
    the last value given or else the default; and it is accepted if all needed options are there. *)
Theorem C63_parse (D : list (decl R)) (m : opts R) (prog : list Z) (args ws : list (list Z)) (said : list (list Z * option (list Z))) :
  unambiguous D -> adds D [] = Some m -> command D args said ws ->
  exists ok s, parse read_float m (prog :: args) = (ok, s) /\ (ok = true <-> complete D said) /\ q_rest s = ws /\
    (forall d, In d D -> exists b, exist (d_name d) (q_opts s) = Some b /\ (b = true <-> mentioned said (d_name d))) /\
    (forall d, In d D -> d_read d <> None -> exists x, got (q_opts s) (d_name d) x /\ final D said (d_name d) x).
Proof.
  intros HD Em C. destruct (command_parse read_float D m prog args said ws HD Em C) as (ok & s & E & Hw & I & Hok).
  exists ok, s. split; [exact E|]. split; [exact Hok|]. split; [exact Hw|]. split.
  - intros d Hd. apply (inv_exist read_float D said); eauto.
  - intros d Hd Hr. destruct (d_read d) as [r|] eqn:Er; [|contradiction]. destruct (inv_got read_float D said (q_opts s) (d_name d) d r I Hd eq_refl Er) as (x & Hx & Hg). eauto.
Qed.
(** Everything else is refused. *)
Theorem C63_refuse (D : list (decl R)) (m : opts R) (argv : list (list Z)) (s : pst R) :
  adds D [] = Some m -> parse read_float m argv = (true, s) ->
  exists prog args said ws, argv = prog :: args /\ unambiguous D /\ command D args said ws /\ complete D said.
Proof. apply parse_command. Qed.
(** What is said cannot be read in two ways. *)
Theorem C63_unique (D : list (decl R)) (said : list (list Z * option (list Z))) (n : list Z) (x y : val R) :
  unambiguous D -> final D said n x -> final D said n y -> x = y.
Proof. intros HD. apply final_fun. apply HD. Qed.

(** Which declarations the lemmas about the tools need. *)
Ltac unamb := apply unamb_of; [vm_compute; repeat (constructor; [cbn; intuition discriminate|]); constructor
                              |vm_compute; repeat (constructor; [cbn; intuition discriminate|]); constructor].
Ltac typ := intros d Hd; repeat (destruct Hd as [<-|Hd]; [exact Logic.I|]); destruct Hd.
Ltac here := cbn; tauto.
(** The getter of a declared option succeeds with its value. *)
Ltac take D I S said m d s :=
  let G := fresh "G" in let F := fresh "F" in
  destruct (sane_get D m d S ltac:(here)) as (s & G);
  cbn [d_name str_opt int_opt oneof_opt help] in G;
  first [pose proof (final_s read_float D said m d s I ltac:(here) G) as F
        |pose proof (final_i read_float D said m d s I ltac:(here) G) as F
        |pose proof (final_f read_float D said m d s I ltac:(here) G) as F];
  cbn [d_name str_opt int_opt oneof_opt help] in F.
(** Two values of the same option. *)
Ltac same HD := repeat match goal with
  | F : S_Cmd.final _ ?D ?said ?n ?x, F' : S_Cmd.final _ ?D ?said ?n ?y |- _ =>
    let E := fresh "E" in assert (E := final_fun read_float D said n x y (proj1 HD) F F'); clear F'; try injection E as <-
  end.

Lemma analyze_unamb : unambiguous (R:=R) (analyze_opts ++ [help]). Proof. unamb. Qed.
Lemma convert_unamb : unambiguous (R:=R) (convert_opts zero ++ [help]). Proof. unamb. Qed.
Lemma shuffle_unamb : unambiguous (R:=R) (shuffle_opts ++ [help]). Proof. unamb. Qed.
Lemma split_unamb : unambiguous (R:=R) (split_opts ++ [help]). Proof. unamb. Qed.
Lemma concat_unamb : unambiguous (R:=R) (concat_opts ++ [help]). Proof. unamb. Qed.

(** analyze, convert, shuffle, split and concat call the library with exactly what the command line says - and only if it is
    a command line with all needed options and without --help; otherwise they end with 0 or 1. *)
Theorem C63_tools (argv : list (list Z)) :
  (forall c, analyze_main read_float argv = Some (Calls c) <-> exists said, asks read_float analyze_opts argv said /\ job_analyze read_float said c) /\
  (forall c, convert_main read_float zero argv = Some (Calls c) <-> exists said, asks read_float (convert_opts zero) argv said /\ job_convert read_float zero said c) /\
  (forall c, shuffle_main read_float argv = Some (Calls c) <-> exists said, asks read_float shuffle_opts argv said /\ job_shuffle read_float said c) /\
  (forall c, split_main read_float argv = Some (Calls c) <-> exists said, asks read_float split_opts argv said /\ job_split read_float said c) /\
  (forall c, concat_main read_float argv = Some (Calls c) <-> exists said, asks read_float concat_opts argv said /\ job_concat read_float said c) /\
  (forall r, In r [analyze_main read_float argv; convert_main read_float zero argv; shuffle_main read_float argv; split_main read_float argv; concat_main read_float argv] ->
     r = Some (Ended 0) \/ r = Some (Ended 1) \/ exists c, r = Some (Calls c)).
Proof.
  unfold analyze_main, convert_main, shuffle_main, split_main, concat_main.
  epose proof (tool_spec read_float analyze_opts _ analyze_unamb ltac:(typ) (job_analyze read_float) _ _ argv) as A1.
  epose proof (tool_spec read_float (convert_opts zero) _ convert_unamb ltac:(typ) (job_convert read_float zero) _ _ argv) as A2.
  epose proof (tool_spec read_float shuffle_opts _ shuffle_unamb ltac:(typ) (job_shuffle read_float) _ _ argv) as A3.
  epose proof (tool_spec read_float split_opts _ split_unamb ltac:(typ) (job_split read_float) _ _ argv) as A4.
  epose proof (tool_spec read_float concat_opts _ concat_unamb ltac:(typ) (job_concat read_float) _ _ argv) as A5.
  split; [apply A1|]. split; [apply A2|]. split; [apply A3|]. split; [apply A4|]. split; [apply A5|].
  intros r [<-|[<-|[<-|[<-|[<-|[]]]]]]; [apply A1|apply A2|apply A3|apply A4|apply A5].
  Unshelve.
  - intros said m I S. set (D := analyze_opts ++ [help]) in *.
    take D I S said m (str_opt (R:=R) "input" 105 true "") xi. take D I S said m (str_opt (R:=R) "input_type" 115 true "") xt.
    take D I S said m (str_opt (R:=R) "output" 111 false "-") xo. rewrite G, G0, G1. cbn. eexists. split; [reflexivity|]. exists xi, xt, xo. auto.
  - intros said c c' (i & t & o & -> & H1 & H2 & H3) (i' & t' & o' & -> & H1' & H2' & H3'). unfold text_of in *. same analyze_unamb. reflexivity.
  - intros said m I S. set (D := convert_opts zero ++ [help]) in *.
    take D I S said m (str_opt (R:=R) "input" 105 true "") xi. take D I S said m (str_opt (R:=R) "input_type" 115 true "") xt.
    take D I S said m (str_opt (R:=R) "output" 111 true "") xo. take D I S said m (str_opt (R:=R) "output_type" 100 true "") xu.
    take D I S said m (mkdecl (bytes "binary_thresh") 98 false (Some RFloat) (VF zero)) xf.
    destruct (inv_exist read_float D said m (bytes "binary_thresh") I) as (b & Eb & Hb); [exists (mkdecl (bytes "binary_thresh") 98 false (Some RFloat) (VF zero)); split; [here|reflexivity]|].
    rewrite Eb, G, G0, G1, G2. cbn [bind]. destruct b.
    + rewrite G3. cbn. eexists. split; [reflexivity|]. exists xi, xt, xo, xu, (Some xf). split; [reflexivity|]. repeat split; auto. now apply Hb.
    + cbn. eexists. split; [reflexivity|]. exists xi, xt, xo, xu, None. split; [reflexivity|]. repeat split; auto. intros H. apply Hb in H. discriminate.
  - intros said c c' (i & t & o & u & th & -> & H1 & H2 & H3 & H4 & H5) (i' & t' & o' & u' & th' & -> & H1' & H2' & H3' & H4' & H5'). unfold text_of in *. same convert_unamb.
    f_equal. destruct th, th'; try tauto; try reflexivity. destruct H5 as (_ & H5), H5' as (_ & H5'). same convert_unamb. reflexivity.
  - intros said m I S. set (D := shuffle_opts ++ [help]) in *.
    take D I S said m (str_opt (R:=R) "input" 105 true "") xi. take D I S said m (str_opt (R:=R) "input_type" 115 true "") xt.
    take D I S said m (str_opt (R:=R) "output" 111 false "-") xo. take D I S said m (str_opt (R:=R) "output_type" 100 false "") xu.
    rewrite G, G0, G1, G2. cbn. eexists. split; [reflexivity|]. exists xi, xt, xo, xu. auto.
  - intros said c c' (i & t & o & u & -> & H1 & H2 & H3 & H4) (i' & t' & o' & u' & -> & H1' & H2' & H3' & H4'). unfold text_of in *. same shuffle_unamb. reflexivity.
  - intros said m I S. set (D := split_opts ++ [help]) in *.
    take D I S said m (str_opt (R:=R) "input" 105 true "") xi. take D I S said m (str_opt (R:=R) "input_type" 115 true "") xt.
    take D I S said m (int_opt (R:=R) "fold" 110 true 0) xk. take D I S said m (str_opt (R:=R) "output_prefix" 111 true "") xo. take D I S said m (str_opt (R:=R) "output_type" 100 true "") xu.
    destruct (inv_exist read_float D said m (bytes "shuffle") I) as (b & Eb & Hb); [exists (mkdecl (bytes "shuffle") 114 false None (VS [])); split; [here|reflexivity]|].
    rewrite G, G0, G1, G2, G3, Eb. cbn. eexists. split; [reflexivity|]. exists xi, xt, xk, xo, xu, b. auto 10.
  - intros said c c' (i & t & k & o & u & sh & -> & H1 & H2 & H3 & H4 & H5 & H6) (i' & t' & k' & o' & u' & sh' & -> & H1' & H2' & H3' & H4' & H5' & H6'). unfold text_of in *. same split_unamb.
    f_equal. destruct sh, sh'; try reflexivity; exfalso; intuition discriminate.
  - intros said m I S. set (D := concat_opts ++ [help]) in *.
    take D I S said m (str_opt (R:=R) "input" 105 true "") xi. take D I S said m (str_opt (R:=R) "input_type" 115 true "") xt.
    take D I S said m (str_opt (R:=R) "output" 111 true "") xo. take D I S said m (str_opt (R:=R) "output_type" 100 true "") xu.
    destruct (str_split_spec 59 xi) as (ps & Eps & Hps). rewrite G, G0, G1, G2. cbn [bind]. rewrite Eps. cbn. eexists. split; [reflexivity|]. exists xi, ps, xt, xo, xu. auto 10.
  - intros said c c' (i & l & t & o & u & -> & H1 & H2 & H3 & H4 & H5) (i' & l' & t' & o' & u' & -> & H1' & H2' & H3' & H4' & H5'). unfold text_of in *. same concat_unamb.
    now rewrite (pieces_fun _ _ _ H2 _ H2').
Qed.
(** --help prints the usage and ends with 0; if a needed option is missing the tool ends with 1, and without any argument with 0. *)
Theorem C63_usage (D : list (decl R)) (f : opts R -> option call) (prog : list Z) (args ws : list (list Z)) (said : list (list Z * option (list Z))) :
  unambiguous (D ++ [help]) -> command (D ++ [help]) args said ws ->
  (mentioned said (bytes "help") -> start read_float D (prog :: args) f = Some (Ended 0)) /\
  (~ mentioned said (bytes "help") -> ~ complete (D ++ [help]) said ->
   start read_float D (prog :: args) f = Some (Ended (match args with [] => 0 | _ => 1 end))).
Proof. intros HD C. exact (start_stops read_float D f HD prog args said ws C). Qed.

(* ------------------------------------------------------- sol_train and sol_test *)
Lemma train_unamb : unambiguous (R:=R) train_opts. Proof. unamb. Qed.
Lemma test_unamb : unambiguous (R:=R) test_opts. Proof. unamb. Qed.
(** The line is a command line of the program. *)
Definition tells (D : list (decl R)) (argv : list (list Z)) (said : list (list Z * option (list Z))) (ws : list (list Z)) : Prop :=
  exists prog args, argv = prog :: args /\ command D args said ws.

Lemma train_typed : forall d : decl R, In d train_opts -> typed (d_read d) (d_def d). Proof. typ. Qed.
Lemma train_complete said : complete (R:=R) train_opts said.
Proof. intros d Hd. repeat (destruct Hd as [<-|Hd]; [discriminate|]). destruct Hd. Qed.
Lemma plan_fun said ws p p' : plan_of read_float said ws p -> plan_of read_float said ws p' -> p = p'.
Proof.
  destruct p as [src st co i o fm pa ba bu], p' as [src' st' co' i' o' fm' pa' ba' bu']. unfold plan_of, train_value.
  cbn [t_source t_settings t_complete t_input t_output t_format t_pass t_batch t_buf].
  intros (W & S1 & (ps & P1 & P2) & H1 & H2 & H3 & H4) (W' & S1' & (ps' & P1' & P2') & H1' & H2' & H3' & H4'). same train_unamb.
  destruct (params_spec ps) as (l & ok & _ & Hl). apply Hl in P2, P2'. destruct P2 as (-> & ->), P2' as (-> & ->).
  assert (i' = i /\ o' = o) as (-> & ->).
  { destruct W as [(-> & ->)| ->], W' as [(W' & ->)|W']; now injection W'; intros; subst. }
  f_equal. destruct src as [a|a c], src' as [a'|a' c']; try tauto.
  - destruct S1 as (_ & S1), S1' as (_ & S1'). same train_unamb. reflexivity.
  - destruct S1 as (_ & _ & S1 & S2), S1' as (_ & _ & S1' & S2'). same train_unamb. reflexivity.
Qed.
Lemma train_legal prog args said ws : command train_opts args said ws ->
  (mentioned said (bytes "show") /\ exists g, train_value read_float said "show" (VS g) /\ train_main read_float (prog :: args) = Some (FShow g)) \/
  ~ mentioned said (bytes "show") /\
  (mentioned said (bytes "help") /\ train_main read_float (prog :: args) = Some (FStop 0) \/
   ~ mentioned said (bytes "help") /\
   ((exists p, plan_of read_float said ws p /\ train_main read_float (prog :: args) = Some (FPlan p)) \/
    ~ (exists p, plan_of read_float said ws p) /\ train_main read_float (prog :: args) = Some (FStop 4))).
Proof.
  intros C. unfold train_main. destruct (adds_some train_opts (proj1 train_unamb)) as (m & Em). rewrite Em. cbn [bind].
  destruct (command_parse read_float _ m prog args said ws train_unamb Em C) as (ok & s & Ep & Hw & I & Hok).
  pose proof (sane_parse read_float _ m (prog :: args) Em train_typed) as S. rewrite Ep in S. cbn [snd] in S. rewrite Ep. cbn zeta.
  rewrite (proj2 Hok (train_complete said)).
  take (train_opts (R:=R)) I S said (q_opts s) (oneof_opt (R:=R) "show" 115 "" [""; "model"; "loss"; "reader"; "writer"]%string) xg.
  destruct (inv_exist read_float _ said (q_opts s) (bytes "show") I) as (b & Eb & Hb); [exists (oneof_opt "show" 115 "" [""; "model"; "loss"; "reader"; "writer"]%string); split; [here|reflexivity]|].
  destruct (inv_exist read_float _ said (q_opts s) (bytes "help") I) as (h & Eh & Hh); [exists help; split; [here|reflexivity]|].
  destruct (inv_exist read_float _ said (q_opts s) (bytes "model") I) as (e & Ee & He); [exists (str_opt "model" 109 false ""); split; [here|reflexivity]|].
  rewrite Eb. cbn [bind]. destruct b.
  { left. split; [now apply Hb|]. exists xg. rewrite G. auto. }
  right. split; [intros H; apply Hb in H; discriminate|]. rewrite Eh. cbn [bind negb]. rewrite andb_false_r. cbn [orb]. destruct h.
  { left. split; [now apply Hh|reflexivity]. }
  right. split; [intros H; apply Hh in H; discriminate|]. rewrite Hw.
  assert (W : match (match ws with [i] => Some (i, []) | [i; w] => Some (i, w) | _ => None end) with
    | Some (i, o) => ws = [i] /\ o = [] \/ ws = [i; o] | None => forall i o, ws <> [i] /\ ws <> [i; o] end).
  { destruct ws as [|i [|o [|x ws]]]; try (intros; split; discriminate); auto. }
  destruct (match ws with [i] => Some (i, []) | [i; w] => Some (i, w) | _ => None end) as [(i, o)|].
  2:{ right. split; [|reflexivity]. intros (p & Hp & _). destruct (W (t_input p) (t_output p)) as (W1 & W2). destruct Hp as [(Hp & _)|Hp]; congruence. }
  take (train_opts (R:=R)) I S said (q_opts s) (str_opt (R:=R) "algo" 97 false "ogd") xa.
  take (train_opts (R:=R)) I S said (q_opts s) (str_opt (R:=R) "model" 109 false "") xm.
  take (train_opts (R:=R)) I S said (q_opts s) (int_opt (R:=R) "classes" 99 false 2) xc.
  take (train_opts (R:=R)) I S said (q_opts s) (str_opt (R:=R) "params" 0 false "") xp.
  take (train_opts (R:=R)) I S said (q_opts s) (oneof_opt (R:=R) "format" 102 "svm" ["csv"; "svm"; "bin"]%string) xf.
  take (train_opts (R:=R)) I S said (q_opts s) (int_opt (R:=R) "pass" 112 false 1) xq.
  take (train_opts (R:=R)) I S said (q_opts s) (int_opt (R:=R) "batchsize" 98 false 256) xb.
  take (train_opts (R:=R)) I S said (q_opts s) (int_opt (R:=R) "bufsize" 0 false 2) xu.
  rewrite Ee, G0. cbn [bind]. destruct (params_spec xp) as (l & co & El & Hl).
  assert (P2 := proj2 (Hl l co) (conj eq_refl eq_refl)).
  assert (Fin : forall src, match src with
      | FromFile path => mentioned said (bytes "model") /\ train_value read_float said "model" (VS path)
      | Create a c => ~ mentioned said (bytes "model") /\ a <> [] /\ train_value read_float said "algo" (VS a) /\ train_value read_float said "classes" (VI c) end ->
    exists p, plan_of read_float said ws p /\
      (do ps <- get_s (bytes "params") (q_opts s);
       do (l, complete) <- params_of ps;
       do fm <- get_s (bytes "format") (q_opts s); do pass <- get_i (bytes "pass") (q_opts s); do b <- get_i (bytes "batchsize") (q_opts s); do bf <- get_i (bytes "bufsize") (q_opts s);
       Some (FPlan (mkplan src l complete i o fm pass b bf))) = Some (FPlan p)).
  { intros src Hsrc. exists (mkplan src l co i o xf xq xb xu). split.
    - unfold plan_of, train_value. cbn [t_source t_settings t_complete t_input t_output t_format t_pass t_batch t_buf]. split; [exact W|]. split; [exact Hsrc|]. split; [exists xp; auto|]. auto.
    - rewrite G3. cbn [bind]. rewrite El, G4, G5, G6, G7. reflexivity. }
  destruct e.
  - rewrite G1. cbn [bind]. left. apply Fin. split; [now apply He|exact F1].
  - assert (Hm : ~ mentioned said (bytes "model")) by (intros H; apply He in H; discriminate). destruct xa as [|a0 a].
    + right. split; [|reflexivity]. intros (p & _ & Hp & _). destruct (t_source p) as [path|a c]; [tauto|]. destruct Hp as (_ & Ha & Hf & _). unfold train_value in Hf.
      assert (E := final_fun read_float _ _ _ _ _ (proj1 train_unamb) F0 Hf). injection E as <-. contradiction.
    + rewrite G2. cbn [bind]. left. apply Fin. split; [exact Hm|]. split; [discriminate|]. split; assumption.
Qed.
Lemma train_illegal argv : (forall said ws, ~ tells train_opts argv said ws) ->
  train_main read_float argv = Some (FStop 0) \/ train_main read_float argv = Some (FStop 1) \/ exists g, train_main read_float argv = Some (FShow g).
Proof.
  intros Hn. unfold train_main. destruct (adds_some train_opts (proj1 train_unamb)) as (m & Em). rewrite Em. cbn [bind].
  pose proof (sane_parse read_float _ m argv Em train_typed) as S. destruct (parse read_float m argv) as [ok s] eqn:Ep. cbn [snd] in S. destruct ok.
  { exfalso. destruct (parse_command read_float _ m argv s Em Ep) as (prog & args & said & ws & -> & _ & C & _). apply (Hn said ws). exists prog, args. auto. }
  set (dg := oneof_opt (R:=R) "show" 115 "" [""; "model"; "loss"; "reader"; "writer"]%string).
  destruct (sane_exist _ _ dg S ltac:(here)) as (b & Eb). destruct (sane_exist _ _ help S ltac:(here)) as (h & Eh). destruct (sane_get _ _ dg S ltac:(here)) as (g & Eg).
  cbn [d_name dg oneof_opt help] in Eb, Eh, Eg. rewrite Eb. cbn [bind]. destruct b; [rewrite Eg; cbn; eauto|]. rewrite Eh. cbn [bind]. destruct (_ || h); [now left|]. now right; left.
Qed.

(** sol_train trains as the command line says ... *)
Theorem C63_train (argv : list (list Z)) (p : plan) :
  train_main read_float argv = Some (FPlan p) <->
  exists said ws, tells train_opts argv said ws /\ ~ mentioned said (bytes "show") /\ ~ mentioned said (bytes "help") /\ plan_of read_float said ws p.
Proof.
  split.
  - intros E. unfold train_main in E. destruct (adds_some train_opts (proj1 train_unamb)) as (m & Em).
    destruct (parse read_float m argv) as [ok s] eqn:Ep. assert (Hok : ok = true).
    { rewrite Em in E. cbn [bind] in E. rewrite Ep in E. destruct ok; [reflexivity|]. exfalso. destruct (exist (bytes "show") (q_opts s)) as [[|]|]; cbn [bind] in E; [|..|discriminate].
      - destruct (get_s (bytes "show") (q_opts s)); discriminate.
      - destruct (exist (bytes "help") (q_opts s)) as [h|]; cbn [bind] in E; [|discriminate]. destruct (_ || h); discriminate. }
    subst ok. destruct (parse_command read_float _ m argv s Em Ep) as (prog & args & said & ws & -> & _ & C & _).
    fold (train_main read_float (prog :: args)) in E. exists said, ws. split; [now exists prog, args|].
    destruct (train_legal prog args said ws C) as [(_ & g & _ & E')|(H1 & [(_ & E')|(H2 & [(p' & Hp & E')|(_ & E')])])]; rewrite E' in E; try discriminate.
    injection E as <-. auto.
  - intros (said & ws & (prog & args & -> & C) & H1 & H2 & Hp).
    destruct (train_legal prog args said ws C) as [(H & _)|(_ & [(H & _)|(_ & [(p' & Hp' & E')|(H & E')])])]; [contradiction|contradiction| |exfalso; eauto].
    now rewrite (plan_fun _ _ _ _ Hp Hp').
Qed.
(** ... or shows what there is, or ends with 0 (--help) or 4 (not one or two files, no model); and what is no command line never
    trains anything. *)
Theorem C63_train_other (argv : list (list Z)) :
  (forall said ws, tells train_opts argv said ws ->
     (mentioned said (bytes "show") -> exists g, train_value read_float said "show" (VS g) /\ train_main read_float argv = Some (FShow g)) /\
     (~ mentioned said (bytes "show") -> mentioned said (bytes "help") -> train_main read_float argv = Some (FStop 0)) /\
     (~ mentioned said (bytes "show") -> ~ mentioned said (bytes "help") -> (forall p, ~ plan_of read_float said ws p) -> train_main read_float argv = Some (FStop 4))) /\
  ((forall said ws, ~ tells train_opts argv said ws) ->
   train_main read_float argv = Some (FStop 0) \/ train_main read_float argv = Some (FStop 1) \/ exists g, train_main read_float argv = Some (FShow g)).
Proof.
  split; [|apply train_illegal]. intros said ws (prog & args & -> & C).
  destruct (train_legal prog args said ws C) as [(H & g & Hg & E)|(H1 & [(H2 & E)|(H2 & [(p' & Hp' & E)|(H & E)])])]; rewrite E.
  - split; [eauto|]. split; intros; contradiction.
  - split; [intros; contradiction|]. split; [auto|]. intros; contradiction.
  - split; [intros; contradiction|]. split; [intros; contradiction|]. intros _ _ Hp. exfalso. exact (Hp p' Hp').
  - split; [intros; contradiction|]. split; [intros; contradiction|]. auto.
Qed.

(** The same for sol_test. *)
Lemma test_typed : forall d : decl R, In d test_opts -> typed (d_read d) (d_def d). Proof. typ. Qed.
Lemma test_complete said : complete (R:=R) test_opts said.
Proof. intros d Hd. repeat (destruct Hd as [<-|Hd]; [discriminate|]). destruct Hd. Qed.
Lemma test_fun said ws p p' : test_of read_float said ws p -> test_of read_float said ws p' -> p = p'.
Proof.
  destruct p as [m f i o fm ba bu], p' as [m' f' i' o' fm' ba' bu']. unfold test_of, test_value. cbn [e_model e_filter e_input e_output e_format e_batch e_buf].
  intros (W & S1 & H1 & H2 & H3) (W' & S1' & H1' & H2' & H3'). same test_unamb.
  assert (m' = m /\ i' = i /\ o' = o) as (-> & -> & ->).
  { destruct W as [(-> & ->)| ->], W' as [(W' & ->)|W']; now injection W'; intros; subst. }
  f_equal. destruct f as [f|], f' as [f'|]; try tauto. destruct S1 as (_ & S1), S1' as (_ & S1'). same test_unamb. reflexivity.
Qed.
Lemma test_legal prog args said ws : command test_opts args said ws ->
  mentioned said (bytes "help") /\ test_main read_float (prog :: args) = Some (inl 0) \/
  ~ mentioned said (bytes "help") /\
   ((exists p, test_of read_float said ws p /\ test_main read_float (prog :: args) = Some (inr p)) \/
    ~ (exists p, test_of read_float said ws p) /\ test_main read_float (prog :: args) = Some (inl 4)).
Proof.
  intros C. unfold test_main. destruct (adds_some test_opts (proj1 test_unamb)) as (m & Em). rewrite Em. cbn [bind].
  destruct (command_parse read_float _ m prog args said ws test_unamb Em C) as (ok & s & Ep & Hw & I & Hok).
  pose proof (sane_parse read_float _ m (prog :: args) Em test_typed) as S. rewrite Ep in S. cbn [snd] in S. rewrite Ep. cbn zeta.
  rewrite (proj2 Hok (test_complete said)).
  destruct (inv_exist read_float _ said (q_opts s) (bytes "help") I) as (h & Eh & Hh); [exists help; split; [here|reflexivity]|].
  destruct (inv_exist read_float _ said (q_opts s) (bytes "filter") I) as (e & Ee & He); [exists (str_opt "filter" 0 false ""); split; [here|reflexivity]|].
  rewrite Eh. cbn [bind negb]. rewrite andb_false_r. cbn [orb]. destruct h.
  { left. split; [now apply Hh|reflexivity]. }
  right. split; [intros H; apply Hh in H; discriminate|]. rewrite Hw.
  assert (W : match (match ws with [mo; i] => Some (mo, i, []) | [mo; i; w] => Some (mo, i, w) | _ => None end) with
    | Some (mo, i, o) => ws = [mo; i] /\ o = [] \/ ws = [mo; i; o] | None => forall mo i o, ws <> [mo; i] /\ ws <> [mo; i; o] end).
  { destruct ws as [|a [|i [|o [|x ws]]]]; try (intros; split; discriminate); auto. }
  destruct (match ws with [mo; i] => Some (mo, i, []) | [mo; i; w] => Some (mo, i, w) | _ => None end) as [((mo, i), o)|].
  2:{ right. split; [|reflexivity]. intros (p & Hp & _). destruct (W (e_model p) (e_input p) (e_output p)) as (W1 & W2). destruct Hp as [(Hp & _)|Hp]; congruence. }
  take (test_opts (R:=R)) I S said (q_opts s) (str_opt (R:=R) "filter" 0 false "") xl.
  take (test_opts (R:=R)) I S said (q_opts s) (oneof_opt (R:=R) "format" 102 "svm" ["csv"; "svm"; "bin"]%string) xf.
  take (test_opts (R:=R)) I S said (q_opts s) (int_opt (R:=R) "batchsize" 98 false 256) xb.
  take (test_opts (R:=R)) I S said (q_opts s) (int_opt (R:=R) "bufsize" 0 false 2) xu.
  rewrite Ee. cbn [bind]. left. destruct e.
  - rewrite G. cbn [bind]. rewrite G0, G1, G2. cbn [bind]. eexists. split; [|reflexivity]. unfold test_of, test_value. cbn. split; [exact W|]. split; [split; [now apply He|exact F]|]. auto.
  - rewrite G0, G1, G2. cbn [bind]. eexists. split; [|reflexivity]. unfold test_of, test_value. cbn. split; [exact W|]. split; [intros H; apply He in H; discriminate|]. auto.
Qed.
Theorem C63_test (argv : list (list Z)) :
  (forall p, test_main read_float argv = Some (inr p) <->
    exists said ws, tells test_opts argv said ws /\ ~ mentioned said (bytes "help") /\ test_of read_float said ws p) /\
  (exists r, test_main read_float argv = Some r /\ match r with inl c => c = 0 \/ c = 1 \/ c = 4 | inr _ => True end).
Proof.
  assert (Hil : (exists said ws, tells test_opts argv said ws) \/ test_main read_float argv = Some (inl 0) \/ test_main read_float argv = Some (inl 1)).
  { unfold test_main. destruct (adds_some test_opts (proj1 test_unamb)) as (m & Em). rewrite Em. cbn [bind].
    pose proof (sane_parse read_float _ m argv Em test_typed) as S. destruct (parse read_float m argv) as [ok s] eqn:Ep. cbn [snd] in S. destruct ok.
    - left. destruct (parse_command read_float _ m argv s Em Ep) as (prog & args & said & ws & -> & _ & C & _). exists said, ws, prog, args. auto.
    - right. destruct (sane_exist _ _ help S ltac:(here)) as (h & Eh). cbn [d_name help] in Eh. rewrite Eh. cbn [bind]. destruct (_ || h); [now left|now right]. }
  split.
  - intros p. split.
    + intros E. destruct Hil as [(said & ws & T)|[E'|E']]; [|rewrite E' in E; discriminate|rewrite E' in E; discriminate]. destruct T as (prog & args & -> & C).
      exists said, ws. split; [now exists prog, args|]. destruct (test_legal prog args said ws C) as [(_ & E')|(H & [(p' & Hp & E')|(_ & E')])]; rewrite E' in E; try discriminate.
      injection E as <-. auto.
    + intros (said & ws & (prog & args & -> & C) & H & Hp). destruct (test_legal prog args said ws C) as [(H' & _)|(_ & [(p' & Hp' & E)|(H' & _)])]; [contradiction| |exfalso; eauto].
      now rewrite (test_fun _ _ _ _ Hp Hp').
  - destruct Hil as [(said & ws & prog & args & -> & C)|[E|E]]; [|rewrite E; eexists; split; [reflexivity|]; cbn; auto|rewrite E; eexists; split; [reflexivity|]; cbn; auto].
    destruct (test_legal prog args said ws C) as [(_ & E)|(_ & [(p' & _ & E)|(_ & E)])]; rewrite E; eexists; (split; [reflexivity|]); cbn; auto.
Qed.
(** The options by name, their short forms and what holds without them. *)
Definition opt2 (n : string) : list Z := [45; 45] ++ bytes n.
Definition opt1 (n : string) : list Z := [45] ++ bytes n.
Theorem C63_forms (prog i t o u m : list Z) (x : R) (v : list Z) : read_float v = Some x ->
  (analyze_main read_float [prog; opt1 "i"; i; opt1 "s"; t] = Some (Calls (Analyze i t (bytes "-"))) /\
   analyze_main read_float [prog; opt2 "output"; o; opt2 "input_type"; t; opt2 "input"; i] = Some (Calls (Analyze i t o)) /\
   analyze_main read_float [prog; opt1 "o"; o; opt1 "s"; t; opt1 "i"; i] = Some (Calls (Analyze i t o))) /\
  (convert_main read_float zero [prog; opt1 "i"; i; opt1 "s"; t; opt1 "o"; o; opt1 "d"; u] = Some (Calls (Convert i t o u None)) /\
   convert_main read_float zero [prog; opt1 "i"; i; opt1 "s"; t; opt1 "o"; o; opt1 "d"; u; opt1 "b"; v] = Some (Calls (Convert i t o u (Some x))) /\
   convert_main read_float zero [prog; opt2 "input"; i; opt2 "input_type"; t; opt2 "output"; o; opt2 "output_type"; u; opt2 "binary_thresh"; v] =
     Some (Calls (Convert i t o u (Some x)))) /\
  (shuffle_main read_float [prog; opt1 "i"; i; opt1 "s"; t] = Some (Calls (Shuffle i t (bytes "-") [])) /\
   shuffle_main read_float [prog; opt1 "i"; i; opt1 "s"; t; opt1 "o"; o; opt1 "d"; u] = Some (Calls (Shuffle i t o u)) /\
   shuffle_main read_float [prog; opt2 "input"; i; opt2 "input_type"; t; opt2 "output"; o; opt2 "output_type"; u] = Some (Calls (Shuffle i t o u))) /\
  (split_main read_float [prog; opt1 "i"; i; opt1 "s"; t; opt1 "n"; bytes "5"; opt1 "o"; o; opt1 "d"; u] = Some (Calls (Split i t 5 o u false)) /\
   split_main read_float [prog; opt1 "i"; i; opt1 "s"; t; opt1 "rn"; bytes "5"; opt1 "o"; o; opt1 "d"; u] = Some (Calls (Split i t 5 o u true)) /\
   split_main read_float [prog; opt2 "shuffle"; opt2 "input"; i; opt2 "input_type"; t; opt2 "fold"; bytes "5"; opt2 "output_prefix"; o; opt2 "output_type"; u] =
     Some (Calls (Split i t 5 o u true))) /\
  (forall l, str_split 59 i = Some l ->
   concat_main read_float [prog; opt1 "i"; i; opt1 "s"; t; opt1 "o"; o; opt1 "d"; u] = Some (Calls (Concat l t o u)) /\
   concat_main read_float [prog; opt2 "input"; i; opt2 "input_type"; t; opt2 "output"; o; opt2 "output_type"; u] = Some (Calls (Concat l t o u))) /\
  (train_main read_float [prog; bytes "x"] = Some (FPlan (mkplan (Create (bytes "ogd") 2) [] true (bytes "x") [] (bytes "svm") 1 256 2)) /\
   train_main read_float [prog; bytes "x"; bytes "y"; opt1 "f"; bytes "csv"; opt1 "c"; bytes "3"; opt1 "p"; bytes "4"; opt1 "d"; o; opt1 "b"; bytes "5"; opt2 "bufsize"; bytes "6";
       opt1 "a"; bytes "pa"; opt2 "params"; bytes "C=7"] =
     Some (FPlan (mkplan (Create (bytes "pa") 3) [(bytes "C", bytes "7")] true (bytes "x") (bytes "y") (bytes "csv") 4 5 6)) /\
   train_main read_float [prog; bytes "x"; opt2 "format"; bytes "bin"; opt2 "classes"; bytes "3"; opt2 "pass"; bytes "4"; opt2 "dim"; o; opt2 "batchsize"; bytes "5"; opt2 "algo"; bytes "pa"] =
     Some (FPlan (mkplan (Create (bytes "pa") 3) [] true (bytes "x") [] (bytes "bin") 4 5 2)) /\
   train_main read_float [prog; bytes "x"; opt1 "m"; m] = Some (FPlan (mkplan (FromFile m) [] true (bytes "x") [] (bytes "svm") 1 256 2)) /\
   train_main read_float [prog; bytes "x"; opt2 "model"; m] = Some (FPlan (mkplan (FromFile m) [] true (bytes "x") [] (bytes "svm") 1 256 2)) /\
   train_main read_float [prog; opt1 "s"; bytes "loss"] = Some (FShow (bytes "loss")) /\ train_main read_float [prog; opt2 "show"; bytes "model"] = Some (FShow (bytes "model")) /\
   train_main read_float [prog; opt1 "h"] = Some (FStop 0) /\ train_main read_float [prog; opt2 "help"; bytes "x"] = Some (FStop 0)) /\
  (test_main read_float [prog; bytes "m"; bytes "x"] = Some (inr (mktest (bytes "m") None (bytes "x") [] (bytes "svm") 256 2)) /\
   test_main read_float [prog; bytes "m"; bytes "x"; bytes "y"; opt1 "f"; bytes "bin"; opt1 "b"; bytes "5"; opt2 "bufsize"; bytes "6"; opt2 "filter"; o] =
     Some (inr (mktest (bytes "m") (Some o) (bytes "x") (bytes "y") (bytes "bin") 5 6)) /\
   test_main read_float [prog; opt2 "batchsize"; bytes "5"; opt2 "format"; bytes "csv"; bytes "m"; bytes "x"] = Some (inr (mktest (bytes "m") None (bytes "x") [] (bytes "csv") 5 2))).
Proof.
  intros Ex.
  split; [vm_compute; auto 20|]. split.
  { vm_compute. rewrite Ex. auto 20. }
  split; [vm_compute; auto 20|]. split; [vm_compute; auto 20|]. split; [|split; vm_compute; auto 20].
  intros l El. unfold concat_main, start. split;
    match goal with |- (do m <- ?a; _) = _ => let r := eval vm_compute in a in change a with r end; cbn [bind];
    match goal with |- (do r <- ?a; _) = _ => let q := eval vm_compute in a in change a with q end; cbn [bind q_opts];
    repeat match goal with |- context [do _ <- get_s ?n ?o; _] => let q := eval vm_compute in (get_s n o) in change (get_s n o) with q; cbn [bind] end;
    rewrite El; reflexivity.
Qed.
End T.

Print Assumptions C63_declare.
Print Assumptions C63_parse.
Print Assumptions C63_refuse.
Print Assumptions C63_unique.
Print Assumptions C63_tools.
Print Assumptions C63_usage.
Print Assumptions C63_train.
Print Assumptions C63_train_other.
Print Assumptions C63_test.
Print Assumptions C63_forms.
