(** The tools that use parse_check. *)
From Coq Require Import String.
From Verif Require Import M_Base M_Text M_Str S_Text S_Str P_Str M_Cmd S_Cmd P_Cmd.
Local Open Scope list_scope.
Local Open Scope Z_scope.

Section T.
Context {R : Type}.
Variable read_float : list Z -> option R.
Notation command := (command read_float). Notation final := (final read_float). Notation asks := (asks read_float).
Lemma adds_app (a b : list (decl R)) : forall m, adds (a ++ b) m = do m' <- adds a m; adds b m'.
Proof. induction a as [|d a IH]; intros m; [reflexivity|]. cbn [app adds]. destruct (add d m) as [m1|]; [apply IH|reflexivity]. Qed.
Lemma unamb_of (D : list (decl R)) : NoDup (map d_name D) -> NoDup (filter (fun c => negb (c =? 0)) (map d_short D)) -> unambiguous D.
Proof.
  intros H1 H2. split; [exact H1|]. clear H1. intros d d' Hd Hd' _ _ Hq Hz.
  enough (d = d') by congruence. revert H2 d d' Hd Hd' Hq Hz. induction D as [|x l IH]; intros H2 d d'; [intros []|]. cbn [map filter] in H2.
  assert (K : forall y, In y l -> d_short y <> 0 -> In (d_short y) (filter (fun c => negb (c =? 0)) (map d_short l))).
  { intros y Hy Hz. apply filter_In. split; [now apply in_map|]. apply negb_true_iff, Z.eqb_neq, Hz. }
  intros [<-|Hd] [<-|Hd'] Hq Hz; [reflexivity| | |].
  - rewrite (proj2 (Z.eqb_neq _ 0) Hz) in H2. cbn in H2. inversion H2 as [|? ? N1 N2]; subst. exfalso. apply N1. rewrite Hq. apply K; congruence.
  - rewrite Hq in Hz. rewrite (proj2 (Z.eqb_neq _ 0) Hz) in H2. cbn in H2. inversion H2 as [|? ? N1 N2]; subst. exfalso. apply N1. rewrite <- Hq. apply K; congruence.
  - apply IH; auto. destruct (negb (d_short x =? 0)); [now inversion H2|exact H2].
Qed.

Section Start.
Variable D : list (decl R).
Variable f : opts R -> option (call (R:=R)).
Hypothesis HD : unambiguous (D ++ [help]).
Hypothesis Ht : forall d, In d (D ++ [help]) -> typed (d_read d) (d_def d).
Notation start := (start read_float).
Lemma start_eq argv : exists m1, adds (D ++ [help]) [] = Some m1 /\
  start D argv f = (let '(ok, s) := parse read_float m1 argv in
    do r <- check (length argv) ok s;
    match r with Stops c => Some (Ended c) | Runs s => do c <- f (q_opts s); Some (Calls c) end).
Proof.
  destruct (adds_some (D ++ [help]) (proj1 HD)) as (m1 & E). exists m1. split; [exact E|]. rewrite adds_app in E.
  unfold M_Cmd.start. destruct (adds D []) as [m|]; [|discriminate]. cbn [bind] in *. unfold parse_check. cbn [adds] in E.
  destruct (add help m) as [m2|] eqn:Ea; [|discriminate]. cbn in E. injection E as ->.
  assert (Er : reg_find (bytes "help") m = None). { unfold add in Ea. change (d_name help) with (bytes "help") in Ea. now destruct (reg_find (bytes "help") m). }
  rewrite Er. cbn [bind].
  destruct (parse read_float m1 argv) as [ok s]. reflexivity.
Qed.
Lemma help_in : In help (D ++ [help]).
Proof. apply in_or_app. right. now left. Qed.
Lemma start_asks argv said : asks D argv said -> exists m, inv read_float (D ++ [help]) said m /\ sane (D ++ [help]) m /\ start D argv f = do c <- f m; Some (Calls c).
Proof.
  intros (prog & args & ws & -> & C & Hc & Hh). destruct (start_eq (prog :: args)) as (m1 & E1 & E). rewrite E.
  destruct (command_parse read_float _ m1 prog args said ws HD E1 C) as (ok & s & Ep & Hw & I & Hok). pose proof (sane_parse read_float _ m1 (prog :: args) E1 Ht) as S.
  rewrite Ep in *. cbn [snd] in S. exists (q_opts s). split; [exact I|]. split; [exact S|]. unfold check.
  destruct (inv_exist read_float _ said (q_opts s) (bytes "help") I) as (b & Eb & Hb); [exists help; split; [apply help_in|reflexivity]|]. rewrite Eb. cbn [bind].
  rewrite (proj2 Hok Hc), andb_false_r. destruct b; [exfalso; tauto|]. reflexivity.
Qed.
Lemma start_calls argv c : start D argv f = Some (Calls c) -> exists said m, asks D argv said /\ inv read_float (D ++ [help]) said m /\ sane (D ++ [help]) m /\ f m = Some c.
Proof.
  intros E. destruct (start_eq argv) as (m1 & E1 & Es). rewrite Es in E. destruct (parse read_float m1 argv) as [ok s] eqn:Ep.
  unfold check in E. destruct (exist (bytes "help") (q_opts s)) as [h|] eqn:Eh; [|discriminate]. cbn [bind] in E.
  destruct (_ || h) eqn:Eo; [discriminate|]. destruct ok; [|discriminate]. cbn [bind negb] in E. rewrite andb_false_r in Eo. cbn in Eo. subst h.
  destruct (parse_command read_float _ m1 argv s E1 Ep) as (prog & args & said & ws & -> & _ & C & Hc).
  destruct (command_parse read_float _ m1 prog args said ws HD E1 C) as (ok & s' & Ep' & Hw & I & Hok). rewrite Ep in Ep'. injection Ep' as <- <-.
  pose proof (sane_parse read_float _ m1 (prog :: args) E1 Ht) as S. rewrite Ep in S. cbn [snd] in S.
  destruct (inv_exist read_float _ said (q_opts s) (bytes "help") I) as (b & Eb & Hb); [exists help; split; [apply help_in|reflexivity]|]. rewrite Eh in Eb. injection Eb as <-.
  exists said, (q_opts s). split; [|split; [exact I|split; [exact S|]]].
  - exists prog, args, ws. split; [reflexivity|]. split; [exact C|]. split; [exact Hc|]. intros H. apply Hb in H. discriminate.
  - destruct (f (q_opts s)); [|discriminate]. cbn in E. now injection E as ->.
Qed.
Lemma tool_spec (J : list (list Z * option (list Z)) -> call (R:=R) -> Prop) :
  (forall said m, inv read_float (D ++ [help]) said m -> sane (D ++ [help]) m -> exists c, f m = Some c /\ J said c) ->
  (forall said c c', J said c -> J said c' -> c = c') ->
  forall argv, (forall c, start D argv f = Some (Calls c) <-> exists said, asks D argv said /\ J said c) /\
    (start D argv f = Some (Ended 0) \/ start D argv f = Some (Ended 1) \/ exists c, start D argv f = Some (Calls c)).
Proof.
  intros Hf HJ argv. split.
  - intros c. split.
    + intros E. destruct (start_calls _ _ E) as (said & m & Ha & I & S & Ef). exists said. split; [exact Ha|].
      destruct (Hf said m I S) as (c' & Ef' & Hc). congruence.
    + intros (said & Ha & Hc). destruct (start_asks _ _ Ha) as (m & I & S & E). destruct (Hf said m I S) as (c' & Ef & Hc').
      rewrite E, Ef. cbn. now rewrite (HJ _ _ _ Hc Hc').
  - destruct (start_eq argv) as (m1 & E1 & Es). pose proof (sane_parse read_float _ m1 argv E1 Ht) as S.
    destruct (parse read_float m1 argv) as [ok s] eqn:Ep. cbn [snd] in S. rewrite Es. unfold check.
    destruct (sane_exist _ _ help S help_in) as (h & Eh). cbn [d_name help] in Eh. rewrite Eh. cbn [bind].
    destruct (_ || h) eqn:Eo; [now left|]. destruct ok; cbn [negb bind]; [|now right; left].
    destruct (parse_command read_float _ m1 argv s E1 Ep) as (prog & args & said & ws & -> & _ & C & Hc).
    destruct (command_parse read_float _ m1 prog args said ws HD E1 C) as (ok & s' & Ep' & Hw & I & Hok). rewrite Ep in Ep'. injection Ep' as <- <-.
    destruct (Hf said _ I S) as (c & Ef & _). rewrite Ef. right; right. cbn. eauto.
Qed.
(** --help, or options that are missing. *)
Lemma start_stops prog args said ws : command (D ++ [help]) args said ws ->
  (mentioned said (bytes "help") -> start D (prog :: args) f = Some (Ended 0)) /\
  (~ mentioned said (bytes "help") -> ~ complete (D ++ [help]) said -> start D (prog :: args) f = Some (Ended (match args with [] => 0 | _ => 1 end))).
Proof.
  intros C. destruct (start_eq (prog :: args)) as (m1 & E1 & E). rewrite E.
  destruct (command_parse read_float _ m1 prog args said ws HD E1 C) as (ok & s & Ep & Hw & I & Hok). rewrite Ep. unfold check.
  destruct (inv_exist read_float _ said (q_opts s) (bytes "help") I) as (b & Eb & Hb); [exists help; split; [apply help_in|reflexivity]|]. rewrite Eb. cbn [bind].
  split.
  - intros H. apply Hb in H. rewrite H, orb_true_r. reflexivity.
  - intros Hn Hc. destruct b; [exfalso; tauto|]. destruct ok; [exfalso; tauto|]. destruct args; reflexivity.
Qed.
End Start.
End T.
