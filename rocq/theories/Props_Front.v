(** C63, continued: from the command line of sol_train to the model, and examples. *)
From Coq Require Import String Ascii Lia.
From Verif Require Import M_Base M_Text M_Str S_Text S_Str P_Str M_Num M_Expr M_Loss M_Online M_Filter M_Save M_Param S_Param P_Param P_Param2 P_Param3 Props_Param M_Cmd S_Cmd P_Cmd P_Cmd2 Props_Cmd M_Front.
Local Open Scope string_scope.
Local Open Scope list_scope.
Local Open Scope Z_scope.

(** The model classes are found under their names, in upper or lower case, and under no other name. *)
Theorem C63_model_names (a : list Z) (k : cls) : model_of a = Some k <-> same_name a (bytes (cls_name k)).
Proof.
  unfold model_of, create_object. rewrite lower_same.
  assert (Hl : lower (bytes (cls_name k)) = bytes (cls_name k)) by (destruct k; reflexivity). rewrite Hl. unfold full_name.
  assert (Ha : lower (a ++ suffix Model) = lower a ++ suffix Model) by (unfold lower; rewrite map_app; reflexivity). rewrite Ha.
  assert (Hn : NoDup (map fst (map (fun k0 => (bytes (cls_name k0) ++ suffix Model, k0)) all_cls))).
  { vm_compute. repeat (constructor; [cbn; intuition discriminate|]). constructor. }
  split.
  - intros E. apply reg_find_some in E. apply in_map_iff in E. destruct E as (k' & E & _). injection E as E ->. symmetry. now apply app_inv_tail in E.
  - intros E. apply reg_find_unique; [exact Hn|]. rewrite E. apply in_map_iff. exists k. split; [reflexivity|]. destruct k; cbn; tauto.
Qed.

Section T.
Context {R : Type}.
Variable N : num R.
Variable stof : list Z -> parsed R.
Variable files : list Z -> option (list Z).
Variable load : list Z -> option (cls * Z * cfg (R:=R)).
Hypothesis Hload : forall path k classes c, load path = Some (k, classes, c) -> 1 < classes.
Notation vld := (valid N stof files).

(** Where the model comes from. *)
Definition origin (src : source) (k : cls) (classes : Z) (c : cfg (R:=R)) : Prop :=
  match src with
  | FromFile path => load path = Some (k, classes, c)
  | Create a n => same_name a (bytes (cls_name k)) /\ n = classes /\ 1 < n /\ c = create N k classes
  end.
Lemma apply_ready k classes l co : 1 < classes -> forall c k' n' c', apply_settings N stof files k classes l co c = Ready k' n' c' <->
  k' = k /\ n' = classes /\ co = true /\ (forall name value, In (name, value) l -> vld k classes (literal name) value) /\
  steps N stof files k classes (map (fun p => OSet (literal (fst p)) (snd p)) l) c = Some (repeat ROk (length l), c').
Proof.
  intros Hc. induction l as [|(name, value) l IH]; intros c k' n' c'; cbn [apply_settings].
  - destruct co; cbn.
    + split; [intros H; inversion H; subst; repeat split; auto; intros ? ? []|]. intros (-> & -> & _ & _ & H). now injection H as ->.
    + split; [discriminate|]. intros (_ & _ & H & _). discriminate.
  - cbn [map steps length repeat fst snd]. unfold step at 1. pose proof (C59_accepts N stof files k classes (literal name) value c Hc) as A.
    destruct (set_parameter N stof files k classes (literal name) value c) as [c1|c1|c1|] eqn:E; cbn [bind].
    + rewrite (IH c1). assert (V : vld k classes (literal name) value) by (apply A; eauto).
      split; intros (-> & -> & -> & H & Hs); (split; [reflexivity|]; split; [reflexivity|]; split; [reflexivity|]; split).
      * intros n v [Hin|Hin]; [injection Hin as <- <-; exact V|now apply H].
      * rewrite Hs. reflexivity.
      * intros n v Hin. apply H. now right.
      * destruct (steps N stof files k classes _ c1) as [(l', c2)|]; [|discriminate]. cbn in Hs. now injection Hs as <- <-.
    + split; [discriminate|]. intros (_ & _ & _ & H & _). exfalso. destruct (proj2 A (H _ _ (or_introl eq_refl))) as (c'' & X). discriminate.
    + split; [discriminate|]. intros (_ & _ & _ & H & _). exfalso. destruct (proj2 A (H _ _ (or_introl eq_refl))) as (c'' & X). discriminate.
    + split; [discriminate|]. intros (_ & _ & _ & H & _). exfalso. destruct (proj2 A (H _ _ (or_introl eq_refl))) as (c'' & X). discriminate.
Qed.
(** A model is trained if and only if it exists and all settings of --params are ones it accepts; then they have been made in
    the order in which they are written. *)
Theorem C63_prepare (p : plan) (k : cls) (classes : Z) (c : cfg) :
  prepare N stof files load p = Ready k classes c <->
  exists c0, origin (t_source p) k classes c0 /\ t_complete p = true /\
    (forall name value, In (name, value) (t_settings p) -> vld k classes (literal name) value) /\
    steps N stof files k classes (map (fun s => OSet (literal (fst s)) (snd s)) (t_settings p)) c0 = Some (repeat ROk (length (t_settings p)), c).
Proof.
  unfold prepare, origin. destruct (t_source p) as [path|a n].
  - destruct (load path) as [((k0, n0), c0)|] eqn:El.
    + rewrite (apply_ready k0 n0 _ _ (Hload _ _ _ _ El)). split.
      * intros (-> & -> & H). exists c0. auto.
      * intros (c1 & E & H). injection E as -> -> ->. auto.
    + split; [discriminate|]. intros (c0 & E & _). discriminate.
  - destruct (model_of a) as [k0|] eqn:Em.
    + apply C63_model_names in Em. destruct (1 <? n) eqn:En.
      * apply Z.ltb_lt in En. rewrite (apply_ready k0 n _ _ En). split.
        -- intros (-> & -> & H). exists (create N k0 n). auto.
        -- intros (c1 & (Hs & <- & _ & ->) & H). assert (k0 = k); [|subst; auto].
           apply C63_model_names in Em, Hs. congruence.
      * apply Z.ltb_ge in En. split; [discriminate|]. intros (c1 & (_ & _ & H & _) & _). lia.
    + split; [discriminate|]. intros (c1 & (Hs & _) & _). apply C63_model_names in Hs. congruence.
Qed.
(** Otherwise sol_train ends with status 4, or by an exception when a number does not fit its type; undefined behaviour is left to
    feature lists (C22). *)
Theorem C63_prepare_fails (p : plan) :
  match prepare N stof files load p with
  | Ready _ _ _ => True
  | Exits code => code = 4
  | Throws => exists k classes c name value c', In (name, value) (t_settings p) /\ set_parameter N stof files k classes (literal name) value c = Range c'
  | Undefined => exists name value, In (name, value) (t_settings p) /\ literal name = "filter" /\ load_presel (files value) = SelUB
  end.
Proof.
  unfold prepare. destruct (match t_source p with FromFile path => _ | Create a n => _ end) as [((k, n), c)|]; [|reflexivity].
  generalize (t_complete p) as co. revert c. induction (t_settings p) as [|(name, value) l IH]; intros c co; cbn [apply_settings].
  - destruct co; [exact I|reflexivity].
  - pose proof (C59_rejected N stof files k n (literal name) value c) as Hr. destruct (set_parameter N stof files k n (literal name) value c) as [c1|c1|c1|] eqn:E.
    + specialize (IH c1 co). destruct (apply_settings N stof files k n l co c1); auto.
      * destruct IH as (k' & n' & c2 & nm & v & c3 & Hin & H). exists k', n', c2, nm, v, c3. split; [now right|exact H].
      * destruct IH as (nm & v & Hin & H). exists nm, v. split; [now right|exact H].
    + reflexivity.
    + exists k, n, c, name, value, c1. split; [now left|exact E].
    + exists name, value. split; [now left|exact Hr].
Qed.
End T.

(** --show lists the classes of a group: all models, all losses and all writers, each once, in the order of
    the full names, e.g. ada-fobos-l1_model before ada-fobos_model ... *)
Theorem C63_show :
  (exists l, showinfo (bytes "model") class_names = Some l /\ NoDup l /\ Sorted.StronglySorted (fun a b => str_ltb (a ++ bytes "_model") (b ++ bytes "_model") = true) l /\ forall n, In n l <-> exists k, n = bytes (cls_name k)) /\
  (exists l, showinfo (bytes "loss") class_names = Some l /\ NoDup l /\ Sorted.StronglySorted (fun a b => str_ltb (a ++ bytes "_loss") (b ++ bytes "_loss") = true) l /\ forall n, In n l <-> In (Loss, n) builtin) /\
  showinfo (bytes "writer") class_names = Some (map bytes ["bin"; "csv"; "svm"]).
Proof.
  repeat split.
  - eexists. split; [vm_compute; reflexivity|]. split; [repeat (constructor; [cbn; intuition discriminate|]); constructor|].
    split; [repeat (constructor; [|repeat (constructor; [reflexivity|]); constructor]); constructor|].
    intros n. split.
    + intros H. cbn in H. repeat (destruct H as [<-|H]; [|]); [..|destruct H];
      first [now exists TAdaFOBOS|now exists TAdaFOBOS_L1|now exists TAdaRDA|now exists TAdaRDA_L1|now exists TAdaFOBOS_OFS|now exists TAdaRDA_OFS|now exists TALMA2|now exists TAROW|now exists TCW|now exists TECCW|now exists TERDA_L1|now exists TFOBOS_L1|now exists TFOFS|now exists TOGD|now exists TPA|now exists TPA1|now exists TPA2|now exists TPerceptron|now exists TPET|now exists TRDA|now exists TRDA_L1|now exists TSOFS|now exists TSOP|now exists TSTG].
    + intros (k & ->). destruct k; vm_compute; tauto.
  - eexists. split; [vm_compute; reflexivity|]. split; [repeat (constructor; [cbn; intuition discriminate|]); constructor|].
    split; [repeat (constructor; [|repeat (constructor; [reflexivity|]); constructor]); constructor|].
    intros n. vm_compute. intuition (try congruence).
Qed.

(** ... but of the readers the first part of the name only: for csr_matrix it says csr, and there is no reader of that name. *)
Theorem C63_show_refuted : exists n l, showinfo (bytes "reader") class_names = Some l /\ In n l /\ ~ In (Reader, n) builtin /\
  ~ In (bytes "csr_matrix") l /\ In (Reader, bytes "csr_matrix") builtin.
Proof.
  exists (bytes "csr"). eexists. split; [vm_compute; reflexivity|]. vm_compute. split; [tauto|]. split; [intuition discriminate|].
  split; [intuition discriminate|tauto].
Qed.

(* ------------------------------------------------------------------ examples *)
Definition ex_float (v : list Z) : option f32 := match ex_stof v with Parsed x => Some x | _ => None end.
Definition argv (l : list string) : list (list Z) := map bytes l.
Notation tmain := (train_main ex_float).
Definition ex_load (v : list Z) : option (cls * Z * cfg (R:=f32)) := if str_eqb v (bytes "old.model") then Some (TOGD, 3, create f32num TOGD 3) else None.
Notation prep := (prepare f32num ex_stof ex_files ex_load).

Example C63_declare_witness :
  NoDup (map d_name (train_opts (R:=f32))) /\ adds (R:=f32) (help :: train_opts) [] = None.
Proof. split; [apply train_unamb|reflexivity]. Qed.
(** A command line of sol_train with every way to write options; --classes is given twice. *)
Definition ex_args : list (list Z) := argv ["--classes=3"; "-a"; "PA1"; "train.svm"; "-c"; " +4"; "--params"; "C=5; norm = 0"; "-"; "out.model"].
Definition ex_said : list (list Z * option (list Z)) :=
  [(bytes "classes", Some (bytes "3")); (bytes "algo", Some (bytes "PA1")); (bytes "classes", Some (bytes " +4")); (bytes "params", Some (bytes "C=5; norm = 0"))].
Example C63_parse_witness :
  unambiguous (R:=f32) train_opts /\ command ex_float train_opts ex_args ex_said [bytes "train.svm"; bytes "out.model"] /\ complete (R:=f32) train_opts ex_said.
Proof.
  split; [apply train_unamb|]. split; [|apply train_complete].
  exists [Assign (bytes "classes") (bytes "3"); Short [] 97 (bytes "PA1"); Word (bytes "train.svm"); Short [] 99 (bytes " +4"); Give (bytes "params") (bytes "C=5; norm = 0"); Dash; Word (bytes "out.model")].
  exists [[(bytes "classes", Some (bytes "3"))]; [(bytes "algo", Some (bytes "PA1"))]; []; [(bytes "classes", Some (bytes " +4"))]; [(bytes "params", Some (bytes "C=5; norm = 0"))]; []; []].
  split; [reflexivity|]. split; [repeat (apply Forall_cons; [cbn; intuition discriminate|]); apply Forall_nil|].
  split.
  { repeat (apply Forall2_cons); [apply S_assign| | apply S_word | |apply S_give|apply S_dash|apply S_word|apply Forall2_nil].
    - apply (S_short _ [] [] 97 (bytes "algo")); [apply Forall2_nil|]. exists (str_opt "algo" 97 false "ogd"). split; [cbn; tauto|]. repeat split; discriminate.
    - apply (S_short _ [] [] 99 (bytes "classes")); [apply Forall2_nil|]. exists (int_opt "classes" 99 false 2). split; [cbn; tauto|]. repeat split; discriminate. }
  split; [reflexivity|]. split; [|reflexivity]. repeat apply Forall_cons; [..|apply Forall_nil].
  - exists (int_opt "classes" 99 false 2). split; [cbn; tauto|]. split; [reflexivity|]. exists (VI 3), 3. split; [|reflexivity].
    exists [], [], (bytes "3"). split; [reflexivity|]. split; [constructor|]. split; [discriminate|]. split; [repeat constructor; cbn; lia|]. split; [left; split; reflexivity|lia].
  - exists (str_opt "algo" 97 false "ogd"). split; [cbn; tauto|]. split; [reflexivity|]. exists (VS (bytes "PA1")). reflexivity.
  - exists (int_opt "classes" 99 false 2). split; [cbn; tauto|]. split; [reflexivity|]. exists (VI 4), 4. split; [|reflexivity].
    exists [32], [43], (bytes "4"). split; [reflexivity|]. split; [repeat constructor|]. split; [discriminate|]. split; [repeat constructor; cbn; lia|]. split; [right; left; split; reflexivity|lia].
  - exists (str_opt "params" 0 false ""). split; [cbn; tauto|]. split; [reflexivity|]. eexists. reflexivity.
Qed.
(** What comes of it: PA-I with four classes and C = 5; the line above is not refused. *)
Example C63_prepare_witness :
  match tmain (bytes "sol_train" :: ex_args) with
  | Some (FPlan p) =>
    t_source p = Create (bytes "PA1") 4 /\ t_settings p = [(bytes "C", bytes "5"); (bytes "norm", bytes "0")] /\ t_input p = bytes "train.svm" /\ t_output p = bytes "out.model" /\
    match prep p with Ready k n c => k = TPA1 /\ n = 4 /\ f_r c MC = n_int f32num 5 | _ => False end
  | _ => False
  end /\
  (forall path k classes c, ex_load path = Some (k, classes, c) -> 1 < classes).
Proof.
  split; [vm_compute; auto 20|]. intros path k classes c. unfold ex_load. destruct (str_eqb path (bytes "old.model")); [|discriminate]. intros H. assert (classes = 3) by congruence. lia.
Qed.
Example C63_refuse_witness :
  match parse ex_float (match adds (R:=f32) split_opts [] with Some m => m | None => [] end) (argv ["split"; "-i"; "a"; "-s"; "svm"; "-rn"; "5"; "-o"; "p"; "-d"; "svm"]) with
  | (ok, s) => ok = true /\ get_i (bytes "fold") (q_opts s) = Some 5 /\ exist (bytes "shuffle") (q_opts s) = Some true
  end.
Proof. vm_compute. auto 20. Qed.
Example C63_unique_witness : final ex_float train_opts ex_said (bytes "classes") (VI 4) /\ final ex_float train_opts ex_said (bytes "pass") (VI 1).
Proof.
  split.
  - exists (int_opt "classes" 99 false 2), RInt. split; [cbn; tauto|]. split; [reflexivity|]. split; [reflexivity|]. right.
    exists [(bytes "classes", Some (bytes "3")); (bytes "algo", Some (bytes "PA1"))], (bytes " +4"), [(bytes "params", Some (bytes "C=5; norm = 0"))].
    split; [reflexivity|]. split; [intros (v & [H|[]]); discriminate|]. exists 4. split; [|reflexivity].
    exists [32], [43], (bytes "4"). split; [reflexivity|]. split; [repeat constructor|]. split; [discriminate|]. split; [repeat constructor; cbn; lia|]. split; [right; left; split; reflexivity|lia].
  - exists (int_opt "pass" 112 false 1), RInt. split; [cbn; tauto|]. split; [reflexivity|]. split; [reflexivity|]. left. split; [|reflexivity].
    intros (v & H). cbn in H. intuition discriminate.
Qed.
Example C63_tools_witness :
  split_main ex_float (argv ["split"; "-i"; "a"; "-s"; "svm"; "-n"; "5"; "-o"; "p"; "-d"; "csv"; "-r"]) = Some (Calls (Split (bytes "a") (bytes "svm") 5 (bytes "p") (bytes "csv") true)) /\
  concat_main ex_float (argv ["concat"; "--input=a;;b;"; "-s"; "svm"; "-o"; "p"; "-d"; "csv"]) = Some (Calls (Concat [bytes "a"; bytes "b"] (bytes "svm") (bytes "p") (bytes "csv"))) /\
  convert_main ex_float (n_int f32num 0) (argv ["convert"; "-i"; "a"; "-s"; "svm"; "-o"; "p"; "-d"; "bin"; "-b"; "1e3"]) =
    Some (Calls (Convert (bytes "a") (bytes "svm") (bytes "p") (bytes "bin") (Some (n_int f32num 1000)))) /\
  analyze_main ex_float (argv ["analyze"; "-i"; "a"; "-s"; "svm"]) = Some (Calls (Analyze (bytes "a") (bytes "svm") (bytes "-"))) /\
  shuffle_main ex_float (argv ["shuffle"; "-i"; "a"; "-s"; "svm"; "-o"]) = Some (Ended 1) /\
  shuffle_main ex_float (argv ["shuffle"; "-i"; "a"; "-s"; "svm"; "-o"; "q"]) = Some (Calls (Shuffle (bytes "a") (bytes "svm") (bytes "q") [])).
Proof. repeat split. Qed.
Example C63_forms_witness : ex_float (bytes "1e3") = Some (n_int f32num 1000) /\ str_split 59 (bytes "a;b") = Some [bytes "a"; bytes "b"].
Proof. split; reflexivity. Qed.
Example C63_usage_witness :
  analyze_main ex_float (argv ["analyze"]) = Some (Ended 0) /\ analyze_main ex_float (argv ["analyze"; "a.svm"]) = Some (Ended 1) /\
  analyze_main ex_float (argv ["analyze"; "-h"]) = Some (Ended 0).
Proof. repeat split. Qed.
Example C63_train_witness :
  tmain (argv ["sol_train"; "-m"; "old.model"; "-bp"; "7"; "x.svm"]) = Some (FStop 1) /\
  tmain (argv ["sol_train"; "-m"; "old.model"; "-b"; "7"; "-f"; "csv"; "x.svm"]) =
    Some (FPlan (mkplan (FromFile (bytes "old.model")) [] true (bytes "x.svm") [] (bytes "csv") 1 7 2)).
Proof. repeat split. Qed.
Example C63_train_other_witness :
  tmain (argv ["sol_train"]) = Some (FStop 4) /\ tmain (argv ["sol_train"; "--show"; "loss"]) = Some (FShow (bytes "loss")) /\
  tmain (argv ["sol_train"; "a"; "b"; "c"]) = Some (FStop 4) /\ tmain (argv ["sol_train"; "a"; "--algo="]) = Some (FStop 4).
Proof. repeat split. Qed.
Example C63_test_witness :
  test_main ex_float (argv ["sol_test"; "m"; "x.svm"; "--filter"; "f"; "out"]) = Some (inr (mktest (bytes "m") (Some (bytes "f")) (bytes "x.svm") (bytes "out") (bytes "svm") 256 2)) /\
  test_main ex_float (argv ["sol_test"; "m"]) = Some (inl 4).
Proof. repeat split. Qed.
Example C63_prepare_fails_witness :
  match tmain (argv ["sol_train"; "--params"; "eta=blue"; "x.svm"]) with Some (FPlan p) => prep p = Exits 4 | _ => False end /\
  match tmain (argv ["sol_train"; "--params"; "eta=1;power_t"; "x.svm"]) with Some (FPlan p) => t_settings p = [(bytes "eta", bytes "1")] /\ prep p = Exits 4 | _ => False end /\
  match tmain (argv ["sol_train"; "-a"; "svm"; "x.svm"]) with Some (FPlan p) => prep p = Exits 4 | _ => False end /\
  match tmain (argv ["sol_train"; "-c"; "1"; "x.svm"]) with Some (FPlan p) => prep p = Exits 4 | _ => False end.
Proof. vm_compute. auto 20. Qed.
Example C63_model_names_witness : model_of (bytes "Ada-FOBOS-L1") = Some TAdaFOBOS_L1 /\ model_of (bytes "svm") = None.
Proof. split; reflexivity. Qed.

(* ------------------------------------------------------------------ refutations *)
(** A number that does not fit its type ends sol_train by an exception, not with an error message. *)
Theorem C63_prepare_refuted : exists p, tmain (argv ["sol_train"; "--params"; "eta=1e999"; "x.svm"]) = Some (FPlan p) /\ prep p = Throws.
Proof. eexists. split; [vm_compute; reflexivity|]. vm_compute. reflexivity. Qed.
(** A free word that is a single - is dropped: sol_train - out.model (train on the standard input, write the model to
    out.model) is a program that reads its examples from out.model and writes none. *)
Theorem C63_dash_refuted : exists p, tmain (argv ["sol_train"; "-"; "out.model"]) = Some (FPlan p) /\ t_input p = bytes "out.model" /\ t_output p = [].
Proof. eexists. split; [vm_compute; reflexivity|]. split; reflexivity. Qed.
(** The values of --params are not what is written after the = sign: a blank cuts them off, and another = does not count. *)
Theorem C63_params_refuted :
  params_of (bytes "filter=my list.txt") = Some ([(bytes "filter", bytes "my")], true) /\ params_of (bytes "eta==1") = Some ([(bytes "eta", bytes "1")], true) /\
  params_of (bytes "filter=a=b") = Some ([], false) /\ params_of (bytes "filter=") = Some ([], false).
Proof. repeat split. Qed.
(** --dim has no effect. *)
Theorem C63_dim_refuted : forall d, tmain (argv ["sol_train"] ++ [bytes "--dim=" ++ d] ++ argv ["x.svm"]) = tmain (argv ["sol_train"; "x.svm"]).
Proof. intros d. vm_compute. reflexivity. Qed.

Print Assumptions C63_model_names.
Print Assumptions C63_prepare.
Print Assumptions C63_prepare_fails.
Print Assumptions C63_show.
Print Assumptions C63_show_refuted.
Print Assumptions C63_prepare_refuted.
Print Assumptions C63_dash_refuted.
Print Assumptions C63_params_refuted.
Print Assumptions C63_dim_refuted.
