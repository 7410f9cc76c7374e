(** C64: sol_GetModelParameters tells the settings, and setting them again gives the same model. *)
From Coq Require Import String Lia.
From Verif Require Import M_Base M_Text M_Str P_Str M_Num M_Expr M_Loss M_Online M_Filter M_Save M_Param S_Param P_Param P_Param2 P_Param3 Props_Param M_Info S_Info P_Info P_Info2 P_Info3 P_Info4.
Local Open Scope string_scope.
Local Open Scope list_scope.
Local Open Scope Z_scope.

Section T.
Context {R : Type}.
Variable N : num R.
Variable stof : list Z -> parsed R.
Variable files : list Z -> option (list Z).
Variable show : R -> list Z.
Notation cfg := (cfg (R:=R)).
Notation setp := (set_parameter N stof files).
Notation vld := (valid N stof files).
Notation params := (get_parameters show N).
Notation run := (steps N stof files).

(** The callback is told every setting once, under its name, with the text of its value. *)
Theorem C64_report (k : cls) (classes : Z) (c : cfg) : (forall n z, reports N k classes c n (LInt z) -> - 2 ^ 63 <= z < 2 ^ 63) ->
  exists l, params k classes c = Some l /\ NoDup (map fst l) /\
    forall n t, In (n, t) l <-> exists v, reports N k classes c n v /\ writes show v t.
Proof. apply report_spec. Qed.
(** ... which is one value. *)
Theorem C64_unique (k : cls) (classes : Z) (c : cfg) n v v' : reports N k classes c n v -> reports N k classes c n v' -> v = v'.
Proof. apply report_fun. Qed.

(** After an accepted setting its name is reported with the value the text stands for, unless it is one of those that are never
    reported; the reports under other names are as before, except that a budget is reported as lambda. *)
Theorem C64_echo (k : cls) (classes : Z) (name : string) (value : list Z) (c c' : cfg) : 1 < classes -> setp k classes name value c = Done c' ->
  (forall w, reports N k classes c' name w -> echoed stof (f_dim c) value name w) /\
  ((exists w, reports N k classes c' name w) \/ silent N stof k name value) /\
  (forall n w, n <> name -> ~ (has_reg k RegPlain = true /\ name = "B" /\ n = "lambda") ->
     (reports N k classes c' n w <-> reports N k classes c n w)).
Proof.
  intros Hc E. split; [intros w; now apply (echo_own N stof files)|]. split; [now apply (echo_there N stof files k classes name value c c')|].
  destruct (C59_effect N stof files _ _ _ _ _ _ Hc E) as (F & _). intros n w H1 H2. split; apply reports_keep with name; auto. now apply frame_sym.
Qed.

(** Setting everything that is reported, in the order of the report, on a new model of the class: every setting is accepted and the
    model has the same settings and reports the same. *)
Theorem C64_restore (k : cls) (classes : Z) (c : cfg) : 1 < classes < 2 ^ 31 -> n_le N (one N) (zero N) = false -> proper N stof show k classes c ->
  exists l c2, params k classes c = Some l /\
    run k classes (map (fun x => OSet (fst x) (snd x)) l) (create N k classes) = Some (repeat ROk (List.length l), c2) /\
    restored N k classes c c2 /\ params k classes c2 = Some l.
Proof.
  intros Hc Hz P. destruct (report_spec N show k classes c (proper_fits N stof show k classes c Hc P)) as (l & El & ND & IN).
  destruct (chain_total N stof files k classes l ltac:(lia)) with (c := create N k classes) as (c2 & C).
  { intros n t H. apply IN in H. destruct H as (v & H & W). now apply (reported_valid N stof files show k classes c n v t). }
  exists l, c2. split; [exact El|]. split; [now apply chain_steps|]. pose proof (restore N stof files show k classes c l c2 Hc P ND IN C) as RS.
  split; [exact RS|]. unfold get_parameters. now rewrite (restored_info N k classes c c2 Hz RS).
Qed.

(** All that accepted settings and starts of training lead to is restored, as long as the dimension and a number of features to
    keep are below 2^31, this number has been set if there is one, and the floats survive printing. *)
Theorem C64_reachable (k : cls) (classes : Z) (os : list op) (r : list reply) (c : cfg) : 1 < classes < 2 ^ 31 -> n_le N (one N) (zero N) = false ->
  (forall m, m <> MActive -> m <> MCost -> real_names k m <> [] -> real_ok N m (f_r (create N k classes) m)) ->
  (forall z t, 0 <= z < 2 ^ 31 -> print_d z = Some t -> to_real stof t <> None) ->
  (forall name value, In (OSet name value) os -> vld k classes name value) ->
  run k classes os (create N k classes) = Some (r, c) ->
  f_dim c < 2 ^ 31 -> (k = TFOFS -> 0 < f_z c MB < 2 ^ 31) ->
  (forall m n, shown N k c m = Some n -> stof (show (f_r c m)) = Parsed (f_r c m)) ->
  exists l c2, params k classes c = Some l /\
    run k classes (map (fun x => OSet (fst x) (snd x)) l) (create N k classes) = Some (repeat ROk (List.length l), c2) /\
    restored N k classes c c2 /\ params k classes c2 = Some l.
Proof.
  intros Hc Hz Hd Ht Hv E H1 H2 H3. apply C64_restore; [exact Hc|exact Hz|].
  now apply (reachable N stof files show k classes os r c ltac:(lia) Hz Hd Ht Hv E H1 H2 H3).
Qed.
End T.

(* ------------------------------------------------------------------ examples *)
(** Texts of the floats used here ("%g" and back). *)
Definition table : list (string * f32) :=
  map (fun d => (d, n_int f32num (match d with "0" => 0 | "1" => 1 | "2" => 2 | "3" => 3 | "4" => 4 | "5" => 5 | "7" => 7 | _ => 10 end)))
    ["0"; "1"; "2"; "3"; "4"; "5"; "7"; "10"] ++
  [("0.5", n_lit f32num 5 (-1)); ("0.9", n_lit f32num 9 (-1)); ("0.5244", n_lit f32num 5244 (-4)); ("1e-06", n_lit f32num 1 (-6)); ("1.41421", n_lit f32num 141421 (-5)); ("nan", SpecFloat.S754_nan);
   ("inf", SpecFloat.S754_infinity false)].
Definition info_stof (v : list Z) : parsed f32 :=
  match find (fun x => str_eqb (bytes (fst x)) v) table with
  | Some x => Parsed (snd x)
  | None => if str_eqb v (bytes "1e+9999") then Thrown else match stoi v with Parsed x => Parsed (n_int f32num (fst x)) | Rejected => Rejected | Thrown => Thrown end
  end.
Definition info_show (x : f32) : list Z :=
  match x with
  | SpecFloat.S754_nan => bytes "null"
  | SpecFloat.S754_infinity false => bytes "1e+9999"
  | SpecFloat.S754_infinity true => bytes "-1e+9999"
  | _ => match find (fun y => n_le f32num x (snd y) && n_le f32num (snd y) x) table with
         | Some y => bytes (fst y)
         | None => bytes "1.41421"
         end
  end.
Notation goi k := (steps f32num info_stof ex_files k 2).
Notation told k := (get_parameters info_show f32num k 2).
Notation again l := (map (fun x : string * list Z => OSet (fst x) (snd x)) l).

Example C64_report_witness :
  match goi TAROW [S1 "r" "3"; S1 "dim" "4"; S1 "cost_margin" "2"] (new TAROW) with
  | Some (_, c) =>
    told TAROW c = Some [("clf_num", bytes "1"); ("cls_num", bytes "2"); ("loss", bytes "hinge"); ("model", bytes "arow"); ("norm", bytes "0");
      ("bias_eta", bytes "0"); ("cost_margin", bytes "2"); ("dim", bytes "4"); ("lazy_update", bytes "false"); ("r", bytes "3"); ("t", bytes "0")]
  | None => False
  end.
Proof. vm_compute. reflexivity. Qed.
Example C64_unique_witness : reports f32num TAROW 2 (new TAROW) "r" (LReal (n_int f32num 1)) /\ ~ reports f32num TAROW 2 (new TAROW) "r" (LReal (n_int f32num 2)).
Proof.
  split; [apply (R_real f32num TAROW 2 (new TAROW) Mr "r"); reflexivity|]. intros H.
  pose proof (C64_unique f32num TAROW 2 (new TAROW) "r" _ _ (R_real f32num TAROW 2 (new TAROW) Mr "r" eq_refl) H) as E. vm_compute in E. discriminate.
Qed.
Example C64_echo_witness :
  (exists c', set_parameter f32num info_stof ex_files TPET 2 "B" (bytes "7") (new TPET) = Done c' /\ told TPET (new TPET) <> told TPET c' /\
     reports f32num TPET 2 c' "lambda" (LReal (n_int f32num 7)) /\ silent f32num info_stof TPET "B" (bytes "7")) /\
  (exists c', set_parameter f32num info_stof ex_files TFOFS 2 "B" (bytes "-1") (new TFOFS) = Done c' /\
     reports f32num TFOFS 2 c' "B" (LInt 4294967295) /\ echoed info_stof 1 (bytes "-1") "B" (LInt 4294967295)).
Proof.
  split.
  - eexists. split; [vm_compute; reflexivity|]. split; [vm_compute; discriminate|]. split; [|right; now left].
    refine (R_real f32num TPET 2 _ Mlambda "lambda" _). reflexivity.
  - eexists. split; [vm_compute; reflexivity|]. split; [refine (R_int f32num TFOFS 2 _ MB "B" _ _); [now left|discriminate]|].
    apply (E_B info_stof 1 (bytes "-1") (-1)). reflexivity.
Qed.
(** A cost-sensitive ALMA2 with its settings changed, trained, reported and set up again. *)
Definition ex_os : list op := [S1 "C" "3"; S1 "cost_margin" "2"; S1 "k" "4"; S1 "t" "7"; S1 "dim" "3"; OTrain; S1 "p" "5"; S1 "alpha" "0.5"; S1 "norm" "L2"].
Example C64_reachable_witness : exists r c,
  n_le f32num (one f32num) (zero f32num) = false /\
  (forall m, m <> MActive -> m <> MCost -> real_names TALMA2 m <> [] -> real_ok f32num m (f_r (new TALMA2) m)) /\
  (forall z t, 0 <= z < 2 ^ 31 -> print_d z = Some t -> to_real info_stof t <> None) /\
  (forall name value, In (OSet name value) ex_os -> valid f32num info_stof ex_files TALMA2 2 name value) /\
  goi TALMA2 ex_os (new TALMA2) = Some (r, c) /\ f_dim c < 2 ^ 31 /\
  (forall m n, shown f32num TALMA2 c m = Some n -> info_stof (info_show (f_r c m)) = Parsed (f_r c m)).
Proof.
  eexists _, _. split; [reflexivity|]. split.
  { intros m H1 H2 H3. destruct m; try congruence; try exact I; try (now destruct H3); vm_compute; auto. }
  split.
  { intros z t Hz Ht. unfold to_real, info_stof. destruct (find _ table); [discriminate|]. pose proof (to_int_print z t ltac:(lia) Ht) as E. unfold to_int in E.
    destruct (str_eqb t (bytes "1e+9999")) eqn:Es.
    - apply str_eqb_eq in Es. subst t. vm_compute in E. injection E as <-. vm_compute in Ht. discriminate.
    - destruct (stoi t); discriminate. }
  split.
  { intros name value H. refine (proj1 (C59_accepts f32num info_stof ex_files TALMA2 2 name value (new TALMA2) _) _); [lia|].
    unfold ex_os, S1 in H. cbn [In] in H. repeat (destruct H as [H|H]; [try discriminate H; injection H as <- <-; eexists; vm_compute; reflexivity|]). destruct H. }
  split; [vm_compute; reflexivity|]. split; [reflexivity|].
  intros m n. destruct m; cbn [shown f_r f_cost]; intros E; try discriminate E; vm_compute; reflexivity.
Qed.
Example C64_restore_witness :
  match goi TALMA2 ex_os (new TALMA2) with
  | Some (_, c) =>
    match told TALMA2 c with
    | Some l =>
      match goi TALMA2 (again l) (new TALMA2) with
      | Some (r, c2) => r = repeat ROk 14 /\ told TALMA2 c2 = Some l /\ f_r c2 MBinv = f_r c MBinv /\ f_z c2 Mp = 5 /\ f_cost c2 = true
      | None => False
      end
    | None => False
    end
  | None => False
  end.
Proof. vm_compute. auto 20. Qed.

(* ------------------------------------------------------------------ what does not hold *)
(** Settings made through SetParameter that the report does not tell: the threshold of the sparse models, feature lists,
    displayers, a smoothness below 1. *)
Theorem C64_lost_refuted :
  (exists c l c2, goi TRDA_L1 [S1 "sparse_thresh" "5"; S1 "filter" "list.txt"; S1 "step_show" "7"; S1 "active_smoothness" "0.5"] (new TRDA_L1) = Some ([ROk; ROk; ROk; ROk], c) /\
     told TRDA_L1 c = Some l /\ told TRDA_L1 (new TRDA_L1) = Some l /\ goi TRDA_L1 (again l) (new TRDA_L1) = Some (repeat ROk 11, c2) /\
     f_r c2 Mthresh <> f_r c Mthresh /\ f_filter c2 <> f_filter c /\ f_show c2 <> f_show c /\ f_r c2 MActive <> f_r c MActive).
Proof.
  eexists _, _, _. split; [vm_compute; reflexivity|]. split; [vm_compute; reflexivity|]. split; [vm_compute; reflexivity|].
  split; [vm_compute; reflexivity|]. vm_compute. repeat split; discriminate.
Qed.
(** A new FOFS model reports a number of features that it does not accept. *)
Theorem C64_fofs_refuted : exists l c2, told TFOFS (new TFOFS) = Some l /\ In ("B", bytes "0") l /\
  goi TFOFS (again l) (new TFOFS) = Some (repeat ROk 5 ++ [RInvalid] ++ repeat ROk 6, c2).
Proof. eexists _, _. split; [vm_compute; reflexivity|]. split; [cbn [In]; repeat (first [left; reflexivity|right])|]. vm_compute. reflexivity. Qed.
(** Six digits are not enough: the C of a new ALMA2, the square root of 2, comes back as 1.41421. *)
Theorem C64_digits_refuted : exists l c2, told TALMA2 (new TALMA2) = Some l /\ In ("C", bytes "1.41421") l /\
  goi TALMA2 (again l) (new TALMA2) = Some (repeat ROk 13, c2) /\ n_lt f32num (f_r c2 MC) (f_r (new TALMA2) MC) = true.
Proof. eexists _, _. split; [vm_compute; reflexivity|]. split; [cbn [In]; repeat (first [left; reflexivity|right])|]. split; [vm_compute; reflexivity|]. vm_compute. reflexivity. Qed.
(** A dimension of 2^31 or more is reported but not read: std::out_of_range leaves the call. *)
Theorem C64_dim_refuted : exists (c : cfg (R:=f32)) t,
  reports f32num TPA 2 c "dim" (LInt (2 ^ 31)) /\ writes info_show (LInt (2 ^ 31)) t /\
  step f32num info_stof ex_files TPA 2 (OSet "dim" t) (new TPA) = Some (REscapes, new TPA).
Proof.
  exists (upd_dims (new TPA) (2 ^ 31) [] []), (bytes "2147483648"). split; [exact (R_dim f32num TPA 2 (upd_dims (new TPA) (2 ^ 31) [] []))|].
  split; [vm_compute; reflexivity|]. vm_compute. reflexivity.
Qed.
(** What is not a finite number is accepted for a parameter, but its text is not. *)
Theorem C64_nonfinite_refuted :
  (exists c l c2, goi TPET [S1 "lambda" "nan"] (new TPET) = Some ([ROk], c) /\ told TPET c = Some l /\ In ("lambda", bytes "null") l /\
     goi TPET (again l) (new TPET) = Some (repeat ROk 11 ++ [RInvalid], c2)) /\
  (exists c l c2, goi TPET [S1 "lambda" "inf"] (new TPET) = Some ([ROk], c) /\ told TPET c = Some l /\ In ("lambda", bytes "1e+9999") l /\
     goi TPET (again l) (new TPET) = Some (repeat ROk 11 ++ [REscapes], c2)).
Proof.
  split; eexists _, _, _; (split; [vm_compute; reflexivity|split; [vm_compute; reflexivity|split; [cbn [In]; repeat (first [left; reflexivity|right])|]]]); vm_compute; reflexivity.
Qed.

Print Assumptions C64_report.
Print Assumptions C64_unique.
Print Assumptions C64_echo.
Print Assumptions C64_restore.
Print Assumptions C64_reachable.
Print Assumptions C64_lost_refuted.
Print Assumptions C64_fofs_refuted.
Print Assumptions C64_digits_refuted.
Print Assumptions C64_dim_refuted.
Print Assumptions C64_nonfinite_refuted.
