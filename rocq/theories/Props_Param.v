(** C59: SetParameter checks and stores what it is told, and nothing else. *)
From Coq Require Import String Lia.
From Verif Require Import M_Base M_Text M_Str M_Num M_Expr M_Loss M_Online M_Filter M_Save M_Param S_Param P_Param P_Param2 P_Param3.
Local Open Scope string_scope.
Local Open Scope list_scope.
Local Open Scope Z_scope.

Section T.
Context {R : Type}.
Variable N : num R.
Variable stof : list Z -> parsed R.
Variable files : list Z -> option (list Z).
Notation cfg := (cfg (R:=R)).
Notation setp := (set_parameter N stof files).
Notation vld := (valid N stof files).

(** Whether a setting is accepted depends on the class, the number of classes, the name and the value
    only, not on what was set or trained before. *)
Theorem C59_accepts (k : cls) (classes : Z) (name : string) (value : list Z) (c : cfg) : 1 < classes ->
  (exists c', setp k classes name value c = Done c') <-> vld k classes name value.
Proof.
  intros Hc. split.
  - intros (c' & E). apply (done_facts N stof files _ _ _ _ _ _ Hc E).
  - apply (valid_done N stof files _ _ _ _ c Hc).
Qed.

(** An accepted setting stores the value in its member, and touches nothing else. *)
Theorem C59_effect (k : cls) (classes : Z) (name : string) (value : list Z) (c c' : cfg) : 1 < classes ->
  setp k classes name value c = Done c' -> frame k name c c' /\ news N stof files k classes name value c c'.
Proof. intros Hc E. apply (done_facts N stof files _ _ _ _ _ _ Hc E). Qed.

(** A rejected setting touches nothing but its own member; only reading a feature list can have
    undefined behaviour. *)
Theorem C59_rejected (k : cls) (classes : Z) (name : string) (value : list Z) (c : cfg) :
  match setp k classes name value c with
  | Done c' | Invalid c' | Range c' => frame k name c c'
  | Crash => name = "filter" /\ load_presel (files value) = SelUB
  end.
Proof. apply exec_frame. Qed.

(** A name the class does not know leaves the model as it is. *)
Theorem C59_unknown (k : cls) (classes : Z) (name : string) (value : list Z) (c : cfg) :
  (forall m, names name (real_names k m) = false) -> (forall m, names name (int_names k m) = false) -> ~ In name other_names ->
  setp k classes name value c = Invalid c.
Proof.
  intros H1 H2 H3. rewrite set_exec. unfold exec. destruct (slot_of k name) eqn:E; [..|reflexivity].
  - apply slot_real_inv in E. now rewrite H1 in E.
  - apply slot_int_inv in E. now rewrite H2 in E.
  - apply slot_t in E. subst name. specialize (H2 MInit). discriminate.
  - apply slot_o in E. contradiction.
Qed.

(** Two settings of different members can be made in either order. *)
Theorem C59_commute (k : cls) (classes : Z) (n1 n2 : string) (v1 v2 : list Z) (c a b ab ba : cfg) : 1 < classes ->
  clash k n1 n2 = false ->
  setp k classes n1 v1 c = Done a -> setp k classes n2 v2 a = Done ab ->
  setp k classes n2 v2 c = Done b -> setp k classes n1 v1 b = Done ba -> same ab ba.
Proof.
  intros Hc CL E1 E12 E2 E21.
  destruct (done_facts N stof files _ _ _ _ _ _ Hc E1) as (_ & F1 & W1), (done_facts N stof files _ _ _ _ _ _ Hc E2) as (_ & F2 & W2),
    (done_facts N stof files _ _ _ _ _ _ Hc E12) as (_ & F12 & W12), (done_facts N stof files _ _ _ _ _ _ Hc E21) as (_ & F21 & W21).
  now apply (two_same N stof files k classes n1 n2 v1 v2 c a b).
Qed.

(** The last accepted setting of a member counts, whatever else is set, rejected or trained. *)
Theorem C59_last (k : cls) (classes : Z) (pre post : list op) (name : string) (value : list Z) (c c' : cfg) (l : list reply) :
  1 < classes -> vld k classes name value ->
  steps N stof files k classes (pre ++ OSet name value :: post) c = Some (l, c') ->
  (forall m, sets_r k name m = true -> m <> MBinv -> m <> Msp1 ->
     (forall n v, In (OSet n v) post -> sets_r k n m = false) -> Some (f_r c' m) = to_real stof value) /\
  (forall m, sets_z k name m = true ->
     (forall n v, In (OSet n v) post -> sets_z k n m = false) ->
     Some (f_z c' m) = option_map (fun v => match m with MB => u32 v | _ => v end) (to_int value)).
Proof.
  intros Hc V E. split.
  - intros m S1 M1 M2 H. apply (last_r N stof files _ _ m _ _ _ _ _ _ _ Hc V E); auto.
    apply Bool.not_true_is_false. rewrite existsb_exists. intros ([n v|] & Hin & Ht); cbn in Ht; [|discriminate]. now rewrite (H _ _ Hin) in Ht.
  - intros m S1 H. apply (last_z N stof files _ _ m _ _ _ _ _ _ _ Hc V E); auto.
    apply Bool.not_true_is_false. rewrite existsb_exists. intros ([n v|] & Hin & Ht); cbn in Ht; [|discriminate]. now rewrite (H _ _ Hin) in Ht.
Qed.

(** As long as the losses asked for exist and suit the class, any program of settings, accepted or not,
    and trainings runs, and training starts; it may decline when a cost margin was asked for. *)
Theorem C59_usable (k : cls) (classes : Z) (os : list op) : 1 < classes ->
  (forall value, In (OSet "loss" value) os -> exists l, value = loss_name l /\ suits k classes l = true) ->
  (forall value, In (OSet "filter" value) os -> load_presel (files value) <> SelUB) ->
  exists l r c', steps N stof files k classes (os ++ [OTrain]) (create N k classes) = Some (l ++ [r], c') /\
    (r = ROk \/ r = RInvalid /\ exists v, In (OSet "cost_margin" v) os).
Proof.
  intros Hc Hl Hf.
  assert (Hs : Forall (sane N stof files k classes) os).
  { apply Forall_forall. intros [n v|] Hin; [|exact I]. split; intros ->; [|now apply Hf].
    destruct (Hl _ Hin) as (l & -> & Hs). now apply V_loss. }
  destruct (usable_run N stof files k classes os Hc Hs _ (usable_create N k classes Hc)) as (l & c1 & E & U & Hcost).
  destruct (usable_train N stof files k classes c1 U) as (r & c2 & E2 & _ & Hr).
  exists l, r, c2. split.
  - rewrite steps_app, E. cbn [steps]. rewrite E2. reflexivity.
  - destruct Hr as [->|(-> & Hy)]; [now left|]. right. split; [reflexivity|]. destruct (Hcost Hy) as [H|H]; [discriminate|exact H].
Qed.

(** Once trained, a model that does not start over works with values computed from its present settings. *)
Theorem C59_fresh (k : cls) (classes : Z) (os : list op) (l : list reply) (c' : cfg) : 1 < classes -> k <> TFOFS ->
  (forall name value, In (OSet name value) os -> vld k classes name value) ->
  steps N stof files k classes os (create N k classes) = Some (l, c') ->
  f_reinit c' = false -> f_cap c' = captured N k c'.
Proof.
  intros Hc Hk H E. refine (fresh_run N stof files k classes os Hc Hk _ _ _ _ _ (fresh_create N k classes) E).
  - apply Forall_forall. intros [n v|] Hin; [now apply H|exact I].
  - intros _. reflexivity.
Qed.

(** Accepted settings keep every member at its default or in its range. *)
Theorem C59_ranges (k : cls) (classes : Z) (os : list op) (l : list reply) (c' : cfg) (m : rmem) : 1 < classes ->
  (forall name value, In (OSet name value) os -> vld k classes name value) ->
  steps N stof files k classes os (create N k classes) = Some (l, c') -> m <> MBinv -> m <> Msp1 -> m <> Mt0 ->
  f_r c' m = f_r (create N k classes) m \/ real_ok N m (f_r c' m).
Proof.
  intros Hc H E M1 M2 M3. refine (range_run N stof files k classes os Hc _ _ _ _ m M1 M2 M3 E).
  apply Forall_forall. intros [n v|] Hin; [now apply H|exact I].
Qed.
End T.

(* ------------------------------------------------------------------ examples *)
(** std::stof on the strings used here: "1e3", "1e999" and integers. *)
Definition ex_stof (v : list Z) : parsed f32 :=
  if str_eqb v (bytes "1e3") then Parsed (n_int f32num 1000)
  else if str_eqb v (bytes "1e999") then Thrown
  else match stoi v with Parsed x => Parsed (n_int f32num (fst x)) | Rejected => Rejected | Thrown => Thrown end.
(** One feature list with the features 1 and 3. *)
Definition ex_files (v : list Z) : option (list Z) :=
  if str_eqb v (bytes "list.txt") then Some (bytes "1" ++ [10] ++ bytes "3" ++ [10]) else None.
Definition S1 (n v : string) : op := OSet n (bytes v).
Notation go k := (steps f32num ex_stof ex_files k 2).
Notation new k := (create f32num k 2).

Example C59_accepts_witness :
  valid f32num ex_stof ex_files TALMA2 2 "alpha" (bytes "1") /\ ~ valid f32num ex_stof ex_files TALMA2 2 "alpha" (bytes "2") /\
  ~ valid f32num ex_stof ex_files TAROW 3 "cost_margin" (bytes "1") /\ valid f32num ex_stof ex_files TFOBOS_L1 3 "t" (bytes "7").
Proof.
  repeat split.
  - apply (V_real f32num ex_stof ex_files TALMA2 2 Malpha (n_int f32num 1)); [reflexivity|reflexivity|split; vm_compute; reflexivity|discriminate].
  - intros V. destruct (proj2 (C59_accepts f32num ex_stof ex_files TALMA2 2 "alpha" (bytes "2") (new TALMA2) ltac:(lia)) V) as (c & E). vm_compute in E. discriminate.
  - intros V. destruct (proj2 (C59_accepts f32num ex_stof ex_files TAROW 3 "cost_margin" (bytes "1") (new TAROW) ltac:(lia)) V) as (c & E). vm_compute in E. discriminate.
  - apply (V_int f32num ex_stof ex_files TFOBOS_L1 3 MInit 7); [reflexivity|reflexivity|vm_compute; discriminate|vm_compute; discriminate].
Qed.
Example C59_effect_witness :
  match set_parameter f32num ex_stof ex_files TAdaRDA 3 "delta" (bytes "5") (create f32num TAdaRDA 3) with
  | Done c => f_r c Mdelta = n_int f32num 5 /\ f_conf c = [[n_int f32num 5]; [n_int f32num 5]; [n_int f32num 5]]
  | _ => False
  end.
Proof. vm_compute. auto. Qed.
Example C59_rejected_witness :
  match set_parameter f32num ex_stof ex_files TOGD 2 "eta" (bytes "blue") (new TOGD) with
  | Invalid c => f_r c MEta0 = n_int f32num 1
  | _ => False
  end.
Proof. vm_compute. auto. Qed.
Example C59_unknown_witness :
  (forall m, names "phi" (real_names TAROW m) = false) /\ (forall m, names "phi" (int_names TAROW m) = false) /\ ~ In "phi" other_names.
Proof. repeat split; [intros m; destruct m; reflexivity..|]. cbn. intuition discriminate. Qed.
Example C59_commute_witness : clash TCW "dim" "a" = false /\
  match go TCW [S1 "dim" "3"; S1 "a" "7"] (new TCW), go TCW [S1 "a" "7"; S1 "dim" "3"] (new TCW) with
  | Some (l1, c1), Some (l2, c2) => l1 = [ROk; ROk] /\ l2 = [ROk; ROk] /\ f_conf c1 = [repeat (n_int f32num 7) 3] /\ f_conf c2 = f_conf c1
  | _, _ => False
  end.
Proof. vm_compute. auto. Qed.
Example C59_last_witness :
  match go TCW [S1 "phi" "3"; OTrain; S1 "phi" "4"; S1 "bias_eta" "x"; OTrain] (new TCW) with
  | Some (l, c) => l = [ROk; ROk; ROk; RInvalid; ROk] /\ f_r c Mphi = n_int f32num 4
  | _ => False
  end.
Proof. vm_compute. auto. Qed.
Example C59_usable_witness :
  match go TCW [S1 "loss" "hinge"; OTrain; S1 "cost_margin" "-3"; S1 "filter" "list.txt"; S1 "norm" "1e999"; OTrain] (new TCW) with
  | Some (l, c) => l = [ROk; ROk; RInvalid; ROk; RInvalid; ROk] /\ hinge_valid c = true
  | _ => False
  end /\
  match go TOGD [S1 "cost_margin" "3"; S1 "loss" "logistic"; OTrain] (new TOGD) with
  | Some (l, c) => l = [ROk; ROk; RInvalid]
  | _ => False
  end.
Proof. vm_compute. auto. Qed.
Example C59_fresh_witness :
  match go TALMA2 [S1 "alpha" "1"; OTrain; S1 "k" "4"; OTrain; S1 "C" "9"] (new TALMA2) with
  | Some (l, c) => f_reinit c = false /\ length (f_cap c) = 1%nat
  | _ => False
  end.
Proof. vm_compute. auto. Qed.
Example C59_ranges_witness :
  match go TRDA [S1 "sigma" "3"; S1 "bias_eta" "2"; OTrain] (new TRDA) with
  | Some (l, c) => l = [ROk; ROk; ROk] /\ f_r c Msigma = n_int f32num 3
  | _ => False
  end.
Proof. vm_compute. auto. Qed.

(* ------------------------------------------------------------------ what does not hold *)
(** A rejected value stays: SetParameter stores before it checks. *)
Theorem C59_unchanged_refuted :
  exists c', set_parameter f32num ex_stof ex_files TOGD 2 "eta" (bytes "-1") (new TOGD) = Invalid c' /\
    f_r (new TOGD) MEta0 = n_int f32num 1 /\ f_r c' MEta0 = n_int f32num (-1).
Proof. eexists. split; [reflexivity|]. vm_compute. auto. Qed.
(** ... and may be one the class cannot work with. *)
Theorem C59_norm_refuted :
  exists c', set_parameter f32num ex_stof ex_files TALMA2 2 "norm" (bytes "L1") (new TALMA2) = Invalid c' /\ f_norm c' = NormL1.
Proof. eexists. split; [reflexivity|]. reflexivity. Qed.
(** A rejected feature list takes away the one that was loaded; a rejected displayer the old one. *)
Theorem C59_dropped_refuted :
  exists l c c', go TPA [S1 "filter" "list.txt"] (new TPA) = Some ([ROk], c) /\ f_filter c = Some [false; true; false; true] /\
    go TPA [S1 "filter" "nofile"; S1 "exp_show" "x"] c = Some (l, c') /\ l = [RInvalid; RInvalid] /\ f_filter c' = None /\ f_show c' = None.
Proof. eexists _, _, _. split; [reflexivity|]. split; [vm_compute; reflexivity|]. split; [reflexivity|]. vm_compute. auto. Qed.
(** After a rejected loss the second pointer of CW, ECCW and ALMA2 dangles and training uses it. *)
Theorem C59_dangling_refuted : exists c',
  go TCW [S1 "loss" "logistic"] (new TCW) = Some ([RInvalid], c') /\ go TCW [OTrain] c' = None /\
  go TECCW [S1 "loss" "logistic"; OTrain] (new TECCW) = None /\ go TALMA2 [S1 "loss" "bool"; OTrain] (new TALMA2) = None.
Proof. eexists. split; [reflexivity|]. vm_compute. auto. Qed.
(** After an unknown loss there is none: training leaves by an exception, or dereferences the null pointer
    if the model was trained before. *)
Theorem C59_noloss_refuted :
  (exists c', go TOGD [S1 "loss" "nope"; OTrain] (new TOGD) = Some ([RInvalid; REscapes], c')) /\
  go TOGD [OTrain; S1 "loss" "nope"; OTrain] (new TOGD) = None.
Proof. split; [eexists; reflexivity|]. vm_compute. auto. Qed.
(** The two readings of "t" differ. *)
Theorem C59_time_refuted :
  exists c', go TFOBOS_L1 [S1 "t" "1e3"] (new TFOBOS_L1) = Some ([ROk], c') /\ f_z c' MIter = 1 /\ f_r c' Mt0 = n_int f32num 1000.
Proof. eexists. split; [reflexivity|]. vm_compute. auto. Qed.
(** A number out of range is not turned into a status; "t" has then already changed. *)
Theorem C59_escapes_refuted :
  exists c', go TFOBOS_L1 [S1 "t" "1e999"; S1 "bias_eta" "1e999"] (new TFOBOS_L1) = Some ([REscapes; REscapes], c') /\ f_z c' MIter = 1.
Proof. eexists. split; [reflexivity|]. vm_compute. auto. Qed.
(** FOFS takes -1 features for 2^32-1. *)
Theorem C59_negative_refuted : exists c', go TFOFS [S1 "B" "-1"] (new TFOFS) = Some ([ROk], c') /\ f_z c' MB = 4294967295.
Proof. eexists. split; [reflexivity|]. vm_compute. auto. Qed.
(** FOFS goes on with the radius of its old lambda. *)
Theorem C59_stale_fofs_refuted : exists c',
  go TFOFS [S1 "lambda" "4"; OTrain; S1 "lambda" "1"; OTrain] (new TFOFS) = Some ([ROk; ROk; ROk; ROk], c') /\ f_reinit c' = false /\
  f_r c' MFlam = n_int f32num 1 /\ f_cap c' = captured f32num TFOFS (upd_r c' MFlam (n_int f32num 4)) /\ f_cap c' <> captured f32num TFOFS c'.
Proof. eexists. split; [reflexivity|]. vm_compute. repeat split; discriminate. Qed.
(** ... and ALMA2 uses a rejected alpha in its updates but not in its margin. *)
Theorem C59_stale_alma_refuted : exists c',
  go TALMA2 [OTrain; S1 "alpha" "2"; OTrain] (new TALMA2) = Some ([ROk; RInvalid; ROk], c') /\ f_reinit c' = false /\
  f_r c' Malpha = n_int f32num 2 /\ f_cap c' <> captured f32num TALMA2 c'.
Proof. eexists. split; [reflexivity|]. vm_compute. repeat split; discriminate. Qed.

Print Assumptions C59_accepts.
Print Assumptions C59_effect.
Print Assumptions C59_rejected.
Print Assumptions C59_unknown.
Print Assumptions C59_commute.
Print Assumptions C59_last.
Print Assumptions C59_usable.
Print Assumptions C59_fresh.
Print Assumptions C59_ranges.
Print Assumptions C59_unchanged_refuted.
Print Assumptions C59_norm_refuted.
Print Assumptions C59_dropped_refuted.
Print Assumptions C59_dangling_refuted.
Print Assumptions C59_noloss_refuted.
Print Assumptions C59_time_refuted.
Print Assumptions C59_escapes_refuted.
Print Assumptions C59_negative_refuted.
Print Assumptions C59_stale_fofs_refuted.
Print Assumptions C59_stale_alma_refuted.
