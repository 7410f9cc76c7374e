(** Property C48: saving and loading models. *)
From Coq Require Import Reals SpecFloat String.
From Flocq Require Import Core BinarySingleNaN.
From Verif Require Import M_Base M_Num M_Expr M_Loss M_Online M_Olm M_OlmSel M_Heap M_Algs M_Text S_Text M_Str S_Online
  P_Online M_Save S_Save P_Save P_Save4 M_SaveF32 P_F32 P_SaveF32 Props_Online.
Local Open Scope string_scope.
Local Open Scope list_scope.
Local Open Scope Z_scope.

(** For the examples: a document that is written as one line and read back as it was. *)
Definition jw (_ : info) : list Z := bytes "{}" ++ [10].
Definition jp (d : info) (s : list Z) : option info := if str_eqb s (bytes "{}model parameters:") then Some d else None.
Lemma j_ok d : json_ok jw (jp d) d.
Proof.
  exists [bytes "{}"], d. split; [reflexivity|]. split; [repeat constructor; cbn; intuition discriminate|]. split; [reflexivity|].
  repeat split; [destruct (i_lambda d)|intros name; destruct (member name (i_online d))]; cbn; auto; now left.
Qed.
Definition written p nk k c e := save f32num f32_print jw p nk k c e.
Definition read_as p nk k c e (text : list Z) :=
  load f32num f32_strtof (jp (get_info f32num f32_print p nk k c e)) 20 text.

(** ** C48 *)
(** Every model that can be saved, written to a file and loaded again: kind, normalisation, dimension,
    number of classes, iteration number and settings are restored (except those named in
    [reloaded_core], [reset_thresh], [restored_rest]), and every weight and every other vector has the
    value its decimal text stands for. *)
Theorem C48_reload : forall (R : Type) (N : num R) pr strtof json_write json_parse p nk k c e ws' xs' fuel,
  savable N pr strtof p nk k c e -> json_ok json_write json_parse (get_info N pr p nk k c e) ->
  Forall2 (Forall2 (reads_back pr strtof)) (c_ws c) ws' ->
  Forall2 (Forall2 (reads_back pr strtof)) (extras k e) xs' ->
  (length (json_write (get_info N pr p nk k c e)) < fuel)%nat ->
  exists text e', save N pr json_write p nk k c e = Some text /\
    load N strtof json_parse fuel text =
      Some (Loaded (mkmodel (reset_thresh N k) nk (reloaded_core N k c ws') e')) /\
    extras (reset_thresh N k) e' = xs' /\ restored_rest N k (c_iter c) e e' /\
    extras_shape (reset_thresh N k) e' (length (c_ws c)) (c_dim c).
Proof. intros. now apply reload. Qed.

(** Therefore labels and scores of the loaded model are those of the saved model whenever the weights
    print exactly, for every example; and testing the loaded model gives the labels, scores and number
    of errors of testing the saved one, if that had finished training. *)
Theorem C48_predictions : forall (R : Type) (N : num R) pr strtof json_write json_parse p nk k c e fuel,
  savable N pr strtof p nk k c e -> json_ok json_write json_parse (get_info N pr p nk k c e) ->
  Forall (Forall (exact pr strtof)) (c_ws c) -> Forall (Forall (exact pr strtof)) (extras k e) ->
  (length (json_write (get_info N pr p nk k c e)) < fuel)%nat ->
  exists text m, save N pr json_write p nk k c e = Some text /\ load N strtof json_parse fuel text = Some (Loaded m) /\
    c_ws (m_core m) = c_ws c /\
    (forall x, predict N (m_core m) x = predict N c x) /\
    (c_updated c = false -> forall pre data,
       option_map (fun '(rows, err, _, _) => (rows, err)) (test N (alg_of N (m_kind m)) pre data (m_core m) (m_state m)) =
       option_map (fun '(rows, err, _, _) => (rows, err)) (test N (alg_of N k) pre data c e)).
Proof.
  intros R N pr strtof jwr jpa p nk k c e fuel Sv J Hw Hx Hf.
  assert (D : forall vs : list (list R), Forall (Forall (exact pr strtof)) vs -> Forall2 (Forall2 (reads_back pr strtof)) vs vs).
  { induction 1 as [|v r Hv _ IH]; constructor; [|exact IH]. clear -Hv. induction Hv; constructor; auto. }
  destruct (reload N pr strtof jwr jpa p nk k c e (c_ws c) (extras k e) fuel Sv J (D _ Hw) (D _ Hx) Hf) as (text & e' & S & L & _ & _).
  exists text. eexists. split; [exact S|]. split; [exact L|]. cbn [m_core m_kind m_state].
  assert (P : forall x, predict N (reloaded_core N k c (c_ws c)) x = predict N c x) by reflexivity.
  split; [reflexivity|]. split; [exact P|]. intros U pre data. unfold test. rewrite U.
  change (c_updated (reloaded_core N k c (c_ws c))) with false. cbn [bind].
  assert (Q : mapM (test_point N pre (reloaded_core N k c (c_ws c))) data = mapM (test_point N pre c) data).
  { induction data as [|x r IH]; [reflexivity|]. cbn [mapM]. rewrite IH. reflexivity. }
  rewrite Q. destruct (mapM (test_point N pre c) data); reflexivity.
Qed.

(** In single precision every finite number survives within six parts in a million (or one subnormal
    step); it survives unchanged if it is the nearest float to a decimal of at most six digits. *)
Theorem C48_precision : forall b : b32, is_finite b = true ->
  exists b' : b32, reads_back f32_print f32_strtof (B2SF b) (B2SF b') /\ is_finite b' = true /\
    (Rabs (B2R b' - B2R b) <= 6 / 1000000 * Rabs (B2R b) + bpow radix2 (-149))%R /\
    (six_digits (B2R b) -> b <> B754_zero true -> b' = b).
Proof. exact f32_reads_back. Qed.
(** The sixth digit is rounded to the nearest, ties to even, as printf does. *)
Theorem C48_rounding : forall n d, 0 < d -> forall z, Z.abs (rne n d * d - n) <= Z.abs (z * d - n) /\
  (z <> rne n d -> Z.abs (rne n d * d - n) = Z.abs (z * d - n) -> Z.even (rne n d) = true).
Proof. exact rne_nearest_even. Qed.
Print Assumptions C48_rounding.
Example C48_rounding_witness : rne 5 2 = 2 /\ rne 7 2 = 4 /\ rne 8 3 = 3 /\ f32_print (F 1000005) = PNum (mkdec6 false 100000 6).
Proof. vm_compute. repeat split. Qed.
Theorem C48_integers : forall z, Z.abs z <= 999999 -> exact f32_print f32_strtof (f32_int z).
Proof. exact f32_exact_int. Qed.

(** A whole model in single precision with finite weights reloads with each weight that close. *)
Definition close (w w' : f32) : Prop :=
  exists b b' : b32, w = B2SF b /\ w' = B2SF b' /\ is_finite b' = true /\
    (Rabs (B2R b' - B2R b) <= 6 / 1000000 * Rabs (B2R b) + bpow radix2 (-149))%R.
Definition finite_f32 (w : f32) : Prop := exists b : b32, w = B2SF b /\ is_finite b = true.
Theorem C48_reload_f32 : forall json_write json_parse p nk k c e fuel,
  savable f32num f32_print f32_strtof p nk k c e ->
  json_ok json_write json_parse (get_info f32num f32_print p nk k c e) ->
  Forall (Forall finite_f32) (c_ws c) -> Forall (Forall finite_f32) (extras k e) ->
  (length (json_write (get_info f32num f32_print p nk k c e)) < fuel)%nat ->
  exists text ws' e', save f32num f32_print json_write p nk k c e = Some text /\
    load f32num f32_strtof json_parse fuel text =
      Some (Loaded (mkmodel (reset_thresh f32num k) nk (reloaded_core f32num k c ws') e')) /\
    Forall2 (Forall2 close) (c_ws c) ws' /\ Forall2 (Forall2 close) (extras k e) (extras (reset_thresh f32num k) e').
Proof.
  intros jwr jpa p nk k c e fuel Sv J Hw Hx Hf.
  assert (D : forall vs, Forall (Forall finite_f32) vs -> exists vs', Forall2 (Forall2 (reads_back f32_print f32_strtof)) vs vs' /\ Forall2 (Forall2 close) vs vs').
  { induction 1 as [|v r Hv _ (r' & I1 & I2)]; [exists []; auto|].
    assert (exists v', Forall2 (reads_back f32_print f32_strtof) v v' /\ Forall2 close v v') as (v' & V1 & V2).
    { clear -Hv. induction Hv as [|x r (b & -> & Fb) _ (r' & I1 & I2)]; [exists []; auto|].
      destruct (f32_reads_back b Fb) as (b' & Rb & Fb' & Er & _). exists (B2SF b' :: r').
      split; constructor; auto. exists b, b'. auto. }
    exists (v' :: r'). auto. }
  destruct (D _ Hw) as (ws' & W1 & W2). destruct (D _ Hx) as (xs' & X1 & X2).
  destruct (reload f32num f32_print f32_strtof jwr jpa p nk k c e ws' xs' fuel Sv J W1 X1 Hf) as (text & e' & S & L & Q & _).
  exists text, ws', e'. rewrite Q. auto.
Qed.

(** A trained AROW-like state with two features and a bias, saved with an L2 normalisation. *)
Definition arow_core : core (R:=f32) :=
  mkcore [[F 5; F (-12); F 300]] [F 0] 3 (F 1) (F 1) 7 7 7 2 3 false (F 0) None LHinge (F 1) (F 0) false.
Definition arow_sigma : state_of (R:=f32) (KAROW (F 2)) := [[F 1; F 4; F 9]].
Ltac ints := repeat first [apply Forall_nil | apply Forall_cons | (apply f32_exact_int; lia)].
Lemma arow_savable : savable f32num f32_print f32_strtof 2 NormL2 (KAROW (F 2)) arow_core arow_sigma.
Proof.
  constructor; try (cbn; lia); try exact I; try discriminate.
  - repeat split; try (cbn; lia); try discriminate; repeat constructor.
  - split; repeat constructor.
  - split; [split; [reflexivity|intros Q; now elim Q]|reflexivity].
  - cbn [reals_of]. ints.
  - split; [apply f32_exact_int; lia|reflexivity].
Qed.
Example C48_witness :
  match written 2 NormL2 (KAROW (F 2)) arow_core arow_sigma with
  | Some text =>
    text = bytes "model info:" ++ [10] ++ bytes "{}" ++ [10] ++ bytes "model parameters:" ++ [10] ++
           bytes "weight[0]:" ++ [10] ++ bytes "[ 5 -12 300 ]" ++ [10] ++
           bytes "Sigma[0]: " ++ [10] ++ bytes "[ 1 4 9 ]" ++ [10] /\
    match read_as 2 NormL2 (KAROW (F 2)) arow_core arow_sigma text with
    | Some (Loaded m) =>
      c_ws (m_core m) = [[F 5; F (-12); F 300]] /\ c_dim (m_core m) = 3%nat /\ c_iter (m_core m) = 7 /\ m_norm m = NormL2 /\
      option_map fst (predict f32num (m_core m) (pt 1 [(1, 2); (2, 1)])) = Some 1
    | _ => False
    end
  | None => False
  end.
Proof. vm_compute. repeat split. Qed.
Example C48_witness_hyps :
  savable f32num f32_print f32_strtof 2 NormL2 (KAROW (F 2)) arow_core arow_sigma /\
  json_ok jw (jp (get_info f32num f32_print 2 NormL2 (KAROW (F 2)) arow_core arow_sigma))
    (get_info f32num f32_print 2 NormL2 (KAROW (F 2)) arow_core arow_sigma) /\
  Forall (Forall (exact f32_print f32_strtof)) (c_ws arow_core) /\
  Forall (Forall (exact f32_print f32_strtof)) (extras (KAROW (F 2)) arow_sigma) /\ c_updated arow_core = false.
Proof. split; [apply arow_savable|]. split; [apply j_ok|]. split; [|split; [|reflexivity]].
  - cbn [c_ws arow_core]. ints.
  - unfold extras. cbn [extra_blocks map block_vecs concat app arow_sigma]. ints.
Qed.

(** *** What does not survive *)
Lemma tripped p nk k c e (P : model -> Prop) cut :
  match written p nk k c e with
  | Some t => match read_as p nk k c e (cut t) with Some (Loaded m) => P m | _ => False end
  | None => False
  end ->
  exists text m, written p nk k c e = Some text /\ read_as p nk k c e (cut text) = Some (Loaded m) /\ P m.
Proof.
  destruct (written p nk k c e) as [t|]; [|intros []]. destruct (read_as p nk k c e (cut t)) as [[m|]|] eqn:E; [|intros []..].
  intros H. now exists t, m.
Qed.
Lemma tripped_null p nk k c e :
  match written p nk k c e with Some t => read_as p nk k c e t = Some LoadNull | None => False end ->
  exists text, written p nk k c e = Some text /\ read_as p nk k c e text = Some LoadNull.
Proof. destruct (written p nk k c e) as [t|]; [now exists t|intros []]. Qed.
Definition wide (ws : list (list f32)) : core (R:=f32) := set_dim (set_ws (core0 1 LBool) ws) 4.

(** Not every weight survives: 16777216 = 2^24 comes back as 16777200. *)
Theorem C48_all_weights_exact_refuted : exists c text m,
  written 2 NoNorm KPerceptron c tt = Some text /\ read_as 2 NoNorm KPerceptron c tt text = Some (Loaded m) /\
  c_ws c = [[F 16777216; F 0; F 0; F 0]] /\ c_ws (m_core m) = [[F 16777200; F 0; F 0; F 0]] /\ F 16777216 <> F 16777200.
Proof.
  exists (wide [[F 16777216; F 0; F 0; F 0]]). apply (tripped _ _ _ _ _ _ (fun t => t)).
  vm_compute. repeat split. discriminate.
Qed.

(** A weight that is not a number: it and every later one are loaded as 0, and loading succeeds. *)
Theorem C48_nan_detected_refuted : exists c text m,
  written 2 NoNorm KPerceptron c tt = Some text /\ read_as 2 NoNorm KPerceptron c tt text = Some (Loaded m) /\
  c_ws c = [[F 1; S754_nan; F 3; F 4]] /\ c_ws (m_core m) = [[F 1; F 0; F 0; F 0]].
Proof.
  exists (wide [[F 1; S754_nan; F 3; F 4]]). apply (tripped _ _ _ _ _ _ (fun t => t)).
  vm_compute. repeat split.
Qed.

(** Cutting the file within the weights is not noticed: the missing weights are 0. *)
Theorem C48_truncation_detected_refuted : exists c cut text m,
  written 2 NoNorm KPerceptron c tt = Some text /\
  read_as 2 NoNorm KPerceptron c tt (firstn cut text) = Some (Loaded m) /\
  c_ws c = [[F 1; F 2; F 3; F 4]] /\ c_ws (m_core m) = [[F 1; F 2; F 0; F 0]].
Proof.
  exists (wide [[F 1; F 2; F 3; F 4]]), 50%nat. apply (tripped _ _ _ _ _ _ (firstn 50)).
  vm_compute. repeat split.
Qed.

(** Loading a file whose document is not followed by the line "model parameters:" never returns. *)
Theorem C48_unclosed_file_never_returns : forall (R : Type) (N : num R) strtof json_parse rest,
  (forall a b, rest <> a ++ bytes "model parameters:" ++ b) ->
  forall fuel, load N strtof json_parse fuel (bytes "model info:" ++ [10] ++ rest) = None.
Proof.
  intros R N strtof jpa rest H fuel. unfold load. change (bytes "model info:" ++ [10] ++ rest) with (marker_info ++ 10 :: rest).
  rewrite getline_ok by (vm_compute; intuition discriminate). replace (str_eqb marker_info marker_info) with true by reflexivity.
  cbn [negb]. now rewrite load_loop_stuck.
Qed.
Example C48_unclosed_witness : forall a b, (bytes "{" ++ [10] ++ bytes "}") <> a ++ bytes "model parameters:" ++ b.
Proof. intros a b E. apply (f_equal (@length Z)) in E. rewrite !app_length in E. cbn in E. lia. Qed.

(** A FOFS model with the budget its constructor sets cannot be loaded. *)
Theorem C48_fofs_default_loads_refuted : exists c text,
  written 2 NoNorm (KFOFS (F 1) 0) c (init_of f32num (KFOFS (F 1) 0) 1) = Some text /\
  read_as 2 NoNorm (KFOFS (F 1) 0) c (init_of f32num (KFOFS (F 1) 0) 1) text = Some LoadNull.
Proof.
  exists (core0 1 LHinge). apply tripped_null. vm_compute. reflexivity.
Qed.

(** ALMA2's default C = sqrt 2 changes. *)
Definition sqrt2 : f32 := n_sqrt f32num (F 2).
Theorem C48_alma_C_restored_refuted : exists text m,
  written 2 NormL2 (KALMA2 (F 1) sqrt2 (F 1)) (core0 1 LHinge) 1 = Some text /\
  read_as 2 NormL2 (KALMA2 (F 1) sqrt2 (F 1)) (core0 1 LHinge) 1 text = Some (Loaded m) /\
  match m_kind m with KALMA2 a C s => a = F 1 /\ s = F 1 /\ C <> sqrt2 | _ => False end.
Proof.
  apply (tripped 2 NormL2 (KALMA2 (F 1) sqrt2 (F 1)) (core0 1 LHinge) 1 _ (fun t => t)). vm_compute. repeat split. discriminate.
Qed.

(** Active learning with a smoothness below 1 is switched off by saving and loading; the sparsity
    threshold is that of a new model. *)
Definition half : f32 := f32_lit 5 (-1).
Definition with_active (c : core (R:=f32)) (s : f32) : core (R:=f32) :=
  mkcore (c_ws c) (c_g c) (c_dim c) (c_eta c) (c_b0 c) (c_t0 c) (c_iter c) (c_data c) (c_err c) (c_upd c) (c_lazy c) s
    (c_cost c) (c_loss c) (c_margin c) (c_vt c) (c_updated c).
Theorem C48_settings_restored_refuted : exists text m,
  written 2 NoNorm (KRDA_L1 (F 1) (F 1) half) (with_active (core0 1 LHinge) half) [[F 0]] = Some text /\
  read_as 2 NoNorm (KRDA_L1 (F 1) (F 1) half) (with_active (core0 1 LHinge) half) [[F 0]] text = Some (Loaded m) /\
  c_active (m_core m) = F 0 /\ m_kind m = KRDA_L1 (F 1) (F 1) (f32_lit 1 (-6)).
Proof.
  apply (tripped 2 NoNorm (KRDA_L1 (F 1) (F 1) half) (with_active (core0 1 LHinge) half) [[F 0]] _ (fun t => t)). vm_compute. repeat split.
Qed.

(** Saving does not finish the training: a model that was trained and not yet tested, and its loaded
    copy, answer the same test differently.  FOBOS with lambda = 1 trained on one example: the test
    first truncates the weights of the model itself, the loaded copy keeps them. *)
Definition fobos : kind (R:=f32) := KFOBOS_L1 (F 1) (F 0) (F 1) (F 0).
Definition answers {E} (a : alg E) (c : core (R:=f32)) (e : E) :=
  option_map (fun r => fst (fst (fst r))) (test f32num a Some [pt 1 [(1, 1)]] c e).
Theorem C48_same_test_refuted : exists c e text m,
  run fobos 1 LHinge [fit [pt 1 [(1, 1)]]] = Some (c, e, false) /\
  written 2 NoNorm fobos c e = Some text /\ read_as 2 NoNorm fobos c e text = Some (Loaded m) /\
  answers (alg_of f32num fobos) c e = Some [(1, 1, [F 0])] /\
  answers (alg_of f32num (m_kind m)) (m_core m) (m_state m) = Some [(1, 1, [F 2])].
Proof.
  assert (H : match run fobos 1 LHinge [fit [pt 1 [(1, 1)]]] with
    | Some (c, e, false) =>
      match written 2 NoNorm fobos c e with
      | Some t => match read_as 2 NoNorm fobos c e t with
        | Some (Loaded m) => answers (alg_of f32num fobos) c e = Some [(1, 1, [F 0])] /\
            answers (alg_of f32num (m_kind m)) (m_core m) (m_state m) = Some [(1, 1, [F 2])]
        | _ => False end
      | None => False end
    | _ => False end) by (vm_compute; repeat split).
  destruct (run fobos 1 LHinge [fit [pt 1 [(1, 1)]]]) as [[[c e] []]|]; try contradiction. exists c, e.
  destruct (tripped 2 NoNorm fobos c e _ (fun t => t) H) as (t & m & A & B & C). exists t, m. tauto.
Qed.

Print Assumptions C48_reload.
Print Assumptions C48_predictions.
Print Assumptions C48_precision.
Print Assumptions C48_integers.
Print Assumptions C48_reload_f32.
Print Assumptions C48_all_weights_exact_refuted.
Print Assumptions C48_nan_detected_refuted.
Print Assumptions C48_truncation_detected_refuted.
Print Assumptions C48_unclosed_file_never_returns.
Print Assumptions C48_fofs_default_loads_refuted.
Print Assumptions C48_alma_C_restored_refuted.
Print Assumptions C48_settings_restored_refuted.
Print Assumptions C48_same_test_refuted.
