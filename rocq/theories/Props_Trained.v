(** Property C67: from a new model to a stored one and back. *)
From Coq Require Import Reals Lra SpecFloat String.
From Flocq Require Import Core BinarySingleNaN.
From Verif Require Import M_Base M_Num M_Expr M_Loss M_Online M_Olm M_OlmSel M_Heap M_Algs M_Text S_Text M_Str S_Online S_Session
  P_Online P_Inv M_Save S_Save P_Save4 M_SaveF32 P_F32 P_SaveF32 M_Json P_Json6 P_Json7 S_Trained P_Trained Props_Online Props_Save Props_Json.
Local Open Scope string_scope.
Local Open Scope list_scope.
Local Open Scope Z_scope.

(** ** C67 *)
(** Every model with storable settings can be saved and loaded after any session, as long as it has at most 2^31 - 1
    features, classes and training examples. *)
Theorem C67_savable : forall (R : Type) (N : num R) pr strtof p nk k n pre M c0 us c e r,
  fresh N n c0 -> loss_ok n (c_loss c0) -> storable N pr strtof p nk k c0 -> (n <> 2)%nat -> Z.of_nat n <= 2147483647 ->
  Forall (use_ok (lo_of k) n pre) us -> Forall (narrow pre M) us -> width_ok k M ->
  0 <= c_iter c0 -> c_iter c0 + examples us < 2147483647 ->
  session N (alg_of N k) pre us (c0, init_of N k n, true) = Some (c, e, r) -> savable N pr strtof p nk k c e.
Proof.
  intros R N pr strtof p nk k n pre M c0 us c e r Hf Hl St n2 nM HU HN HM I0 HI H.
  assert (0 <= examples us) by (clear; unfold examples; induction us as [|[] us IH]; cbn; lia).
  eapply (trained_savable N pr strtof p nk k n pre M c0 (init_of N k n)); eauto; try (rewrite (cnt_init N); lia); try lia.
  - now apply fresh_idle.
  - apply Hf.
  - destruct Hf as (_ & _ & -> & _). unfold width_ok in HM. destruct (budget_of k); lia.
Qed.
(** Therefore: train and test, save, load with the JSON library as it is, and every prediction, and every test of the loaded
    model, is the one of the model in memory, if its numbers have six digits. *)
Theorem C67_stored : forall (R : Type) (N : num R) pr strtof p nk k n pre M c0 us tested c e r slack fuel,
  fresh N n c0 -> loss_ok n (c_loss c0) -> storable N pr strtof p nk k c0 -> (n <> 2)%nat -> Z.of_nat n <= 2147483647 ->
  Forall (use_ok (lo_of k) n pre) (us ++ [UTest tested]) -> Forall (narrow pre M) us -> width_ok k M ->
  0 <= c_iter c0 -> c_iter c0 + examples us < 2147483647 ->
  session N (alg_of N k) pre (us ++ [UTest tested]) (c0, init_of N k n, true) = Some (c, e, r) ->
  Forall (Forall (exact pr strtof)) (c_ws c) -> Forall (Forall (exact pr strtof)) (extras k e) ->
  (length (write_info (get_info N pr p nk k c e)) < fuel)%nat ->
  exists text m, save N pr write_info p nk k c e = Some text /\ load N strtof (parse_info slack) fuel text = Some (Loaded m) /\
    (forall x, predict N (m_core m) x = predict N c x) /\
    forall pre' data,
      option_map (fun '(rows, err, _, _) => (rows, err)) (test N (alg_of N (m_kind m)) pre' data (m_core m) (m_state m)) =
      option_map (fun '(rows, err, _, _) => (rows, err)) (test N (alg_of N k) pre' data c e).
Proof.
  intros R N pr strtof p nk k n pre M c0 us tested c e r slack fuel Hf Hl St n2 nM HU HN HM I0 HI H W X Hfu.
  assert (Ee : examples (us ++ [UTest tested]) = examples us) by (clear; unfold examples; induction us as [|u us IH]; [reflexivity|cbn [app fold_right]; rewrite IH; reflexivity]).
  assert (Sv : savable N pr strtof p nk k c e).
  { eapply (C67_savable R N pr strtof p nk k n pre M c0 (us ++ [UTest tested])); eauto; [|now rewrite Ee].
    apply Forall_app. split; [exact HN|]. repeat constructor. }
  destruct (C48_predictions R N pr strtof write_info (parse_info slack) p nk k c e fuel Sv) as (text & m & A & B & _ & C & D); auto.
  - apply info_json_ok. eapply info_ok_get; eassumption.
  - exists text, m. repeat split; auto. apply D. eapply tested_rest. exact H.
Qed.
(** In single precision, whatever the weights: each one within six parts in a million (or one subnormal step). *)
Theorem C67_stored_f32 : forall p nk k n pre M c0 us c e r slack fuel,
  fresh f32num n c0 -> loss_ok n (c_loss c0) -> storable f32num f32_print f32_strtof p nk k c0 -> (n <> 2)%nat -> Z.of_nat n <= 2147483647 ->
  Forall (use_ok (lo_of k) n pre) us -> Forall (narrow pre M) us -> width_ok k M ->
  0 <= c_iter c0 -> c_iter c0 + examples us < 2147483647 ->
  session f32num (alg_of f32num k) pre us (c0, init_of f32num k n, true) = Some (c, e, r) ->
  Forall (Forall finite_f32) (c_ws c) -> Forall (Forall finite_f32) (extras k e) ->
  (length (write_info (get_info f32num f32_print p nk k c e)) < fuel)%nat ->
  exists text ws' e', save f32num f32_print write_info p nk k c e = Some text /\
    load f32num f32_strtof (parse_info slack) fuel text =
      Some (Loaded (mkmodel (reset_thresh f32num k) nk (reloaded_core f32num k c ws') e')) /\
    Forall2 (Forall2 close) (c_ws c) ws' /\ Forall2 (Forall2 close) (extras k e) (extras (reset_thresh f32num k) e').
Proof.
  intros p nk k n pre M c0 us c e r slack fuel Hf Hl St n2 nM HU HN HM I0 HI H W X Hfu.
  assert (Sv : savable f32num f32_print f32_strtof p nk k c e) by (eapply C67_savable; eauto).
  apply C48_reload_f32; auto. apply info_json_ok. eapply info_ok_get; eassumption.
Qed.
(** A loaded model goes on: except for the lazily regularised ones, every further session is defined, and its result can
    be saved again. *)
Theorem C67_resumed : forall (R : Type) (N : num R) pr strtof p nk k c e ws' xs' slack fuel,
  savable N pr strtof p nk k c e -> n_le N (one N) (zero N) = false -> not_lazy k = true ->
  Forall2 (Forall2 (reads_back pr strtof)) (c_ws c) ws' -> Forall2 (Forall2 (reads_back pr strtof)) (extras k e) xs' ->
  (length (write_info (get_info N pr p nk k c e)) < fuel)%nat ->
  exists text m, save N pr write_info p nk k c e = Some text /\ load N strtof (parse_info slack) fuel text = Some (Loaded m) /\
    m_kind m = reset_thresh N k /\
    forall pre us, Forall (use_ok (lo_of k) (length (c_ws c)) pre) us ->
    exists c' e' r, session N (alg_of N (m_kind m)) pre us (m_core m, m_state m, true) = Some (c', e', r) /\
      wf_core c' /\ length (c_ws c') = length (c_ws c) /\
      forall M, Forall (narrow pre M) us -> width_ok k M -> Z.of_nat (c_dim c) <= M -> c_iter c + examples us <= 2147483647 ->
        counter k e + examples us <= 2147483647 -> savable N pr strtof p (m_norm m) (m_kind m) c' e'.
Proof.
  intros R N pr strtof p nk k c e ws' xs' slack fuel Sv Z1 NL W X Hfu.
  destruct (C66_reload R N pr strtof p nk k c e ws' xs' slack fuel Sv W X Hfu) as (text & e' & S & L & _ & T & Sh).
  exists text. eexists. split; [exact S|]. split; [exact L|]. cbn [m_kind m_core m_state m_norm]. split; [reflexivity|]. intros pre us HU.
  pose proof (F2_len _ _ _ W) as Lw. symmetry in Lw.
  assert (Wl : Forall2 (fun a b : list R => length b = length a) (c_ws c) ws').
  { clear -W. induction W; constructor; auto. symmetry. eapply F2_len; eassumption. }
  pose proof Sv as Sv'. destruct Sv' as [Wc Ex Dm It Cl [Lo La] Pa Re _ _ _ _ _ Al].
  assert (W' : wf_core (reloaded_core N k c ws')).
  { destruct Wc as (W1 & W2 & W3 & W4). split; [exact W1|]. cbn [reloaded_core c_ws c_dim c_g]. split; [intros ->; destruct (c_ws c); [auto|discriminate]|].
    split; [|now rewrite repeat_length]. clear -W3 Wl. revert W3. induction Wl; intros F; constructor; inversion F; subst; auto; congruence. }
  pose proof (loaded_pre N k c e e' ws' NL Lw T Sh) as HP. rewrite <- (lo_reset N) in HU.
  destruct (resume_safe N (reset_thresh N k) (length (c_ws c)) (reloaded_core N k c ws') e' (c_loss c) us pre W' Lw eq_refl Lo eq_refl HP HU)
    as (c2 & e2 & r2 & E & A & B).
  exists c2, e2, r2. split; [exact E|]. split; [exact A|]. split; [exact B|]. intros M HN HM HD I2 C2.
  assert (0 <= examples us) by (clear; unfold examples; induction us as [|[] us IH]; cbn; lia).
  assert (1 <= counter k e) by (destruct k; cbn [counter]; try lia; destruct Al as (_ & _ & Q & _); lia).
  eapply (trained_savable N pr strtof p nk (reset_thresh N k) (length (c_ws c)) pre M (reloaded_core N k c ws') e' us); eauto;
    cbn [reloaded_core c_loss c_updated c_dim c_iter]; rewrite ?(counter_reset N k e e' _ T); auto; try lia.
  - split; [exact W'|]. split; [exact Lw|]. split; [reflexivity|exact HP].
  - now apply (storable_again N pr strtof p nk k c e ws').
  - unfold width_ok in *. destruct k; exact HM.
Qed.

(** An ALMA2 model trained on three examples and tested. *)
Definition half : f32 := S754_finite false 8388608 (-24).
Lemma half_exact : exact f32_print f32_strtof half.
Proof.
  assert (Hb : SpecFloat.bounded f32_prec f32_emax 8388608 (-24) = true) by reflexivity.
  set (b := B754_finite false 8388608 (-24) Hb : b32). change half with (B2SF b).
  destruct (f32_reads_back b eq_refl) as (b' & Rb & _ & _ & Ex).
  assert (b' = b); [|now subst b']. apply Ex; [|discriminate].
  assert (Vb : B2R b = (IZR 5 * bpow radix10 (-1))%R).
  { unfold b, B2R, F2R. cbn. unfold Z.pow_pos. cbn. lra. }
  exists 5, (-1). split; [lia|]. split; [|left; exact Vb]. rewrite <- Vb. symmetry. apply round_generic; [typeclasses eauto|]. apply generic_format_B2R.
Qed.
Definition alma : kind (R:=f32) := KALMA2 half (F 1) (F 1).
Definition lesson : list (use (R:=f32)) := [fit [pt 1 [(1, 2); (3, 1)]; pt (-1) [(2, 1); (3, 2)]; pt 1 [(1, 1)]]].
Definition exam : list (point f32) := [pt 1 [(1, 1); (4, 7)]; pt (-1) [(2, 3)]].
Lemma alma_storable : storable f32num f32_print f32_strtof 2 NormL2 alma (core0 1 LHinge).
Proof.
  constructor; try reflexivity; try discriminate; try exact I.
  - split; reflexivity.
  - cbn [reals_of alma]. repeat constructor; [apply half_exact|apply f32_exact_int; lia].
  - split; [apply f32_exact_int; lia|reflexivity].
  - split; [reflexivity|]. split; [vm_compute; reflexivity|split; reflexivity || lia].
Qed.
Example C67_savable_witness : fresh f32num 1 (core0 1 LHinge) /\ storable f32num f32_print f32_strtof 2 NormL2 alma (core0 1 LHinge) /\
  Forall (use_ok (lo_of alma) 1 Some) (lesson ++ [UTest exam]) /\ Forall (narrow Some 4) (lesson ++ [UTest exam]) /\ width_ok alma 4 /\
  examples (lesson ++ [UTest exam]) = 3 /\
  match run alma 1 LHinge (lesson ++ [UTest exam]) with Some (c, e, _) => e = 4 /\ c_dim c = 4%nat /\ c_iter c = 3 | None => False end.
Proof.
  split; [apply fresh0; lia|]. split; [exact alma_storable|]. split; [repeat first [apply Forall_cons | apply Forall_nil | acc]|].
  split; [|split; [split; cbn; lia|split; [reflexivity|vm_compute; repeat split]]].
  repeat first [apply Forall_cons | apply Forall_nil | exact I]; intros x Q; injection Q as <-; vm_compute; discriminate.
Qed.
(** A perceptron with three classes: its weights are integers; stored in a file, it answers as before, and it goes on. *)
Definition pupil := KPerceptron (R:=f32).
Definition school : list (use (R:=f32)) := [fit [pt 0 [(1, 2); (3, 1)]; pt 1 [(2, 1); (3, 2)]; pt 2 [(1, 1)]; pt 1 [(2, 500)]]; UTest [pt 2 [(1, 1)]]].
Lemma pupil_storable : storable f32num f32_print f32_strtof 2 NormL2 pupil (core0 3 LMaxBool).
Proof.
  constructor; try reflexivity; try discriminate; try exact I.
  - constructor.
  - split; [apply f32_exact_int; lia|reflexivity].
Qed.
Example C67_stored_witness : fresh f32num 3 (core0 3 LMaxBool) /\ storable f32num f32_print f32_strtof 2 NormL2 pupil (core0 3 LMaxBool) /\
  Forall (use_ok (lo_of pupil) 3 Some) school /\ Forall (narrow Some 4) school /\ width_ok pupil 4 /\
  match run pupil 3 LMaxBool school with
  | Some (c, e, _) =>
    c_ws c = [[F (-1); F 0; F (-1); F (-2)]; [F 0; F (-1); F 1; F 2]; [F 1; F 1; F 0; F 0]] /\
    match save f32num f32_print write_info 2 NormL2 pupil c e with
    | Some text =>
      match load f32num f32_strtof (parse_info [34; 0; 47]) 400 text with
      | Some (Loaded m) => c_ws (m_core m) = c_ws c /\
          match session f32num (alg_of f32num (m_kind m)) Some school (m_core m, m_state m, true) with
          | Some (c', _, _) => c_iter c' = 8 /\ c_ws c' <> c_ws c | None => False end
      | _ => False end
    | None => False end
  | None => False end.
Proof.
  split; [apply fresh0; lia|]. split; [exact pupil_storable|]. split; [repeat first [apply Forall_cons | apply Forall_nil | acc]|].
  split; [repeat first [apply Forall_cons | apply Forall_nil | exact I]; intros x Q; injection Q as <-; vm_compute; discriminate|]. split; [split; cbn; lia|].
  vm_compute. repeat split; discriminate.
Qed.
(** The lazily regularised models do not always go on: FOBOS-L1 trained with three features, stored, loaded, trained with
    one feature: EndTrain meets vectors of different sizes. *)
Lemma fobos_savable c e r : run fobos 1 LHinge [fit [pt 1 [(1, 1); (3, 1)]]; UTest []] = Some (c, e, r) ->
  savable f32num f32_print f32_strtof 2 NoNorm fobos c e.
Proof.
  apply (C67_savable f32 f32num f32_print f32_strtof 2 NoNorm fobos 1 Some 4 (core0 1 LHinge)).
  - apply fresh0. lia.
  - split; [reflexivity|intros Q; now elim Q].
  - constructor; try reflexivity; try discriminate; try exact I.
    + split; reflexivity.
    + cbn [reals_of fobos]. ints.
    + split; [apply f32_exact_int; lia|reflexivity].
  - lia.
  - lia.
  - repeat first [apply Forall_cons | apply Forall_nil | acc].
  - repeat first [apply Forall_cons | apply Forall_nil | exact I]; intros x Q; injection Q as <-; vm_compute; discriminate.
  - split; cbn; lia.
  - cbn; lia.
  - cbn; lia.
Qed.
Theorem C67_lazy_resumed_refuted : exists c e r text m,
  run fobos 1 LHinge [fit [pt 1 [(1, 1); (3, 1)]]; UTest []] = Some (c, e, r) /\
  savable f32num f32_print f32_strtof 2 NoNorm fobos c e /\
  save f32num f32_print write_info 2 NoNorm fobos c e = Some text /\ load f32num f32_strtof (parse_info []) 400 text = Some (Loaded m) /\
  Forall (use_ok (lo_of fobos) 1 Some) [fit [pt 1 [(1, 1)]]; UTest []] /\
  session f32num (alg_of f32num (m_kind m)) Some [fit [pt 1 [(1, 1)]]; UTest []] (m_core m, m_state m, true) = None.
Proof.
  assert (H : match run fobos 1 LHinge [fit [pt 1 [(1, 1); (3, 1)]]; UTest []] with
    | Some (c, e, r) =>
      match save f32num f32_print write_info 2 NoNorm fobos c e with
      | Some t => match load f32num f32_strtof (parse_info []) 400 t with
        | Some (Loaded m) => session f32num (alg_of f32num (m_kind m)) Some [fit [pt 1 [(1, 1)]]; UTest []] (m_core m, m_state m, true) = None
        | _ => False end
      | None => False end
    | None => False end) by (vm_compute; reflexivity).
  destruct (run fobos 1 LHinge [fit [pt 1 [(1, 1); (3, 1)]]; UTest []]) as [[[c e] r]|] eqn:E; [|contradiction].
  destruct (save _ _ _ _ _ _ c e) as [t|] eqn:S; [|contradiction].
  destruct (load _ _ _ _ t) as [[m|]|] eqn:L; try contradiction.
  exists c, e, r, t, m. split; [reflexivity|]. split; [|split; [exact S|split; [exact L|split; [repeat first [apply Forall_cons | apply Forall_nil | acc]|exact H]]]].
  exact (fobos_savable c e r E).
Qed.

Print Assumptions C67_savable.
Print Assumptions C67_stored.
Print Assumptions C67_stored_f32.
Print Assumptions C67_resumed.
Print Assumptions C67_lazy_resumed_refuted.
