(** Property C31: truncating a weight only when its feature is used again. *)
From Coq Require Import Reals Lra SpecFloat.
From Verif Require Import M_Base M_Num M_Expr M_Loss M_Online M_Olm M_OlmSel M_Algs S_Expr S_Real S_Online
  S_Session S_Loss S_Lazy P_DataPoint P_Expr P_Real P_Online P_Predict P_Step P_Safe P_SafeOlm P_Session
  P_Session2 P_Lazy P_Lazy2 P_Stg Props_Online.

(** A freshly made model before its first example: no active learning, step sizes not negative, first
    iteration number not negative. *)
Definition plain_start (n : nat) (c : core (R:=R)) : Prop :=
  fresh Rnum n c /\ loss_ok n (c_loss c) /\ (c_active c <= 0)%R /\ 0 <= c_iter c /\ (0 <= c_eta c)%R /\
  (0 <= c_b0 c)%R.

Lemma start_lag (th : nat -> R) T : (0 <= T)%R -> lag T th [0%R] [0%R] [0%R].
Proof.
  intros HT. repeat split; auto.
  - destruct i as [|[|i]]; cbn; lra.
  - destruct i as [|i]; cbn in *; [lia|lia].
Qed.
Lemma start_wf n c : fresh Rnum n c -> wf_core c /\ length (c_ws c) = n.
Proof.
  intros (H1 & Hw & Hd & Hg & _).
  assert (L : length (c_ws c) = n) by (rewrite Hw; apply repeat_length). split; [|exact L].
  split; [lia|]. split; [rewrite Hw; destruct n; [lia|discriminate]|]. split; [|congruence].
  rewrite Hw, Forall_forall. intros w Hin. apply repeat_spec in Hin as ->. now rewrite Hd.
Qed.
Lemma set_ws_self (c : core (R:=R)) : set_ws c (c_ws c) = c.
Proof. now destruct c. Qed.

(** ** FOBOS_L1 with a constant step size *)
(** For every sequence of examples, the model trained with delayed truncation and the model that
    truncates every weight at every example have the same counters; they answer every further example
    with the same label and scores; and finishing the training makes them equal. *)
Theorem C31_fobos_l1 : forall (eta lam thresh : R) n c pre data,
  (0 <= eta)%R -> (0 <= lam)%R -> plain_start n c ->
  Forall (fun d => accepts 1 n pre (fst d)) data ->
  let k := KFOBOS_L1 eta 0%R lam thresh in
  let eager := eager_fobos Rnum eta lam thresh in
  exists c1 z1 c2,
    train Rnum (alg_of Rnum k) pre data c (init_of Rnum k n) = Some (c1, z1) /\
    train Rnum eager pre data c tt = Some (c2, tt) /\
    same_but_weights c1 c2 /\
    (forall p rnd, wf_point 1 p -> label_ok n (p_label p) ->
       exists lab ps c3 z3 c4,
         iterate Rnum (alg_of Rnum k) p rnd c1 z1 = Some (lab, ps, c3, z3) /\
         iterate Rnum eager p rnd c2 tt = Some (lab, ps, c4, tt)) /\
    exists c5 z5, a_end (alg_of Rnum k) c1 z1 = Some (c5, z5) /\ a_end eager c2 tt = Some (c5, tt).
Proof.
  intros eta lam thresh n c pre data He Hl (Hf & Hlo & Ha & Hi & Hce & Hcb) HF k eager.
  destruct (start_wf n c Hf) as (Hc & Hn). pose proof Hf as (H1 & Hw & Hd & Hg & _).
  set (a := fobos_l1 Rnum eta 0%R).
  assert (HR : frel eta lam thresh (c_b0 c) c (mklazy lam thresh 0%R [0%R]) (c_ws c) tt).
  { unfold frel. cbn [z_lambda z_thresh z_t0 z_last]. rewrite Hd. apply IZR_le in Hi.
    repeat split; auto; try lra.
    - right. rewrite Hw. clear. induction n; cbn; constructor; auto.
      split; intros [|[|i]]; reflexivity.
    - rewrite Hw. clear - Hi. induction n; cbn; constructor; auto. now apply start_lag. }
  destruct (train_sim a eager (frel eta lam thresh (c_b0 c)) _ _ (safe_gsafe Rnum 0 _ _ _ (safe_fobos_l1 Rnum eta 0%R)))
    with (n := n) (pre := pre) (data := data) (c := c) (e := mklazy lam thresh 0%R [0%R]) (ws := c_ws c) (e' := tt)
    as (c1 & z1 & ws1 & [] & E1 & E2 & HR1 & W1 & L1 & I1 & K1); auto.
  { intros p rnd c0 e0 ws0 e0' lab ps c3 e3 Hp. now apply fobos_iterate. }
  rewrite set_ws_self in E2.
  exists c1, z1, (set_ws c1 ws1). split; [exact E1|]. split; [exact E2|]. split; [reflexivity|]. split.
  - intros p rnd Hp Hy.
    destruct (iterate_safe Rnum 0 a _ _ p rnd c1 z1 ltac:(lia) (safe_gsafe Rnum 0 _ _ _ (safe_fobos_l1 Rnum eta 0%R))
      (wf10 p Hp) W1 I1) as (lab & ps & c3 & z3 & E3 & _).
    { now rewrite L1, K1. } { now rewrite L1. }
    destruct (fobos_iterate eta lam thresh (c_b0 c) He Hl Hcb p rnd c1 z1 ws1 tt lab ps c3 z3 Hp HR1 E3)
      as (ws4 & [] & E4 & _).
    exists lab, ps, c3, z3, (set_ws c3 ws4). split; [exact E3|exact E4].
  - destruct (end_fobos_l1 Rnum eta 0%R c1 z1 W1 I1) as (c5 & z5 & E5 & _).
    exists c5, z5. split; [exact E5|]. eapply fobos_finish; eauto.
Qed.
Print Assumptions C31_fobos_l1.

(** ** AdaFOBOS_L1 *)
Theorem C31_ada_fobos_l1 : forall (delta lam thresh : R) n c pre data,
  (0 < delta)%R -> (0 <= lam)%R -> plain_start n c ->
  Forall (fun d => accepts 1 n pre (fst d)) data ->
  let k := KAdaFOBOS_L1 delta lam thresh in
  let eager := eager_ada_fobos Rnum delta lam thresh in
  let H0 := repeat [delta] n in
  exists c1 e1 c2 H2,
    train Rnum (alg_of Rnum k) pre data c (init_of Rnum k n) = Some (c1, e1) /\
    train Rnum eager pre data c H0 = Some (c2, H2) /\
    same_but_weights c1 c2 /\
    (forall p rnd, wf_point 1 p -> label_ok n (p_label p) ->
       exists lab ps c3 e3 c4 H4,
         iterate Rnum (alg_of Rnum k) p rnd c1 e1 = Some (lab, ps, c3, e3) /\
         iterate Rnum eager p rnd c2 H2 = Some (lab, ps, c4, H4)) /\
    exists c5 e5, a_end (alg_of Rnum k) c1 e1 = Some (c5, e5) /\ a_end eager c2 H2 = Some (c5, H2).
Proof.
  intros delta lam thresh n c pre data He Hl (Hf & Hlo & Ha & Hi & Hce & Hcb) HF k eager H0.
  destruct (start_wf n c Hf) as (Hc & Hn). pose proof Hf as (H1 & Hw & Hd & Hg & _).
  set (a := ada_fobos_l1 Rnum delta).
  assert (HR : arel (c_eta c) lam thresh (c_b0 c) c (H0, mklazy lam thresh 0%R [0%R]) (c_ws c) H0).
  { unfold arel. cbn [fst snd z_lambda z_thresh z_t0 z_last]. rewrite Hd. apply IZR_le in Hi.
    repeat split; auto; try lra.
    unfold H0. rewrite Hw. clear - Hi He. induction n; cbn; constructor; auto.
    split; [reflexivity|]. split; [intros [|[|i]]; cbn; lra|]. now apply start_lag. }
  assert (Hde : (0 <= delta)%R) by lra.
  destruct (train_sim a eager (arel (c_eta c) lam thresh (c_b0 c)) _ _ (safe_gsafe Rnum 0 _ _ _ (safe_ada_fobos_l1 Rnum delta)))
    with (n := n) (pre := pre) (data := data) (c := c) (e := (H0, mklazy lam thresh 0%R [0%R])) (ws := c_ws c) (e' := H0)
    as (c1 & z1 & ws1 & H2 & E1 & E2 & HR1 & W1 & L1 & I1 & K1); auto.
  { intros p rnd c0 e0 ws0 e0' lab ps c3 e3 Hp. now apply ada_iterate. }
  { cbn [fst snd z_last]. rewrite Hd, Hn. split; [|reflexivity]. unfold H0. split; [apply repeat_length|].
    rewrite Forall_forall. intros w Hin. now apply repeat_spec in Hin as ->. }
  rewrite set_ws_self in E2.
  exists c1, z1, (set_ws c1 ws1), H2. split; [exact E1|]. split; [exact E2|]. split; [reflexivity|]. split.
  - intros p rnd Hp Hy.
    destruct (iterate_safe Rnum 0 a _ _ p rnd c1 z1 ltac:(lia) (safe_gsafe Rnum 0 _ _ _ (safe_ada_fobos_l1 Rnum delta))
      (wf10 p Hp) W1 I1) as (lab & ps & c3 & z3 & E3 & _).
    { now rewrite L1, K1. } { now rewrite L1. }
    destruct (ada_iterate delta (c_eta c) lam thresh (c_b0 c) Hce Hl Hde p rnd c1 z1 ws1 H2 lab ps c3 z3 Hp HR1 E3)
      as (ws4 & H4 & E4 & _).
    exists lab, ps, c3, z3, (set_ws c3 ws4), H4. split; [exact E3|exact E4].
  - destruct (end_ada_fobos_l1 Rnum delta c1 z1 W1 I1) as (c5 & z5 & E5 & _).
    exists c5, z5. split; [exact E5|]. exact (ada_finish delta (c_eta c) lam thresh (c_b0 c) Hce Hl Hcb c1 z1 ws1 H2 c5 z5 HR1 E5).
Qed.
Print Assumptions C31_ada_fobos_l1.

(** The hypotheses hold for a three-class model and a stream in which feature 5 is used at the first
    and last example only; in single precision the delayed and the eager model differ while training
    and agree when it is finished. *)
Definition rcore (n : nat) (k : loss_kind) : core (R:=R) :=
  mkcore (repeat [0%R] n) (repeat 0%R n) 1 1%R 1%R 0 0 0 0 0 false 0%R None k 1%R 0%R false.
Definition rdata : list (point R * R) :=
  [(mkpt 0 [1; 5] [4%R; 8%R], 0%R); (mkpt 1 [1] [2%R], 0%R); (mkpt 2 [2; 5] [2%R; 4%R], 0%R)].
Definition fdata : list (point f32 * f32) :=
  [(pt 0 [(1, 4); (5, 8)], F 0); (pt 1 [(1, 2)], F 0); (pt 2 [(2, 2); (5, 4)], F 0); (pt 1 [(3, 1)], F 0)].
Example C31_witness :
  plain_start 3 (rcore 3 LMaxHinge) /\ Forall (fun d => accepts 1 3 Some (fst d)) rdata /\
  match train f32num (alg_of f32num (KFOBOS_L1 (F 1) (F 0) (F 1) (F 0))) Some fdata (core0 3 LMaxHinge)
          (mklazy (F 1) (F 0) (F 0) [F 0]),
        train f32num (eager_fobos f32num (F 1) (F 1) (F 0)) Some fdata (core0 3 LMaxHinge) tt with
  | Some (c1, z1), Some (c2, _) =>
    c_ws c1 <> c_ws c2 /\
    match a_end (fobos_l1 f32num (F 1) (F 0)) c1 z1, a_end (eager_fobos f32num (F 1) (F 1) (F 0)) c2 tt with
    | Some (c3, _), Some (c4, _) => c3 = c4 /\ c_ws c3 <> c_ws c1 /\ nonzero_count f32num c3 = 2%nat
    | _, _ => False
    end
  | _, _ => False
  end.
Proof.
  split. { split; [split; [lia|]; repeat split|]. split; [split; [lia|reflexivity]|]. cbn. repeat split; try lra; lia. }
  split. { repeat constructor; cbn; acc. }
  vm_compute. split; [discriminate|]. split; [reflexivity|]. split; [discriminate|reflexivity].
Qed.

(** ** STG with one classifier and a constant step size *)
(** The code truncates a weight only when its feature is used and only by whole periods of k examples; the
    eager algorithm truncates every weight at the end of every period.  [a_begin] is BeginTrain, which
    notes the first iteration number as the time of the last truncation. *)
Theorem C31_stg : forall (eta lam thresh : R) (k : Z) c pre data,
  (0 <= eta)%R -> (0 <= lam)%R -> 1 <= k -> plain_start 1 c -> c_iter c = c_t0 c ->
  Forall (fun d => accepts 1 1 pre (fst d)) data ->
  let kd := KSTG eta 0%R lam thresh k in
  let eager := eager_stg Rnum eta lam thresh k in
  exists c0 e0 c1 e1 c2,
    a_begin (alg_of Rnum kd) c (init_of Rnum kd 1) = Some (c0, e0) /\
    train Rnum (alg_of Rnum kd) pre data c0 e0 = Some (c1, e1) /\
    train Rnum eager pre data c0 tt = Some (c2, tt) /\
    same_but_weights c1 c2 /\
    (forall p rnd, wf_point 1 p -> label_ok 1 (p_label p) ->
       exists lab ps c3 e3 c4,
         iterate Rnum (alg_of Rnum kd) p rnd c1 e1 = Some (lab, ps, c3, e3) /\
         iterate Rnum eager p rnd c2 tt = Some (lab, ps, c4, tt)) /\
    exists c5 e5, a_end (alg_of Rnum kd) c1 e1 = Some (c5, e5) /\ a_end eager c2 tt = Some (c5, tt).
Proof.
  intros eta lam thresh k c pre data He Hl Hk (Hf & Hlo & Ha & Hi & Hce & Hcb) Ht0 HF kd eager.
  destruct (start_wf 1 c Hf) as (Hc & Hn). pose proof Hf as (H1 & Hw & Hd & Hg & _).
  set (a := stg Rnum eta 0%R lam thresh k).
  set (e0 := [IZR (c_t0 c)]).
  assert (HR : krel k (c_t0 c) eta lam (c_b0 c) c e0 (c_ws c) tt).
  { split.
    - unfold kbase. rewrite Hd. repeat split; auto; try lia; lra.
    - exists [0%R], [0%R]. rewrite Hw. do 2 (split; [reflexivity|]).
      split; [right; split; intros [|[|i]]; reflexivity|].
      split; [reflexivity|]. split; [reflexivity|]. split; [cbn; lia|]. split; [reflexivity|].
      split; [left; split; [reflexivity|]; rewrite Ht0; cbn; lra|]. intros i Hlt Hne. cbn in Hlt. lia. }
  destruct (train_sim a eager (krel k (c_t0 c) eta lam (c_b0 c)) _ _ (safe_gsafe Rnum 0 _ _ _ (safe_stg Rnum eta 0%R lam thresh k)))
    with (n := 1%nat) (pre := pre) (data := data) (c := c) (e := e0) (ws := c_ws c) (e' := tt)
    as (c1 & z1 & ws1 & [] & E1 & E2 & HR1 & W1 & L1 & I1 & K1); auto.
  { intros p rnd c0 e1 ws0 e0' lab ps c3 e3 Hp. now apply stg_iterate. }
  rewrite set_ws_self in E2.
  exists c, e0, c1, z1, (set_ws c1 ws1). split. { cbn. rewrite Hd. reflexivity. }
  split; [exact E1|]. split; [exact E2|]. split; [reflexivity|]. split.
  - intros p rnd Hp Hy.
    destruct (iterate_safe Rnum 0 a _ _ p rnd c1 z1 ltac:(lia) (safe_gsafe Rnum 0 _ _ _ (safe_stg Rnum eta 0%R lam thresh k))
      (wf10 p Hp) W1 I1) as (lab & ps & c3 & z3 & E3 & _).
    { now rewrite L1, K1. } { now rewrite L1. }
    destruct (stg_iterate k (c_t0 c) Hk eta lam thresh (c_b0 c) He Hl Hcb p rnd c1 z1 ws1 tt lab ps c3 z3 Hp HR1 E3)
      as (ws4 & [] & E4 & _).
    exists lab, ps, c3, z3, (set_ws c3 ws4). split; [exact E3|exact E4].
  - destruct (end_stg Rnum eta 0%R lam thresh k c1 z1 W1 I1) as (c5 & z5 & E5 & _).
    exists c5, z5. split; [exact E5|]. eapply stg_finish; eauto.
Qed.
Print Assumptions C31_stg.

(** With k = 2: the weight of feature 1, 20 after the first example, waits for four truncations when it is
    next used at the sixth. *)
Definition sdata : list (point f32 * f32) :=
  [(pt 1 [(1, 20)], F 0); (pt 1 [(2, 1)], F 0); (pt 1 [(2, 1)], F 0); (pt (-1) [(3, 9)], F 0); (pt 1 [(2, 1)], F 0);
   (pt (-1) [(1, 1)], F 0); (pt 1 [(2, 4)], F 0)].
Example C31_stg_witness :
  plain_start 1 (rcore 1 LHinge) /\ c_iter (rcore 1 LHinge) = c_t0 (rcore 1 LHinge) /\
  Forall (fun d => accepts 1 1 Some (fst d)) [(mkpt 1 [1; 5] [4%R; 8%R], 0%R); (mkpt (-1) [1] [2%R], 0%R)] /\
  match train f32num (stg f32num (F 1) (F 0) (F 1) (F 0) 2) Some sdata (core0 1 LHinge) [F 0],
        train f32num (eager_stg f32num (F 1) (F 1) (F 0) 2) Some sdata (core0 1 LHinge) tt with
  | Some (c1, z1), Some (c2, _) =>
    c_ws c1 <> c_ws c2 /\
    match a_end (stg f32num (F 1) (F 0) (F 1) (F 0) 2) c1 z1, a_end (eager_stg f32num (F 1) (F 1) (F 0) 2) c2 tt with
    | Some (c3, _), Some (c4, _) => c3 = c4 /\ c_ws c3 <> c_ws c1 /\ nonzero_count f32num c3 = 3%nat
    | _, _ => False
    end
  | _, _ => False
  end.
Proof.
  split. { split; [split; [lia|]; repeat split|]. split; [split; [reflexivity|lia]|]. cbn. repeat split; try lra; lia. }
  split; [reflexivity|]. split. { repeat constructor; cbn; acc. }
  vm_compute. split; [discriminate|]. split; [reflexivity|]. split; [discriminate|reflexivity].
Qed.

(** ** Where it fails; exact numbers, so that rounding plays no part *)
Definition lazy0 : lazy_l1 (R:=f32) := mklazy (F 1) (F 0) (F 0) [F 0].
Definition fin {E} (a : alg (R:=f32) E) d (c : core (R:=f32)) (e : E) :=
  do (c1, e1) <- train f32num a Some d c e; a_end a c1 e1.
(** Finishing (as every test does) truncates all weights but does not move their times of last use:
    when training goes on, the same truncation is applied again. *)
Definition go {E} (a : alg (R:=f32) E) (d1 d2 : list (point f32 * f32)) (c : core (R:=f32)) (e : E) :=
  do (c1, e1) <- fin a d1 c e; fin a d2 c1 e1.
Theorem C31_resume_refuted : exists d1 d2, Forall (fun d => accepts 1 1 Some (fst d)) (d1 ++ d2) /\
  exists c1 e1 c2, go (fobos_l1 f32num (F 1) (F 0)) d1 d2 (core0 1 LHinge) lazy0 = Some (c1, e1) /\
    go (eager_fobos f32num (F 1) (F 1) (F 0)) d1 d2 (core0 1 LHinge) tt = Some (c2, tt) /\
    c_ws c1 = [[F 0; F 11; F 0]] /\ c_ws c2 = [[F 0; F 14; F 0]].
Proof.
  exists [(pt 1 [(1, 20)], F 0); (pt 1 [(2, 1)], F 0); (pt 1 [(2, 1)], F 0); (pt 1 [(2, 1)], F 0)],
    [(pt 1 [(1, 1)], F 0)]. split.
  - cbn. repeat constructor; cbn; acc.
  - eexists _, _, _. split; [vm_compute; reflexivity|]. split; [vm_compute; reflexivity|]. split; reflexivity.
Qed.
Print Assumptions C31_resume_refuted.
(** With active learning an example whose label is not asked for truncates the weights of its features
    without moving their times of last use: its next use truncates them again for the same time. *)
Theorem C31_active_refuted : exists d c, Forall (fun d => accepts 1 1 Some (fst d)) d /\
  fresh f32num 1 c /\ c_active c = F 1 /\
  exists c1 e1 c2, fin (fobos_l1 f32num (F 1) (F 0)) d c lazy0 = Some (c1, e1) /\
    fin (eager_fobos f32num (F 1) (F 1) (F 0)) d c tt = Some (c2, tt) /\
    c_ws c1 = [[F 0; F 11; F 0]] /\ c_ws c2 = [[F 0; F 15; F 0]].
Proof.
  exists [(pt 1 [(1, 20)], F 0); (pt 1 [(2, 1)], F 0); (pt 1 [(2, 1)], F 0); (pt 1 [(1, 1)], F 2);
          (pt 1 [(1, 1)], F 2)],
    (mkcore [[F 0]] [F 0] 1 (F 1) (F 1) 0 0 0 0 0 false (F 1) None LHinge (F 1) (F 0) false). split.
  - repeat constructor; cbn; acc.
  - split; [repeat split; lia|]. split; [reflexivity|]. eexists _, _, _.
    split; [vm_compute; reflexivity|]. split; [vm_compute; reflexivity|]. split; reflexivity.
Qed.
Print Assumptions C31_active_refuted.
(** STG with more than one class, truncating at every example (k = 1): the times of last truncation are
    shared by the classes and moved while the first class is processed, so the weights of the other
    classes are not truncated: class 1 ends with -19 where the eager algorithm has -15. *)
Theorem C31_stg_classes_refuted : exists d, Forall (fun d => accepts 1 3 Some (fst d)) d /\
  exists c1 e1 c2, fin (stg f32num (F 1) (F 0) (F 1) (F 0) 1) d (core0 3 LMaxHinge) [F 0] = Some (c1, e1) /\
    fin (eager_fobos f32num (F 1) (F 1) (F 0)) d (core0 3 LMaxHinge) tt = Some (c2, tt) /\
    c_ws c1 = [[F 0; F 15]; [F 0; F (-19)]; [F 0; F 0]] /\
    c_ws c2 = [[F 0; F 15]; [F 0; F (-15)]; [F 0; F 0]].
Proof.
  exists [(pt 0 [(1, 20)], F 0); (pt 0 [(1, 1)], F 0); (pt 0 [(1, 1)], F 0); (pt 0 [(1, 1)], F 0);
          (pt 0 [(1, 1)], F 0)]. split.
  - repeat constructor; cbn; acc.
  - eexists _, _, _. split; [vm_compute; reflexivity|]. split; [vm_compute; reflexivity|]. split; reflexivity.
Qed.
Print Assumptions C31_stg_classes_refuted.
