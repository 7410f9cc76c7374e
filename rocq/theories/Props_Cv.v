(** C69: cross validation in Python (python/cv.py, python/dataset.py). *)
From Coq Require Import String Reals Lra SpecFloat Permutation.
From Verif Require Import M_Base M_Num M_Expr M_DataPoint M_Text M_Str M_Tools S_Text S_Tools Props_Tools M_Cv S_Cv P_Cv P_Cv2 P_Cv3 P_Cv4 P_Cv5.
Local Open Scope list_scope.
Local Open Scope nat_scope.

(** The search space has every combination of the values exactly once. *)
Theorem C69_grid {K V} (ps : list (K * list V)) :
  exists sp ids, search_space ps = Some sp /\ Forall2 (chosen ps) ids sp /\ NoDup ids /\ forall is a, chosen ps is a -> In is ids.
Proof. exact (grid ps). Qed.
Example C69_grid_witness : let ps := [(0, [10; 20]); (1, [5; 6; 7])] in
  search_space ps = Some [[(0, 10); (1, 5)]; [(0, 20); (1, 5)]; [(0, 10); (1, 6)]; [(0, 20); (1, 6)]; [(0, 10); (1, 7)]; [(0, 20); (1, 7)]] /\
  search_space [(0, [10; 20]); (1, [])] = Some [].
Proof. split; reflexivity. Qed.

(** A task trains on every slice but one, each in every pass, and validates on that one. *)
Theorem C69_task {P M D A} (create : P -> option M) (fit : D -> M -> option (A * M)) (score : D -> M -> option A) slices pass fold val p ta va :
  val < fold ->
  (train_val_task create fit score slices pass fold val p = Some (ta, va) <-> validated create fit score slices pass fold val p ta va) /\
  (forall i, In i (others fold val) <-> i < fold /\ i <> val) /\ NoDup (others fold val).
Proof.
  intros H. split; [now apply task_iff|]. split.
  - intros i. unfold others. rewrite in_app_iff, !in_seq. lia.
  - unfold others. assert (N := seq_NoDup fold 0). replace fold with (val + S (fold - S val)) in N by lia. rewrite seq_app in N.
    cbn [seq Nat.add] in N. now apply NoDup_remove_1 in N.
Qed.
Example C69_task_witness :
  train_val_task (fun p => Some [p]) (fun d m => Some (d, m ++ [d])) (fun d m => if list_eq_dec Nat.eq_dec m [9; 10; 12; 10; 12] then Some d else None)
    (fun i => if i <? 3 then Some (10 + i) else None) 2 3 1 9 = Some (12, 11).
Proof. reflexivity. Qed.

Section Procs.
Context {A : Type}.
Variable evaluate : nat -> option (A * A).
(** Whatever the number of processes and in whatever order they run: when the parent is through, it has the results of all settings in
    their places. *)
Theorem C69_results zero size procs n s tr va :
  runs (step evaluate) n (start zero size procs) s -> finished s tr va ->
  length tr = size /\ length va = size /\
  forall k, k < size -> exists a b, evaluate k = Some (a, b) /\ nth_error tr k = Some a /\ nth_error va k = Some b.
Proof. intros R F. apply (finished_ok evaluate size s tr va); [|exact F]. eapply inv_runs; [apply inv_start|exact R]. Qed.
(** If there is a process and no task raises an exception, the parent gets through: runs are bounded and never get stuck before. *)
Theorem C69_ends zero size procs : 0 < procs -> (forall k, k < size -> evaluate k <> None) ->
  forall n s, runs (step evaluate) n (start zero size procs) s ->
    n <= 4 * size + 2 * procs + 1 /\ ((exists s', step evaluate s s') \/ exists tr va, finished s tr va).
Proof.
  intros Hp Ev n s R. split.
  - assert (H := measure_runs evaluate n _ s R). rewrite (measure_start evaluate) in H. lia.
  - apply (progress evaluate size); [eapply inv_runs; [apply inv_start|exact R]|exact Ev|].
    rewrite (runs_len evaluate _ _ _ R). cbn. rewrite repeat_length. exact Hp.
Qed.
(** If one task raises an exception, the parent waits for ever: every run stops, and none has finished. *)
Theorem C69_exception zero size procs k : k < size -> evaluate k = None ->
  forall n s, runs (step evaluate) n (start zero size procs) s ->
    n <= 4 * size + 2 * procs + 1 /\ forall tr va, ~ finished s tr va.
Proof.
  intros Hk E n s R. split.
  - assert (H := measure_runs evaluate n _ s R). rewrite (measure_start evaluate) in H. lia.
  - intros tr va F. destruct (C69_results _ _ _ _ _ _ _ R F) as (_ & _ & H). destruct (H k Hk) as (a & b & E' & _). congruence.
Qed.
End Procs.
(** Two settings, two processes; the second setting is ready first. *)
Example C69_results_witness : let ev k := Some (k, 10 + k) in
  exists n s, runs (step ev) n (start 0 2 2) s /\ finished s [0; 1] [10; 11].
Proof.
  eexists. eexists. split.
  - unfold start. cbn.
    eapply R_step; [apply (S_get _ 0 _ _ [] [Waiting])|]. eapply R_step; [apply (S_get _ 1 _ _ [Busy 0] [])|].
    eapply R_step; [apply (S_put _ 1 (1, 11) _ _ [Busy 0] []); reflexivity|]. eapply R_step; [apply S_collect|].
    eapply R_step; [apply (S_none _ _ _ [Busy 0] [])|]. eapply R_step; [apply (S_put _ 0 (0, 10) _ _ [] [Stopping]); reflexivity|].
    eapply R_step; [apply (S_again _ _ _ [Waiting] [])|]. eapply R_step; [apply (S_none _ _ _ [] [Gone])|]. eapply R_step; [apply (S_again _ _ _ [] [Gone])|].
    eapply R_step; [apply S_collect|]. eapply R_step; [apply S_join; reflexivity|]. apply R_none.
  - reflexivity.
Qed.
(** The only process is ended by the first task: nothing happens any more and the second task is never done. *)
Example C69_exception_witness : let ev k := if Nat.eqb k 0 then None else Some (k, 10 + k) in
  exists s, runs (step ev) 2 (start 0 2 1) s /\ tasks s = [Some 1; None] /\ workers s = [Dead] /\ forall s', ~ step ev s s'.
Proof.
  cbn zeta. eexists. split; [|split; [|split]].
  - unfold start. cbn [map seq repeat app]. eapply R_step; [apply (S_get _ 0 _ _ [] [])|]. eapply R_step; [apply (S_raise _ 0 _ _ [] []); reflexivity|]. apply R_none.
  - reflexivity.
  - reflexivity.
  - intros s' St. inversion St; subst; try discriminate; repeat match goal with H : ?a ++ _ = [] ++ [_] |- _ => destruct a as [|? [|]]; discriminate H | H : ?a ++ _ = [_] |- _ => destruct a as [|? [|]]; discriminate H end.
Qed.
(** Without a process nothing happens. *)
Theorem C69_no_process_refuted : exists size s, runs (step (fun k : nat => Some (k, k))) 0 (start 0 size 0) s /\ 0 < size /\
  (forall s', ~ step (fun k => Some (k, k)) s s') /\ forall tr va, ~ finished s tr va.
Proof.
  exists 1. eexists. split; [apply R_none|]. split; [lia|]. split; [|intros tr va; discriminate].
  intros s' St. inversion St; try (now destruct a). 
Qed.

(** The table of the scores after the first call of train_val, in exact arithmetic: the results of the folds and their mean. *)
Theorem C69_average fold size cols k : 0 < fold -> length cols = fold -> Forall (fun c => length c = size) cols -> k < size ->
  exists vals, nth_error (table Rnum fold cols (no_scores Rnum size fold)) k = Some (vals ++ [mean vals]) /\ length vals = fold /\
    forall v c, nth_error cols v = Some c -> nth_error vals v = nth_error c k.
Proof. exact (table_row fold size cols k). Qed.
Example C69_average_witness : let cols := [[1; 0]; [0; 1/2]]%R in length cols = 2 /\ Forall (fun c => length c = 2) cols /\
  nth_error (table Rnum 2 cols (no_scores Rnum 2 2)) 0 = Some [1; 0; mean [1; 0]]%R.
Proof.
  split; [reflexivity|]. split; [repeat constructor|]. destruct (C69_average 2 2 [[1; 0]; [0; 1/2]]%R 0) as (vals & E & L & H); [lia|reflexivity|repeat constructor|lia|].
  rewrite E. assert (H0 := H 0 _ eq_refl). assert (H1 := H 1 _ eq_refl). destruct vals as [|x [|y [|]]]; try discriminate L. cbn in H0, H1. now injection H0 as ->; injection H1 as ->.
Qed.

Section Best.
Context {K V : Type}.
(** The accuracies of a setting: fold, setting; training, validation. *)
Variable accuracy : nat -> list (K * V) -> option (R * R).
Definition val_scores (fold : nat) (a : list (K * V)) (ys : list R) : Prop :=
  Forall2 (fun v y => exists t, accuracy v a = Some (t, y)) (seq 0 fold) ys.
Lemma chosen_det (ps : list (K * list V)) is a b : chosen ps is a -> chosen ps is b -> a = b.
Proof. intros H. revert b. induction H; intros b Hb; inversion Hb; subst; [reflexivity|]. f_equal; [congruence|auto]. Qed.
Lemma F2_nth {X Y} (P : X -> Y -> Prop) l r : Forall2 P l r -> forall k x, nth_error l k = Some x -> exists y, nth_error r k = Some y /\ P x y.
Proof. induction 1 as [|x y l r H F IH]; intros [|k] z E; cbn in *; try discriminate; [injection E as <-; eauto|auto]. Qed.
Lemma F2_nth' {X Y} (P : X -> Y -> Prop) l r : Forall2 P l r -> forall k y, nth_error r k = Some y -> exists x, nth_error l k = Some x /\ P x y.
Proof. induction 1 as [|x y l r H F IH]; intros [|k] z E; cbn in *; try discriminate; [injection E as <-; eauto|auto]. Qed.
Lemma F2_len {X Y} (P : X -> Y -> Prop) l r : Forall2 P l r -> length l = length r.
Proof. induction 1; cbn; auto. Qed.
Lemma F2_intro {X Y} (P : X -> Y -> Prop) : forall l r, length l = length r -> (forall k x y, nth_error l k = Some x -> nth_error r k = Some y -> P x y) -> Forall2 P l r.
Proof. induction l as [|x l IH]; intros [|y r] L H; try discriminate; constructor; [now apply (H 0)|]. apply IH; [cbn in L; lia|]. intros k. apply (H (S k)). Qed.
(** Cross validation finds the best setting: after folds that have all finished, in whatever order their processes ran, get_best_param gives a
    combination of the given values of which the mean validation accuracy is that of no other combination exceeded. *)
Theorem C69_selects (ps : list (K * list V)) sp fold procs (tr va : nat -> list R) :
  search_space ps = Some sp -> sp <> [] -> 0 < fold ->
  (forall v, v < fold -> exists n s,
     runs (step (fun k => match nth_error sp k with Some a => accuracy v a | None => None end)) n (start 0%R (length sp) procs) s /\ finished s (tr v) (va v)) ->
  exists a i ys, best_param Rnum sp fold (table Rnum fold (map va (seq 0 fold)) (no_scores Rnum (length sp) fold)) = Some (a, i) /\
    (exists is, chosen ps is a) /\ val_scores fold a ys /\
    forall is' a', chosen ps is' a' -> exists ys', val_scores fold a' ys' /\ (mean ys' <= mean ys)%R.
Proof.
  intros Es N0 Hf Hr. set (size := length sp). set (cols := map va (seq 0 fold)). set (tbl := table Rnum fold cols (no_scores Rnum size fold)).
  destruct (grid ps) as (sp' & ids & Es' & Fc & ND & All). rewrite Es in Es'. injection Es' as <-.
  assert (Res : forall v, v < fold -> length (va v) = size /\ forall k a, nth_error sp k = Some a -> exists t y, accuracy v a = Some (t, y) /\ nth_error (va v) k = Some y).
  { intros v Hv. destruct (Hr v Hv) as (n & s & R & F). destruct (C69_results _ _ _ _ _ _ _ _ R F) as (_ & L & H). split; [exact L|].
    intros k a E. destruct (H k) as (t & y & E1 & _ & E3); [apply nth_error_Some; congruence|]. rewrite E in E1. eauto. }
  assert (Lc : length cols = fold) by (unfold cols; now rewrite map_length, seq_length).
  assert (Fl : Forall (fun c => length c = size) cols).
  { apply Forall_forall. intros c I. apply in_map_iff in I as (v & <- & I). apply in_seq in I. apply Res. lia. }
  assert (Nc : forall v, v < fold -> nth_error cols v = Some (va v)).
  { intros v Hv. unfold cols. rewrite nth_error_map. rewrite (nth_error_nth' _ 0) by (now rewrite seq_length). cbn. now rewrite seq_nth. }
  assert (Row : forall k a, nth_error sp k = Some a -> exists ys, nth_error tbl k = Some (ys ++ [mean ys]) /\ length ys = fold /\ val_scores fold a ys).
  { intros k a E. destruct (C69_average fold size cols k Hf Lc Fl) as (ys & E1 & E2 & E3); [apply nth_error_Some; congruence|].
    exists ys. split; [exact E1|]. split; [exact E2|]. apply F2_intro; [now rewrite seq_length|]. intros v w y Ew Ey.
    assert (Hv : v < fold) by (rewrite <- E2; apply nth_error_Some; congruence).
    assert (w = v) as ->. { apply (nth_error_nth _ _ 0) in Ew. rewrite seq_nth in Ew by exact Hv. auto. }
    destruct (Res v Hv) as (_ & H). destruct (H k a E) as (t & y' & G1 & G2). rewrite (E3 v _ (Nc v Hv)), G2 in Ey. injection Ey as <-. eauto. }
  assert (Lt : length tbl = size). { unfold tbl, table. rewrite set_col_len, set_cols_len. apply repeat_length. }
  assert (Col : exists c, column fold tbl = Some c).
  { assert (G : forall m : list (list R), Forall (fun row => nth_error row fold <> None) m -> exists c, column fold m = Some c).
    { induction 1 as [|row m H F (c & IH)]; cbn; [eauto|]. destruct (nth_error row fold); [|contradiction]. cbn. rewrite IH. cbn. eauto. }
    apply G, Forall_forall. intros row I. apply In_nth_error in I as (k & E).
    assert (Hk : k < length sp) by (fold size; rewrite <- Lt; apply nth_error_Some; congruence).
    destruct (nth_error sp k) as [a|] eqn:Ea; [|apply nth_error_None in Ea; lia]. destruct (Row k a Ea) as (ys & E1 & E2 & _). rewrite E in E1. injection E1 as ->.
    rewrite nth_error_app2 by lia. rewrite E2, Nat.sub_diag. discriminate. }
  destruct Col as (c & Ec). assert (Fr := proj1 (column_rows fold tbl c) Ec).
  assert (Lcc : length c = size) by (rewrite <- (F2_len _ _ _ Fr); exact Lt).
  assert (Cm : forall k a, nth_error sp k = Some a -> exists ys, nth_error c k = Some (mean ys) /\ val_scores fold a ys).
  { intros k a E. destruct (Row k a E) as (ys & E1 & E2 & E3). destruct (F2_nth _ _ _ Fr k _ E1) as (y & G1 & G2).
    rewrite nth_error_app2 in G2 by lia. rewrite E2, Nat.sub_diag in G2. injection G2 as <-. eauto. }
  destruct (argmax Rnum c) as [i|] eqn:Ei.
  2: { destruct c; [|discriminate]. cbn in Lcc. destruct sp; [contradiction|]. discriminate Lcc. }
  destruct (argmax_ok c i Ei) as (x & Ex & Max).
  destruct (nth_error sp i) as [a|] eqn:Ea.
  2: { apply nth_error_None in Ea. assert (i < length c) by (apply nth_error_Some; congruence). unfold size in Lcc. lia. }
  destruct (Cm i a Ea) as (ys & G1 & G2). rewrite Ex in G1. injection G1 as ->.
  exists a, i, ys. split; [unfold best_param; fold tbl; rewrite Ec; cbn [bind]; rewrite Ei; cbn [bind]; rewrite Ea; reflexivity|].
  split; [destruct (F2_nth' _ _ _ Fc i a Ea) as (is & _ & H); eauto|]. split; [exact G2|].
  intros is' a' Ch. destruct (In_nth_error _ _ (All _ _ Ch)) as (k & Ek). destruct (F2_nth _ _ _ Fc k _ Ek) as (b & Eb & Cb).
  rewrite (chosen_det _ _ _ _ Cb Ch) in Eb. destruct (Cm k a' Eb) as (ys' & G3 & G4). exists ys'. split; [exact G4|]. now destruct (Max k _ G3).
Qed.
End Best.
(** One parameter with two values, two folds, one process: the second value is chosen. *)
Example C69_selects_witness : let acc := fun (v : nat) (a : list (nat * nat)) => match a with [(_, x)] => Some (0%R, INR x) | _ => None end in
  let sp := [[(7, 1)]; [(7, 2)]] in
  search_space [(7, [1; 2])] = Some sp /\
  (forall v, v < 2 -> exists n s, runs (step (fun k => match nth_error sp k with Some a => acc v a | None => None end)) n (start 0%R 2 1) s /\ finished s [0; 0]%R [INR 1; INR 2]) /\
  best_param Rnum sp 2 (table Rnum 2 [[INR 1; INR 2]; [INR 1; INR 2]] (no_scores Rnum 2 2)) = Some ([(7, 2)], 1).
Proof.
  cbn zeta.
  assert (H : forall v, v < 2 -> exists n s, runs (step (fun k => match nth_error [[(7, 1)]; [(7, 2)]] k with Some a => match a with [(_, x)] => Some (0%R, INR x) | _ => None end | None => None end)) n (start 0%R 2 1) s /\ finished s [0; 0]%R [INR 1; INR 2]).
  { intros v _. eexists. eexists. split.
    - unfold start. cbn [map seq repeat app].
      eapply R_step; [apply (S_get _ 0 _ _ [] [])|]. eapply R_step; [apply (S_put _ 0 (0%R, INR 1) _ _ [] []); reflexivity|].
      eapply R_step; [apply (S_get _ 1 _ _ [] [])|]. eapply R_step; [apply (S_put _ 1 (0%R, INR 2) _ _ [] []); reflexivity|].
      eapply R_step; [apply (S_none _ _ _ [] [])|]. eapply R_step; [apply (S_again _ _ _ [] [])|].
      eapply R_step; [apply S_collect|]. eapply R_step; [apply S_collect|]. eapply R_step; [apply S_join; reflexivity|]. apply R_none.
    - reflexivity. }
  split; [reflexivity|]. split; [exact H|].
  destruct (C69_selects (fun (v : nat) (a : list (nat * nat)) => match a with [(_, x)] => Some (0%R, INR x) | _ => None end) [(7, [1; 2])] [[(7, 1)]; [(7, 2)]] 2 1 (fun _ => [0; 0]%R) (fun _ => [INR 1; INR 2]))
    as (a & i & ys & E & (is & Ch) & Vs & Best); [reflexivity|discriminate|lia|exact H|].
  cbn [map seq length] in E. rewrite E.
  assert (Ha : a = [(7, 1)] /\ i = 0 \/ a = [(7, 2)] /\ i = 1).
  { unfold best_param in E. destruct (column _ _) as [c|]; [|discriminate]. cbn [bind] in E. destruct (argmax Rnum c) as [j|]; [|discriminate]. cbn [bind] in E.
    destruct j as [|[|j]]; cbn in E; [injection E as <- <-; auto|injection E as <- <-; auto|destruct j; discriminate]. }
  destruct Ha as [(-> & ->)|(-> & ->)]; [|reflexivity]. exfalso.
  destruct (Best [1] [(7, 2)]) as (ys' & Vs' & Le); [constructor; [reflexivity|constructor]|].
  assert (G : forall x zs, val_scores (fun (v : nat) (a : list (nat * nat)) => match a with [(_, x)] => Some (0%R, INR x) | _ => None end) 2 [(7, x)] zs -> mean zs = INR x).
  { intros x zs V. inversion V as [|? y1 ? z1 (t1 & E1) V1]; subst. inversion V1 as [|? y2 ? z2 (t2 & E2) V2]; subst. inversion V2; subst.
    injection E1 as _ <-. injection E2 as _ <-. unfold mean. cbn [fold_right length]. change (INR 2) with 2%R. field. }
  rewrite (G _ _ Vs), (G _ _ Vs') in Le. cbn in Le. lra.
Qed.

(** A second call of train_val adds the old mean to the sum: here the mean of two accuracies of one half becomes one, and the worse setting is
    chosen. *)
Definition F1 := f32_int 1. Definition F0 := f32_int 0. Definition F12 := f32_lit 5 (-1). Definition F34 := f32_lit 75 (-2).
Theorem C69_again_refuted : exists cols1 cols2 : list (list f32),
  let t1 := table f32num 2 cols1 (no_scores f32num 2 2) in
  nth_error (table f32num 2 cols2 t1) 0 = Some [F12; F12; F1] /\
  best_param f32num [0; 1] 2 (table f32num 2 cols2 t1) = Some (0, 0) /\
  best_param f32num [0; 1] 2 (table f32num 2 cols2 (no_scores f32num 2 2)) = Some (1, 1).
Proof. exists [[F1; F0]; [F1; F0]], [[F12; F34]; [F12; F34]]. vm_compute. auto. Qed.
(** A slice without examples (the accuracy is then no number) makes the first setting the best. *)
Theorem C69_empty_slice_refuted : exists cols : list (list f32),
  cols = [[F0; F1]; [S754_nan; S754_nan]] /\ best_param f32num [0; 1] 2 (table f32num 2 cols (no_scores f32num 2 2)) = Some (0, 0).
Proof. eexists. split; [reflexivity|]. vm_compute. reflexivity. Qed.

(** Slices: after any calls of split_file with a type, none of which ended the program, the slices asked for last are the slices of one and the
    same split into that number. *)
Theorem C69_slices {F} (one_split : nat -> (nat -> F) -> Prop) split_data dtype l n t d d1 d2 :
  splits one_split split_data -> (forall i u, d i u = None) -> Forall (fun c => 0 < fst c /\ snd c <> None) l ->
  calls (split_file split_data dtype) l d d1 -> 0 < n -> split_file split_data dtype n (Some t) d1 = (true, d2) ->
  one_set one_split d2 t n.
Proof.
  intros Sp D Fl C Hn E. apply (split_file_ok one_split split_data Sp dtype n t d1 d2 Hn); [|exact E].
  apply (calls_tidy one_split split_data Sp dtype l d d1 Fl); [|exact C]. intros u. now left.
Qed.
(** A split tool whose files say into how many slices the data were split. *)
Definition tool (n : nat) (t : list Z) (d : dir (nat * nat)) : Z * dir (nat * nat) :=
  (0%Z, fun i u => if (i <? n) && str_eqb u t then Some (n, i) else d i u).
Definition of_one (n : nat) (g : nat -> nat * nat) : Prop := forall i, g i = (n, i).
Lemma tool_splits : splits of_one tool.
Proof.
  intros n t d d' E. injection E as <-. exists (fun i => (n, i)). split; [intros i; reflexivity|]. split.
  - intros i Hi. assert (B : (i <? n) = true) by now apply Nat.ltb_lt. rewrite B, (proj2 (str_eqb_iff t t) eq_refl). reflexivity.
  - intros i u H. destruct (Nat.ltb_spec i n); cbn; [|reflexivity]. destruct (str_eqb u t) eqn:E; [|reflexivity]. apply str_eqb_iff in E. exfalso. auto.
Qed.
Definition empty : dir (nat * nat) := fun _ _ => None.
Example C69_slices_witness : exists d1 d2,
  calls (split_file tool (bytes "svm")) [(4, Some (bytes "bin")); (2, Some (bytes "bin")); (3, Some (bytes "svm"))] empty d1 /\
  split_file tool (bytes "svm") 3 (Some (bytes "bin")) d1 = (true, d2) /\ d2 2 (bytes "bin") = Some (3, 2) /\ d2 3 (bytes "bin") = None /\ d1 3 (bytes "bin") = Some (4, 3).
Proof.
  eexists. eexists. split.
  - econstructor; [reflexivity|]. econstructor; [reflexivity|]. econstructor; [reflexivity|]. constructor.
  - split; [reflexivity|]. vm_compute. auto.
Qed.
(** Without a type (the default) the slices of the type of the data file get mixed. *)
Theorem C69_slices_type_refuted : exists d1 d2, splits of_one tool /\
  calls (split_file tool (bytes "svm")) [(3, Some (bytes "svm")); (2, None)] empty d1 /\
  split_file tool (bytes "svm") 3 (Some (bytes "svm")) d1 = (true, d2) /\ ~ one_set of_one d2 (bytes "svm") 3.
Proof.
  eexists. eexists. split; [exact tool_splits|]. split; [econstructor; [reflexivity|]; econstructor; [reflexivity|]; constructor|].
  split; [reflexivity|]. intros (g & G & H). specialize (H 0 ltac:(lia)). rewrite (G 0) in H. vm_compute in H. discriminate.
Qed.
(** A program that ended because a slice could not be written leaves a mixture that the next program takes for good. *)
Definition failing (n : nat) (t : list Z) (d : dir (nat * nat)) : Z * dir (nat * nat) :=
  if Nat.eqb n 2 then (1%Z, fun i u => if (i <? 1) && str_eqb u t then Some (n, i) else d i u) else tool n t d.
Theorem C69_slices_failure_refuted : exists d1 d2 d3, splits of_one failing /\
  calls (split_file failing (bytes "svm")) [(3, Some (bytes "bin"))] empty d1 /\
  split_file failing (bytes "svm") 2 (Some (bytes "bin")) d1 = (false, d2) /\
  split_file failing (bytes "svm") 2 (Some (bytes "bin")) d2 = (true, d3) /\ ~ one_set of_one d3 (bytes "bin") 2.
Proof.
  eexists. eexists. eexists. split.
  { intros n t d d' E. unfold failing in E. destruct (Nat.eqb n 2); [discriminate|]. now apply tool_splits. }
  split; [econstructor; [reflexivity|]; constructor|]. split; [reflexivity|]. split; [reflexivity|].
  intros (g & G & H). specialize (H 1 ltac:(lia)). rewrite (G 1) in H. vm_compute in H. discriminate.
Qed.

(** The slices of one split by the tool: the slice to validate on and those to train on make up the data, each example once. *)
Definition from_split {V} (bs : list (list (point V))) (n : nat) (g : nat -> list (point V)) : Prop :=
  exists perm d fs, Permutation perm (seq 0 (length (concat bs))) /\ split (Z.of_nat n) (Some perm) bs = Some (d, fs) /\
    forall i, i < n -> nth_error fs i = Some (g i).
Theorem C69_partition {V} (bs : list (list (point V))) n g v :
  (1 <= Z.of_nat n < 2147483648)%Z -> (1 <= Z.of_nat (length (concat bs)) <= 16777216)%Z -> from_split bs n g -> v < n ->
  Permutation (g v ++ concat (map g (others n v))) (concat bs).
Proof.
  intros Hn Hl (perm & d & fs & Hp & E & H) Hv.
  destruct (C40_split V (Z.of_nat n) (Some perm) bs Hn Hl Hp) as (d' & l & fs' & E' & P & _ & C & Cat). rewrite E in E'. injection E' as <- <-.
  assert (L : length fs = n) by (rewrite <- (Nat2Z.id n); apply C).
  assert (M : fs = map g (seq 0 n)).
  { apply nth_ext with (d := []) (d' := []); [now rewrite map_length, seq_length|]. rewrite L. intros i Hi. rewrite (nth_error_nth _ _ [] (H i Hi)).
    symmetry. apply nth_error_nth. rewrite nth_error_map, (nth_error_nth' _ 0) by (now rewrite seq_length). cbn. now rewrite seq_nth. }
  rewrite <- P, <- Cat, M. unfold others. replace (seq 0 n) with (seq 0 v ++ v :: seq (S v) (n - S v)).
  - rewrite !map_app, !concat_app. cbn [map concat]. rewrite !app_assoc. apply Permutation_app_tail, Permutation_app_comm.
  - replace n with (v + S (n - S v)) at 2 by lia. rewrite seq_app. reflexivity.
Qed.
Definition ex (l i : Z) : point Z := mkpt l [i] [1%Z].
Example C69_partition_witness : let bs := [[ex 1 1; ex 2 2; ex 3 3]; [ex 4 4; ex 5 9]] in
  from_split bs 3 (fun i => nth i [[ex 5 9; ex 1 1]; [ex 3 3; ex 2 2]; [ex 4 4]] []).
Proof.
  cbn zeta. exists [4; 0; 2; 1; 3]. eexists. eexists. split; [|split; [vm_compute; reflexivity|]].
  - apply NoDup_Permutation; [repeat constructor; cbn; lia|repeat constructor; cbn; lia|intros x; cbn; lia].
  - intros [|[|[|i]]] Hi; try reflexivity. lia.
Qed.

(** DataSet reads from the report the numbers that analyze has written to it. *)
Theorem C69_info r sp :
  (0 <= r_data r < two64)%Z -> (0 <= r_feats r < two64)%Z -> (0 <= r_dim r < two64)%Z -> (0 <= r_used r < two64)%Z -> (0 <= r_class_num r < two64)%Z ->
  Forall (fun c => is_i32 (fst c) /\ (0 <= snd c < two64)%Z) (r_classes r) ->
  match sp with None => True | Some s => Forall (fun c => digit_char c \/ c = 45%Z \/ c = 46%Z) s end ->
  exists text, report_text r sp = Some text /\ dataset_info text = Some (r_data r, r_dim r, r_class_num r).
Proof. exact (info_ok r sp). Qed.
Example C69_info_witness : exists text, report_text (mkreport 3 3 5 2 2 [(-1, 1); (3, 2)]%Z) (Some (bytes "66.67")) = Some text /\
  text = (bytes "data number  : 3" ++ [10] ++ bytes "feat number  : 3" ++ [10] ++ bytes "dimension    : 5" ++ [10] ++ bytes "nonzero feat : 2" ++ [10] ++
    bytes "class num    : 2" ++ [10] ++ bytes "data sparsity: 66.67%" ++ [10] ++ bytes "data number of class -1 : 1" ++ [10] ++ bytes "data number of class 3 : 2" ++ [10])%Z /\
  dataset_info text = Some (3, 5, 2)%Z.
Proof. eexists. split; [vm_compute; reflexivity|]. split; vm_compute; reflexivity. Qed.

(** A number is read from a text only if it is there, all its digits, behind the name and a colon ... *)
Theorem C69_report_sound name text n : info name text = Some n -> exists pre a b ds post,
  text = pre ++ bytes name ++ a ++ 58%Z :: b ++ ds ++ post /\ Forall (fun c => M_Str.is_space c = true) (a ++ b) /\ ds <> [] /\
  Forall (fun c => is_digit c = true) ds /\ (post = [] \/ exists c r, post = c :: r /\ is_digit c = false) /\ n = digits_value 0 ds.
Proof. exact (info_sound name text n). Qed.
(** ... and there is no second one. *)
Theorem C69_report_twice n gap ds gap' ds' t : In n ["data number"; "dimension"; "class num"]%string ->
  ds <> [] -> Forall digit_char ds -> Forall (fun c => c = 32%Z) gap -> ds' <> [] -> Forall digit_char ds' -> Forall (fun c => c = 32%Z) gap' ->
  info n ((bytes n ++ gap ++ [58; 32]%Z) ++ ds ++ 10%Z :: (bytes n ++ gap' ++ [58; 32]%Z) ++ ds' ++ 10%Z :: t) = None.
Proof. exact (info_twice n gap ds gap' ds' t). Qed.
Example C69_report_witness : info "dimension" (bytes "x dimension    : 12" ++ [10]%Z) = Some 12%Z /\ info "dimension" (bytes "dimension 12") = None /\
  info "dimension" (bytes "dimension: ") = None /\ info "dimension" (bytes "dimension: 1" ++ [10]%Z ++ bytes "dimension: 1" ++ [10]%Z) = None.
Proof. repeat split; vm_compute; reflexivity. Qed.

Print Assumptions C69_grid.
Print Assumptions C69_task.
Print Assumptions C69_results.
Print Assumptions C69_ends.
Print Assumptions C69_exception.
Print Assumptions C69_no_process_refuted.
Print Assumptions C69_average.
Print Assumptions C69_selects.
Print Assumptions C69_again_refuted.
Print Assumptions C69_empty_slice_refuted.
Print Assumptions C69_slices.
Print Assumptions C69_slices_type_refuted.
Print Assumptions C69_slices_failure_refuted.
Print Assumptions C69_partition.
Print Assumptions C69_info.
Print Assumptions C69_report_sound.
Print Assumptions C69_report_twice.
