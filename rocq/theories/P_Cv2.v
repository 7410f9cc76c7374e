(** Proofs about M_Cv: the processes. *)
From Coq Require Import String Permutation.
From Verif Require Import M_Base M_Cv S_Cv.
Local Open Scope list_scope.
Local Open Scope nat_scope.

Lemma upd_len {T} (x : T) l : forall i, length (upd i x l) = length l.
Proof. induction l as [|y l IH]; intros [|i]; cbn; auto. Qed.
Lemma upd_at {T} (x : T) l : forall i, i < length l -> nth_error (upd i x l) i = Some x.
Proof. induction l as [|y l IH]; intros [|i] H; cbn in *; try lia; auto. apply IH. lia. Qed.
Lemma upd_off {T} (x : T) l : forall i j, i <> j -> nth_error (upd i x l) j = nth_error l j.
Proof. induction l as [|y l IH]; intros [|i] [|j] H; cbn; auto; try congruence. Qed.

Section Procs.
Context {A : Type}.
Variable evaluate : nat -> option (A * A).
Notation step := (step evaluate).
Definition busy (ws : list worker) : list nat := flat_map (fun w => match w with Busy k => [k] | _ => [] end) ws.
Definition stops (ws : list worker) : nat := length (filter (fun w => match w with Stopping => true | _ => false end) ws).
Definition good (tr va : list A) (k : nat) : Prop := exists a b, evaluate k = Some (a, b) /\ nth_error tr k = Some a /\ nth_error va k = Some b.
Definition inv (size : nat) (s : sys A) : Prop := exists qs m don lost tr va,
  tasks s = map Some qs ++ repeat None m /\ m + stops (workers s) = 1 /\
  (In Stopping (workers s) \/ In Gone (workers s) -> qs = []) /\
  Permutation (qs ++ busy (workers s) ++ map fst (results s) ++ don ++ lost) (seq 0 size) /\
  Forall (fun k => evaluate k = None) lost /\ (In Dead (workers s) -> lost <> []) /\
  Forall (fun r => evaluate (fst r) = Some (snd r)) (results s) /\
  length tr = size /\ length va = size /\ Forall (good tr va) don /\
  (par s = Collect (size - length don) tr va \/ par s = Finished tr va /\ length don = size /\ forallb ended (workers s) = true).

Lemma inv_start zero size procs : inv size (start zero size procs).
Proof.
  exists (seq 0 size), 1, [], [], (repeat zero size), (repeat zero size). unfold start. cbn [tasks results workers par].
  assert (B : busy (repeat Waiting procs) = []) by (induction procs; cbn; auto).
  assert (S : stops (repeat Waiting procs) = 0) by (induction procs; cbn; auto).
  assert (I : forall w, In w (repeat Waiting procs) -> w = Waiting) by (intros w; apply repeat_spec).
  rewrite B, S. cbn. rewrite app_nil_r, Nat.sub_0_r, repeat_length.
  repeat (split; [auto; fail|]). split; [intros [H|H]; apply I in H; discriminate|]. split; [reflexivity|]. split; [constructor|].
  split; [intros H; apply I in H; discriminate|]. split; [constructor|]. auto.
Qed.

Lemma busy_app a b : busy (a ++ b) = busy a ++ busy b.
Proof. apply flat_map_app. Qed.
Lemma stops_app a b : stops (a ++ b) = stops a + stops b.
Proof. unfold stops. now rewrite filter_app, app_length. Qed.
Lemma none_head (qs : list nat) m (t : list (option nat)) : None :: t = map Some qs ++ repeat None m -> qs = [] /\ exists m', m = S m' /\ t = repeat None m'.
Proof. destruct qs; [|discriminate]. destruct m; [discriminate|]. intros E. injection E as ->. eauto. Qed.
Lemma some_head k (qs : list nat) m (t : list (option nat)) : Some k :: t = map Some qs ++ repeat None m -> exists qs', qs = k :: qs' /\ t = map Some qs' ++ repeat None m.
Proof. destruct qs as [|q qs]; [destruct m; discriminate|]. intros E. injection E as <- ->. eauto. Qed.
Lemma in_mid (w x : worker) a b y : In w (a ++ x :: b) -> w <> x -> In w (a ++ y :: b).
Proof. intros I N. apply in_app_iff in I. apply in_app_iff. destruct I as [I|[I|I]]; [now left|congruence|right; now right]. Qed.

Ltac perm H := apply (Permutation_count_occ Nat.eq_dec); let x := fresh "x" in intros x; rewrite <- (proj1 (Permutation_count_occ Nat.eq_dec _ _) H x);
  repeat (rewrite ?count_occ_app, ?busy_app, ?map_app; cbn [app busy flat_map map fst count_occ]);
  repeat match goal with |- context [Nat.eq_dec ?a ?b] => destruct (Nat.eq_dec a b) end; lia.
Lemma ended_mid a x b : forallb ended (a ++ x :: b) = true -> ended x = true.
Proof. rewrite forallb_app. cbn. intros H. apply andb_prop in H as (_ & H). now apply andb_prop in H as (H & _). Qed.

Lemma inv_step size s s' : inv size s -> step s s' -> inv size s'.
Proof.
  intros (qs & m & don & lost & tr & va & E1 & E2 & E3 & E4 & E5 & E6 & E7 & E8 & E9 & E10 & E11) St.
  inversion St as [k t r a b p|k x t r a b p Ev|k t r a b p Ev|t r a b p|t r a b p|k x t r w n tr' va'|t r w tr' va' En]; subst; cbn [tasks results workers par] in *.
  - (* get *)
    apply some_head in E1 as (qs' & -> & ->). exists qs', m, don, lost, tr, va. cbn [tasks results workers par].
    split; [reflexivity|]. split; [rewrite stops_app in *; exact E2|].
    split; [intros H; discriminate (E3 ltac:(destruct H as [H|H]; [left|right]; (apply (in_mid _ (Busy k)); [exact H|discriminate])))|].
    split; [perm E4|]. split; [exact E5|]. split; [intros H; apply E6; apply (in_mid _ (Busy k)); [exact H|discriminate]|].
    repeat (split; [assumption || reflexivity|]). destruct E11 as [H|(_ & _ & H)]; [now left|apply ended_mid in H; discriminate].
  - (* put *)
    exists qs, m, don, lost, tr, va. cbn [tasks results workers par].
    split; [assumption || reflexivity|]. split; [rewrite stops_app in *; exact E2|].
    split; [intros H; apply E3; destruct H as [H|H]; [left|right]; (apply (in_mid _ Waiting); [exact H|discriminate])|].
    split; [perm E4|]. split; [exact E5|]. split; [intros H; apply E6; apply (in_mid _ Waiting); [exact H|discriminate]|].
    split; [apply Forall_app; split; [exact E7|repeat constructor; exact Ev]|].
    repeat (split; [assumption || reflexivity|]). destruct E11 as [H|(_ & _ & H)]; [now left|apply ended_mid in H; discriminate].
  - (* raise *)
    exists qs, m, don, (k :: lost), tr, va. cbn [tasks results workers par].
    split; [assumption || reflexivity|]. split; [rewrite stops_app in *; exact E2|].
    split; [intros H; apply E3; destruct H as [H|H]; [left|right]; (apply (in_mid _ Dead); [exact H|discriminate])|].
    split; [perm E4|]. split; [now constructor|]. split; [discriminate|].
    repeat (split; [assumption || reflexivity|]). destruct E11 as [H|(_ & _ & H)]; [now left|apply ended_mid in H; discriminate].
  - (* none *)
    apply none_head in E1 as (-> & m' & -> & ->). exists [], m', don, lost, tr, va. cbn [tasks results workers par].
    split; [reflexivity|]. split; [rewrite stops_app in *; cbn in *; lia|].
    split; [reflexivity|]. split; [perm E4|]. split; [exact E5|]. split; [intros H; apply E6; apply (in_mid _ Stopping); [exact H|discriminate]|].
    repeat (split; [assumption || reflexivity|]). destruct E11 as [H|(_ & _ & H)]; [now left|apply ended_mid in H; discriminate].
  - (* again *)
    rewrite (E3 ltac:(left; apply in_app_iff; right; now left)) in *.
    exists [], (m + 1), don, lost, tr, va. cbn [tasks results workers par].
    split; [rewrite E1, repeat_app; reflexivity|]. split; [rewrite stops_app in *; cbn in *; lia|].
    split; [reflexivity|]. split; [perm E4|]. split; [exact E5|]. split; [intros H; apply E6; apply (in_mid _ Gone); [exact H|discriminate]|].
    repeat (split; [assumption || reflexivity|]). destruct E11 as [H|(_ & _ & H)]; [now left|apply ended_mid in H; discriminate].
  - (* collect *)
    destruct E11 as [H|(H & _)]; [|discriminate]. injection H as Hn -> ->.
    inversion E7 as [|? ? Ev F7]; subst. destruct x as [xa xb]. cbn [fst snd] in *.
    assert (ND : NoDup (qs ++ busy w ++ k :: map fst r ++ don ++ lost)) by (apply (Permutation_NoDup (Permutation_sym E4)), seq_NoDup).
    assert (Kd : ~ In k don).
    { rewrite app_assoc in ND. apply NoDup_remove_2 in ND. intros I. apply ND. rewrite !in_app_iff. auto. }
    assert (Ks : k < length tr).
    { assert (I : In k (seq 0 (length tr))) by (apply (Permutation_in k E4); rewrite !in_app_iff; cbn; tauto). apply in_seq in I. lia. }
    exists qs, m, (k :: don), lost, (upd k xa tr), (upd k xb va). cbn [tasks results workers par].
    split; [assumption || reflexivity|]. split; [exact E2|]. split; [exact E3|]. split; [perm E4|]. split; [exact E5|]. split; [exact E6|]. split; [exact F7|].
    split; [now rewrite upd_len|]. split; [now rewrite upd_len|]. split.
    { constructor.
      - exists xa, xb. split; [exact Ev|]. rewrite !upd_at by lia. auto.
      - rewrite Forall_forall in E10 |- *. intros j I. destruct (E10 j I) as (u & v & G1 & G2 & G3). exists u, v.
        rewrite !upd_off by congruence. auto. }
    left. cbn [length]. f_equal. lia.
  - (* join *)
    destruct E11 as [H|(H & _)]; [|discriminate]. injection H as Hn -> ->.
    exists qs, m, don, lost, tr, va. cbn [tasks results workers par]. repeat (split; [assumption || reflexivity|]). right. split; [reflexivity|]. split; [|exact En].
    assert (L := Permutation_length E4). rewrite !app_length, seq_length in L. lia.
Qed.
Lemma inv_runs size n s s' : inv size s -> runs step n s s' -> inv size s'.
Proof. intros I R. induction R as [|n s s1 s2 St R IH]; [exact I|]. apply IH. eapply inv_step; eauto. Qed.

Lemma finished_ok size s tr va : inv size s -> par s = Finished tr va -> length tr = size /\ length va = size /\ forall k, k < size -> good tr va k.
Proof.
  intros (qs & m & don & lost & tr' & va' & E1 & E2 & E3 & E4 & E5 & E6 & E7 & E8 & E9 & E10 & E11) E.
  destruct E11 as [H|(H & L & _)]; [congruence|]. assert (tr' = tr /\ va' = va) as (-> & ->) by (split; congruence). split; [exact E8|]. split; [exact E9|].
  intros k Hk. rewrite Forall_forall in E10. apply E10.
  assert (Len := Permutation_length E4). rewrite !app_length, seq_length in Len.
  assert (qs = [] /\ busy (workers s) = [] /\ map fst (results s) = [] /\ lost = []) as (-> & B & Re & ->).
  { repeat split; apply length_zero_iff_nil; lia. }
  rewrite B, Re in E4. cbn in E4. rewrite app_nil_r in E4. apply (Permutation_in k (Permutation_sym E4)), in_seq. lia.
Qed.

(* a run ends *)
Definition weight (w : worker) : nat := match w with Waiting => 2 | Busy _ => 4 | Stopping => 1 | Gone | Dead => 0 end.
Definition total (ws : list worker) : nat := fold_right (fun w n => weight w + n) 0 ws.
Definition todo (t : list (option nat)) : nat := length (filter (fun x => match x with Some _ => true | None => false end) t).
Definition measure (s : sys A) : nat :=
  3 * todo (tasks s) + total (workers s) + length (results s) + match par s with Collect n _ _ => S n | Finished _ _ => 0 end.
Lemma total_app a b : total (a ++ b) = total a + total b.
Proof. unfold total. induction a as [|x a IH]; [reflexivity|]. cbn. rewrite IH. lia. Qed.
Lemma measure_step s s' : step s s' -> measure s' < measure s.
Proof.
  assert (T : forall t, todo (t ++ [None]) = todo t) by (intros t; unfold todo; rewrite filter_app; cbn; now rewrite app_nil_r).
  intros St. inversion St; subst; unfold measure; cbn [tasks results workers par]; rewrite ?T, ?total_app, ?app_length; cbn; rewrite ?Nat.add_0_r; try lia;
    unfold todo; cbn; lia.
Qed.
Lemma measure_runs n s s' : runs step n s s' -> n + measure s' <= measure s.
Proof. induction 1 as [|n s s1 s2 St R IH]; [lia|]. apply measure_step in St. lia. Qed.
Lemma measure_start zero size procs : measure (start zero size procs) = 4 * size + 2 * procs + 1.
Proof.
  unfold measure, start. cbn [tasks results workers par]. assert (T : total (repeat Waiting procs) = 2 * procs) by (unfold total; induction procs; cbn in *; lia).
  rewrite T. unfold todo. rewrite filter_app. cbn [filter]. rewrite app_nil_r.
  assert (F : forall l : list nat, length (filter (fun x => match x with Some _ => true | None => false end) (map Some l)) = length l) by (induction l; cbn; auto).
  rewrite F, seq_length. cbn. lia.
Qed.

(* a step is possible *)
Lemma step_len s s' : step s s' -> length (workers s') = length (workers s).
Proof. intros St. inversion St; subst; cbn [workers]; rewrite ?app_length; reflexivity. Qed.
Lemma runs_len n s s' : runs step n s s' -> length (workers s') = length (workers s).
Proof. induction 1 as [|n s s1 s2 St R IH]; [reflexivity|]. rewrite IH. now apply step_len. Qed.
Lemma progress size s : inv size s -> (forall k, k < size -> evaluate k <> None) -> 0 < length (workers s) ->
  (exists s', step s s') \/ exists tr va, par s = Finished tr va.
Proof.
  intros (qs & m & don & lost & tr & va & E1 & E2 & E3 & E4 & E5 & E6 & E7 & E8 & E9 & E10 & E11) Ev L.
  destruct E11 as [Ep|(H & _)]; [left|right; eauto].
  destruct s as [t r w p]. cbn [tasks results workers par] in *. subst t p.
  assert (Lost : lost = []).
  { destruct lost as [|k l]; [reflexivity|]. exfalso. inversion E5; subst. apply (Ev k); [|assumption].
    eapply Permutation_in with (x := k) in E4; [apply in_seq in E4; lia|]. rewrite !in_app_iff. cbn. tauto. }
  subst lost.
  destruct (in_dec (fun a b : worker => ltac:(decide equality; apply Nat.eq_dec)) Stopping w) as [I|NS].
  { apply in_split in I as (a & b & ->). eexists. apply S_again. }
  assert (Hb : (exists k, In (Busy k) w) \/ forall k, ~ In (Busy k) w).
  { clear. induction w as [|x w IH]; [right; auto|]. destruct IH as [(k & I)|N]; [left; exists k; now right|].
    destruct x; try (right; intros k [E|I]; [discriminate|now apply (N k)]). left. exists k. now left. }
  destruct Hb as [(k & I)|NB].
  { assert (Hk : k < size).
    { assert (In k (seq 0 size)); [|apply in_seq in H; lia]. apply (Permutation_in k E4). rewrite !in_app_iff. right. left. unfold busy. apply in_flat_map. exists (Busy k). split; [exact I|now left]. }
    apply in_split in I as (a & b & ->). destruct (evaluate k) as [x|] eqn:E; [|destruct (Ev k Hk E)]. eexists. eapply S_put. exact E. }
  assert (S0 : stops w = 0).
  { unfold stops. clear -NS. induction w as [|x w IH]; [reflexivity|]. cbn in *. destruct x; try (apply IH; tauto). tauto. }
  assert (M1 : m = 1) by lia. subst m.
  destruct (in_dec (fun a b : worker => ltac:(decide equality; apply Nat.eq_dec)) Waiting w) as [I|NW].
  { apply in_split in I as (a & b & ->). destruct qs as [|q qs]; cbn; eexists; [apply S_none|apply S_get]. }
  assert (D : ~ In Dead w) by (intros H; apply E6 in H; congruence).
  assert (G : Forall (fun x => x = Gone) w).
  { apply Forall_forall. intros x I. destruct x; try tauto. destruct (NB _ I). }
  assert (En : forallb ended w = true) by (apply forallb_forall; intros x I; rewrite Forall_forall in G; now rewrite (G x I)).
  assert (Q : qs = []).
  { apply E3. right. destruct w as [|x w]; [cbn in L; lia|]. inversion G; subst. now left. }
  assert (B : busy w = []) by (clear -G; induction G as [|x w Hx G IH]; [reflexivity|]; subst; cbn; exact IH).
  destruct (size - length don) as [|n] eqn:Es; [eexists; now apply S_join|].
  destruct r as [|[k x] r]; [|eexists; apply S_collect].
  exfalso. rewrite Q, B in E4. cbn in E4. rewrite app_nil_r in E4. apply Permutation_length in E4. rewrite seq_length in E4. lia.
Qed.
End Procs.
