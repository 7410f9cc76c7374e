(** Proofs for M_Script. *)
From Coq Require Import String.
From Verif Require Import M_Base M_Num M_Expr M_Text M_Str M_Cmd M_Capi M_Cv M_Py M_Script S_Script.
Local Open Scope list_scope.
Local Open Scope Z_scope.

Lemma str_eqb_iff (a b : list Z) : str_eqb a b = true <-> a = b.
Proof.
  revert b. induction a as [|x a IH]; intros [|y b]; cbn; split; intros H; try congruence; try discriminate.
  - apply andb_prop in H as (A & B). apply Z.eqb_eq in A. apply IH in B. congruence.
  - inversion H; subst. rewrite Z.eqb_refl. cbn. now apply IH.
Qed.
Lemma str_eqb_refl a : str_eqb a a = true.
Proof. now apply str_eqb_iff. Qed.
Lemma str_neq a b : a <> b -> str_eqb a b = false.
Proof. intros H. destruct (str_eqb a b) eqn:E; [|reflexivity]. apply str_eqb_iff in E. contradiction. Qed.
Lemma dget_has k d v : proper d -> (dget k d = Some v <-> has d k v).
Proof.
  unfold proper, has. induction d as [|(n, x) d IH]; cbn; intros P; [split; [discriminate|tauto]|]. inversion P as [|? ? Hn P']; subst.
  destruct (str_eqb n k) eqn:E.
  - apply str_eqb_iff in E. subst n. split.
    + intros H. inversion H. now left.
    + intros [H|H]; [congruence|]. exfalso. apply Hn. change k with (fst (k, v)). now apply in_map.
  - rewrite (IH P'). split; [now right|]. intros [H|H]; [|exact H]. inversion H; subst. now rewrite str_eqb_refl in E.
Qed.
Lemma dget_key k d : dget k d <> None <-> has_key d k.
Proof.
  unfold has_key. induction d as [|(n, x) d IH]; cbn; [tauto|]. destruct (str_eqb n k) eqn:E.
  - apply str_eqb_iff in E. subst. split; [now left|discriminate].
  - rewrite IH. split; [now right|]. intros [->|H]; [|exact H]. now rewrite str_eqb_refl in E.
Qed.
Lemma has_has_key d k v : has d k v -> has_key d k.
Proof. intros H. change k with (fst (k, v)). now apply in_map. Qed.
(** d[k] = v *)
Lemma assign_keys d k (v : pyval) j : has_key (assign str_eqb d k v) j <-> has_key d j \/ j = k.
Proof.
  unfold has_key. induction d as [|(n, x) d IH]; cbn; [intuition|]. destruct (str_eqb n k) eqn:E; cbn.
  - apply str_eqb_iff in E. subst. intuition.
  - rewrite IH. tauto.
Qed.
Lemma assign_proper d k (v : pyval) : proper d -> proper (assign str_eqb d k v).
Proof.
  unfold proper. induction d as [|(n, x) d IH]; cbn; intros P; [constructor; [tauto|constructor]|]. inversion P as [|? ? Hn P']; subst.
  destruct (str_eqb n k) eqn:E; cbn; constructor; auto. fold (has_key (assign str_eqb d k v) n). rewrite assign_keys. intros [H|H]; [contradiction|]. subst.
  now rewrite str_eqb_refl in E.
Qed.
Lemma dget_assign d k (v : pyval) j : dget j (assign str_eqb d k v) = if str_eqb k j then Some v else dget j d.
Proof.
  induction d as [|(n, x) d IH]; cbn; [reflexivity|]. destruct (str_eqb n k) eqn:E; cbn.
  - apply str_eqb_iff in E. subst. now destruct (str_eqb k j).
  - rewrite IH. destruct (str_eqb n j) eqn:F; [|reflexivity]. apply str_eqb_iff in F. subst. destruct (str_eqb k j) eqn:G; [|reflexivity].
    apply str_eqb_iff in G. subst. now rewrite str_eqb_refl in E.
Qed.
Lemma update_proper e : forall d, proper d -> proper (update (V := pyval) str_eqb d e).
Proof. unfold update. induction e as [|(n, x) e IH]; cbn; intros d P; [exact P|]. apply IH. now apply assign_proper. Qed.
Lemma dget_update e : forall d j, proper e -> dget j (update (V := pyval) str_eqb d e) = match dget j e with Some v => Some v | None => dget j d end.
Proof.
  unfold update. induction e as [|(n, x) e IH]; cbn; intros d j P; [reflexivity|]. inversion P as [|? ? Hn P']; subst. rewrite (IH _ _ P'). rewrite dget_assign. cbn [fst snd].
  destruct (str_eqb n j) eqn:E; [|reflexivity]. apply str_eqb_iff in E. subst. destruct (dget j e) eqn:F; [|reflexivity]. exfalso. apply Hn. apply dget_key. congruence.
Qed.
Lemma ddel_proper k d : proper d -> proper (ddel k d).
Proof.
  unfold proper, ddel. induction d as [|(n, x) d IH]; cbn; intros P; [exact P|]. inversion P as [|? ? Hn P']; subst. destruct (negb (str_eqb n k)); cbn; [|auto].
  constructor; [|auto]. rewrite in_map_iff. intros ((a, b) & Ha & Hi). cbn in Ha. subst. apply filter_In in Hi as (Hi & _). apply Hn. change n with (fst (n, b)). now apply in_map.
Qed.
Lemma dget_ddel k d j : dget j (ddel k d) = if str_eqb k j then None else dget j d.
Proof.
  unfold ddel. induction d as [|(n, x) d IH]; cbn; [now destruct (str_eqb k j)|]. destruct (str_eqb n k) eqn:E; cbn.
  - apply str_eqb_iff in E. subst. rewrite IH. now destruct (str_eqb k j).
  - rewrite IH. destruct (str_eqb n j) eqn:F; [|reflexivity]. apply str_eqb_iff in F. subst. destruct (str_eqb k j) eqn:G; [|reflexivity].
    apply str_eqb_iff in G. subst. now rewrite str_eqb_refl in E.
Qed.
Lemma dget_dput k v d j : dget j (dput k v d) = match v with Some x => if str_eqb k j then Some x else dget j d | None => dget j d end.
Proof. destruct v; cbn; [apply dget_assign|reflexivity]. Qed.
Lemma dput_proper k v d : proper d -> proper (dput k v d).
Proof. destruct v; cbn; [apply assign_proper|auto]. Qed.

(** Items. *)
Lemma split_none c t : ~ In c t -> py_split c t = [t].
Proof.
  induction t as [|x t IH]; cbn; intros H; [reflexivity|]. destruct (Z.eqb_spec x c); [exfalso; apply H; now left|]. rewrite IH; [reflexivity|tauto].
Qed.
Lemma split_app c a t : ~ In c a -> py_split c (a ++ c :: t) = a :: py_split c t.
Proof.
  induction a as [|x a IH]; cbn; intros H; [now rewrite Z.eqb_refl|]. destruct (Z.eqb_spec x c); [exfalso; apply H; now left|]. rewrite IH; [reflexivity|tauto].
Qed.
Lemma items_ok l : forall d, Forall (fun p => ~ In 61 (fst p) /\ ~ In 61 (snd p)) l ->
  set_items (map (fun p => fst p ++ 61 :: snd p) l) d = Some (update str_eqb d (map (fun p => (fst p, PText (snd p))) l)).
Proof.
  unfold update. induction l as [|(a, b) l IH]; intros d F; cbn [map set_items fold_left]; [reflexivity|]. inversion F as [|? ? (A & B) F']; subst. cbn [fst snd] in *.
  rewrite split_app by exact A. rewrite split_none by exact B. apply IH. exact F'.
Qed.
