(** The reported settings, set again. *)
From Coq Require Import String Lia.
From Verif Require Import M_Base M_Text M_Str P_Str M_Num M_Expr M_Loss M_Online M_Filter M_Save M_Param S_Param P_Param P_Param2 P_Param3 Props_Param M_Info S_Info P_Info.
Local Open Scope string_scope.
Local Open Scope list_scope.
Local Open Scope Z_scope.

Lemma to_int_print z t : - 2 ^ 31 <= z < 2 ^ 31 -> print_d z = Some t -> to_int t = Some z.
Proof.
  intros Hz E. unfold to_int, stoi. rewrite (stoll_ok t z E) by lia. cbn [then_ fst].
  replace (-2147483648 <=? z) with true by (symmetry; apply Z.leb_le; lia). replace (z <=? 2147483647) with true by (symmetry; apply Z.leb_le; lia). reflexivity.
Qed.
Lemma norm_inj n n' t : print_d (norm_code n) = Some t -> norm_word t n' -> n' = n.
Proof.
  intros E. destruct n; vm_compute in E; injection E as <-; intros [H|(sz & H & _)]; destruct n'; try reflexivity;
    try (vm_compute in H; discriminate).
Qed.
Lemma norm_own n t : print_d (norm_code n) = Some t -> norm_word t n.
Proof. intros E. right. exists 1%nat. destruct n; vm_compute in E; injection E as <-; split; vm_compute; reflexivity. Qed.

Section P.
Context {R : Type}.
Variable N : num R.
Variable stof : list Z -> parsed R.
Variable files : list Z -> option (list Z).
Variable show : R -> list Z.
Notation cfg := (cfg (R:=R)).
Notation setp := (set_parameter N stof files).
Notation vld := (valid N stof files).
Notation flat k classes c := (walk "" (JObject (model_info N k classes c))).
Notation params := (get_parameters show N).

(** A printable value. *)
Definition fits (v : leaf R) : Prop := match v with LInt z => - 2 ^ 63 <= z < 2 ^ 63 | _ => True end.
Lemma as_string_writes v t : as_string show v = Some t <-> writes show v t.
Proof. destruct v; cbn; split; intros E; try exact E; try congruence. Qed.
Lemma as_string_total v : fits v -> exists t, as_string show v = Some t.
Proof. destruct v as [z|x|s]; cbn; intros H; eauto. destruct (print_d64_ok z) as (t & E & _); [lia|eauto]. Qed.
Lemma strings_total l : Forall (fun x => fits (snd x)) l -> exists r, strings show l = Some r.
Proof.
  induction 1 as [|(n, v) l H _ (r & E)]; [now exists []|]. cbn [strings snd] in *. destruct (as_string_total v H) as (t & ->). cbn [bind]. rewrite E. cbn [bind]. eauto.
Qed.
Lemma strings_in l : forall r, strings show l = Some r -> map fst r = map fst l /\ forall n t, In (n, t) r <-> exists v, In (n, v) l /\ writes show v t.
Proof.
  induction l as [|(n, v) l IH]; intros r E; cbn [strings] in E.
  - injection E as <-. split; [reflexivity|]. intros n t. split; [intros []|intros (v & [] & _)].
  - destruct (as_string show v) as [s|] eqn:Ev; [|discriminate]. cbn [bind] in E. destruct (strings show l) as [r'|] eqn:El; [|discriminate].
    cbn [bind] in E. injection E as <-. destruct (IH _ eq_refl) as (E1 & E2). split; [cbn; now rewrite E1|]. intros n' t. cbn [In]. rewrite E2. split.
    + intros [H|(v' & H1 & H2)]; [injection H as <- <-; exists v; split; [now left|now apply as_string_writes]|exists v'; split; [now right|exact H2]].
    + intros (v' & [H|H1] & H2); [left; injection H as -> ->; apply as_string_writes in H2; congruence|right; eauto].
Qed.

Lemma report_spec k classes c : (forall n z, reports N k classes c n (LInt z) -> - 2 ^ 63 <= z < 2 ^ 63) ->
  exists l, params k classes c = Some l /\ NoDup (map fst l) /\ forall n t, In (n, t) l <-> exists v, reports N k classes c n v /\ writes show v t.
Proof.
  intros H. destruct (flat_spec N k classes c) as (F1 & F2). destruct (strings_total (flat k classes c)) as (l & E).
  { apply Forall_forall. intros (n, v) Hin. apply F2 in Hin. destruct v as [z|x|s]; cbn; auto. now apply H with n. }
  exists l. split; [exact E|]. destruct (strings_in _ _ E) as (E1 & E2). rewrite E1. split; [exact F1|]. intros n t. rewrite E2. split; intros (v & A & B); exists v; (split; [|exact B]); now apply F2.
Qed.
Lemma report_fun k classes c n v v' : reports N k classes c n v -> reports N k classes c n v' -> v = v'.
Proof.
  destruct (flat_spec N k classes c) as (F1 & F2). rewrite <- !F2. revert F1. generalize (flat k classes c). induction l as [|(a, b) l IH]; [intros _ []|].
  cbn [map fst]. intros ND [H|H] [H'|H']; inversion ND as [|? ? N1 N2]; subst.
  - congruence.
  - injection H as -> ->. destruct N1. apply in_map_iff. exists (n, v'). auto.
  - injection H' as -> ->. destruct N1. apply in_map_iff. exists (n, v). auto.
  - now apply IH.
Qed.

(** A run of accepted settings. *)
Inductive chain (k : cls) (classes : Z) : list (string * list Z) -> cfg -> cfg -> Prop :=
| ch_nil c : chain k classes [] c c
| ch_cons n v l c a c' : setp k classes n v c = Done a -> chain k classes l a c' -> chain k classes ((n, v) :: l) c c'.
Definition osets (l : list (string * list Z)) : list op := map (fun x => OSet (fst x) (snd x)) l.
Lemma chain_total k classes l : 1 < classes -> (forall n v, In (n, v) l -> vld k classes n v) -> forall c, exists c', chain k classes l c c'.
Proof.
  intros Hc. induction l as [|(n, v) l IH]; intros H c; [eexists; constructor|].
  destruct (valid_done N stof files k classes n v c Hc (H _ _ (or_introl eq_refl))) as (a & E). destruct (IH (fun n v h => H n v (or_intror h)) a) as (c' & E').
  exists c'. econstructor; eauto.
Qed.
Lemma chain_steps k classes l c c' : chain k classes l c c' -> steps N stof files k classes (osets l) c = Some (repeat ROk (List.length l), c').
Proof. induction 1 as [|n v l c a c' E _ IH]; [reflexivity|]. cbn [osets map steps step fst snd List.length repeat]. rewrite E. cbn [bind]. unfold osets in IH. rewrite IH. reflexivity. Qed.
Lemma chain_off {X} (p : cfg -> X) k classes l c c' : 1 < classes -> chain k classes l c c' ->
  (forall n v a b, In (n, v) l -> frame k n a b -> p b = p a) -> p c' = p c.
Proof.
  intros Hc. induction 1 as [|n v l c a c' E C IH]; intros H; [reflexivity|].
  rewrite IH by (intros; eapply H; [right|]; eauto). apply (H n v); [now left|]. apply (C59_effect N stof files _ _ _ _ _ _ Hc E).
Qed.
Lemma chain_at {X} (p : cfg -> X) k classes l c c' nm v : 1 < classes -> chain k classes l c c' -> NoDup (map fst l) -> In (nm, v) l ->
  (forall n w a b, In (n, w) l -> n <> nm -> frame k n a b -> p b = p a) ->
  exists a b, p a = p c /\ p c' = p b /\ setp k classes nm v a = Done b /\ frame k nm a b /\ news N stof files k classes nm v a b.
Proof.
  intros Hc. induction 1 as [|n w l c a c' E C IH]; intros ND Hin H; [destruct Hin|]. cbn [map fst] in ND. inversion ND as [|? ? N1 N2]; subst.
  destruct Hin as [Hin|Hin].
  - injection Hin as -> ->. exists c, a. split; [reflexivity|]. split; [|split; [exact E|apply (C59_effect N stof files _ _ _ _ _ _ Hc E)]].
    apply (chain_off p k classes l a c' Hc C). intros n' w' a' b' Hin' F. apply (H n' w'); [now right| |exact F].
    intros ->. destruct N1. apply in_map_iff. exists (nm, w'). auto.
  - destruct (IH N2 Hin) as (a' & b' & E1 & E2 & E3); [intros n' w' a0 b0 h1 h2 h3; apply (H n' w'); [now right|exact h2|exact h3]|]. exists a', b'. split; [|auto].
    rewrite E1. apply (H n w); [now left| |now apply (C59_effect N stof files _ _ _ _ _ _ Hc E)]. intros ->. destruct N1. apply in_map_iff. exists (nm, v). auto.
Qed.

(** Names. *)
Lemma shown_names k c m n : shown N k c m = Some n -> names n (real_names k m) = true /\ m <> MBinv /\ m <> Msp1 /\ m <> Mt0 /\ m <> Mthresh.
Proof.
  intros E. destruct m; cbn [shown] in E; try discriminate E; try (repeat split; [|discriminate..]).
  all: try (destruct k; cbn in E; try discriminate E; injection E as <-; reflexivity).
  all: try (destruct (n_le N (one N) (f_r c MActive)); [|discriminate]; injection E as <-; reflexivity).
  destruct (f_cost c); [|discriminate]. injection E as <-. reflexivity.
Qed.
Lemma not_B k c m : has_reg k RegPlain = true -> shown N k c m = Some "B" -> False.
Proof.
  intros H E. destruct m; cbn [shown] in E; try discriminate E;
    try (destruct k; try discriminate H; cbn in E; try discriminate E; injection E; discriminate).
  - destruct (n_le N (one N) (f_r c MActive)); discriminate.
  - destruct (f_cost c); discriminate.
Qed.
Lemma reported_sets k classes c m n n' v : shown N k c m = Some n -> reports N k classes c n' v -> sets_r k n' m = true -> n' = n.
Proof.
  intros E Hr S. destruct (shown_names _ _ _ _ E) as (Hn & M1 & M2 & M3 & M4).
  assert (Hs : names n' (real_names k m) = true). { unfold sets_r in S. destruct m; try congruence; now rewrite orb_false_r in S. }
  destruct (rmem_eq_dec m Mlambda) as [->|Hm].
  - cbn [shown] in E. destruct (has_reg k RegNone) eqn:Hg; [discriminate|]. injection E as <-. cbn [real_names] in Hs. rewrite Hg in Hs. cbn [negb when] in Hs.
    destruct (has_reg k RegPlain) eqn:Hp; cbn in Hs; rewrite ?orb_false_r in Hs.
    + apply orb_true_iff in Hs. destruct Hs as [Hs|Hs]; apply String.eqb_eq in Hs; subst n'; [|reflexivity]. exfalso. inversion Hr as [m' n'' Es|m' n'' Es Hm| | | | | | |]; subst.
      * now apply (not_B _ _ _ Hp Es).
      * destruct m'; cbn in Es; destruct k; try discriminate Hp; cbn in Es; intuition discriminate.
    + now apply String.eqb_eq in Hs.
  - destruct (shown_names _ _ _ _ E) as (_ & _). clear S E Hr. destruct m; try congruence; cbn [real_names] in *; destruct k; cbn in Hn, Hs; rewrite ?orb_false_r in *;
      try discriminate Hn; apply String.eqb_eq in Hn; apply String.eqb_eq in Hs; congruence.
Qed.
Lemma int_single k m n n' : In n (int_names k m) -> sets_z k n' m = true -> n' = n.
Proof.
  unfold sets_z. rewrite names_In. destruct m; cbn; unfold when; try destruct (is_alma k); try destruct (is_fofs k); try destruct k; cbn; intuition congruence.
Qed.
Lemma not_reported k classes c n v : reports N k classes c n v -> n <> "sparse_thresh" /\ n <> "t0" /\ n <> "filter" /\ n <> "exp_show" /\ n <> "step_show" /\
  (n = "active_smoothness" -> shown N k c MActive <> None) /\ (n = "cost_margin" -> f_cost c = true).
Proof.
  intros H. inversion H as [m n' E|m n' E Hm| | | | | | |]; subst; try (repeat split; discriminate).
  - destruct m; cbn [shown] in E; try discriminate E;
      try (destruct k; cbn in E; try discriminate E; injection E as <-; repeat split; discriminate).
    + cbn [shown]. destruct (n_le N (one N) (f_r c MActive)); [|discriminate]. injection E as <-. repeat split; discriminate.
    + destruct (f_cost c); [|discriminate]. injection E as <-. repeat split; try discriminate.
  - destruct m; try congruence; destruct k; cbn in E; intuition (subst; discriminate).
Qed.
End P.
