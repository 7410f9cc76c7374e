(** Predicates on all numbers of an expression, carried through the operations of the model. *)
From Verif Require Import M_Base M_Num M_Expr M_Loss M_Online M_Olm M_OlmSel M_Algs P_DataPoint P_Online.

Section V.
Context {R : Type}.
Variable N : num R.

Fixpoint vals (P : R -> Prop) (e : exp R) : Prop :=
  match e with
  | EScalar v => P v
  | EDense l => Forall P l
  | ESparse xs => Forall (fun q => P (snd q)) xs
  | EBin op a b => exists Pa Pb, vals Pa a /\ vals Pb b /\ forall x y, Pa x -> Pb y -> P (op x y)
  | EUn op a => exists Pa, vals Pa a /\ forall x, Pa x -> P (op x)
  end.

Lemma at_vals e : forall P i v, vals P e -> at_ e i = Some v -> P v.
Proof.
  induction e as [w|l|xs|op a IHa b IHb|op a IHa]; intros P i v H E; cbn in *.
  - now injection E as <-.
  - unfold rd in E. rewrite Forall_forall in H. apply H. eapply nth_error_In; eauto.
  - discriminate.
  - destruct H as (Pa & Pb & Ha & Hb & Hop). dob E Q1. dob E Q2. injection E as <-. apply Hop; [eapply IHa|eapply IHb]; eassumption.
  - destruct H as (Pa & Ha & Hop). dob E Q1. injection E as <-. apply Hop. eapply IHa; eassumption.
Qed.
Definition items (P : R -> Prop) (xs : list (Z * option R)) : Prop :=
  Forall (fun q => forall v, snd q = Some v -> P v) xs.
Lemma items_map (P P' : R -> Prop) f xs : items P xs ->
  (forall i o v, (forall w, o = Some w -> P w) -> f i o = Some v -> P' v) -> items P' (map (fun '(i, o) => (i, f i o)) xs).
Proof.
  intros H Hf. unfold items in *. rewrite Forall_map. eapply Forall_impl; [|exact H].
  intros (i, o) Hq v E. cbn in *. eapply Hf; eauto.
Qed.
Lemma items_vals e : forall P xs, vals P e -> sparse_items e = Some xs -> items P xs.
Proof.
  induction e as [w|l|xs|op a IHa b IHb|op a IHa]; intros P ys H E; cbn in *; try discriminate.
  - injection E as <-. unfold items. rewrite Forall_map. eapply Forall_impl; [|exact H]. intros (i, v) Hv w Ew. cbn in *. now injection Ew as <-.
  - destruct H as (Pa & Pb & Ha & Hb & Hop). dob E Q1. destruct e; dob E Q2; injection E as <-.
    + eapply (items_map Pb); [eauto|]. intros i o v Ho Ev. dob Ev Q3. dob Ev Q4. injection Ev as <-. apply Hop; [eapply at_vals; eauto|eauto].
    + eapply (items_map Pb); [eauto|]. intros i o v Ho Ev. dob Ev Q3. dob Ev Q4. injection Ev as <-. apply Hop; [eapply at_vals; eauto|eauto].
    + eapply (items_map Pa); [eauto|]. intros i o v Ho Ev. dob Ev Q3. dob Ev Q4. injection Ev as <-. apply Hop; [eauto|eapply at_vals; eauto].
  - destruct H as (Pa & Ha & Hop). dob E Q1. injection E as <-. eapply (items_map Pa); [eauto|]. intros i o v Ho Ev. dob Ev Q3. injection Ev as <-. eauto.
Qed.
Lemma drop_ge_incl {A} d (l : list (Z * A)) : incl (drop_ge d l) l.
Proof. induction l as [|(i, v) l IH]; [easy|]. cbn. destruct (_ <=? _)%Z; [now apply incl_tl|apply incl_refl]. Qed.
Lemma trim_items P d xs : items P xs -> items P (trim_tail d xs).
Proof.
  unfold items, trim_tail. rewrite !Forall_forall. intros H q Hq. apply H. apply in_rev in Hq. apply drop_ge_incl in Hq. now apply in_rev.
Qed.
Lemma wr_vals (P : R -> Prop) l : forall i v l', Forall P l -> P v -> wr l i v = Some l' -> Forall P l'.
Proof.
  induction l as [|x l IH]; intros i v l' Hl Hv E; destruct i; cbn in E; try discriminate; inversion Hl; subst.
  - injection E as <-. now constructor.
  - dob E Q1. injection E as <-. constructor; eauto.
Qed.
Lemma rd_vals {A} (P : A -> Prop) l i v : Forall P l -> rd l i = Some v -> P v.
Proof. unfold rd. rewrite Forall_forall. intros H E. apply H. eapply nth_error_In; eauto. Qed.
Lemma upd0_vals (P : R -> Prop) f l l' : Forall P l -> (forall b, P b -> P (f b)) -> upd0 f l = Some l' -> Forall P l'.
Proof. intros H Hf E. unfold upd0 in E. dob E Q1. eapply wr_vals; eauto. apply Hf. eapply rd_vals; eauto. Qed.
Lemma sparse_loop_vals (P Pe : R -> Prop) op xs : forall l l', Forall P l -> items Pe xs ->
  (forall x y, P x -> Pe y -> P (op x y)) -> sparse_loop op l xs = Some l' -> Forall P l'.
Proof.
  induction xs as [|(i, o) xs IH]; intros l l' Hl Hx Hop E; cbn in E; [now injection E as <-|].
  dob E Q1. dob E Q2. dob E Q3. inversion Hx; subst. eapply IH; [|exact H2|exact Hop|exact E].
  eapply wr_vals; [exact Hl| |exact Q3]. apply Hop; [eapply rd_vals; eauto|now apply H1].
Qed.
Lemma dense_loop_vals (P Pe : R -> Prop) op e l : forall k l', Forall P l -> vals Pe e ->
  (forall x y, P x -> Pe y -> P (op x y)) -> dense_loop op e k l = Some l' -> Forall P l'.
Proof.
  induction l as [|x l IH]; intros k l' Hl Hx Hop E; cbn in E; [now injection E as <-|].
  dob E Q1. dob E Q2. injection E as <-. inversion Hl; subst. constructor; [|eauto]. apply Hop; [assumption|]. eapply at_vals; eauto.
Qed.
Lemma calc_vals (P Pe : R -> Prop) op l e l' : Forall P l -> vals Pe e -> (forall x y, P x -> Pe y -> P (op x y)) ->
  calc op l e = Some l' -> Forall P l'.
Proof.
  intros Hl He Hop E. unfold calc in E. dob E Q1. destruct e0.
  - dob E Q2. destruct (_ && _)%bool; [discriminate|]. eapply dense_loop_vals; eauto.
  - dob E Q2. destruct (_ && _)%bool; [discriminate|]. eapply dense_loop_vals; eauto.
  - dob E Q2. eapply sparse_loop_vals; [exact Hl| |exact Hop|exact E]. apply trim_items. eapply items_vals; eauto.
Qed.
Lemma dot_loop_vals (A Pl Pr : R -> Prop) op e xs : forall v r, vals Pl e -> items Pr xs -> A v ->
  (forall a x y, A a -> Pl x -> Pr y -> A (n_add N a (op x y))) -> dot_loop N op e v xs = Some r -> A r.
Proof.
  induction xs as [|(i, o) xs IH]; intros v r He Hx Ha Hop E; cbn in E; [now injection E as <-|].
  dob E Q1. dob E Q2. inversion Hx; subst. apply (IH (n_add N v (op r0 r1)) r He H2); auto. apply Hop; [exact Ha|exact (at_vals _ _ _ _ He Q1)|now apply H1].
Qed.
Lemma dotmul_vals (A Pl Pr : R -> Prop) l e r : Forall Pl l -> vals Pr e -> A (zero N) ->
  (forall a x y, A a -> Pl x -> Pr y -> A (n_add N a (n_mul N x y))) -> dotmul N l e = Some r -> A r.
Proof.
  intros Hl He Ha Hop E. unfold dotmul, dot_sparse in E. dob E Q1. dob E Q2.
  eapply (dot_loop_vals A Pl Pr _ (EDense l)); [exact Hl| |exact Ha|exact Hop|exact E]. apply trim_items. eapply items_vals; eauto.
Qed.
Lemma reduce_vals (A P : R -> Prop) e r : vals P e -> A (zero N) -> (forall a x, A a -> P x -> A (n_add N a x)) ->
  reduce_plus N e = Some r -> A r.
Proof.
  intros He Ha Hop E. unfold reduce_plus in E. dob E Q1.
  assert (D : forall n k v r, A v -> reduce_dense N e k n v = Some r -> A r).
  { induction n as [|n IH]; intros k v r0 Hv Er; cbn in Er; [now injection Er as <-|]. dob Er Q2. apply (IH _ _ _ (Hop _ _ Hv (at_vals e P _ _ He Q2)) Er). }
  assert (Sp : forall xs v r, items P xs -> A v -> reduce_sparse N xs v = Some r -> A r).
  { induction xs as [|(i, o) xs IH]; intros v r0 Hx Hv Er; cbn in Er; [now injection Er as <-|]. dob Er Q2. inversion Hx; subst.
    apply (IH _ _ H2 (Hop _ _ Hv (H1 _ eq_refl)) Er). }
  destruct e0; dob E Q2; [eapply D; eauto|eapply D; eauto|]. eapply Sp; [|exact Ha|exact E]. eapply items_vals; eauto.
Qed.

Lemma each_class_vals (Pg : R -> Prop) (Pw : list R -> Prop) f : forall gs ws ws', Forall Pg gs -> Forall Pw ws ->
  (forall g w w', Pg g -> Pw w -> f g w = Some w' -> Pw w') -> each_class N f gs ws = Some ws' -> Forall Pw ws'.
Proof.
  induction gs as [|g gs IH]; intros ws ws' Hg Hw Hf E; destruct ws as [|w ws]; cbn in E; try discriminate.
  - now injection E as <-.
  - now injection E as <-.
  - dob E Q1. dob E Q2. injection E as <-. inversion Hg; subst. inversion Hw; subst. constructor; [|eauto].
    destruct (n_eq N g _); [now injection Q1 as <-|eauto].
Qed.
Lemma each_class2_vals {A} (Pg : R -> Prop) (Pw : list R -> Prop) (Pe : A -> Prop) f : forall gs ws es ws' es',
  Forall Pg gs -> Forall Pw ws -> Forall Pe es ->
  (forall g w e w' e', Pg g -> Pw w -> Pe e -> f g w e = Some (w', e') -> Pw w' /\ Pe e') ->
  each_class2 N f gs ws es = Some (ws', es') -> Forall Pw ws' /\ Forall Pe es'.
Proof.
  induction gs as [|g gs IH]; intros ws es ws' es' Hg Hw He Hf E; destruct ws as [|w ws]; destruct es as [|e es]; cbn in E; try discriminate;
    try (injection E as <- <-; split; constructor).
  dob E Q1. destruct p as (w1, e1). dob E Q2. destruct p as (ws1, es1). injection E as <- <-.
  inversion Hg; subst. inversion Hw; subst. inversion He; subst.
  destruct (IH _ _ _ _ H2 H4 H6 Hf Q2) as (A1 & A2).
  assert (B : Pw w1 /\ Pe e1) by (destruct (n_eq N g _); [injection Q1 as <- <-; auto|eauto]).
  destruct B. split; constructor; auto.
Qed.
Lemma zip_class_vals {A} (Pw : list R -> Prop) (Pe : A -> Prop) f : forall ws es ws', Forall Pw ws -> Forall Pe es ->
  (forall w e w', Pw w -> Pe e -> f w e = Some w' -> Pw w') -> zip_class f ws es = Some ws' -> Forall Pw ws'.
Proof.
  induction ws as [|w ws IH]; intros es ws' Hw He Hf E; destruct es as [|e es]; cbn in E; try discriminate;
    try (injection E as <-; constructor).
  dob E Q1. dob E Q2. injection E as <-. inversion Hw; subst. inversion He; subst. constructor; eauto.
Qed.
Lemma mapM_vals {A B} (P : A -> Prop) (Q : B -> Prop) (f : A -> option B) : forall l l', Forall P l ->
  (forall a b, P a -> f a = Some b -> Q b) -> mapM f l = Some l' -> Forall Q l'.
Proof.
  induction l as [|a l IH]; intros l' Hl Hf E; cbn in E; [injection E as <-; constructor|].
  dob E Q1. dob E Q2. injection E as <-. inversion Hl; subst. constructor; eauto.
Qed.
Lemma grow_vals (P : R -> Prop) d d' v l : Forall P l -> P v -> Forall P (grow d d' v l).
Proof.
  intros Hl Hv. unfold grow. apply Forall_app. split; [|apply Forall_forall; intros y Hy; apply repeat_spec in Hy; now subst].
  rewrite Forall_forall in *. intros y Hy. apply Hl. rewrite <- (firstn_skipn d l). apply in_or_app. now left.
Qed.
End V.
