(** Proofs about saving and loading, part 2: parameters and state. *)
From Coq Require Import String QArith.
From Verif Require Import M_Base M_Num M_Expr M_Loss M_Online M_Olm M_OlmSel M_Heap M_Algs M_Text S_Text P_Parse P_PrintG
  M_Str P_Str S_Online P_Predict P_SafeOlm M_Save S_Save P_Save.
Local Open Scope string_scope.
Local Open Scope list_scope.
Local Open Scope Z_scope.

Section P.
Context {R : Type}.
Variable N : num R.
Variable pr : R -> printed.
Variable strtof : Z -> Z -> option R.
Local Notation zero := (zero N).
Local Notation one := (one N).
Local Notation rb := (reads_back pr strtof).
Local Notation exact := (exact pr strtof).

Lemma as_real_exact x : exact x -> as_real strtof (jnum pr x) = Some x.
Proof.
  intros (d & P & Ok & T). unfold jnum. rewrite P. cbn [as_real text_of].
  change (print_g6 (d_neg d) (d_sig d) (d_ex d)) with (pg d). destruct (scan_pg d [] Ok I) as (m & e & S & Q).
  rewrite app_nil_r in S. rewrite S. now apply T.
Qed.
Lemma param_ok {A} conv ok name (dflt : A) l v x : member (bytes name) l = Some v -> conv v = Some x -> ok x = true ->
  param conv ok name dflt l = Some x.
Proof. intros M C O. unfold param. rewrite M, C. cbn. now rewrite O. Qed.
Lemma param_real ok name dflt l x : member (bytes name) l = Some (jnum pr x) -> exact x -> ok x = true ->
  param (as_real strtof) ok name dflt l = Some x.
Proof. intros M E O. eapply param_ok; eauto. now apply as_real_exact. Qed.
Lemma as_int_ok z : is_i32 z -> as_int (JInt z) = Some z.
Proof. unfold is_i32, as_int. intros H. now replace ((-2147483648 <=? z) && (z <=? 2147483647)) with true by lia. Qed.
Lemma param_int ok name dflt l z : member (bytes name) l = Some (JInt z) -> is_i32 z -> ok z = true ->
  param as_int ok name dflt l = Some z.
Proof. intros M E O. eapply param_ok; eauto. now apply as_int_ok. Qed.

(** The names of the framework and of the classes do not clash. *)
Ltac look := unfold online_info; destruct (n_le N one _); destruct (c_cost _); reflexivity.
Ltac names := repeat match goal with |- context [str_eqb (bytes ?a) (bytes ?b)] =>
    let v := eval vm_compute in (str_eqb (bytes a) (bytes b)) in change (str_eqb (bytes a) (bytes b)) with v; cbn iota end.
Ltac real := eapply param_real; [look| |].

Lemma load_kind_ok p c k e lam : Forall exact (reals_of N k) -> params_ok N k ->
  (forall l, reg_lambda N k = Some l -> lam = l) ->
  match k return state_of k -> Prop with
            | KALMA2 _ _ s => fun i => s = n_sqrt N (n_int N (p - 1)) /\ 0 < i <= 2147483647 /\ is_i32 p
            | _ => fun _ => True end e ->
  match k with KCW _ _ b | KECCW _ _ b => b = n_lt N zero (c_b0 c) | _ => True end ->
  load_kind N strtof (model_name k) (online_info N pr c ++ own_info pr p c k e) lam (n_lt N zero (c_b0 c)) = Some (reset_thresh N k).
Proof.
  intros Re Ok Lam Al Bi. set (l := online_info N pr c ++ own_info pr p c k e).
  assert (G : forall ok name dflt x, member (bytes name) l = Some (jnum pr x) -> exact x -> ok x = true ->
    param (as_real strtof) ok name dflt l = Some x) by (intros; now apply param_real).
  assert (GI : forall ok name dflt z, member (bytes name) l = Some (JInt z) -> is_i32 z -> ok z = true ->
    param as_int ok name dflt l = Some z) by (intros; now apply param_int).
  unfold load_kind.
  destruct k; cbn [reals_of params_ok reg_lambda reset_thresh model_name] in *;
  repeat match goal with H : Forall _ (_ :: _) |- _ => inversion H; clear H; subst end;
  try (specialize (Lam _ eq_refl); subst lam); cbv zeta; cbv beta; unfold model_name; cbv iota; names;
  repeat match goal with H : _ /\ _ |- _ => destruct H end;
  repeat match goal with |- context [param (as_real strtof) ?ok ?nm ?d l] =>
    let M := fresh "M" in eassert (M : member (bytes nm) l = Some _) by (subst l; look);
    rewrite (G ok nm d _ M); [cbn [bind]|assumption|try reflexivity; try assumption] end;
  try reflexivity.
  - erewrite GI; [reflexivity|subst l; look|unfold is_i32; lia|lia].
  - now do 2 f_equal.
  - erewrite GI; [|subst l; look|assumption|reflexivity]. cbn [bind]. now subst.
  - unfold positive. apply andb_true_intro; split; assumption.
  - now do 2 f_equal.
  - now do 2 f_equal.
  - now do 2 f_equal.
  - assert (M2 : member (bytes "B") l = Some (JInt (Z.of_nat B))) by (subst l; look).
    rewrite M2, as_int_ok by (unfold is_i32; lia). cbn [bind]. replace (0 <? Z.of_nat B) with true by lia.
    cbn [bind]. now rewrite Nat2Z.id.
Qed.

Lemma load_loss_ok k n loss : loss_ok n loss -> loss_allowed k loss = true ->
  load_loss (reset_thresh N k) n (loss_name loss) = Some loss.
Proof.
  intros [L1 L2] A. unfold load_loss.
  assert (E : find (fun l => str_eqb (loss_name l) (loss_name loss)) all_losses = Some loss) by (destruct loss; reflexivity).
  rewrite E. cbn [bind]. replace (loss_allowed (reset_thresh N k) loss) with true by (rewrite <- A; destruct k; reflexivity).
  destruct (Nat.eqb_spec n 1); [now rewrite L1|now rewrite L2].
Qed.
Lemma load_norm_ok k nk : match k with KALMA2 _ _ _ => nk = NormL2 | _ => True end ->
  load_norm (reset_thresh N k) (norm_code nk) = Some nk.
Proof. intros H. destruct k, nk; try reflexivity; discriminate. Qed.

End P.
