(** Proofs about saving and loading, part 5: saving a loaded model again. *)
From Coq Require Import String QArith.
From Verif Require Import M_Base M_Num M_Expr M_Loss M_Online M_Olm M_OlmSel M_Heap M_Algs M_Text S_Text M_Str S_Online M_Save S_Save P_Save P_Save2 P_Save3 P_Save4.
Local Open Scope string_scope.
Local Open Scope list_scope.
Local Open Scope Z_scope.

Section P.
Context {R : Type}.
Variable N : num R.
Variable pr : R -> printed.
Variable strtof : Z -> Z -> option R.
Local Notation zero := (zero N).
Local Notation one := (one N).
Definition looks (w w' : R) : Prop := pr w' = pr w.

Lemma write_vec_looks v v' : Forall2 looks v v' -> write_vec pr v' = write_vec pr v.
Proof.
  intros H. assert (E : concat (map (fun x => text_of (pr x) ++ [c_sp]) v') = concat (map (fun x => text_of (pr x) ++ [c_sp]) v)).
  { induction H as [|x y v v' Hx _ IH]; [reflexivity|]. cbn [map concat]. rewrite IH. unfold looks in Hx. now rewrite Hx. }
  unfold write_vec. rewrite E. now destruct H.
Qed.
Lemma write_vecs_looks name sep vs vs' : Forall2 (Forall2 looks) vs vs' -> forall c, write_vecs pr name sep c vs' = write_vecs pr name sep c vs.
Proof. induction 1 as [|v v' vs vs' Hv _ IH]; intros c; [reflexivity|]. cbn [write_vecs]. now rewrite IH, (write_vec_looks _ _ Hv). Qed.
Definition same_block (b b' : block (R:=R)) : Prop :=
  match b, b' with
  | Indexed n vs, Indexed n' vs' => n' = n /\ Forall2 (Forall2 looks) vs vs'
  | Single n v, Single n' v' => n' = n /\ Forall2 looks v v'
  | _, _ => False
  end.
Lemma write_blocks_looks bs bs' : Forall2 same_block bs bs' -> write_blocks pr bs' = write_blocks pr bs.
Proof.
  induction 1 as [|b b' bs bs' Hb _ IH]; [reflexivity|]. cbn [write_blocks]. rewrite IH.
  destruct b, b'; cbn [same_block] in Hb; try contradiction; destruct Hb as (-> & Hv); cbn [write_block]; [now rewrite (write_vecs_looks _ _ _ _ Hv)|now rewrite (write_vec_looks _ _ Hv)].
Qed.
Lemma F2_app {A B} (P : A -> B -> Prop) a b a' b' : length a = length a' -> Forall2 P (a ++ b) (a' ++ b') -> Forall2 P a a' /\ Forall2 P b b'.
Proof.
  revert a'. induction a as [|x a IH]; intros [|y a'] L H; cbn in *; try discriminate; [auto|]. inversion H; subst. destruct (IH a') as (? & ?); auto.
Qed.
Lemma blocks_looks k (e : state_of (R:=R) k) e' n d : extras_shape k e n d -> extras_shape (reset_thresh N k) e' n d ->
  Forall2 (Forall2 looks) (extras k e) (extras (reset_thresh N k) e') -> Forall2 same_block (extra_blocks k e) (extra_blocks (reset_thresh N k) e').
Proof.
  intros (_ & S1) (_ & S2) H. unfold extras in H. destruct k; cbn [reset_thresh extra_blocks map concat block_vecs app] in *; rewrite ?app_nil_r in H; auto;
    repeat match goal with H : Forall _ (_ :: _) |- _ => inversion H; clear H; subst end;
    try (repeat constructor; auto; fail).
  - inversion H; subst. repeat constructor; auto.
  - apply F2_app in H; [|congruence]. destruct H. repeat constructor; auto.
  - apply F2_app in H; [|congruence]. destruct H. repeat constructor; auto.
  - apply F2_app in H; [|congruence]. destruct H. repeat constructor; auto.
Qed.
Variable json_write : info -> list Z.
(** The document of the loaded model. *)
Lemma reinfo p nk k c e ws' e' : n_le N one zero = false -> length ws' = length (c_ws c) -> restored_rest N k (c_iter c) e e' ->
  get_info N pr p nk (reset_thresh N k) (reloaded_core N k c ws') e' = get_info N pr p nk k c e.
Proof.
  intros Z1 L Rr. unfold get_info. cbn [reloaded_core c_ws c_loss]. rewrite L. f_equal.
  - now destruct k.
  - now destruct k.
  - unfold online_info. cbn [reloaded_core c_b0 c_iter c_dim c_lazy c_active c_cost]. f_equal.
    + f_equal. f_equal. destruct (n_le N one (c_active c)) eqn:E; [now rewrite E|now rewrite Z1].
    + destruct k; cbn [reset_thresh own_info reloaded_core c_eta keeps_eta restored_rest] in *; try reflexivity. now subst.
Qed.
Lemma resave p nk k c e ws' e' : n_le N one zero = false -> extras_shape k e (length (c_ws c)) (c_dim c) ->
  extras_shape (reset_thresh N k) e' (length (c_ws c)) (c_dim c) -> restored_rest N k (c_iter c) e e' ->
  Forall2 (Forall2 looks) (c_ws c) ws' -> Forall2 (Forall2 looks) (extras k e) (extras (reset_thresh N k) e') ->
  save N pr json_write p nk (reset_thresh N k) (reloaded_core N k c ws') e' = save N pr json_write p nk k c e.
Proof.
  intros Z1 S S' Rr W X. unfold save, get_param. rewrite (reinfo p nk k c e) by (auto; symmetry; now apply F2_len in W). cbn [reloaded_core c_ws].
  now rewrite (write_vecs_looks _ _ _ _ W), (write_blocks_looks _ _ (blocks_looks _ _ _ _ _ S S' X)).
Qed.
End P.
