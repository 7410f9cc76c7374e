(** Every registered model leaves the counters and settings to the framework. *)
From Verif Require Import M_Base M_Num M_Expr M_Loss M_Online M_Olm M_OlmSel M_Heap M_Algs S_Online
  P_Online.

Section P.
Context {R : Type}.
Variable N : num R.

(** Counters and the active-learning setting. *)
Definition same_all (c c' : core (R:=R)) : Prop := same_counters c c' /\ c_active c' = c_active c.
Lemma same_refl c : same_all c c.
Proof. repeat split. Qed.
Lemma same_trans a b c : same_all a b -> same_all b c -> same_all a c.
Proof.
  intros ((A1 & A2 & A3 & A4) & A5) ((B1 & B2 & B3 & B4) & B5).
  repeat split; congruence.
Qed.
Lemma same_set_ws c ws : same_all c (set_ws c ws). Proof. repeat split. Qed.
Lemma same_set_eta c e : same_all c (set_eta c e). Proof. repeat split. Qed.
Lemma same_set_margin c e : same_all c (set_margin c e). Proof. repeat split. Qed.
Lemma same_dim d c : same_all c (linear_update_dim N d c).
Proof. unfold linear_update_dim. destruct (_ <? _)%nat; repeat split. Qed.

Ltac crack := repeat match goal with
  | H : Some _ = Some _ |- _ => injection H; clear H; intros; subst
  | H : None = Some _ |- _ => discriminate H
  | H : bind ?m _ = Some _ |- _ => destruct m as [?|] eqn:?; cbn [bind] in H; [|discriminate H]
  | H : context [match ?x with (_, _) => _ end] |- _ => destruct x
  | H : (if ?b then _ else _) = Some _ |- _ => destruct b
  | H : match ?x with O => _ | S _ => _ end = Some _ |- _ => destruct x
  end.
Ltac same := repeat first
  [ apply same_refl | apply same_set_ws | apply same_set_eta | apply same_set_margin | apply same_dim
  | assumption | eapply same_trans; [eassumption|] | eapply same_trans; [apply same_set_eta|eassumption]
  | eapply same_trans; [|apply same_set_ws]
  | eapply same_trans; [|apply same_set_margin] ].

Lemma k_grad p c c' : grad_steps N (feats p) c = Some c' -> same_all c c'.
Proof. unfold grad_steps. intros H. crack. same. Qed.
Lemma k_ogd eta0 pt p l c c' : ogd_update N eta0 pt p l c = Some c' -> same_all c c'.
Proof. unfold ogd_update. intros H. apply k_grad in H. eapply same_trans; [apply same_set_eta|exact H]. Qed.
Lemma k_rda_assign c e f ut c' : rda_assign N c e f ut = Some c' -> same_all c c'.
Proof. unfold rda_assign. intros H. crack. same. Qed.
Lemma k_select B p c s c' s' : sel1_select N B p c s = Some (c', s') -> same_all c c'.
Proof. unfold sel1_select. intros H. crack; same. Qed.
Lemma k_arow r p l c s c' s' : arow_update N r p l c s = Some (c', s') -> same_all c c'.
Proof.
  unfold arow_update. cbv zeta. intros H. crack. same.
Qed.
Lemma k_sofs_w x c s c' : sofs_weights N x c s = Some c' -> same_all c c'.
Proof. unfold sofs_weights. intros H. crack. same. Qed.
Lemma k_ada_w x c s c' : ada_ofs_weights N x c s = Some c' -> same_all c c'.
Proof. unfold ada_ofs_weights. intros H. crack. same. Qed.
Lemma k_ada_rda_w x c s u c' u' : ada_rda_ofs_weights N x c s u = Some (c', u') -> same_all c c'.
Proof. unfold ada_rda_ofs_weights. intros H. crack. same. Qed.
Lemma k_trunc cmp p c s c' s' : sel2_truncate N cmp p c s = Some (c', s') -> same_all c c'.
Proof. unfold sel2_truncate. intros H. crack. same. Qed.
Lemma k_ada_fobos d p l c s c' s' : ada_fobos_update N d p l c s = Some (c', s') -> same_all c c'.
Proof. unfold ada_fobos_update. intros H. crack. same. Qed.
Lemma k_ada_rda d p l c s c' s' : ada_rda_update N d p l c s = Some (c', s') -> same_all c c'.
Proof. unfold ada_rda_update. intros H. crack. same. Qed.
Lemma k_sigma_grow a d c s c' s' : sigma_grow N a d c s = Some (c', s') -> same_all c c'.
Proof. unfold sigma_grow. intros H. crack; same. Qed.
Lemma k_sel2_grow a d c s c' s' : sel2_grow N a d c s = Some (c', s') -> same_all c c'.
Proof.
  unfold sel2_grow. intros H. destruct (_ <? _)%nat; [|crack; same]. cbv zeta in H.
  crack. match goal with H : sigma_grow _ _ _ _ _ = _ |- _ => apply k_sigma_grow in H end. same.
Qed.
Lemma k_sel1_grow d c s c' s' : sel1_grow N d c s = Some (c', s') -> same_all c c'.
Proof.
  unfold sel1_grow. intros H. destruct (_ <? _)%nat; [|crack; same]. destruct s. cbv zeta in H. crack. same.
Qed.

Ltac fwd := repeat match goal with
  | H : grad_steps _ _ _ = Some _ |- _ => apply k_grad in H
  | H : ogd_update _ _ _ _ _ _ = Some _ |- _ => apply k_ogd in H
  | H : rda_assign _ _ _ _ _ = Some _ |- _ => apply k_rda_assign in H
  | H : sel1_select _ _ _ _ _ = Some _ |- _ => apply k_select in H
  | H : arow_update _ _ _ _ _ _ = Some _ |- _ => apply k_arow in H
  | H : sofs_weights _ _ _ _ = Some _ |- _ => apply k_sofs_w in H
  | H : ada_ofs_weights _ _ _ _ = Some _ |- _ => apply k_ada_w in H
  | H : ada_rda_ofs_weights _ _ _ _ _ = Some _ |- _ => apply k_ada_rda_w in H
  | H : sel2_truncate _ _ _ _ _ = Some _ |- _ => apply k_trunc in H
  | H : ada_fobos_update _ _ _ _ _ _ = Some _ |- _ => apply k_ada_fobos in H
  | H : ada_rda_update _ _ _ _ _ _ = Some _ |- _ => apply k_ada_rda in H
  | H : sigma_grow _ _ _ _ _ = Some _ |- _ => apply k_sigma_grow in H
  | H : sel2_grow _ _ _ _ _ = Some _ |- _ => apply k_sel2_grow in H
  | H : sel1_grow _ _ _ _ = Some _ |- _ => apply k_sel1_grow in H
  end.

Lemma grow_keeps k d c e c' e' : a_grow (alg_of N k) d c e = Some (c', e') -> same_all c c'.
Proof.
  destruct k; cbn; intros H; unfold grow_none, stg_grow, rda_grow, sop_grow, ada_rda_grow,
    ada_rda_ofs_grow in H; crack; fwd; same.
Qed.
Lemma prep_keeps k p c e c' e' : a_prep (alg_of N k) p c e = Some (c', e') -> same_all c c'.
Proof.
  destruct k; cbn; intros H; unfold prep_none, stg_prep, fobos_prep, rda_prep, rda_l1_prep, erda_l1_prep,
    sop_prep, ada_fobos_l1_prep, ada_rda_l1_prep in H; cbv zeta in H; crack; fwd; same.
Qed.
Lemma update_keeps k p l c e c' e' : a_update (alg_of N k) p l c e = Some (c', e') -> same_all c c'.
Proof.
  destruct k; cbn [alg_of]; intros H;
    unfold perceptron, pa, pa1, pa2, ogd, plain, stg, fobos_l1, pet, rda, rda_l1, erda_l1, alma2, sop, arow,
     sofs, cw, eccw, ada_fobos, ada_fobos_l1, ada_fobos_ofs, ada_rda, ada_rda_l1, ada_rda_ofs, fofs in H;
    cbn [a_update] in H;
    unfold perceptron_update, pa_update, pa1_update, pa2_update, rda_update, alma_update, sop_update,
      sofs_update, cw_update, eccw_update, ada_fobos_ofs_update, ada_rda_ofs_update, fofs_update in H;
    cbv zeta in H; crack; fwd; try solve [same].
  all: eauto using same_trans, same_refl, same_set_ws, same_set_eta, same_set_margin.
Qed.
Lemma alg_keeps k : keeps_counters (alg_of N k).
Proof.
  repeat split; try (intros; eapply grow_keeps; eassumption); try (intros; eapply prep_keeps; eassumption);
    try (intros; eapply update_keeps; eassumption).
Qed.
End P.
