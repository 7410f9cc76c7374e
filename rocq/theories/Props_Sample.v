(** C57: selective sampling and cost-sensitive margins. *)
From Coq Require Import Reals Lra.
From Verif Require Import M_Base M_Num M_Expr M_Loss M_Online M_Olm M_OlmSel M_Algs S_Expr S_Real S_Online S_Session S_Learn
  S_Loss S_Sample P_DataPoint P_Online P_Loss P_Idle P_Keep P_Sample Props_Online.
Local Open Scope R_scope.

(** With active_smoothness b > 0 an example's label is looked at exactly for the draws u with
    u <= b / (b + m), m being how far the answer is from another one; otherwise the example counts as
    read, but not as an iteration and not as an update. *)
Theorem C57_sampling : forall k p u c e lab ps c' e', 0 < c_active c ->
  (length ps <> 1%nat -> Forall (fun v => - fmax < v) ps) ->
  iterate Rnum (alg_of Rnum k) p u c e = Some (lab, ps, c', e') ->
  exists m, confidence ps lab m /\ 0 <= m /\ c_data c' = (c_data c + 1)%Z /\
    (asked (c_active c) m u -> c_iter c' = (c_iter c + 1)%Z) /\
    (~ asked (c_active c) m u -> c_iter c' = c_iter c /\ c_upd c' = c_upd c).
Proof. exact sampled. Qed.
Print Assumptions C57_sampling.
Definition smp (cost : option f32) (active : f32) (k : loss_kind) (ws : list (list f32)) : core (R:=f32) :=
  mkcore ws (repeat (F 0) (length ws)) 2 (F 1) (F 1) 0 0 0 0 0 false active cost k (F 1) (F 0) false.
Definition f_half : f32 := n_div f32num (F 1) (F 2).
Definition f_quarter : f32 := n_div f32num (F 1) (F 4).
(** Score 1 and smoothness 1: asked up to u = 1/2.  Three classes with scores 2, 5, 1 and smoothness 1:
    the distance is 3, asked up to u = 1/4. *)
Example C57_sampling_witness :
  let go k loss ws u := match iterate f32num (alg_of f32num KPA) (pt k [(1, 1)%Z]) u (smp None (F 1) loss ws) tt with
    | Some (lab, ps, c, _) => Some (lab, ps, (c_data c, c_iter c, c_upd c)%Z) | None => None end in
  go (-1)%Z LHinge [[F 0; F 1]] f_half = Some (1, [F 1], (1, 1, 1))%Z /\
  go (-1)%Z LHinge [[F 0; F 1]] (n_add f32num f_half f_quarter) = Some (1, [F 1], (1, 0, 0))%Z /\
  go 0%Z LMaxHinge [[F 0; F 2]; [F 0; F 5]; [F 0; F 1]] f_quarter = Some (1, [F 2; F 5; F 1], (1, 1, 1))%Z /\
  go 0%Z LMaxHinge [[F 0; F 2]; [F 0; F 5]; [F 0; F 1]] f_half = Some (1, [F 2; F 5; F 1], (1, 0, 0))%Z.
Proof. vm_compute. repeat split. Qed.

(** With the hinge loss and cost_margin v, an example is learnt from exactly if its score times its label
    is below v (positive examples) or below 1 (negative ones).  All models but CW and ECCW, including
    ALMA2, whose own margin the setting replaces. *)
Definition own_margin {A} (k : kind (R:=A)) : bool :=
  match k with KCW _ _ _ | KECCW _ _ _ => true | _ => false end.
Theorem C57_cost : forall k p u c e lab ps c' e' v, own_margin k = false -> wf_core c -> length (c_ws c) = 1%nat ->
  c_loss c = LHinge -> c_cost c = Some v -> c_lazy c = false -> ~ 0 < c_active c ->
  iterate Rnum (alg_of Rnum k) p u c e = Some (lab, ps, c', e') ->
  exists s, ps = [s] /\
    (s * IZR (p_label p) < class_margin v (p_label p) -> c_upd c' = (c_upd c + 1)%Z) /\
    (class_margin v (p_label p) <= s * IZR (p_label p) -> c_upd c' = c_upd c).
Proof.
  intros k p u c e lab ps c' e' v Hk Hc Hn Hl Hco Hla Ha. apply costed; auto.
  destruct k; cbn in Hk; try discriminate; reflexivity.
Qed.
Print Assumptions C57_cost.
(** Score 1 on a positive and, with the sign of the weight changed, on a negative example; cost 3. *)
Example C57_cost_witness :
  let go k y w cost := match iterate f32num (alg_of f32num k) (pt y [(1, 1)%Z]) (F 0) (smp cost (F 0) LHinge [[F 0; F w]]) (init_of f32num k 1) with
    | Some (_, ps, c, _) => Some (ps, c_upd c) | None => None end in
  go (KOGD (F 1) (F 0)) 1%Z 1%Z None = Some ([F 1], 0)%Z /\ go (KOGD (F 1) (F 0)) 1%Z 1%Z (Some (F 3)) = Some ([F 1], 1)%Z /\
  go (KOGD (F 1) (F 0)) (-1)%Z (-1)%Z (Some (F 3)) = Some ([F (-1)], 0)%Z /\
  go (KALMA2 (F 1) (F 1) (F 1)) 1%Z 2%Z (Some (F 3)) = Some ([F 2], 1)%Z.
Proof. vm_compute. repeat split. Qed.

(** CW and ECCW ignore cost_margin: training gives the same model, whatever the cost. *)
Theorem C57_cost_ignored : forall A (N : num A) a phi b pre data c e cost m c1 e1, c_loss c = LHinge ->
  (train N (cw N a phi b) pre data c e = Some (c1, e1) ->
   exists m', train N (cw N a phi b) pre data (with_cost c cost m) e = Some (with_cost c1 cost m', e1)) /\
  (train N (eccw N a phi b) pre data c e = Some (c1, e1) ->
   exists m', train N (eccw N a phi b) pre data (with_cost c cost m) e = Some (with_cost c1 cost m', e1)).
Proof. intros. split; [now apply cost_cw|now apply cost_eccw]. Qed.
Print Assumptions C57_cost_ignored.
(** So C57_cost fails for them: score 1, label 1, cost 3, and no update. *)
Theorem C57_cost_cw_refuted : exists (k : kind (R:=f32)) p c lab s c' e', own_margin k = true /\ wf_core c /\
  c_loss c = LHinge /\ c_cost c = Some (F 3) /\ p_label p = 1%Z /\
  iterate f32num (alg_of f32num k) p (F 0) c (init_of f32num k 1) = Some (lab, [s], c', e') /\
  n_lt f32num s (F 3) = true /\ c_upd c' = c_upd c.
Proof.
  exists (KCW (F 1) f_half true), (pt 1 [(1, 1)%Z]), (smp (Some (F 3)) (F 0) LHinge [[F 0; F 2]]).
  do 4 eexists. split; [reflexivity|]. split. { split; [cbn; lia|]. split; [discriminate|]. split; [repeat constructor|reflexivity]. }
  do 3 (split; [reflexivity|]). split; [vm_compute; reflexivity|]. split; vm_compute; reflexivity.
Qed.
Print Assumptions C57_cost_cw_refuted.
