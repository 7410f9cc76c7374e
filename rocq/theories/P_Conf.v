(** The confidences and scales of the second-order models: what one training step does to them. *)
From Coq Require Import Reals Lra Psatz Sorted.
From Verif Require Import M_Base M_Num M_Expr M_Loss M_Online M_Olm M_OlmSel M_Heap M_Algs S_Expr
  S_Real S_Online S_Session S_Learn P_DataPoint P_Expr P_Real P_Online P_Predict P_Step P_Safe P_SafeOlm P_SafeSel2
  P_Session P_Session2 P_Inv.
Local Open Scope R_scope.

(** What an update with gradient g of a class does to the number s of feature i. *)
Definition scaled (u v s : R) : R := s / (1 + s * (v * v) * u).
Definition adapted (delta g v s : R) : R := sqrt ((s - delta) * (s - delta) + g * v * (g * v)) + delta.
Definition at_feature (x : list (Z * R)) (i : nat) (f : R -> R -> R) (f0 : R -> R) (s : R) : R :=
  let s1 := match lookup x i with Some v => f v s | None => s end in
  if (i =? 0)%nat then f0 s1 else s1.
Definition cstep (k : kind (R:=R)) (vt loss : R) (x : list (Z * R)) (g : R) (i : nat) (s : R) : R :=
  match k with
  | KAROW r | KSOFS r _ => at_feature x i (scaled (g * g / r)) (scaled (g * g / r) 1) s
  | KCW _ phi _ => let t := 2 * cw_alpha Rnum phi vt loss * phi in at_feature x i (scaled t) (scaled t 1) s
  | KECCW _ phi _ => let t := eccw_tmp Rnum phi vt (eccw_alpha Rnum phi vt loss) in
                     at_feature x i (scaled t) (scaled t 1) s
  | KAdaFOBOS d | KAdaFOBOS_L1 d _ _ | KAdaFOBOS_OFS d _ | KAdaRDA d | KAdaRDA_L1 d _ _ | KAdaRDA_OFS d _ =>
    at_feature x i (adapted d g) (adapted d g 1) s
  | KSOP _ => match lookup x i with Some v => scaled 1 v s | None => s end
  | _ => s
  end.

Lemma Some_inj {A} (a b : A) : Some a = Some b -> a = b.
Proof. congruence. Qed.
Lemma lookup_above (x : list (Z * R)) n i : below n x -> (n <= i)%nat -> lookup x i = None.
Proof.
  intros Hb Hi. apply lookup_None. intros Hin. unfold below in Hb. rewrite Forall_forall in Hb.
  specialize (Hb _ Hin). lia.
Qed.
Lemma nth_any {A} i (l : list A) d d' : (i < length l)%nat -> nth i l d = nth i l d'.
Proof. intros. now apply nth_indep. Qed.
Lemma pstep_conf F f0 x (Sg : list R) a i : below (length Sg) x -> (1 <= length Sg)%nat ->
  nth i (pstep Rnum F f0 x Sg) a = at_feature x i (fun v s => F i s v) f0 (nth i Sg a).
Proof.
  intros Hb Hl. unfold at_feature. destruct (lt_dec i (length Sg)) as [Hi|Hi].
  - rewrite (nth_any i _ a (zero Rnum)) by (rewrite pstep_length; lia). rewrite pstep_nth by lia.
    rewrite (nth_any i Sg a (zero Rnum)) by lia. reflexivity.
  - rewrite !nth_overflow by (rewrite ?pstep_length; lia). rewrite (lookup_above x (length Sg)) by (auto; lia).
    destruct (Nat.eqb_spec i 0); [lia|reflexivity].
Qed.
Lemma at_feature_ext x i f f' f0 f0' s : (forall v, lookup x i = Some v -> f v s = f' v s) ->
  (forall s, i = O -> f0 s = f0' s) -> at_feature x i f f0 s = at_feature x i f' f0' s.
Proof.
  intros H H0. unfold at_feature. destruct (lookup x i) as [v|]; [rewrite H by reflexivity|];
    (destruct (Nat.eqb_spec i 0); [now apply H0|reflexivity]).
Qed.
Lemma pstep_conf' F f0 f f0' x (Sg : list R) a i : below (length Sg) x -> (1 <= length Sg)%nat ->
  (forall v, (i < length Sg)%nat -> F i (nth i Sg a) v = f v (nth i Sg a)) -> (forall s, f0 s = f0' s) ->
  nth i (pstep Rnum F f0 x Sg) a = at_feature x i f f0' (nth i Sg a).
Proof.
  intros Hb Hl HF H0. rewrite pstep_conf by auto. apply at_feature_ext; auto. intros v Hv. apply HF.
  destruct (lt_dec i (length Sg)); auto. rewrite (lookup_above x (length Sg)) in Hv by (auto; lia). discriminate.
Qed.
Lemma nth_zipc {A B C} (f : A -> B -> C) l m j a b c : length l = length m -> (j < length m)%nat ->
  nth j (zipc f l m) c = f (nth j l a) (nth j m b).
Proof.
  revert m j. induction l as [|x l IH]; intros [|y m] [|j] Hl Hj; simpl in *; try lia; auto. apply IH; lia.
Qed.
Lemma map_fst_combine {A B} (l : list A) : forall m : list B, length l = length m -> map fst (combine l m) = l.
Proof. induction l; intros [|b m] H; simpl in *; try lia; auto. f_equal. apply IHl. lia. Qed.
Lemma nth_combine {A B} (l : list A) (m : list B) j a b : length l = length m ->
  nth j (combine l m) (a, b) = (nth j l a, nth j m b).
Proof. intros. now apply combine_nth. Qed.

(** Growth does not change the function. *)
Lemma nth_grow d d' (a : R) l i : length l = d -> nth i (grow d d' a l) a = nth i l a.
Proof.
  intros <-. unfold grow. rewrite firstn_all. destruct (lt_dec i (length l)).
  - now rewrite app_nth1 by lia.
  - rewrite app_nth2 by lia. rewrite (nth_overflow l) by lia. destruct (nth_in_or_default (i - length l) (repeat a (d' - length l)) a) as [H|H]; [|exact H].
    now apply repeat_spec in H.
Qed.
Lemma nth_grows n d d' (a : R) vs j i : shape n d vs -> nth i (nth j (map (grow d d' a) vs) []) a = nth i (nth j vs []) a \/ (n <= j)%nat.
Proof.
  intros (L & F). destruct (lt_dec j n) as [Hj|Hj]; [left|right; lia].
  rewrite (nth_any j _ [] (grow d d' a [])) by (rewrite map_length; lia). rewrite map_nth. apply nth_grow.
  rewrite Forall_forall in F. apply F. apply nth_In. lia.
Qed.
Lemma nth_grows' n d d' (a : R) vs j i : shape n d vs ->
  nth i (nth j (map (grow d d' a) vs) []) a = nth i (nth j vs []) a.
Proof.
  intros H. destruct (nth_grows n d d' a vs j i H) as [E|E]; [exact E|]. destruct H as (L & _).
  rewrite !(nth_overflow _ []) by (rewrite ?map_length; lia). reflexivity.
Qed.
Lemma sigma_grow_conf a n d (c : core) vs c' vs' j i : shape n (c_dim c) vs -> sigma_grow Rnum a d c vs = Some (c', vs') ->
  nth i (nth j vs' []) a = nth i (nth j vs []) a.
Proof.
  intros Hs H. unfold sigma_grow in H. destruct (c_dim c <? d)%nat; injection H as <- <-; [|reflexivity].
  eapply nth_grows'; eauto.
Qed.
Lemma sel2_grow_conf a n d (c : core) s c' s' j i : shape n (c_dim c) (s_vecs s) -> sel2_grow Rnum a d c s = Some (c', s') ->
  nth i (nth j (s_vecs s') []) a = nth i (nth j (s_vecs s) []) a.
Proof.
  intros Hs H. unfold sel2_grow in H. destruct (c_dim c <? d)%nat eqn:Ed; [|injection H as <- <-; reflexivity].
  dob H Q1. destruct p as (c1, vs). dob H Q2. injection H as <- <-. eapply sigma_grow_conf; eauto.
Qed.

(** The models of this file. *)
Definition second_order (k : kind (R:=R)) : Prop := (shrinking k || adaptive k)%bool = true.
Definition cshape (k : kind (R:=R)) (n d : nat) : state_of k -> Prop :=
  match k return state_of k -> Prop with
  | KSOP _ => fun e => length (fst e) = d /\ shape n d (snd e)
  | KAdaRDA_OFS _ _ => fun e => shape n d (s_vecs (fst e)) /\ length (snd e) = n
  | k' => fun e => shape n d (confs k' e)
  end.
Lemma conf_shape k ws d e : second_order k -> pre_of Rnum False k ws d e ->
  cshape k (length ws) d e.
Proof.
  intros Hk H. destruct k; try discriminate Hk; cbn [pre_of inv_of confs cshape] in *; auto.
  - destruct H as (H & _). exact H.
  - destruct H as (H & _). exact H.
  - destruct H as (H & _). exact H.
  - apply shape2_split in H. apply H.
  - apply shape2_split in H. apply H.
  - destruct H as ((H & _) & (L & _)). split; [exact H|exact L].
Qed.
Lemma conf_sop a (s : state_of (KSOP a)) j i : conf (KSOP a) s j i =
  match j with O => 1 / (a + nth i (fst s) 0) | S _ => 1 / a end.
Proof.
  unfold conf. cbn [confs conf0]. destruct j as [|j].
  - cbn [nth]. replace (1 / a) with (1 / (a + 0)) by (now rewrite Rplus_0_r).
    now rewrite (map_nth (fun X => 1 / (a + X))).
  - destruct j; cbn [nth]; destruct i; reflexivity.
Qed.
Lemma conf_grow k d c e c' e' : second_order k -> pre_of Rnum False k (c_ws c) (c_dim c) e ->
  a_grow (alg_of Rnum k) d c e = Some (c', e') -> forall j i, conf k e' j i = conf k e j i.
Proof.
  intros Hk HI H j i. apply conf_shape in HI; [|exact Hk].
  destruct k; try discriminate Hk; cbn [alg_of] in H.
  - (* SOP *) rewrite !conf_sop. destruct j; [|reflexivity]. destruct e as (X, v). destruct HI as (HX & _). cbn [sop a_grow] in H. unfold sop_grow in H. cbn [fst] in HX.
    destruct (c_dim c <? d)%nat; injection H as <- <-; [|reflexivity]. cbn [fst].
    change (zero Rnum) with 0. rewrite (nth_grow (c_dim c) d 0) by exact HX. reflexivity.
  - unfold conf. eapply sigma_grow_conf; [exact HI|exact H].
  - unfold conf. eapply sel2_grow_conf; [exact HI|exact H].
  - unfold conf. eapply sigma_grow_conf; [exact HI|exact H].
  - unfold conf. eapply sigma_grow_conf; [exact HI|exact H].
  - unfold conf. eapply sigma_grow_conf; [exact HI|exact H].
  - cbn [ada_fobos_l1 a_grow] in H. dob H Q1. destruct p as (c1, H1). injection H as <- <-. unfold conf. cbn [confs conf0 fst].
    eapply sigma_grow_conf; [exact HI|exact Q1].
  - unfold conf. eapply sel2_grow_conf; [exact HI|exact H].
  - cbn [ada_rda a_grow] in H. unfold ada_rda_grow in H. destruct (c_dim c <? d)%nat; injection H as <- <-; [|reflexivity].
    unfold conf. cbn [confs conf0] in *. rewrite map_map. cbn [fst]. rewrite <- (map_map fst (grow (c_dim c) d delta)). eapply nth_grows'; exact HI.
  - cbn [ada_rda_l1 a_grow] in H. unfold ada_rda_grow in H. destruct (c_dim c <? d)%nat; injection H as <- <-; [|reflexivity].
    unfold conf. cbn [confs conf0] in *. rewrite map_map. cbn [fst]. rewrite <- (map_map fst (grow (c_dim c) d delta)). eapply nth_grows'; exact HI.
  - cbn [ada_rda_ofs a_grow] in H. unfold ada_rda_ofs_grow in H. destruct e as (s, ut). dob H Q1. destruct p as (c1, s1). injection H as <- <-.
    unfold conf. cbn [confs conf0 fst] in *. destruct HI as (HI & _). eapply sel2_grow_conf; [exact HI|exact Q1].
Qed.
Lemma conf_reg_begin k p e e' : second_order k -> a_reg_begin (alg_of Rnum k) p e = Some e' -> forall j i, conf k e' j i = conf k e j i.
Proof.
  intros Hk H j i. destruct k; try discriminate Hk; cbn in H; injection H as <-; reflexivity.
Qed.
Lemma conf_reg_end k p it e e' : second_order k -> a_reg_end (alg_of Rnum k) p it e = Some e' -> forall j i, conf k e' j i = conf k e j i.
Proof.
  intros Hk H j i. destruct k; try discriminate Hk; cbn [alg_of] in H; try (cbn in H; injection H as <-; reflexivity).
  cbn [ada_fobos_l1 a_reg_end] in H. dob H Q1. injection H as <-. reflexivity.
Qed.
Lemma conf_prep k p c e c' e' : second_order k -> a_prep (alg_of Rnum k) p c e = Some (c', e') -> e' = e.
Proof.
  intros Hk H. destruct k; try discriminate Hk; cbn [alg_of] in H; try (cbn in H; injection H as <- <-; reflexivity).
  - cbn [sop a_prep] in H. unfold sop_prep in H. destruct e. dob H Q1. now injection H as <- <-.
  - cbn [ada_fobos_l1 a_prep] in H. unfold ada_fobos_l1_prep in H. destruct e. dob H Q1. now injection H as <- <-.
  - cbn [ada_rda_l1 a_prep] in H. unfold ada_rda_l1_prep in H. dob H Q1. now injection H as <- <-.
Qed.
Lemma sel2_begin_conf cmp a B (c : core) s c' s' n j i : shape n (c_dim c) (s_vecs s) -> sel2_begin Rnum cmp a B c s = Some (c', s') ->
  nth i (nth j (s_vecs s') []) a = nth i (nth j (s_vecs s) []) a.
Proof.
  intros Hs H. unfold sel2_begin in H. destruct B as [|B]; [injection H as <- <-; reflexivity|].
  dob H Q1. destruct p as (c1, s1). dob H Q2. cbv zeta in H. dob H Q3. injection H as <- <-. cbn [s_vecs].
  destruct (c_dim c <? S B + 1)%nat; [eapply sel2_grow_conf; eauto|injection Q1 as <- <-; reflexivity].
Qed.
Lemma conf_begin k c e c' e' : second_order k -> pre_of Rnum False k (c_ws c) (c_dim c) e ->
  a_begin (alg_of Rnum k) c e = Some (c', e') -> forall j i, conf k e' j i = conf k e j i.
Proof.
  intros Hk HI H j i. apply conf_shape in HI; [|exact Hk].
  destruct k; try discriminate Hk; cbn [alg_of] in H; try (cbn in H; injection H as <- <-; reflexivity).
  - unfold conf. eapply sel2_begin_conf; [exact HI|exact H].
  - unfold conf. eapply sel2_begin_conf; [exact HI|exact H].
  - cbn [ada_rda_ofs a_begin] in H. dob H Q1. destruct p as (c1, s1). injection H as <- <-.
    unfold conf. cbn [confs conf0 fst] in *. destruct HI as (HI & _). eapply sel2_begin_conf; [exact HI|exact Q1].
Qed.
Lemma conf_end k c e c' e' : second_order k -> a_end (alg_of Rnum k) c e = Some (c', e') -> forall j i, conf k e' j i = conf k e j i.
Proof.
  intros Hk H j i. destruct k; try discriminate Hk; cbn [alg_of] in H; try (cbn in H; injection H as <- <-; reflexivity).
  - cbn [sop a_end] in H. unfold sop_end in H. destruct e. dob H Q1. now injection H as <- <-.
  - cbn [ada_fobos_l1 a_end] in H. unfold ada_fobos_l1_end in H. destruct e. dob H Q1. now injection H as <- <-.
  - cbn [ada_rda a_end] in H. unfold ada_rda_end in H. dob H Q1. now injection H as <- <-.
  - cbn [ada_rda_l1 a_end] in H. unfold ada_rda_l1_end in H. dob H Q1. now injection H as <- <-.
  - cbn [ada_rda_ofs a_end] in H. unfold ada_rda_ofs_end in H. destruct e as (s, ut). dob H Q1. destruct B; [now injection H as <- <-|].
    dob H Q2. destruct p as (h, ws'). now injection H as <- <-.
Qed.

(** What Update does to the number s of class j and feature i. *)
Definition cupd (k : kind (R:=R)) (gs : list R) (vt loss : R) (x : list (Z * R)) (j i : nat) (s : R) : R :=
  match k with
  | KSOP _ => match j with O => cstep k vt loss x 0 i s | S _ => s end
  | _ => if Req_EM_T (nth j gs 0) 0 then s else cstep k vt loss x (nth j gs 0) i s
  end.
Lemma each_class2_rel {A} (f : R -> list R -> A -> option (list R * A)) (Q : R -> A -> A -> Prop) gs ws es ws' es' j da :
  (forall g w e w' e', In w ws -> In e es -> f g w e = Some (w', e') -> Q g e e') ->
  each_class2 Rnum f gs ws es = Some (ws', es') -> (j < length ws)%nat ->
  length ws' = length ws /\ length es' = length ws /\
  if Req_EM_T (nth j gs 0) 0 then nth j es' da = nth j es da else Q (nth j gs 0) (nth j es da) (nth j es' da).
Proof.
  revert gs es ws' es' j. induction ws as [|w ws IH]; intros [|g gs] [|e es] ws' es' j Hf H Hj; cbn [each_class2 length] in *; try lia; try discriminate.
  dob H Q1. destruct p as (w1, e1). dob H Q2. destruct p as (r, s). injection H as <- <-.
  assert (Hf' : forall g w0 e0 w' e', In w0 ws -> In e0 es -> f g w0 e0 = Some (w', e') -> Q g e0 e').
  { intros. eapply Hf; [right|right|]; eauto. }
  assert (Lr : length r = length ws /\ length s = length ws).
  { destruct ws as [|w2 ws]; [destruct gs, es; cbn in Q2; injection Q2 as <- <-; auto|].
    destruct (IH gs es r s O Hf' Q2) as (? & ? & _); [cbn; lia|auto]. }
  destruct Lr as (Lr & Ls). cbn [length]. split; [lia|]. split; [lia|]. destruct j as [|j]; cbn [nth].
  - change (n_eq Rnum g (zero Rnum)) with (if Req_EM_T g 0 then true else false) in Q1.
    destruct (Req_EM_T g 0); [injection Q1 as <- <-; reflexivity|]. eapply Hf; [now left|now left|exact Q1].
  - apply (IH gs es r s j Hf' Q2). lia.
Qed.
Lemma each_class_conf (f : R -> list R -> option (list R)) F a gs vs vs' j i :
  length gs = length vs -> (forall g w, In w vs -> f g w = Some (F g w)) ->
  each_class Rnum f gs vs = Some vs' -> (j < length vs)%nat ->
  nth i (nth j vs' []) a =
  if Req_EM_T (nth j gs 0) 0 then nth i (nth j vs []) a else nth i (F (nth j gs 0) (nth j vs [])) a.
Proof.
  intros Lg Hf H Hj. rewrite (each_class_spec Rnum f F gs vs Lg Hf) in H. injection H as <-.
  rewrite (nth_zipc _ _ _ j 0 []) by (rewrite ?combine_length; lia).
  change (n_eq Rnum (nth j gs 0) (zero Rnum)) with (if Req_EM_T (nth j gs 0) 0 then true else false).
  destruct (Req_EM_T (nth j gs 0) 0); reflexivity.
Qed.
(** Features of a point are below the dimension. *)
Lemma feats_bel lo p d : (0 <= lo)%Z -> wf_point (R:=R) lo p -> (Z.to_nat (x_dim p) <= d)%nat -> below d (feats p).
Proof. intros. unfold below. eapply feats_below; eauto. Qed.

Section Vec.
Variables (x : list (Z * R)) (Sg : list R).
Hypothesis Hs : sorted_ix x.
Hypothesis Hb : below (length Sg) x.
Hypothesis Hl : (1 <= length Sg)%nat.
Lemma arow_conf r g a i Sg' : arow_sigma Rnum r x g Sg = Some Sg' ->
  nth i Sg' a = at_feature x i (scaled (g * g / r)) (scaled (g * g / r) 1) (nth i Sg a).
Proof.
  rewrite arow_sigma_spec by auto. intros [= <-]. apply pstep_conf'; auto.
  - intros v Hi. cbv beta. rewrite (nth_any i Sg 0 a) by auto. reflexivity.
  - intros s. unfold scaled. cbn. now rewrite Rmult_1_r, Rmult_1_r.
Qed.
Lemma cw_conf t a i Sg' : cw_sigma Rnum t x Sg = Some Sg' ->
  nth i Sg' a = at_feature x i (scaled t) (scaled t 1) (nth i Sg a).
Proof.
  rewrite cw_sigma_spec by auto. intros [= <-]. apply pstep_conf'; auto.
  - intros v Hi. cbv beta. rewrite (nth_any i Sg 0 a) by auto. unfold scaled. cbn. f_equal. ring.
  - intros s. unfold scaled. cbn. f_equal. ring.
Qed.
Lemma ada_conf delta g a i Sg' : ada_H Rnum delta x g Sg = Some Sg' ->
  nth i Sg' a = at_feature x i (adapted delta g) (adapted delta g 1) (nth i Sg a).
Proof.
  rewrite ada_H_spec by auto. intros [= <-]. apply pstep_conf'; auto.
  - intros v Hi. cbv beta. rewrite (nth_any i Sg 0 a) by auto. reflexivity.
  - intros s. unfold adapted. cbn. rewrite Rmult_1_r. reflexivity.
Qed.
End Vec.
Lemma feature_loop_conf cmp f B x : forall (v : list R) h v' h' a i, sorted_ix x -> below (length v) x ->
  feature_loop cmp f B x v h = Some (v', h') ->
  length v' = length v /\
  nth i v' a = match lookup x i with Some xv => f (nth i v a) xv | None => nth i v a end.
Proof.
  induction x as [|(q, xv) x IH]; intros v h v' h' a i Hs Hb H.
  - cbn in H. injection H as <- <-. auto.
  - cbn [feature_loop] in H. dob H Q1. dob H Q2. dob H Q3.
    destruct (sorted_ix_tail _ _ _ Hs) as (Hs' & Hq & Hlt & Hnin).
    assert (Hqv : (Z.to_nat q < length v)%nat).
    { unfold rd in Q1. apply nth_error_Some. congruence. }
    rewrite wr_upd in Q2 by exact Hqv. injection Q2 as <-.
    assert (Hb' : below (length (upd (Z.to_nat q) (f r xv) v)) x).
    { rewrite upd_length. unfold below in *. cbn in Hb. now inversion Hb. }
    destruct (IH _ _ _ _ a i Hs' Hb' H) as (L & E). rewrite upd_length in L. split; [exact L|].
    rewrite E. cbn [lookup]. rewrite nth_upd by exact Hqv.
    destruct (Z.eqb_spec q (Z.of_nat i)) as [->|Hne].
    + rewrite Nat2Z.id, Nat.eqb_refl in *. apply lookup_None in Hnin. rewrite Hnin.
      unfold rd in Q1. f_equal. symmetry. now apply nth_error_nth.
    + destruct (Nat.eqb_spec i (Z.to_nat q)); [lia|]. reflexivity.
Qed.
Lemma at_feature_no0 x i f f0 s : lookup x 0 = None ->
  at_feature x i f f0 s = if (i =? 0)%nat then f0 s else match lookup x i with Some v => f v s | None => s end.
Proof. intros H. unfold at_feature. destruct (Nat.eqb_spec i 0); [subst; now rewrite H|reflexivity]. Qed.

(** The confidence part of the feature-selection models. *)
Lemma sel2_confidence_conf cmp bias0 feat whole (f : R -> R -> R -> R) (f0 : R -> R -> R) B x gs s s' n d a j i :
  sorted_ix x -> below d x -> (1 <= d)%nat -> lookup x 0 = None -> length gs = n -> shape n d (s_vecs s) -> (j < n)%nat ->
  (forall g v, bias0 g v = f0 g v) -> (forall g v xv, feat g v xv = f g xv v) ->
  (forall g v, length v = d -> exists v', whole g v = Some v' /\ length v' = d /\
     forall i, nth i v' a = at_feature x i (f g) (f0 g) (nth i v a)) ->
  nth 0 gs 0 <> 0 \/ n <> 1%nat ->
  sel2_confidence Rnum cmp bias0 feat whole B x gs s = Some s' ->
  nth i (nth j (s_vecs s') []) a =
  if Req_EM_T (nth j gs 0) 0 then nth i (nth j (s_vecs s) []) a
  else at_feature x i (f (nth j gs 0)) (f0 (nth j gs 0)) (nth i (nth j (s_vecs s) []) a).
Proof.
  intros Hs Hb Hd H0 Lg (Lv & Fv) Hj Eb Ef Hw Hg H. unfold sel2_confidence in H.
  assert (Hmulti : forall vs, s_vecs s = vs ->
    (do vs' <- each_class Rnum whole gs vs;
     do (sum, h) <- sum_loop Rnum cmp B (map fst x) vs' (s_sum s) (s_heap s);
     Some (mksel2 vs' sum h)) = Some s' ->
    nth i (nth j (s_vecs s') []) a =
    if Req_EM_T (nth j gs 0) 0 then nth i (nth j (s_vecs s) []) a
    else at_feature x i (f (nth j gs 0)) (f0 (nth j gs 0)) (nth i (nth j (s_vecs s) []) a)).
  { intros vs Ev H'. dob H' Q1. dob H' Q2. destruct p as (sum, h). injection H' as <-. cbn [s_vecs]. subst vs.
    assert (HW : forall g v, In v (s_vecs s) -> whole g v = Some (match whole g v with Some v' => v' | None => [] end)).
    { intros g v Hin. rewrite Forall_forall in Fv. destruct (Hw g v (Fv v Hin)) as (v' & -> & _). reflexivity. }
    rewrite (each_class_conf _ _ a gs (s_vecs s) _ j i ltac:(lia) HW Q1) by lia.
    destruct (Req_EM_T (nth j gs 0) 0); [reflexivity|].
    rewrite Forall_forall in Fv. destruct (Hw (nth j gs 0) (nth j (s_vecs s) [])) as (v' & -> & _ & Hi).
    - apply Fv, nth_In. lia.
    - apply Hi. }
  destruct (s_vecs s) as [|v [|v2 vs]] eqn:Ev.
  - cbn in Lv. lia.
  - destruct gs as [|g gs]; [now apply (Hmulti [v])|]. cbn in Lv, Lg. destruct gs; [|cbn in Lg; lia].
    assert (j = O) by lia. subst j. cbn [nth] in *. clear Hmulti. destruct Hg as [Hg|Hg]; [|lia].
    destruct (Req_EM_T g 0); [contradiction|]. dob H Q1. dob H Q2. destruct p as (v2, h). injection H as <-. cbn [s_vecs nth].
    inversion Fv; subst. rewrite (upd0_spec Rnum) in Q1 by lia. apply Some_inj in Q1. subst l.
    destruct (feature_loop_conf _ _ _ _ _ _ _ _ a i Hs ltac:(rewrite upd_length; exact Hb) Q2) as (_ & E). rewrite E.
    rewrite nth_upd by lia. rewrite at_feature_no0 by exact H0. destruct (Nat.eqb_spec i 0).
    + subst i. rewrite H0. rewrite Eb. f_equal. now apply nth_any.
    + destruct (lookup x i); [now rewrite Ef|reflexivity].
  - apply (Hmulti (v :: v2 :: vs)); [reflexivity|]. destruct gs; exact H.
Qed.
Lemma lookup0 p : wf_point (R:=R) 1 p -> lookup (feats p) 0 = None.
Proof.
  intros Hp. apply lookup_None. destruct Hp as (L & _ & F). rewrite feats_fst by exact L. rewrite Forall_forall in F.
  intros Hin. apply F in Hin. cbn in Hin. lia.
Qed.
Lemma sel2_truncate_vecs cmp p (c : core) s c' s' : sel2_truncate Rnum cmp p c s = Some (c', s') -> s_vecs s' = s_vecs s.
Proof. unfold sel2_truncate. intros H. dob H Q1. destruct p0 as (h, ws). injection H as <- <-. reflexivity. Qed.
Lemma single_zero_false n (c : core) : single_zero Rnum c = false -> length (c_ws c) = n -> length (c_g c) = n -> (1 <= n)%nat ->
  nth 0 (c_g c) 0 <> 0 \/ n <> 1%nat.
Proof.
  unfold single_zero. intros H Lw Lg Hn. destruct (c_ws c) as [|w [|w2 ws]]; destruct (c_g c) as [|g gs]; cbn in *; try lia.
  left. destruct (Req_EM_T g 0); [discriminate|assumption].
Qed.
Lemma single_zero_true (c : core) n j : single_zero Rnum c = true -> length (c_ws c) = n -> (j < n)%nat -> nth j (c_g c) 0 = 0.
Proof.
  unfold single_zero. intros H Lw Hj. destruct (c_ws c) as [|w [|w2 ws]]; destruct (c_g c) as [|g gs]; cbn in *; try lia; try discriminate.
  assert (j = O) by lia. subst. destruct (Req_EM_T g 0); [assumption|discriminate].
Qed.
(** The relation between the numbers of one class before and after. *)
Definition stepped (x : list (Z * R)) (a : R) (f : R -> R -> R) (f0 : R -> R) (S S' : list R) : Prop :=
  forall i, nth i S' a = at_feature x i f f0 (nth i S a).
Section Upd.
Variables (p : point R) (c : core (R:=R)) (n : nat) (Ss : list (list R)).
Hypothesis Hp : wf_point 0 p.
Hypothesis Hc : wf_core c.
Hypothesis Hd : (Z.to_nat (x_dim p) <= c_dim c)%nat.
Hypothesis Hs : shape n (c_dim c) Ss.
Lemma upd_side Sg : In Sg Ss -> below (length Sg) (feats p) /\ (1 <= length Sg)%nat.
Proof.
  intros HS. destruct Hs as (_ & F). rewrite Forall_forall in F. rewrite (F _ HS).
  split; [exact (feats_bel 0 p (c_dim c) ltac:(lia) Hp Hd)|apply Hc].
Qed.
Lemma arow_step_conf r eta bias a g w Sg w' S' : In Sg Ss -> arow_step Rnum r eta bias (feats p) g w Sg = Some (w', S') ->
  stepped (feats p) a (scaled (g * g / r)) (scaled (g * g / r) 1) Sg S'.
Proof.
  intros HS H i. unfold arow_step in H. dob H Q1. dob H Q2. injection H as <- <-. destruct (upd_side Sg HS).
  apply arow_conf; auto using fs.
Qed.
Lemma cw_step_conf t eta bias a g w Sg w' S' : In Sg Ss -> cw_step Rnum t eta bias (feats p) g w Sg = Some (w', S') ->
  stepped (feats p) a (scaled t) (scaled t 1) Sg S'.
Proof.
  intros HS H i. unfold cw_step in H. dob H Q1. dob H Q2. injection H as <- <-. destruct (upd_side Sg HS).
  apply cw_conf; auto using fs.
Qed.
Lemma ada_step_conf delta eta bias a g w Sg w' S' : In Sg Ss -> ada_fobos_step Rnum delta eta bias (feats p) g w Sg = Some (w', S') ->
  stepped (feats p) a (adapted delta g) (adapted delta g 1) Sg S'.
Proof.
  intros HS H i. unfold ada_fobos_step in H. dob H Q1. dob H Q2. injection H as <- <-. destruct (upd_side Sg HS).
  apply ada_conf; auto using fs.
Qed.
End Upd.
Lemma arow_update_conf r p loss (c : core) Ss c' Ss' n a j :
  wf_point 0 p -> wf_core c -> (Z.to_nat (x_dim p) <= c_dim c)%nat -> length (c_ws c) = n ->
  shape n (c_dim c) Ss -> (j < n)%nat -> arow_update Rnum r p loss c Ss = Some (c', Ss') ->
  let g := nth j (c_g c) 0 in
  if Req_EM_T g 0 then nth j Ss' [] = nth j Ss []
  else stepped (feats p) a (scaled (g * g / r)) (scaled (g * g / r) 1) (nth j Ss []) (nth j Ss' []).
Proof.
  intros Hp Hc Hd Hn Hs Hj H. unfold arow_update in H. dob H Q1. cbv zeta in H. dob H Q2. destruct p0 as (ws, Ss1). injection H as <- <-.
  cbn [c_g c_ws set_eta] in Q2. eapply (each_class2_rel _ (fun g => stepped (feats p) a (scaled (g * g / r)) (scaled (g * g / r) 1)) _ _ _ _ _ j []) in Q2; [apply Q2| |lia].
  intros g w e w' e' Hw He Hf. eapply arow_step_conf; eauto.
Qed.
Lemma ada_update_conf delta p loss (c : core) Ss c' Ss' n a j :
  wf_point 0 p -> wf_core c -> (Z.to_nat (x_dim p) <= c_dim c)%nat -> length (c_ws c) = n ->
  shape n (c_dim c) Ss -> (j < n)%nat -> ada_fobos_update Rnum delta p loss c Ss = Some (c', Ss') ->
  let g := nth j (c_g c) 0 in
  if Req_EM_T g 0 then nth j Ss' [] = nth j Ss []
  else stepped (feats p) a (adapted delta g) (adapted delta g 1) (nth j Ss []) (nth j Ss' []).
Proof.
  intros Hp Hc Hd Hn Hs Hj H. unfold ada_fobos_update in H. dob H Q2. destruct p0 as (ws, Ss1). injection H as <- <-.
  eapply (each_class2_rel _ (fun g => stepped (feats p) a (adapted delta g) (adapted delta g 1)) _ _ _ _ _ j []) in Q2; [apply Q2| |lia].
  intros g w e w' e' Hw He Hf. eapply ada_step_conf; eauto.
Qed.
Lemma ada_rda_update_conf delta p loss (c : core) s c' s' n a j :
  wf_point 0 p -> wf_core c -> (Z.to_nat (x_dim p) <= c_dim c)%nat -> length (c_ws c) = n ->
  shape n (c_dim c) (map fst s) -> (j < n)%nat -> ada_rda_update Rnum delta p loss c s = Some (c', s') ->
  let g := nth j (c_g c) 0 in
  if Req_EM_T g 0 then nth j (map fst s') [] = nth j (map fst s) []
  else stepped (feats p) a (adapted delta g) (adapted delta g 1) (nth j (map fst s) []) (nth j (map fst s') []).
Proof.
  intros Hp Hc Hd Hn Hs Hj H. unfold ada_rda_update in H. dob H Q2. destruct p0 as (ws, Ss1). injection H as <- <-.
  change (@nil R) with (fst (@nil R, @nil R)). rewrite !map_nth.
  eapply (each_class2_rel _ (fun g S S' => stepped (feats p) a (adapted delta g) (adapted delta g 1) (fst S) (fst S')) _ _ _ _ _ j (@nil R, @nil R)) in Q2; [|  |].
  - destruct Q2 as (_ & _ & Q2). cbv zeta. destruct (Req_EM_T (nth j (c_g c) 0) 0); [f_equal; exact Q2|exact Q2].
  - intros g w (H0, u) w' (H1, u') Hw He Hf i. cbn [fst]. unfold ada_rda_step in Hf. dob Hf Q3. dob Hf Q4. dob Hf Q5. injection Hf as <- <- <-.
    assert (HS : In H0 (map fst s)) by (apply in_map_iff; exists (H0, u); auto).
    destruct (upd_side p c n (map fst s) Hp Hc Hd Hs H0 HS). apply ada_conf; auto using fs.
  - lia.
Qed.
Lemma ada_confidence_conf delta B p (c : core) s s' n j :
  wf_point 1 p -> wf_core c -> (Z.to_nat (x_dim p) <= c_dim c)%nat -> length (c_ws c) = n ->
  shape n (c_dim c) (s_vecs s) -> (j < n)%nat -> single_zero Rnum c = false ->
  ada_confidence Rnum delta B p (c_g c) s = Some s' ->
  let g := nth j (c_g c) 0 in forall i,
  nth i (nth j (s_vecs s') []) delta = if Req_EM_T g 0 then nth i (nth j (s_vecs s) []) delta
  else at_feature (feats p) i (adapted delta g) (adapted delta g 1) (nth i (nth j (s_vecs s) []) delta).
Proof.
  intros Hp Hc Hd Hn Hs Hj Hz H g i. unfold ada_confidence in H. pose proof (wf1 p Hp) as Hp0.
  pose proof (wf_glen c Hc) as Lg. pose proof (feats_bel 0 p (c_dim c) ltac:(lia) Hp0 Hd) as Hb. pose proof (proj1 Hc) as H1.
  refine (sel2_confidence_conf _ _ _ _ (adapted delta) (fun g => adapted delta g 1) B _ _ _ _ n (c_dim c) delta j i
            _ _ _ _ _ _ _ _ _ _ _ H).
  - exact (fs p Hp0).
  - exact Hb.
  - exact H1.
  - apply lookup0. exact Hp.
  - congruence.
  - exact Hs.
  - exact Hj.
  - intros g' v. unfold adapted. cbn. now rewrite Rmult_1_r.
  - intros g' v xv. unfold adapted. cbn. do 2 f_equal. ring.
  - intros g' v Lv. rewrite <- Lv in Hb, H1. pose proof (ada_H_spec Rnum delta (feats p) g' v (fs p Hp0) H1) as E.
    eexists. split; [exact E|]. split; [now rewrite pstep_length|].
    intros i'. apply ada_conf; auto using fs.
  - eapply single_zero_false; eauto; lia.
Qed.
Lemma cw_update_conf phi p loss (c : core) Ss c' Ss' n a j :
  wf_point 0 p -> wf_core c -> (Z.to_nat (x_dim p) <= c_dim c)%nat -> length (c_ws c) = n ->
  shape n (c_dim c) Ss -> (j < n)%nat -> cw_update Rnum phi p loss c Ss = Some (c', Ss') ->
  let t := 2 * cw_alpha Rnum phi (c_vt c) loss * phi in
  if Req_EM_T (nth j (c_g c) 0) 0 then nth j Ss' [] = nth j Ss []
  else stepped (feats p) a (scaled t) (scaled t 1) (nth j Ss []) (nth j Ss' []).
Proof.
  intros Hp Hc Hd Hn Hs Hj H t. unfold cw_update in H. cbv zeta in H. dob H Q2. destruct p0 as (ws, Ss1). injection H as <- <-.
  cbn [c_g c_ws set_eta] in Q2. eapply (each_class2_rel _ (fun _ => stepped (feats p) a (scaled t) (scaled t 1)) _ _ _ _ _ j []) in Q2; [apply Q2| |lia].
  intros g w e w' e' Hw He Hf. eapply cw_step_conf; eauto.
Qed.
Lemma eccw_update_conf phi p loss (c : core) Ss c' Ss' n a j :
  wf_point 0 p -> wf_core c -> (Z.to_nat (x_dim p) <= c_dim c)%nat -> length (c_ws c) = n ->
  shape n (c_dim c) Ss -> (j < n)%nat -> eccw_update Rnum phi p loss c Ss = Some (c', Ss') ->
  let t := eccw_tmp Rnum phi (c_vt c) (eccw_alpha Rnum phi (c_vt c) loss) in
  if Req_EM_T (nth j (c_g c) 0) 0 then nth j Ss' [] = nth j Ss []
  else stepped (feats p) a (scaled t) (scaled t 1) (nth j Ss []) (nth j Ss' []).
Proof.
  intros Hp Hc Hd Hn Hs Hj H t. unfold eccw_update in H. cbv zeta in H. dob H Q2. destruct p0 as (ws, Ss1). injection H as <- <-.
  cbn [c_g c_ws set_eta] in Q2. eapply (each_class2_rel _ (fun _ => stepped (feats p) a (scaled t) (scaled t 1)) _ _ _ _ _ j []) in Q2; [apply Q2| |lia].
  intros g w e w' e' Hw He Hf. eapply cw_step_conf; eauto.
Qed.
Lemma sofs_confidence_conf r B p (c : core) s s' n j :
  wf_point 1 p -> wf_core c -> (Z.to_nat (x_dim p) <= c_dim c)%nat -> length (c_ws c) = n ->
  shape n (c_dim c) (s_vecs s) -> (j < n)%nat -> single_zero Rnum c = false ->
  sel2_confidence Rnum (cmp_max Rnum)
    (fun g v => n_div Rnum v (n_add Rnum (one Rnum) (n_mul Rnum v (n_div Rnum (n_mul Rnum g g) r))))
    (fun g v xv => n_div Rnum v (n_add Rnum (one Rnum)
       (n_mul Rnum (n_mul Rnum (n_mul Rnum v xv) xv) (n_div Rnum (n_mul Rnum g g) r))))
    (fun g v => arow_sigma Rnum r (feats p) g v) B (feats p) (c_g c) s = Some s' ->
  let g := nth j (c_g c) 0 in forall i,
  nth i (nth j (s_vecs s') []) 1 = if Req_EM_T g 0 then nth i (nth j (s_vecs s) []) 1
  else at_feature (feats p) i (scaled (g * g / r)) (scaled (g * g / r) 1) (nth i (nth j (s_vecs s) []) 1).
Proof.
  intros Hp Hc Hd Hn Hs Hj Hz H g i. pose proof (wf1 p Hp) as Hp0.
  pose proof (wf_glen c Hc) as Lg. pose proof (feats_bel 0 p (c_dim c) ltac:(lia) Hp0 Hd) as Hb. pose proof (proj1 Hc) as H1.
  refine (sel2_confidence_conf _ _ _ _ (fun g => scaled (g * g / r)) (fun g => scaled (g * g / r) 1) B _ _ _ _ n (c_dim c) 1 j i
            _ _ _ _ _ _ _ _ _ _ _ H).
  - exact (fs p Hp0).
  - exact Hb.
  - exact H1.
  - apply lookup0. exact Hp.
  - congruence.
  - exact Hs.
  - exact Hj.
  - intros g' v. unfold scaled. cbn. f_equal. ring.
  - intros g' v xv. unfold scaled. cbn. f_equal. ring.
  - intros g' v Lv. rewrite <- Lv in Hb, H1. pose proof (arow_sigma_spec Rnum r (feats p) g' v (fs p Hp0) H1) as E.
    eexists. split; [exact E|]. split; [now rewrite pstep_length|].
    intros i'. apply arow_conf; auto using fs.
  - eapply single_zero_false; eauto; lia.
Qed.
Lemma sofs_weights_keeps x (c : core) Ss c' : sofs_weights Rnum x c Ss = Some c' -> c_g c' = c_g c /\ c_dim c' = c_dim c.
Proof. unfold sofs_weights. intros H. dob H Q1. destruct p. now injection H as <-. Qed.
Lemma sop_X_conf p (X X' : list R) i : wf_point 0 p -> calc (n_add Rnum) X (eL2 Rnum (ESparse (feats p))) = Some X' ->
  (Z.to_nat (x_dim p) <= length X)%nat ->
  nth i X' 0 = nth i X 0 + match lookup (feats p) i with Some v => v * v | None => 0 end.
Proof.
  intros Hp H Hd. rewrite (calc_sparse (zero Rnum) _ (feats p)) in H; [|simpl; auto|reflexivity|now apply fs|simpl; auto].
  apply Some_inj in H. subst X'. destruct (lt_dec i (length X)) as [Hi|Hi].
  - rewrite nth_smap by exact Hi. destruct (lookup (feats p) i); [reflexivity|lra].
  - rewrite !nth_overflow by (rewrite ?smap_length; lia).
    rewrite (lookup_above _ (length X)); [lra| |lia]. exact (feats_bel 0 p _ ltac:(lia) Hp Hd).
Qed.

(** Update and the numbers, for all models. *)
Lemma conf_update k p loss (c : core) e c' e' n j i : second_order k ->
  wf_point (lo_of k) p -> wf_core c -> (Z.to_nat (x_dim p) <= c_dim c)%nat -> length (c_ws c) = n ->
  cshape k n (c_dim c) e -> (j < n)%nat -> 0 < conf k e j i ->
  a_update (alg_of Rnum k) p loss c e = Some (c', e') ->
  conf k e' j i = cupd k (c_g c) (c_vt c) loss (feats p) j i (conf k e j i).
Proof.
  intros Hk Hp Hc Hd Hn Hs Hj H0 H. assert (Hp0 : wf_point 0 p) by (destruct k; cbn in Hp; auto using wf1).
  destruct k; try discriminate Hk; cbn [alg_of] in H.
  - (* SOP *) cbn [sop a_update] in H. unfold sop_update in H. destruct e as (X, v). destruct Hs as (HX & _). cbn [fst] in HX.
    cbv zeta in H. dob H Q1. dob H Q2. injection H as <- <-. rewrite !conf_sop in *. cbn [cupd cstep fst] in *. destruct j; [|reflexivity].
    rewrite (sop_X_conf p X l0 i Hp0 Q2) by lia. destruct (lookup (feats p) i) as [xv|]; [|now rewrite Rplus_0_r].
    assert (a + nth i X 0 > 0).
    { destruct (Rtotal_order (a + nth i X 0) 0) as [L|[L|L]]; [| |exact L].
      - pose proof (Rinv_lt_0_compat _ L). lra.
      - rewrite L in H0. unfold Rdiv in H0. rewrite Rinv_0 in H0. lra. }
    unfold scaled. pose proof (Rle_0_sqr xv). unfold Rsqr in *. field. lra.
  - unfold conf. cbn [confs conf0 cupd cstep] in *. pose proof (arow_update_conf _ _ _ _ _ _ _ n 1 j Hp0 Hc Hd Hn Hs Hj H) as E. cbv zeta in E.
    destruct (Req_EM_T (nth j (c_g c) 0) 0); [now rewrite E|apply E].
  - (* SOFS *) unfold conf. cbn [confs conf0 cupd cstep sofs a_update cshape] in *. unfold sofs_update in H. destruct B as [|B].
    + dob H Q1. destruct p0 as (c1, vs). injection H as <- <-. cbn [s_vecs].
      pose proof (arow_update_conf _ _ _ _ _ _ _ n 1 j Hp0 Hc Hd Hn Hs Hj Q1) as E. cbv zeta in E.
      destruct (Req_EM_T (nth j (c_g c) 0) 0); [now rewrite E|apply E].
    + dob H Q1. cbv zeta in H. dob H Q2. rename c0 into c2. destruct (sofs_weights_keeps _ _ _ _ Q2) as (Eg & Ed). cbn in Eg, Ed.
      assert (F2 : wf_core c2 /\ length (c_ws c2) = n).
      { set (c1 := set_eta c r0) in *.
        destruct (sofs_weights_ok Rnum p c1 (s_vecs e) Hp0 Hc ltac:(cbn; rewrite Hn; exact Hs)) as (c3 & E3 & F3).
        rewrite Q2 in E3. injection E3 as <-. destruct (framed_wf _ _ _ (wrel_local _) F3 Hc) as (A & B'). split; [exact A|]. rewrite B'. exact Hn. }
      destruct F2 as (Hc2 & Hn2). rewrite <- Eg.
      destruct (single_zero Rnum c2) eqn:Ez.
      * injection H as <- <-. rewrite (single_zero_true _ n j Ez Hn2 Hj). now destruct (Req_EM_T 0 0).
      * dob H Q3. apply sel2_truncate_vecs in H. rewrite H.
        apply (sofs_confidence_conf r (S B) p c2 e s n j); auto; rewrite Ed; auto.
  - unfold conf. cbn [confs conf0 cupd cstep] in *. pose proof (cw_update_conf _ _ _ _ _ _ _ n a j Hp0 Hc Hd Hn Hs Hj H) as E. cbv zeta in E.
    destruct (Req_EM_T (nth j (c_g c) 0) 0); [now rewrite E|apply E].
  - unfold conf. cbn [confs conf0 cupd cstep] in *. pose proof (eccw_update_conf _ _ _ _ _ _ _ n a j Hp0 Hc Hd Hn Hs Hj H) as E. cbv zeta in E.
    destruct (Req_EM_T (nth j (c_g c) 0) 0); [now rewrite E|apply E].
  - unfold conf. cbn [confs conf0 cupd cstep] in *. pose proof (ada_update_conf delta p loss _ _ _ _ n delta j Hp0 Hc Hd Hn Hs Hj H) as E. cbv zeta in E.
    destruct (Req_EM_T (nth j (c_g c) 0) 0); [now rewrite E|apply E].
  - cbn [ada_fobos_l1 a_update] in H. dob H Q1. destruct p0 as (c1, H1). injection H as <- <-.
    unfold conf. cbn [confs conf0 cupd cstep fst] in *. pose proof (ada_update_conf delta p loss _ _ _ _ n delta j Hp0 Hc Hd Hn Hs Hj Q1) as E. cbv zeta in E.
    destruct (Req_EM_T (nth j (c_g c) 0) 0); [now rewrite E|apply E].
  - unfold conf. cbn [confs conf0 cupd cstep ada_fobos_ofs a_update cshape] in *. unfold ada_fobos_ofs_update in H. destruct B as [|B].
    + dob H Q1. destruct p0 as (c1, vs). injection H as <- <-. cbn [s_vecs].
      pose proof (ada_update_conf delta p loss _ _ _ _ n delta j Hp0 Hc Hd Hn Hs Hj Q1) as E. cbv zeta in E.
      destruct (Req_EM_T (nth j (c_g c) 0) 0); [now rewrite E|apply E].
    + destruct (single_zero Rnum c) eqn:Ez.
      * injection H as <- <-. rewrite (single_zero_true _ n j Ez Hn Hj). now destruct (Req_EM_T 0 0).
      * dob H Q3. dob H Q4. apply sel2_truncate_vecs in H. rewrite H.
        apply (ada_confidence_conf delta (S B) p c e s n j); auto.
  - unfold conf. cbn [confs conf0 cupd cstep] in *. pose proof (ada_rda_update_conf delta p loss _ _ _ _ n delta j Hp0 Hc Hd Hn Hs Hj H) as E. cbv zeta in E.
    destruct (Req_EM_T (nth j (c_g c) 0) 0); [now rewrite E|apply E].
  - unfold conf. cbn [confs conf0 cupd cstep] in *. pose proof (ada_rda_update_conf delta p loss _ _ _ _ n delta j Hp0 Hc Hd Hn Hs Hj H) as E. cbv zeta in E.
    destruct (Req_EM_T (nth j (c_g c) 0) 0); [now rewrite E|apply E].
  - unfold conf. cbn [confs conf0 cupd cstep ada_rda_ofs a_update cshape] in *. unfold ada_rda_ofs_update in H. destruct e as (s, ut). destruct Hs as (Hs & Lu). cbn [fst snd] in *. destruct B as [|B].
    + dob H Q1. destruct p0 as (c1, vs). injection H as <- <-. cbn [s_vecs fst].
      assert (Em : map fst (combine (s_vecs s) ut) = s_vecs s) by (apply map_fst_combine; destruct Hs; lia).
      assert (Hs' : shape n (c_dim c) (map fst (combine (s_vecs s) ut))) by (rewrite Em; exact Hs).
      pose proof (ada_rda_update_conf delta p loss _ _ _ _ n delta j Hp0 Hc Hd Hn Hs' Hj Q1) as E. cbv zeta in E. rewrite Em in E.
      destruct (Req_EM_T (nth j (c_g c) 0) 0); [now rewrite E|apply E].
    + destruct (single_zero Rnum c) eqn:Ez.
      * injection H as <- <-. cbn [fst]. rewrite (single_zero_true _ n j Ez Hn Hj). now destruct (Req_EM_T 0 0).
      * dob H Q3. dob H Q4. destruct p0 as (c2, ut'). dob H Q5. destruct p0 as (c3, s2). injection H as <- <-. cbn [fst]. apply sel2_truncate_vecs in Q5. rewrite Q5.
        apply (ada_confidence_conf delta (S B) p c s s0 n j); auto.
Qed.
