(** One training step of any algorithm whose own functions are safe stays inside its arrays. *)
From Verif Require Import M_Base M_Num M_Expr M_Loss M_Online M_Olm S_Expr S_Online
  P_DataPoint P_Expr P_Online P_Predict P_Step.
From Coq Require Import Sorted.

Section P.
Context {R : Type}.
Variable N : num R.
Local Notation zero := (zero N).
Local Notation one := (one N).

Lemma rdz_some {A} (l : list A) i : 0 <= i < Z.of_nat (length l) -> exists v, rdz l i = Some v.
Proof.
  intros H. unfold rdz. replace (i <? 0) with false by lia. unfold rd.
  destruct (nth_error l (Z.to_nat i)) eqn:E; [eauto|]. apply nth_error_None in E. lia.
Qed.
Lemma wrz_some {A} (l : list A) i v : 0 <= i < Z.of_nat (length l) ->
  exists l', wrz l i v = Some l' /\ length l' = length l /\ l' = upd (Z.to_nat i) v l.
Proof.
  intros H. unfold wrz. replace (i <? 0) with false by lia. rewrite wr_upd by lia.
  eexists. split; [reflexivity|]. rewrite upd_length. auto.
Qed.
Lemma wr_some {A} (l : list A) i v : (i < length l)%nat ->
  exists l', wr l i v = Some l' /\ length l' = length l /\ l' = upd i v l.
Proof. intros H. rewrite wr_upd by lia. eexists. split; [reflexivity|]. now rewrite upd_length. Qed.

Definition handler_ok (n : nat) (h : handler (R:=R)) : Prop :=
  match h with None => True | Some f => forall g, length g = n -> exists r, f g = Some r end.

Lemma two_grad_some (g : list R) a b va vb :
  0 <= a < Z.of_nat (length g) -> 0 <= b < Z.of_nat (length g) ->
  exists g', two_grad N g a b va vb = Some g' /\ length g' = length g /\
    g' = upd (Z.to_nat b) vb (upd (Z.to_nat a) va (zeros N g)).
Proof.
  intros Ha Hb. unfold two_grad.
  destruct (wrz_some (zeros N g) a va) as (g1 & E1 & L1 & U1).
  { unfold zeros. rewrite map_length. lia. }
  rewrite E1. cbn [bind]. unfold zeros in L1. rewrite map_length in L1.
  destruct (wrz_some g1 b vb) as (g2 & E2 & L2 & U2); [lia|].
  exists g2. split; [exact E2|]. split; [lia|]. now rewrite U2, U1.
Qed.
Lemma rival_some label (ps : list R) plabel : ps <> [] ->
  0 <= label < Z.of_nat (length ps) -> 0 <= plabel < Z.of_nat (length ps) ->
  exists rv, rival N label ps plabel = Some rv /\ 0 <= rv < Z.of_nat (length ps).
Proof.
  intros Hne Hl Hp. unfold rival. destruct (plabel =? label).
  - destruct (wrz_some ps label (n_opp N (n_fmax N))) as (p' & E & L & _); [lia|]. rewrite E.
    cbn [bind]. eexists. split; [reflexivity|].
    assert (p' <> []) by (intros ->; destruct ps; [easy|discriminate]).
    pose proof (max_element_lt N p' H). lia.
  - eauto.
Qed.

Lemma gradient_some k h label ps plabel g margin n :
  length ps = n -> length g = n -> (1 <= n)%nat -> loss_ok n k -> handler_ok n h ->
  label_ok n label -> label_ok n plabel ->
  exists r, gradient N k h label ps plabel g margin = Some r /\ length (l_grad r) = n.
Proof.
  intros Hps Hg Hn (Hk1 & Hkm) Hh Hl Hpl.
  assert (Hne : ps <> []) by (intros ->; simpl in Hps; lia).
  assert (Hw0 : forall v : R, exists g', wr g 0 v = Some g' /\ length g' = n).
  { intros v. destruct (wr_some g 0 v) as (g' & E & L & _); [lia|]. exists g'. split; auto; lia. }
  assert (Hr0 : exists p, rd ps 0 = Some p).
  { unfold rd. destruct (nth_error ps 0) eqn:E; [eauto|]. apply nth_error_None in E. lia. }
  destruct (Nat.eq_dec n 1) as [Hn1|Hn1].
  - specialize (Hk1 Hn1). destruct k; try discriminate; cbn [gradient].
    + destruct (Hw0 (if n_lt N zero (if plabel =? label then zero else one)
                     then n_int N (- label) else zero)) as (g' & E & L).
      cbv zeta. rewrite E. cbn [bind]. eexists. split; [reflexivity|]. exact L.
    + destruct Hr0 as (p & E). rewrite E. cbn [bind]. destruct h as [f|].
      * destruct (Hw0 one) as (g1 & E1 & L1). rewrite E1. cbn [bind].
        destruct (Hh g1 L1) as ((m, v) & E2). rewrite E2. cbn [bind]. cbv zeta.
        match goal with |- context [wr g1 0 ?v] => destruct (wr_some g1 0 v) as (g' & E3 & L3 & _) end;
          [lia|]. rewrite E3. cbn [bind]. eexists. split; [reflexivity|]. simpl. lia.
      * cbn [bind]. cbv zeta.
        match goal with |- context [wr g 0 ?v] => destruct (Hw0 v) as (g' & E3 & L3) end.
        rewrite E3. cbn [bind]. eexists. split; [reflexivity|]. exact L3.
    + destruct Hr0 as (p & E). rewrite E. cbn [bind]. cbv zeta.
      match goal with |- context [wr g 0 ?v] => destruct (Hw0 v) as (g' & E3 & L3) end.
      rewrite E3. cbn [bind]. eexists. split; [reflexivity|]. exact L3.
  - specialize (Hkm Hn1). destruct Hl as [Hl|Hl]; [lia|]. destruct Hpl as [Hpl|Hpl]; [lia|].
    destruct (rdz_some ps label) as (own & Eown); [lia|].
    assert (Hu : forall alpha v : R, exists g', wrz (uniform_grad N own alpha ps) label v = Some g'
              /\ length g' = n).
    { intros alpha v. destruct (wrz_some (uniform_grad N own alpha ps) label v) as (g' & E & L & _).
      { unfold uniform_grad. rewrite map_length. lia. }
      exists g'. split; auto. unfold uniform_grad in L. rewrite map_length in L. lia. }
    destruct (rival_some label ps plabel Hne) as (rv & Erv & Hrv); [lia|lia|].
    destruct (rdz_some ps rv) as (riv & Eriv); [lia|].
    assert (Htg : forall va vb b : R, exists g', two_grad N g rv label va vb = Some g' /\ length g' = n).
    { intros va vb _. destruct (two_grad_some g rv label va vb) as (g' & E & L & _); try lia.
      exists g'. split; auto. lia. }
    destruct k; try discriminate; cbn [gradient].
    + cbv zeta. destruct (n_lt N zero _).
      * destruct (two_grad_some g plabel label one (n_opp N one)) as (g' & E & L & _); try lia.
        rewrite E. cbn [bind]. eexists. split; [reflexivity|]. simpl. lia.
      * eexists. split; [reflexivity|]. exact Hg.
    + cbv zeta. destruct (n_lt N zero _).
      * rewrite Eown. cbn [bind].
        match goal with |- context [wrz (uniform_grad N own ?al ps) label ?v] =>
          destruct (Hu al v) as (g' & E & L) end.
        rewrite E. cbn [bind]. eexists. split; [reflexivity|]. exact L.
      * eexists. split; [reflexivity|]. exact Hg.
    + rewrite Erv. cbn [bind]. rewrite Eown. cbn [bind]. rewrite Eriv. cbn [bind].
      destruct h as [f|].
      * destruct (Htg one (n_opp N one) one) as (g1 & E1 & L1). rewrite E1. cbn [bind].
        destruct (Hh g1 L1) as ((m, v) & E2). rewrite E2. cbn [bind]. cbv zeta.
        destruct (n_le N _ zero).
        -- destruct (wrz_some g1 rv zero) as (g2 & E3 & L3 & _); [lia|]. rewrite E3. cbn [bind].
           destruct (wrz_some g2 label zero) as (g3 & E4 & L4 & _); [lia|]. rewrite E4. cbn [bind].
           eexists. split; [reflexivity|]. simpl. lia.
        -- eexists. split; [reflexivity|]. exact L1.
      * cbv zeta. destruct (n_lt N zero _).
        -- destruct (Htg one (n_opp N one) one) as (g1 & E1 & L1). rewrite E1. cbn [bind].
           eexists. split; [reflexivity|]. exact L1.
        -- eexists. split; [reflexivity|]. exact Hg.
    + rewrite Eown. cbn [bind]. destruct (false_stats N own ps) as (fp, fn). cbv zeta.
      destruct h as [f|].
      * destruct (Hu (n_div N one fn) (n_opp N one)) as (g1 & E1 & L1). rewrite E1. cbn [bind].
        destruct (Hh g1 L1) as ((m, v) & E2). rewrite E2. cbn [bind].
        eexists. split; [reflexivity|]. cbn [l_grad].
        destruct (n_le N _ zero); [unfold zeros; rewrite map_length|]; exact L1.
      * destruct (n_lt N zero _).
        -- destruct (Hu (n_div N one fn) (n_opp N one)) as (g1 & E1 & L1). rewrite E1. cbn [bind].
           eexists. split; [reflexivity|]. exact L1.
        -- eexists. split; [reflexivity|]. exact Hg.
    + rewrite Erv. cbn [bind]. rewrite Eriv. cbn [bind]. rewrite Eown. cbn [bind]. cbv zeta.
      destruct (n_lt N (n_int N 100) _).
      * destruct (Htg one (n_opp N one) one) as (g1 & E1 & L1). rewrite E1. cbn [bind].
        eexists. split; [reflexivity|]. exact L1.
      * destruct (n_lt N _ (n_opp N (n_int N 100))).
        -- destruct (Htg zero zero one) as (g1 & E1 & L1). rewrite E1. cbn [bind].
           eexists. split; [reflexivity|]. exact L1.
        -- match goal with |- context [wrz (zeros N g) rv ?v] =>
             destruct (wrz_some (zeros N g) rv v) as (g1 & E1 & L1 & _) end.
           { unfold zeros. rewrite map_length. lia. }
           rewrite E1. cbn [bind]. unfold zeros in L1. rewrite map_length in L1.
           destruct (rdz_some g1 rv) as (a' & E2); [lia|]. rewrite E2. cbn [bind].
           destruct (wrz_some g1 label (n_opp N a')) as (g2 & E3 & L3 & _); [lia|]. rewrite E3.
           cbn [bind]. eexists. split; [reflexivity|]. simpl. lia.
    + rewrite Eown. cbn [bind]. destruct (false_stats N own ps) as (fp, fn). cbv zeta.
      destruct (n_lt N (n_int N 100) _).
      * destruct (Hu (n_div N one fn) (n_opp N one)) as (g1 & E1 & L1). rewrite E1. cbn [bind].
        eexists. split; [reflexivity|]. exact L1.
      * destruct (n_lt N _ (n_opp N (n_int N 100))).
        -- eexists. split; [reflexivity|]. simpl. unfold zeros. rewrite map_length. exact Hg.
        -- match goal with |- context [wrz (uniform_grad N own ?al ps) label ?v] =>
             destruct (Hu al v) as (g' & E & L) end.
           rewrite E. cbn [bind]. eexists. split; [reflexivity|]. exact L.
Qed.

(** ** Framing *)
(** [c'] is [c] with other weights (each related by Q), other step size and margin; counters and
    settings are the same. *)
Definition framed (Q : list R -> list R -> Prop) (c c' : core (R:=R)) : Prop :=
  c_dim c' = c_dim c /\ Forall2 Q (c_ws c) (c_ws c') /\ c_g c' = c_g c /\
  c_b0 c' = c_b0 c /\ c_t0 c' = c_t0 c /\ c_lazy c' = c_lazy c /\ c_active c' = c_active c /\
  c_cost c' = c_cost c /\ c_loss c' = c_loss c /\ same_counters c c'.

(** Relations between weight vectors used with [framed]: reflexive, transitive, length-preserving. *)
Definition wrel (Q : list R -> list R -> Prop) : Prop :=
  (forall w, Q w w) /\ (forall a b c, Q a b -> Q b c -> Q a c) /\
  (forall a b, Q a b -> length b = length a).

Lemma Forall2_refl {A} (Q : A -> A -> Prop) l : (forall a, Q a a) -> Forall2 Q l l.
Proof. intros H. induction l; constructor; auto. Qed.
Lemma Forall2_trans {A} (Q : A -> A -> Prop) l1 l2 l3 :
  (forall a b c, Q a b -> Q b c -> Q a c) -> Forall2 Q l1 l2 -> Forall2 Q l2 l3 -> Forall2 Q l1 l3.
Proof.
  intros H H1. revert l3. induction H1; intros l3 H2; inversion H2; subst; constructor; eauto.
Qed.
Lemma Forall2_len {A B} (Q : A -> B -> Prop) l m : Forall2 Q l m -> length l = length m.
Proof. induction 1; simpl; auto. Qed.
Lemma framed_refl Q c : wrel Q -> framed Q c c.
Proof. intros (Hr & _). repeat split; auto. apply Forall2_refl. auto. Qed.
Lemma framed_trans Q a b c : wrel Q -> framed Q a b -> framed Q b c -> framed Q a c.
Proof.
  intros (_ & Ht & _) (A1 & A2 & A3 & A4 & A5 & A6 & A7 & A8 & A9 & A10 & A11 & A12 & A13)
    (B1 & B2 & B3 & B4 & B5 & B6 & B7 & B8 & B9 & B10 & B11 & B12 & B13).
  unfold framed, same_counters. repeat split; try congruence.
  eapply Forall2_trans; eauto.
Qed.
Lemma framed_wf Q c c' : wrel Q -> framed Q c c' -> wf_core c -> wf_core c' /\
  length (c_ws c') = length (c_ws c).
Proof.
  intros (_ & _ & HQ) (A1 & A2 & A3 & _) (Hd & Hne & Hw & Hg).
  assert (Hlen : length (c_ws c') = length (c_ws c)) by (symmetry; eapply Forall2_len; eauto).
  split; auto. repeat split.
  - lia.
  - intros E. rewrite E in Hlen. destruct (c_ws c); [easy|discriminate].
  - rewrite A1. clear Hne Hg Hlen A3. induction A2; constructor; inversion Hw; subst; auto.
    rewrite (HQ _ _ H). assumption.
  - rewrite A3. lia.
Qed.
Lemma framed_set_ws Q c ws : Forall2 Q (c_ws c) ws -> framed Q c (set_ws c ws).
Proof. intros H. repeat split; auto. Qed.
Lemma framed_set_eta Q c e : wrel Q -> framed Q c (set_eta c e).
Proof. intros (Hr & _). repeat split; cbn; auto. apply Forall2_refl. auto. Qed.
Lemma framed_set_margin Q c e : wrel Q -> framed Q c (set_margin c e).
Proof. intros (Hr & _). repeat split; cbn; auto. apply Forall2_refl. auto. Qed.

Lemma wrel_local idx : wrel (local idx).
Proof.
  split; [apply local_refl|]. split; [apply local_trans|]. intros a b (H & _). exact H.
Qed.
Definition same_len (w w' : list R) : Prop := length w' = length w.
Lemma wrel_len : wrel same_len.
Proof. unfold same_len. repeat split; intros; congruence. Qed.
Lemma Forall2_zipc {A} (Q : list R -> list R -> Prop) (f : A -> list R -> list R) gs ws :
  length gs = length ws -> (forall g w, In w ws -> Q w (f g w)) -> Forall2 Q ws (zipc f gs ws).
Proof.
  revert gs. induction ws as [|w ws IH]; intros [|g gs] Hl H; simpl in *; try lia; constructor.
  - apply H. now left.
  - apply IH; [lia|]. intros. apply H. now right.
Qed.
Lemma Forall2_zipc2 {A} (Q : list R -> list R -> Prop) (f : R * list R -> A -> list R) gs ws es :
  length gs = length ws -> length es = length ws ->
  (forall g w e, In w ws -> In e es -> Q w (f (g, w) e)) ->
  Forall2 Q ws (zipc f (combine gs ws) es).
Proof.
  revert gs es. induction ws as [|w ws IH]; intros [|g gs] [|e es] Hl He H; simpl in *; try lia;
    constructor.
  - apply H; now left.
  - apply IH; [lia|lia|]. intros. apply H; now right.
Qed.
Lemma Forall2_zipc' {A} (Q : list R -> list R -> Prop) (f : list R -> A -> list R) ws es :
  length es = length ws -> (forall w e, In w ws -> In e es -> Q w (f w e)) ->
  Forall2 Q ws (zipc f ws es).
Proof.
  revert es. induction ws as [|w ws IH]; intros [|e es] He H; simpl in *; try lia; constructor.
  - apply H; now left.
  - apply IH; [lia|]. intros. apply H; now right.
Qed.

(** ** Safe algorithms *)
(** The algorithm's own state has the invariant [I n d e] for n classifiers and dimension d; all its
    functions succeed on well-formed examples, keep the invariant and change weights only as [Q]
    allows. *)
Definition safe {E} (lo : Z) (a : alg (R:=R) E) (I : nat -> nat -> E -> Prop)
  (Q : list Z -> list R -> list R -> Prop) : Prop :=
  (forall idx, wrel (Q idx)) /\
  (forall p c e, wf_point lo p -> wf_core c -> I (length (c_ws c)) (c_dim c) e ->
     exists e1 e2, a_grow a (Z.to_nat (x_dim p)) c e
         = Some (linear_update_dim N (Z.to_nat (x_dim p)) c, e1) /\
       a_reg_begin a p e1 = Some e2 /\
       I (length (c_ws c)) (Nat.max (c_dim c) (Z.to_nat (x_dim p))) e2) /\
  (forall p c e, wf_point lo p -> wf_core c -> (Z.to_nat (x_dim p) <= c_dim c)%nat ->
     I (length (c_ws c)) (c_dim c) e ->
     exists c' e', a_prep a p c e = Some (c', e') /\ framed (Q (p_idx p)) c c' /\
       I (length (c_ws c)) (c_dim c) e') /\
  (forall p c e, wf_point lo p -> wf_core c -> (Z.to_nat (x_dim p) <= c_dim c)%nat ->
     I (length (c_ws c)) (c_dim c) e -> handler_ok (length (c_ws c)) (a_margin a c e p)) /\
  (forall p loss c e, wf_point lo p -> wf_core c -> (Z.to_nat (x_dim p) <= c_dim c)%nat ->
     I (length (c_ws c)) (c_dim c) e ->
     exists c' e', a_update a p loss c e = Some (c', e') /\ framed (Q (p_idx p)) c c' /\
       I (length (c_ws c)) (c_dim c) e') /\
  (forall p it n d e, wf_point lo p -> (1 <= d)%nat -> (Z.to_nat (x_dim p) <= d)%nat -> I n d e ->
     exists e', a_reg_end a p it e = Some e' /\ I n d e').

(** The same with an invariant that also looks at the weights. *)
Definition gsafe {E} (lo : Z) (a : alg (R:=R) E) (I : list (list R) -> nat -> E -> Prop)
  (Q : list Z -> list R -> list R -> Prop) : Prop :=
  (forall idx, wrel (Q idx)) /\
  (forall p c e, wf_point lo p -> wf_core c -> I (c_ws c) (c_dim c) e ->
     exists e1 e2, a_grow a (Z.to_nat (x_dim p)) c e
         = Some (linear_update_dim N (Z.to_nat (x_dim p)) c, e1) /\
       a_reg_begin a p e1 = Some e2 /\
       I (c_ws (linear_update_dim N (Z.to_nat (x_dim p)) c))
         (Nat.max (c_dim c) (Z.to_nat (x_dim p))) e2) /\
  (forall p c e, wf_point lo p -> wf_core c -> (Z.to_nat (x_dim p) <= c_dim c)%nat ->
     I (c_ws c) (c_dim c) e ->
     exists c' e', a_prep a p c e = Some (c', e') /\ framed (Q (p_idx p)) c c' /\
       I (c_ws c') (c_dim c) e') /\
  (forall p c e, wf_point lo p -> wf_core c -> (Z.to_nat (x_dim p) <= c_dim c)%nat ->
     I (c_ws c) (c_dim c) e -> handler_ok (length (c_ws c)) (a_margin a c e p)) /\
  (forall p loss c e, wf_point lo p -> wf_core c -> (Z.to_nat (x_dim p) <= c_dim c)%nat ->
     I (c_ws c) (c_dim c) e ->
     exists c' e', a_update a p loss c e = Some (c', e') /\ framed (Q (p_idx p)) c c' /\
       I (c_ws c') (c_dim c) e') /\
  (forall p it ws d e, wf_point lo p -> (1 <= d)%nat -> (Z.to_nat (x_dim p) <= d)%nat -> I ws d e ->
     exists e', a_reg_end a p it e = Some e' /\ I ws d e').
Lemma safe_gsafe {E} lo (a : alg (R:=R) E) I Q :
  safe lo a I Q -> gsafe lo a (fun ws d e => I (length ws) d e) Q.
Proof.
  intros (HQ & Hgrow & Hprep & Hmar & Hupd & Hend).
  assert (HL : forall idx c c', framed (Q idx) c c' -> length (c_ws c') = length (c_ws c)).
  { intros idx c c' (_ & F & _). symmetry. eapply Forall2_len; eauto. }
  split; auto. split; [|split; [|split; [auto|split; [|auto]]]].
  - intros p c e Hp Hc HI. destruct (Hgrow p c e Hp Hc HI) as (e1 & e2 & E1 & E2 & HI2).
    exists e1, e2. split; auto. split; auto.
    now rewrite (proj2 (proj2 (wf_update_dim N (Z.to_nat (x_dim p)) c Hc))).
  - intros p c e Hp Hc Hd HI. destruct (Hprep p c e Hp Hc Hd HI) as (c' & e' & E1 & F & HI2).
    exists c', e'. split; auto. split; auto. now rewrite (HL _ _ _ F).
  - intros p loss c e Hp Hc Hd HI.
    destruct (Hupd p loss c e Hp Hc Hd HI) as (c' & e' & E1 & F & HI2).
    exists c', e'. split; auto. split; auto. now rewrite (HL _ _ _ F).
Qed.

Lemma label_of_ok (ps : list R) lab : label_of N ps = Some lab -> label_ok (length ps) lab.
Proof.
  unfold label_ok. destruct ps as [|a [|b ps]]; [discriminate|now left|]. intros H. right.
  assert (E : lab = Z.of_nat (max_element N (a :: b :: ps)))
    by (cut (Some lab = Some (Z.of_nat (max_element N (a :: b :: ps)))); [congruence|now symmetry]).
  assert (Hne : a :: b :: ps <> []) by discriminate.
  pose proof (max_element_lt N _ Hne). lia.
Qed.
Lemma predict_lengths c p lo lab ps : 0 <= lo -> wf_core c -> wf_point lo p ->
  predict N c p = Some (lab, ps) -> length ps = length (c_ws c) /\ label_ok (length (c_ws c)) lab.
Proof.
  intros Hlo Hc Hp H. destruct (predict_spec N zero c p lo Hlo Hc Hp) as (lab' & El & E).
  rewrite E in H. inv H. rewrite map_length. split; auto.
  apply label_of_ok in El. now rewrite map_length in El.
Qed.

Lemma iterate_safe {E} lo (a : alg (R:=R) E) I Q p rnd c e :
  0 <= lo -> gsafe lo a I Q -> wf_point lo p -> wf_core c -> I (c_ws c) (c_dim c) e ->
  loss_ok (length (c_ws c)) (c_loss c) -> label_ok (length (c_ws c)) (p_label p) ->
  exists lab ps c' e',
    iterate N a p rnd c e = Some (lab, ps, c', e') /\
    wf_core c' /\ I (c_ws c') (c_dim c') e' /\ length (c_ws c') = length (c_ws c) /\
    c_dim c' = Nat.max (c_dim c) (Z.to_nat (x_dim p)) /\ c_loss c' = c_loss c /\
    c_lazy c' = c_lazy c /\ c_active c' = c_active c /\ c_cost c' = c_cost c /\
    c_b0 c' = c_b0 c /\ c_t0 c' = c_t0 c /\
    Forall2 (Q (p_idx p)) (c_ws (linear_update_dim N (Z.to_nat (x_dim p)) c)) (c_ws c').
Proof.
  intros Hlo (HQ & Hgrow & Hprep & Hmar & Hupd & Hend) Hp Hc HI Hloss Hlab.
  set (d := Z.to_nat (x_dim p)) in *.
  destruct (wf_update_dim N d c Hc) as (Hc1 & Hd1 & Hn1).
  destruct (Hgrow p c e Hp Hc HI) as (e1 & e2 & Eg & Eb & HI1). fold d in Eg, HI1.
  unfold iterate. fold d. rewrite Eg. cbn [bind]. rewrite Eb. cbn [bind].
  set (c1 := linear_update_dim N d c) in *.
  set (c2 := set_data (set_iter c1 (c_iter c1 + 1)) (c_data c1 + 1)).
  assert (Hset : c_loss c1 = c_loss c /\ c_lazy c1 = c_lazy c /\ c_active c1 = c_active c /\
    c_cost c1 = c_cost c /\ c_b0 c1 = c_b0 c /\ c_t0 c1 = c_t0 c).
  { unfold c1, linear_update_dim. destruct (c_dim c <? d)%nat; repeat split. }
  destruct Hset as (S1 & S2 & S3 & S4 & S5 & S6).
  assert (Hc2 : wf_core c2) by exact Hc1.
  destruct (Hprep p c2 e2 Hp Hc2) as (c3 & e3 & Ep & Hf3 & HI3).
  { unfold c2. cbn. fold d. lia. }
  { unfold c2. cbn. rewrite Hd1. exact HI1. }
  rewrite Ep. cbn [bind].
  destruct (framed_wf _ _ _ (HQ _) Hf3 Hc2) as (Hc3 & Hn3).
  destruct (predict_spec N zero c3 p lo Hlo Hc3 Hp) as (lab & _ & Epred).
  match type of Epred with _ = Some (lab, ?x) => set (ps := x) in * end.
  destruct (predict_lengths c3 p lo lab ps Hlo Hc3 Hp Epred) as (Lps & Hlok).
  rewrite Epred. cbn [bind].
  pose proof Hf3 as (F1 & F2 & F3 & F4 & F5 & F6 & F7 & F8 & F9 & F10).
  change (c_dim c2) with (c_dim c1) in *. change (c_ws c2) with (c_ws c1) in *.
  assert (Hn : length (c_ws c3) = length (c_ws c)) by lia.
  assert (Hq : exists q, queried N c3 ps lab rnd = Some q).
  { unfold queried. destruct (n_lt N zero (c_active c3)); [|eauto].
    assert (Ha : exists m, al_margin N ps lab = Some m).
    { unfold al_margin. destruct ps as [|s0 [|s1 ps']] eqn:Eps.
      - simpl in Lps. destruct Hc3 as (_ & Hne & _). destruct (c_ws c3); [easy|discriminate].
      - eauto.
      - rewrite <- Eps in *. assert (Hnn : length (c_ws c3) <> 1%nat) by (rewrite <- Lps, Eps; discriminate).
        destruct Hlok as [|Hlok]; [lia|].
        destruct (rdz_some ps lab) as (tmp & Et); [lia|]. rewrite Et. cbn [bind].
        destruct (wrz_some ps lab (n_opp N (n_fmax N))) as (p' & Ew & Lw & _); [lia|]. rewrite Ew.
        cbn [bind]. unfold rd.
        assert (Hp' : p' <> []) by (intros ->; rewrite Eps in Lw; discriminate).
        pose proof (max_element_lt N p' Hp') as Hm.
        rewrite (nth_error_nth' p' zero) by exact Hm. cbn [bind]. eauto. }
    destruct Ha as (m & Em). rewrite Em. cbn [bind]. eauto. }
  destruct Hq as (q & Eq). rewrite Eq. cbn [bind].
  destruct q.
  - assert (Hlearn : exists c4 e4, learn N a p lab ps c3 e3 = Some (c4, e4) /\
       framed (Q (p_idx p)) c3 (mkcore (c_ws c4) (c_g c3) (c_dim c4) (c_eta c4) (c_b0 c4) (c_t0 c4)
         (c_iter c3) (c_data c3) (c_err c3) (c_upd c3) (c_lazy c4) (c_active c4) (c_cost c4)
         (c_loss c4) (c_margin c4) (c_vt c4) (c_updated c4)) /\
       length (c_g c4) = length (c_ws c3) /\ I (c_ws c4) (c_dim c3) e4).
    { unfold learn.
      set (c4 := cost_margin_step N c3 (p_label p)).
      assert (Hc4 : wf_core c4 /\ c_ws c4 = c_ws c3 /\ c_dim c4 = c_dim c3 /\ c_g c4 = c_g c3 /\
        c_loss c4 = c_loss c3 /\ framed (Q (p_idx p)) c3 c4).
      { unfold c4, cost_margin_step. destruct (c_cost c3).
        - repeat split; try apply Hc3; cbn; auto. apply Forall2_refl. apply HQ.
        - repeat split; try apply Hc3. apply Forall2_refl. apply HQ. }
      destruct Hc4 as (Hc4 & W4 & D4 & G4 & L4 & Hf4).
      destruct (gradient_some (c_loss c4) (a_margin a c4 e3 p) (p_label p) ps lab (c_g c4)
                  (c_margin c4) (length (c_ws c3))) as (r & Er & Lr).
      { exact Lps. }
      { rewrite G4. destruct Hc3 as (_ & _ & _ & Hg). exact Hg. }
      { destruct Hc3 as (_ & Hne & _). destruct (c_ws c3); [easy|simpl; lia]. }
      { rewrite L4, F9, Hn. change (c_loss c2) with (c_loss c1). rewrite S1. exact Hloss. }
      { rewrite <- W4. apply Hmar; auto; rewrite D4, ?F1; try lia; rewrite ?W4; auto. }
      { rewrite Hn. exact Hlab. }
      { exact Hlok. }
      rewrite Er. cbn [bind].
      set (c5 := set_lres c4 r).
      assert (Hc5 : wf_core c5).
      { destruct Hc4 as (A1 & A2 & A3 & A4). repeat split; auto. cbn. rewrite W4. exact Lr. }
      destruct (wants_update N c5 lab (p_label p) (l_loss r)).
      - set (c6 := set_upd c5 (c_upd c5 + 1)).
        destruct (Hupd p (l_loss r) c6 e3 Hp) as (c7 & e7 & E7 & Hf7 & HI7).
        { exact Hc5. }
        { cbn. rewrite D4, F1. lia. }
        { cbn. rewrite W4, D4. rewrite F1. exact HI3. }
        rewrite E7. cbn [bind]. cbn in HI7. rewrite D4 in HI7.
        destruct (Hend p (c_iter c7) (c_ws c7) (c_dim c3) e7 Hp) as (e8 & E8 & HI8);
          [apply Hc3|rewrite F1; lia|exact HI7|].
        rewrite E8. cbn [bind]. eexists c7, e8. split; [reflexivity|].
        destruct Hf7 as (B1 & B2 & B3 & B4 & B5 & B6 & B7 & B8 & B9 & B10 & B11 & B12 & B13).
        destruct Hf4 as (C1 & C2 & C3 & C4 & C5 & C6 & C7 & C8 & C9 & C10).
        cbn in B1, B2, B3, B4, B5, B6, B7, B8, B9.
        split; [|split; [rewrite B3; exact Lr|exact HI8]].
        unfold framed, same_counters; cbn; repeat split; try congruence.
      - cbn [bind].
        destruct (Hend p (c_iter c5) (c_ws c5) (c_dim c3) e3 Hp) as (e8 & E8 & HI8);
          [apply Hc3|rewrite F1; lia|cbn; rewrite F1, W4; exact HI3|].
        rewrite E8. cbn [bind]. exists c5, e8. split; [reflexivity|].
        destruct Hf4 as (C1 & C2 & C3 & C4 & C5 & C6 & C7 & C8 & C9 & C10).
        split; [|split; [exact Lr|exact HI8]].
        unfold framed, same_counters; cbn; repeat split; try congruence. }
    destruct Hlearn as (c4 & e4 & El & Hf4 & Hg4 & HI4). rewrite El. cbn [bind].
    destruct (framed_wf _ _ _ (HQ _) Hf4 Hc3) as (Hc4 & Hn4). cbn in Hn4.
    exists lab, ps, c4, e4. split; [reflexivity|].
    destruct Hf4 as (C1 & C2 & C3 & C4 & C5 & C6 & C7 & C8 & C9 & _). cbn in C1, C2, C4, C5, C6, C7, C8, C9.
    split. { destruct Hc4 as (A1 & A2 & A3 & A4). cbn in *. repeat split; auto. lia. }
    split. { rewrite C1. exact HI4. }
    change (c_lazy c2) with (c_lazy c1) in *. change (c_active c2) with (c_active c1) in *.
    change (c_cost c2) with (c_cost c1) in *. change (c_b0 c2) with (c_b0 c1) in *.
    change (c_t0 c2) with (c_t0 c1) in *. change (c_loss c2) with (c_loss c1) in *.
    repeat split; try congruence.
    eapply Forall2_trans; [apply HQ|exact F2|exact C2].
  - exists lab, ps, (set_iter c3 (c_iter c3 - 1)), e3. split; [reflexivity|].
    split; [exact Hc3|]. split. { cbn. rewrite F1. exact HI3. }
    change (c_lazy c2) with (c_lazy c1) in *. change (c_active c2) with (c_active c1) in *.
    change (c_cost c2) with (c_cost c1) in *. change (c_b0 c2) with (c_b0 c1) in *.
    change (c_t0 c2) with (c_t0 c1) in *. change (c_loss c2) with (c_loss c1) in *.
    cbn. repeat split; congruence.
Qed.
End P.
