(** Feature-selection models whose budget is 0 (no limit) against the models they extend. *)
From Verif Require Import M_Base M_Num M_Expr M_Loss M_Online M_Olm M_OlmSel M_Heap M_Algs.

Section Sim.
Context {R : Type}.
Variable N : num R.
Context {E1 E2 : Type}.
Variable rel : E1 -> E2 -> Prop.
Variable a1 : alg (R:=R) E1.
Variable a2 : alg (R:=R) E2.

Definition agree (x : option (core (R:=R) * E1)) (y : option (core (R:=R) * E2)) : Prop :=
  match x, y with
  | Some (c1, e1), Some (c2, e2) => c1 = c2 /\ rel e1 e2
  | None, None => True
  | _, _ => False
  end.
Hypothesis Hgrow : forall d c e1 e2, rel e1 e2 -> agree (a_grow a1 d c e1) (a_grow a2 d c e2).
Hypothesis Hbegin : forall c e1 e2, rel e1 e2 -> agree (a_begin a1 c e1) (a_begin a2 c e2).
Hypothesis Hupd : forall p l c e1 e2, rel e1 e2 -> agree (a_update a1 p l c e1) (a_update a2 p l c e2).
Hypothesis Hend : forall c e1 e2, rel e1 e2 -> agree (a_end a1 c e1) (a_end a2 c e2).
Hypothesis Hrb : forall p e, a_reg_begin a1 p e = Some e.
Hypothesis Hrb2 : forall p e, a_reg_begin a2 p e = Some e.
Hypothesis Hre : forall p i e, a_reg_end a1 p i e = Some e.
Hypothesis Hre2 : forall p i e, a_reg_end a2 p i e = Some e.
Hypothesis Hprep : forall p c e, a_prep a1 p c e = Some (c, e).
Hypothesis Hprep2 : forall p c e, a_prep a2 p c e = Some (c, e).
Hypothesis Hm : forall c e p, a_margin a1 c e p = None.
Hypothesis Hm2 : forall c e p, a_margin a2 c e p = None.

Lemma learn_agree p lab ps c e1 e2 : rel e1 e2 -> agree (learn N a1 p lab ps c e1) (learn N a2 p lab ps c e2).
Proof.
  intros H. unfold learn. cbv zeta. rewrite Hm, Hm2.
  destruct (gradient N _ _ _ _ _ _ _) as [r|]; cbn [bind]; [|exact I].
  destruct (wants_update N _ _ _ _).
  - match goal with |- context [a_update a1 ?p ?l ?c e1] => specialize (Hupd p l c e1 e2 H) end.
    destruct (a_update a1 _ _ _ _) as [(c1, f1)|], (a_update a2 _ _ _ _) as [(c2, f2)|]; cbn [bind agree] in *; try easy.
    rewrite Hre, Hre2. exact Hupd.
  - cbn [bind]. rewrite Hre, Hre2. cbn. auto.
Qed.

Lemma iterate_agree p u c e1 e2 : rel e1 e2 ->
  match iterate N a1 p u c e1, iterate N a2 p u c e2 with
  | Some (lab, ps, c1, f1), Some (lab', ps', c2, f2) => lab = lab' /\ ps = ps' /\ c1 = c2 /\ rel f1 f2
  | None, None => True
  | _, _ => False
  end.
Proof.
  intros H. unfold iterate. specialize (Hgrow (Z.to_nat (x_dim p)) c e1 e2 H).
  destruct (a_grow a1 _ _ _) as [(c1, f1)|], (a_grow a2 _ _ _) as [(c2, f2)|]; cbn [bind agree] in *; try easy.
  destruct Hgrow as (<- & Hf). rewrite Hrb, Hrb2. cbn [bind]. rewrite Hprep, Hprep2. cbn [bind].
  destruct (predict N _ p) as [(lab, ps)|]; cbn [bind]; [|exact I].
  destruct (queried N _ ps lab u) as [[|]|]; cbn [bind]; [| |exact I].
  - match goal with |- context [learn N a1 p lab ps ?c f1] => pose proof (learn_agree p lab ps c f1 f2 Hf) as HL end.
    destruct (learn N a1 _ _ _ _ _) as [(c4, f4)|], (learn N a2 _ _ _ _ _) as [(c5, f5)|]; cbn [bind agree] in *; try easy.
  - auto.
Qed.

Definition agree4 (x : option (core (R:=R) * E1 * displayer * list event)) (y : option (core (R:=R) * E2 * displayer * list event)) : Prop :=
  match x, y with
  | Some (c1, e1, d1, v1), Some (c2, e2, d2, v2) => c1 = c2 /\ rel e1 e2 /\ d1 = d2 /\ v1 = v2
  | None, None => True
  | _, _ => False
  end.
Lemma step_agree pre d c e1 e2 dp ev : rel e1 e2 ->
  agree4 (train_step N a1 pre d (c, e1, dp, ev)) (train_step N a2 pre d (c, e2, dp, ev)).
Proof.
  intros H. destruct d as (p, u). unfold train_step, train_point. destruct (pre p) as [x|]; cbn [bind]; [|exact I].
  pose proof (iterate_agree x u c e1 e2 H) as HI.
  destruct (iterate N a1 x u c e1) as [(((lab, ps), c1), f1)|], (iterate N a2 x u c e2) as [(((lab', ps'), c2), f2)|]; cbn [bind]; try easy.
  destruct HI as (<- & <- & <- & Hf). cbv beta. destruct (next_show dp <=? _); cbn; auto.
Qed.
Lemma fold_agree pre b : forall c e1 e2 dp ev, rel e1 e2 ->
  agree4 (foldM (train_step N a1 pre) b (c, e1, dp, ev)) (foldM (train_step N a2 pre) b (c, e2, dp, ev)).
Proof.
  induction b as [|d b IH]; intros c e1 e2 dp ev H; cbn [foldM].
  - cbn. auto.
  - pose proof (step_agree pre d c e1 e2 dp ev H) as HS.
    destruct (train_step N a1 pre d _) as [(((c1, f1), d1), v1)|], (train_step N a2 pre d _) as [(((c2, f2), d2), v2)|]; cbn [bind agree4] in *; try easy.
    destruct HS as (<- & Hf & <- & <-). auto.
Qed.
Lemma batches_agree pre bs : forall c e1 e2 dp ev, rel e1 e2 ->
  agree4 (foldM (fun b st => foldM (train_step N a1 pre) b st) bs (c, e1, dp, ev))
         (foldM (fun b st => foldM (train_step N a2 pre) b st) bs (c, e2, dp, ev)).
Proof.
  induction bs as [|b bs IH]; intros c e1 e2 dp ev H; cbn [foldM].
  - cbn. auto.
  - pose proof (fold_agree pre b c e1 e2 dp ev H) as HS.
    destruct (foldM (train_step N a1 pre) b _) as [(((c1, f1), d1), v1)|], (foldM (train_step N a2 pre) b _) as [(((c2, f2), d2), v2)|]; cbn [bind agree4] in *; try easy.
    destruct HS as (<- & Hf & <- & <-). auto.
Qed.
Definition agree3 (x : option (core (R:=R) * E1 * bool)) (y : option (core (R:=R) * E2 * bool)) : Prop :=
  match x, y with
  | Some (c1, e1, d1), Some (c2, e2, d2) => c1 = c2 /\ rel e1 e2 /\ d1 = d2
  | None, None => True
  | _, _ => False
  end.
Lemma use_agree pre u c e1 e2 r : rel e1 e2 -> agree3 (use_step N a1 pre u (c, e1, r)) (use_step N a2 pre u (c, e2, r)).
Proof.
  intros H. destruct u as [bs|data|]; cbn [use_step].
  - unfold train_batches.
    assert (Hb : agree (if r then a_begin a1 c e1 else Some (c, e1)) (if r then a_begin a2 c e2 else Some (c, e2))).
    { destruct r; [auto|cbn; auto]. }
    destruct (if r then a_begin a1 c e1 else Some (c, e1)) as [(c1, f1)|], (if r then a_begin a2 c e2 else Some (c, e2)) as [(c2, f2)|];
      cbn [bind agree] in *; try easy.
    destruct Hb as (<- & Hf). pose proof (batches_agree pre bs c1 f1 f2 (ExpShow 2 2 1) [] Hf) as HS.
    destruct (foldM _ bs (c1, f1, _, _)) as [(((c3, f3), d3), v3)|], (foldM _ bs (c1, f2, _, _)) as [(((c4, f4), d4), v4)|]; cbn [bind agree4] in *; try easy.
    destruct HS as (<- & Hf' & <- & <-). cbn. auto.
  - unfold test. assert (Hb : agree (if c_updated c then a_end a1 c e1 else Some (c, e1)) (if c_updated c then a_end a2 c e2 else Some (c, e2))).
    { destruct (c_updated c); [auto|cbn; auto]. }
    destruct (if c_updated c then a_end a1 c e1 else Some (c, e1)) as [(c1, f1)|], (if c_updated c then a_end a2 c e2 else Some (c, e2)) as [(c2, f2)|];
      cbn [bind agree] in *; try easy.
    destruct Hb as (<- & Hf). destruct (mapM _ data) as [rows|]; cbn; auto.
  - cbn. auto.
Qed.
Lemma session_agree pre us : forall c e1 e2 r, rel e1 e2 -> agree3 (session N a1 pre us (c, e1, r)) (session N a2 pre us (c, e2, r)).
Proof.
  induction us as [|u us IH]; intros c e1 e2 r H; unfold session; cbn [foldM].
  - cbn. auto.
  - pose proof (use_agree pre u c e1 e2 r H) as HS.
    destruct (use_step N a1 pre u _) as [((c1, f1), d1)|], (use_step N a2 pre u _) as [((c2, f2), d2)|]; cbn [bind agree3] in *; try easy.
    destruct HS as (<- & Hf & <-). apply IH. exact Hf.
Qed.
End Sim.

Lemma agree3_cores {R E1 E2} (rel : E1 -> E2 -> Prop) (x : option (core (R:=R) * E1 * bool)) (y : option (core (R:=R) * E2 * bool)) :
  agree3 rel x y ->
  match x, y with
  | Some (c1, _, r1), Some (c2, _, r2) => c1 = c2 /\ r1 = r2
  | None, None => True
  | _, _ => False
  end.
Proof. destruct x as [((c1, e1), r1)|], y as [((c2, e2), r2)|]; cbn; tauto. Qed.

Section Four.
Context {R : Type}.
Variable N : num R.

Lemma set_N_none h d : h_K h = 0%nat -> heap_set_N h d = Some h.
Proof. unfold heap_set_N. now intros ->. Qed.

Lemma pet_agree eta0 pt pre us c r s e : h_K (snd s) = 0%nat ->
  agree3 (fun (s : sel1) (e : unit) => h_K (snd s) = 0%nat)
    (session N (pet N eta0 pt 0) pre us (c, s, r)) (session N (ogd N eta0 pt) pre us (c, e, r)).
Proof.
  intros H. apply session_agree; try reflexivity; try exact H; try (cbn; unfold end_none; cbn; auto; fail).
  - intros d c0 (ab, h) u Hs. cbn in Hs |- *. unfold sel1_grow, grow_none.
    destruct (c_dim c0 <? d)%nat eqn:E; [|unfold linear_update_dim; rewrite E; cbn; auto].
    rewrite set_N_none by exact Hs. cbn. auto.
  - intros p l c0 s0 u Hs. cbn. unfold sel1_select. destruct (ogd_update _ _ _ _ _ _) as [c1|]; cbn; auto.
Qed.

Lemma sel2_grow_agree a d c s vs : s_vecs s = vs /\ h_K (s_heap s) = 0%nat ->
  agree (fun (s : sel2) vs => s_vecs s = vs /\ h_K (s_heap s) = 0%nat) (sel2_grow N a d c s) (sigma_grow N a d c vs).
Proof.
  intros (<- & H). unfold sel2_grow, sigma_grow. destruct (c_dim c <? d)%nat eqn:E; [|cbn; auto]. cbn [bind].
  rewrite set_N_none by exact H. cbn. auto.
Qed.
Lemma sofs_agree q pre us c r s vs : s_vecs s = vs /\ h_K (s_heap s) = 0%nat ->
  agree3 (fun (s : sel2) vs => s_vecs s = vs /\ h_K (s_heap s) = 0%nat)
    (session N (sofs N q 0) pre us (c, s, r)) (session N (arow N q) pre us (c, vs, r)).
Proof.
  intros H. apply session_agree; try reflexivity; try exact H; try (cbn; unfold end_none; cbn; auto; fail).
  - intros. now apply sel2_grow_agree.
  - intros p l c0 s0 vs0 (<- & Hs). cbn. destruct (arow_update _ _ _ _ _ _) as [(c1, v1)|]; cbn; auto.
Qed.
Lemma ada_fobos_ofs_agree q pre us c r s vs : s_vecs s = vs /\ h_K (s_heap s) = 0%nat ->
  agree3 (fun (s : sel2) vs => s_vecs s = vs /\ h_K (s_heap s) = 0%nat)
    (session N (ada_fobos_ofs N q 0) pre us (c, s, r)) (session N (ada_fobos N q) pre us (c, vs, r)).
Proof.
  intros H. apply session_agree; try reflexivity; try exact H; try (cbn; unfold end_none; cbn; auto; fail).
  - intros. now apply sel2_grow_agree.
  - intros p l c0 s0 vs0 (<- & Hs). cbn. destruct (ada_fobos_update _ _ _ _ _ _) as [(c1, v1)|]; cbn; auto.
Qed.

Definition urel (su : sel2u (R:=R)) (vs : ada_rda_state (R:=R)) : Prop :=
  length (snd su) = length (s_vecs (fst su)) /\ combine (s_vecs (fst su)) (snd su) = vs /\ h_K (s_heap (fst su)) = 0%nat.
Lemma combine_map {A B} (f : A -> A) (g : B -> B) l m :
  combine (map f l) (map g m) = map (fun q => (f (fst q), g (snd q))) (combine l m).
Proof. revert m. induction l as [|x l IH]; intros [|y m]; cbn; auto. now rewrite IH. Qed.
Lemma combine_unzip {A B} (l : list (A * B)) : combine (map fst l) (map snd l) = l.
Proof. induction l as [|(x, y) l IH]; cbn; auto. now rewrite IH. Qed.
Lemma ada_rda_ofs_agree q pre us c r s vs : urel s vs ->
  agree3 urel (session N (ada_rda_ofs N q 0) pre us (c, s, r)) (session N (ada_rda N q) pre us (c, vs, r)).
Proof.
  intros H. apply session_agree; try reflexivity; try exact H.
  - intros d c0 (s0, ut) vs0 (L & <- & Hs). cbn [fst snd] in L, Hs |- *.
    cbn [a_grow ada_rda_ofs ada_rda]. unfold ada_rda_ofs_grow, sel2_grow, ada_rda_grow, sigma_grow.
    destruct (c_dim c0 <? d)%nat eqn:E; cbn [bind].
    + rewrite set_N_none by exact Hs. cbn. split; [reflexivity|]. unfold urel. cbn. rewrite !map_length.
      split; [exact L|]. split; [|exact Hs]. apply combine_map.
    + unfold urel. cbn. auto.
  - intros c0 (s0, ut) vs0 (L & <- & Hs). cbn [a_begin ada_rda_ofs ada_rda sel2_begin bind fst snd]. rewrite Nat.ltb_irrefl. unfold urel. cbn. auto.
  - intros p l c0 (s0, ut) vs0 (L & <- & Hs). cbn. destruct (ada_rda_update _ _ _ _ _ _) as [(c1, v1)|]; cbn; auto.
    split; [reflexivity|]. unfold urel. cbn. rewrite !map_length. split; [reflexivity|]. split; [apply combine_unzip|exact Hs].
  - intros c0 (s0, ut) vs0 (L & <- & Hs). cbn. unfold ada_rda_end. cbn [fst snd].
    destruct (zip_class _ _ _) as [ws|]; cbn; auto. split; [reflexivity|]. unfold urel. cbn. auto.
Qed.
End Four.
