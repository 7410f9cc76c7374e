(** Proofs about M_Cv: the search space, tasks, processes, scores, slices. *)
From Coq Require Import String Reals Lra Permutation.
From Verif Require Import M_Base M_Num M_Expr M_DataPoint M_Text M_Str M_Tools M_Cv S_Cv.
Local Open Scope list_scope.
Local Open Scope nat_scope.

(* ------------------------------------------------------------- the search space *)
Section Space.
Context {K V : Type}.
Implicit Types ps : list (K * list V).
Fixpoint prod ps : nat := match ps with [] => 1 | (_, vs) :: r => length vs * prod r end.
Lemma fold_mul l : forall a, fold_left Nat.mul l a = a * fold_left Nat.mul l 1.
Proof. induction l as [|x l IH]; intros a; cbn; [lia|]. rewrite IH, (IH (x + 0)). lia. Qed.
Lemma space_size_prod ps : space_size ps = prod ps.
Proof.
  unfold space_size. induction ps as [|[k vs] r IH]; [reflexivity|]. cbn [map fold_left snd prod]. rewrite fold_mul, IH. lia.
Qed.
Fixpoint places ps (id : nat) : list nat :=
  match ps with [] => [] | (_, vs) :: r => (id mod length vs) :: places r (id / length vs) end.
Lemma assignment_places ps : forall id, id < prod ps -> exists a, assignment ps id = Some a /\ chosen ps (places ps id) a.
Proof.
  induction ps as [|[k vs] r IH]; intros id H; cbn [prod assignment places] in *.
  - exists []. split; [reflexivity|constructor].
  - assert (N0 : length vs <> 0) by nia.
    destruct (Nat.eqb_spec (length vs) 0) as [|_]; [contradiction|].
    assert (M := Nat.mod_upper_bound id (length vs) N0).
    destruct (nth_error vs (id mod length vs)) as [v|] eqn:E; [|apply nth_error_None in E; lia].
    destruct (IH (id / length vs)) as (a & E1 & C); [apply Nat.div_lt_upper_bound; [exact N0|exact H]|].
    cbn [bind]. rewrite E1. cbn [bind]. exists ((k, v) :: a). split; [reflexivity|]. now constructor.
Qed.
Lemma places_inj ps : forall i j, i < prod ps -> j < prod ps -> places ps i = places ps j -> i = j.
Proof.
  induction ps as [|[k vs] r IH]; intros i j Hi Hj E; cbn [prod places] in *; [lia|].
  assert (N0 : length vs <> 0) by nia.
  injection E as E1 E2. apply IH in E2; [|apply Nat.div_lt_upper_bound; [exact N0|assumption]..].
  rewrite (Nat.div_mod i (length vs) N0), (Nat.div_mod j (length vs) N0). now rewrite E1, E2.
Qed.
Lemma places_onto ps is a : chosen ps is a -> exists id, id < prod ps /\ places ps id = is.
Proof.
  induction 1 as [|k vs i v ps is a E C (id & H & <-)]; [exists 0; split; [cbn; lia|reflexivity]|].
  assert (L : i < length vs) by (apply nth_error_Some; now rewrite E).
  exists (i + id * length vs). cbn [prod places]. split; [assert (X := Nat.mul_le_mono_l (S id) (prod ps) (length vs) H); lia|].
  rewrite Nat.mod_add, Nat.div_add by lia. rewrite Nat.mod_small, Nat.div_small by lia. reflexivity.
Qed.
Lemma assignments_ok ps ids : Forall (fun i => i < prod ps) ids ->
  exists sp, assignments ps ids = Some sp /\ Forall2 (chosen ps) (map (places ps) ids) sp.
Proof.
  induction 1 as [|i ids H F (sp & E & G)]; cbn [assignments map]; [exists []; split; [reflexivity|constructor]|].
  destruct (assignment_places ps i H) as (a & Ea & C). rewrite Ea. cbn [bind]. rewrite E. cbn [bind].
  exists (a :: sp). split; [reflexivity|]. now constructor.
Qed.
Lemma grid ps : exists sp ids, search_space ps = Some sp /\ Forall2 (chosen ps) ids sp /\ NoDup ids /\
  (forall is a, chosen ps is a -> In is ids).
Proof.
  unfold search_space. rewrite space_size_prod.
  destruct (assignments_ok ps (seq 0 (prod ps))) as (sp & E & F).
  { apply Forall_forall. intros i I. apply in_seq in I. lia. }
  exists sp, (map (places ps) (seq 0 (prod ps))). split; [exact E|]. split; [exact F|]. split.
  - assert (G : forall l, Forall (fun i => i < prod ps) l -> NoDup l -> NoDup (map (places ps) l)).
    { induction 1 as [|i l H HF IH]; intros ND; [constructor|]. apply NoDup_cons_iff in ND as (N1 & N2). cbn. constructor; [|now apply IH].
      intros I. apply in_map_iff in I as (j & E1 & I). rewrite Forall_forall in HF. apply places_inj in E1; [congruence|now apply HF|exact H]. }
    apply G; [apply Forall_forall; intros i I; apply in_seq in I; lia|apply seq_NoDup].
  - intros is a C. destruct (places_onto _ _ _ C) as (id & H & <-). apply in_map, in_seq. lia.
Qed.
End Space.

(* ---------------------------------------------------------------- one task *)
Section Task.
Context {P M D A : Type}.
Variables (create : P -> option M) (fit : D -> M -> option (A * M)) (score : D -> M -> option A).
Variable slices : nat -> option D.
(** Training from a value of train_accu on. *)
Inductive fits : list D -> option A -> M -> option A -> M -> Prop :=
| F_nil l m : fits [] l m l m
| F_cons d ds l m a m1 l' m' : fit d m = Some (a, m1) -> fits ds (Some a) m1 l' m' -> fits (d :: ds) l m l' m'.
Lemma fits_app ds1 ds2 l m l1 m1 l2 m2 : fits ds1 l m l1 m1 -> fits ds2 l1 m1 l2 m2 -> fits (ds1 ++ ds2) l m l2 m2.
Proof. induction 1; intros H2; [exact H2|]. cbn. econstructor; eauto. Qed.
Lemma fits_app_inv ds1 : forall ds2 l m l2 m2, fits (ds1 ++ ds2) l m l2 m2 -> exists l1 m1, fits ds1 l m l1 m1 /\ fits ds2 l1 m1 l2 m2.
Proof.
  induction ds1 as [|d ds1 IH]; intros ds2 l m l2 m2 H; [exists l, m; split; [constructor|exact H]|].
  inversion H as [|? ? ? ? ? ? ? ? E1 H7]; subst. destruct (IH _ _ _ _ _ H7) as (l1 & m3 & A1 & A2). exists l1, m3. split; [econstructor; eauto|exact A2].
Qed.
Lemma fits_trained ds m a m' : fits ds None m (Some a) m' <-> trained fit ds m a m'.
Proof.
  split.
  - intros H. assert (G : forall l r, fits ds l m r m' -> r = Some a -> l = r /\ ds = [] \/ trained fit ds m a m').
    { clear. intros l r H. revert l m H. intros l m H. induction H as [l m|d ds l m b m1 l' m' E H IH]; intros Er; [now left|].
      right. destruct (IH Er) as [(E1 & ->)|T].
      - inversion H; subst. assert (b = a) by congruence. subst b. now constructor.
      - econstructor; eauto. }
    destruct (G _ _ H eq_refl) as [(E & _)|T]; [discriminate|exact T].
  - intros T. assert (G : forall l, fits ds l m (Some a) m').
    { induction T as [d m a m' E|d ds m a m1 a' m' E T IH]; intros l; econstructor; eauto. constructor. }
    apply G.
Qed.
Lemma fit_slices_iff val is : forall l m l' m',
  fit_slices fit slices val is l m = Some (l', m') <->
  exists ds, data_of slices (filter (fun i => negb (Nat.eqb i val)) is) ds /\ fits ds l m l' m'.
Proof.
  induction is as [|i r IH]; intros l m l' m'; cbn [fit_slices filter].
  - split; [intros E; injection E as <- <-; exists []; split; constructor|intros (ds & F & H)]. inversion F; subst. inversion H; subst. reflexivity.
  - destruct (Nat.eqb_spec i val) as [->|Hi]; cbn [negb]; [apply IH|].
    destruct (slices i) as [d|] eqn:Es; cbn [bind].
    + destruct (fit d m) as [[a m1]|] eqn:Ef; cbn [bind fst snd].
      * rewrite IH. split; intros (ds & F & H).
        -- exists (d :: ds). split; [now constructor|]. econstructor; eauto.
        -- inversion F; subst. inversion H; subst. match goal with G : slices i = Some ?y |- _ => rewrite Es in G; injection G as <- end. match goal with G : fit d m = Some _ |- _ => rewrite Ef in G; injection G as <- <- end. eauto.
      * split; [discriminate|]. intros (ds & F & H). inversion F; subst. inversion H; subst. congruence.
    + split; [discriminate|]. intros (ds & F & H). inversion F; subst. congruence.
Qed.
Lemma data_of_det is : forall ds ds', data_of slices is ds -> data_of slices is ds' -> ds = ds'.
Proof.
  induction is as [|i r IH]; intros ds ds' H H'; inversion H; inversion H'; subst; [reflexivity|].
  f_equal; [congruence|now apply IH].
Qed.
Lemma fit_passes_iff pass fold val : forall l m l' m',
  fit_passes fit slices pass fold val l m = Some (l', m') <->
  (pass = 0 /\ l' = l /\ m' = m \/ 0 < pass /\
   exists ds, data_of slices (filter (fun i => negb (Nat.eqb i val)) (seq 0 fold)) ds /\ fits (concat (repeat ds pass)) l m l' m').
Proof.
  induction pass as [|p IH]; intros l m l' m'; cbn [fit_passes].
  - split; [intros E; injection E as <- <-; auto|intros [(_ & -> & ->)|(H & _)]; [reflexivity|lia]].
  - destruct (fit_slices fit slices val (seq 0 fold) l m) as [[l1 m1]|] eqn:E; cbn [bind fst snd].
    + apply fit_slices_iff in E as (ds & F & H). rewrite IH. split.
      * intros [(-> & -> & ->)|(Hp & ds' & F' & H')]; right; (split; [lia|]); exists ds; (split; [exact F|]); cbn [repeat concat].
        -- now rewrite app_nil_r.
        -- rewrite (data_of_det _ _ _ F' F) in H'. eapply fits_app; eauto.
      * intros [(E' & _)|(_ & ds' & F' & H')]; [discriminate|]. rewrite (data_of_det _ _ _ F' F) in H'. cbn [repeat concat] in H'.
        apply fits_app_inv in H' as (l2 & m2 & A1 & A2).
        assert (G : forall ds l m a1 b1 a2 b2, fits ds l m a1 b1 -> fits ds l m a2 b2 -> a1 = a2 /\ b1 = b2).
        { clear. intros ds l m a1 b1 a2 b2 H1. revert a2 b2. induction H1 as [|d ds l m a m1 l' m' E _ IH]; intros a2 b2 H2; inversion H2; subst; [auto|].
          match goal with G : fit d m = Some _ |- _ => rewrite E in G; injection G as <- <- end. now apply IH. }
        destruct (G _ _ _ _ _ _ _ A1 H) as (-> & ->).
        destruct p; [left; inversion A2; subst; auto|right]. split; [lia|]. exists ds. auto.
    + split; [discriminate|]. intros [(E' & _)|(_ & ds' & F' & H')]; [discriminate|]. exfalso. cbn [repeat concat] in H'.
      apply fits_app_inv in H' as (l2 & m2 & A1 & A2).
      assert (fit_slices fit slices val (seq 0 fold) l m = Some (l2, m2)) by (apply fit_slices_iff; eauto). congruence.
Qed.
Lemma filter_others fold val : val < fold -> filter (fun i => negb (Nat.eqb i val)) (seq 0 fold) = others fold val.
Proof.
  intros H. unfold others. replace fold with (val + S (fold - S val)) at 1 by lia.
  assert (G : forall n s, (forall i, In i (seq s n) -> i <> val) -> filter (fun i => negb (Nat.eqb i val)) (seq s n) = seq s n).
  { induction n as [|n IH]; intros s Hs; [reflexivity|]. cbn [seq filter]. destruct (Nat.eqb_spec s val) as [E|_]; [exfalso; apply (Hs s); [now left|exact E]|].
    cbn. f_equal. apply IH. intros i I. apply Hs. now right. }
  rewrite seq_app, filter_app. f_equal; [apply G; intros i I; apply in_seq in I; lia|].
  cbn [seq filter]. cbn [plus]. rewrite Nat.eqb_refl. cbn. apply G. intros i I; apply in_seq in I; lia.
Qed.
Lemma task_iff pass fold val p ta va : val < fold ->
  train_val_task create fit score slices pass fold val p = Some (ta, va) <-> validated create fit score slices pass fold val p ta va.
Proof.
  intros Hv. unfold train_val_task, validated. split.
  - destruct (create p) as [m0|] eqn:E0; cbn [bind]; [|discriminate].
    destruct (fit_passes fit slices pass fold val None m0) as [[l m]|] eqn:E1; cbn [bind fst snd]; [|discriminate].
    destruct (slices val) as [dv|] eqn:E2; cbn [bind]; [|discriminate].
    destruct (score dv m) as [v|] eqn:E3; cbn [bind]; [|discriminate].
    destruct l as [t|]; cbn [bind]; [|discriminate]. intros E; injection E as <- <-.
    apply fit_passes_iff in E1 as [(_ & E & _)|(Hp & ds & F & H)]; [discriminate|].
    rewrite filter_others in F by exact Hv. exists m0, ds, m, dv. repeat (split; [auto; fail|]). split; [now apply fits_trained|auto].
  - intros (m0 & ds & m & dv & -> & F & T & E2 & E3). cbn [bind].
    assert (E1 : fit_passes fit slices pass fold val None m0 = Some (Some ta, m)).
    { apply fit_passes_iff. right. rewrite filter_others by exact Hv. split.
      - destruct pass; [|lia]. inversion T.
      - exists ds. split; [exact F|]. now apply fits_trained. }
    rewrite E1. cbn [bind fst snd]. rewrite E2. cbn [bind]. rewrite E3. reflexivity.
Qed.
End Task.
