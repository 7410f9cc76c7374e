(** Points that share nothing do not influence each other; copies share, clones do not. *)
From Coq Require Import Lia.
From Verif Require Import M_Base M_Vector P_DataPoint P_Vector M_Share S_Share P_Share.

Section Sep.
Context {A : Type} (zero : A).
Notation gst := (gst A).
Implicit Types g : gst.

(** The vectors a pair refers to. *)
Definition fields (f : option nat * option nat) (b : nat) : Prop := fst f = Some b \/ snd f = Some b.
(** A point refers to things that exist. *)
Definition closed (s : nat) g : Prop :=
  exists h l, gpoint s g = Some (h, l) /\ forall a, h = Some a -> exists f, nth_error (gs g) a = Some f /\ forall b, fields f b -> exists x, nth_error (gv g) b = Some x.
(** Two points have neither pair nor vectors in common. *)
Definition apart (s d : nat) g : Prop :=
  s <> d /\ forall a l, gpoint s g = Some (Some a, l) -> (forall l', gpoint d g <> Some (Some a, l')) /\
    forall f b c l' f', nth_error (gs g) a = Some f -> fields f b -> gpoint d g = Some (Some c, l') -> nth_error (gs g) c = Some f' -> ~ fields f' b.
Definition sep (s d : nat) g : Prop := closed s g /\ closed d g /\ apart s d g.
Lemma sep_sym s d g : sep s d g -> sep d s g.
Proof.
  intros (C1 & C2 & Hn & Ha). split; [exact C2|]. split; [exact C1|]. split; [congruence|]. intros a l E. split.
  - intros l' E'. destruct (Ha _ _ E') as (H & _). apply (H l E).
  - intros f b c l' f' Ef Fb E' Ef' Fb'. destruct (Ha _ _ E') as (_ & H). exact (H f' b a l f Ef' Fb' E Ef Fb).
Qed.
(** Nothing of the point has changed. *)
Definition keep (s : nat) g g' : Prop :=
  gpoint s g' = gpoint s g /\
  forall a l, gpoint s g = Some (Some a, l) -> nth_error (gs g') a = nth_error (gs g) a /\
    forall f b, nth_error (gs g) a = Some f -> fields f b -> nth_error (gv g') b = nth_error (gv g) b.
Lemma keep_refl s g : keep s g g.
Proof. split; [reflexivity|]. intros. split; reflexivity. Qed.
Lemma keep_trans s g1 g2 g3 : keep s g1 g2 -> keep s g2 g3 -> keep s g1 g3.
Proof.
  intros (E1 & H1) (E2 & H2). split; [congruence|]. intros a l E. destruct (H1 _ _ E) as (F1 & G1). rewrite <- E1 in E. destruct (H2 _ _ E) as (F2 & G2).
  split; [congruence|]. intros f b Ef Fb. rewrite <- F1 in Ef. rewrite (G2 _ _ Ef Fb). rewrite F1 in Ef. now apply (G1 f).
Qed.
Definition fine (s d : nat) g g' : Prop := keep s g g' /\ sep s d g'.

Lemma gpoint_upd s d x g : nth_error (gse g) d <> None -> gpoint s (set_gse (upd d x (gse g)) g) = if Nat.eqb d s then x else gpoint s g.
Proof. intros H. unfold gpoint. cbn. rewrite upd_nth. destruct (Nat.eqb d s); [|reflexivity]. destruct (nth_error (gse g) d); [|congruence]. now destruct x. Qed.
Lemma gpoint_some s g x : gpoint s g = Some x -> nth_error (gse g) s <> None.
Proof. unfold gpoint. destruct (nth_error (gse g) s); congruence. Qed.
Lemma neqb a b : a <> b -> Nat.eqb a b = false.
Proof. apply PeanoNat.Nat.eqb_neq. Qed.

(** Setting the label of the other point. *)
Lemma label_fine s d g h l l' : sep s d g -> gpoint d g = Some (h, l) -> fine s d g (set_gse (upd d (Some (h, l')) (gse g)) g).
Proof.
  intros ((h1 & l1 & E1 & C1) & (h2 & l2 & E2 & C2) & Hn & Ha) E. assert (Hd := gpoint_some _ _ _ E). rewrite E in E2. injection E2 as <- <-.
  assert (P1 : gpoint s (set_gse (upd d (Some (h, l')) (gse g)) g) = gpoint s g) by (rewrite gpoint_upd, neqb by auto; reflexivity).
  assert (P2 : gpoint d (set_gse (upd d (Some (h, l')) (gse g)) g) = Some (h, l')) by (rewrite gpoint_upd, PeanoNat.Nat.eqb_refl by auto; reflexivity).
  split.
  - split; [exact P1|]. intros; split; reflexivity.
  - split; [exists h1, l1; rewrite P1; auto|]. split; [exists h, l'; rewrite P2; auto|]. split; [exact Hn|].
    intros a la. rewrite P1, P2. intros Es. destruct (Ha _ _ Es) as (A1 & A2). split.
    + intros l0 X. injection X as ->. exact (A1 l E).
    + intros f b c l0 f' Ef Fb X. injection X as ->. exact (A2 f b c l f' Ef Fb E).
Qed.
Lemma have_s_fine s d g g' : sep s d g -> have_s d g = Some g' -> fine s d g g' /\ exists a l, gpoint d g' = Some (Some a, l).
Proof.
  intros Hs. unfold have_s. destruct (gpoint d g) as [[[a|] l]|] eqn:E; cbn; [| |discriminate]; intros X; injection X as <-.
  - split; [split; [apply keep_refl|exact Hs]|eauto].
  - destruct Hs as ((h1 & l1 & E1 & C1) & (h2 & l2 & E2 & C2) & Hn & Ha). assert (Hd := gpoint_some _ _ _ E).
    set (g1 := set_gs (gs g ++ [(None, None)]) g). 
    set (g2 := set_gse (upd d (Some (Some (length (gs g)), l)) (gse g)) g1).
    assert (P1 : gpoint s g2 = gpoint s g) by (unfold g2; change (gse g) with (gse g1); rewrite gpoint_upd, neqb by auto; reflexivity).
    assert (P2 : gpoint d g2 = Some (Some (length (gs g)), l)) by (unfold g2; change (gse g) with (gse g1); rewrite gpoint_upd, PeanoNat.Nat.eqb_refl by auto; reflexivity).
    assert (Gs : forall a f, nth_error (gs g) a = Some f -> nth_error (gs g2) a = Some f).
    { intros a f H. cbn. rewrite nth_error_app1; [exact H|]. apply nth_error_Some. congruence. }
    assert (Gl : nth_error (gs g2) (length (gs g)) = Some (None, None)) by (cbn; rewrite nth_error_app2, PeanoNat.Nat.sub_diag by lia; reflexivity).
    split; [split|eauto].
    + split; [exact P1|]. intros a la Es. rewrite E1 in Es. injection Es as -> ->. destruct (C1 a eq_refl) as (f & Ef & _). split; [now rewrite Ef, (Gs _ _ Ef)|reflexivity].
    + split; [|split; [|split; [exact Hn|]]].
      * exists h1, l1. rewrite P1. split; [exact E1|]. intros a ->. destruct (C1 a eq_refl) as (f & Ef & Hf). exists f. split; [now apply Gs|exact Hf].
      * exists (Some (length (gs g))), l. split; [exact P2|]. intros a X. injection X as <-. exists (None, None). split; [exact Gl|]. intros b [|]; discriminate.
      * intros a la. rewrite P1, P2. intros Es. rewrite E1 in Es. injection Es as -> ->. destruct (C1 a eq_refl) as (f & Ef & _). split.
        -- intros l0 X. injection X as X. assert (a < length (gs g))%nat by (apply nth_error_Some; congruence). lia.
        -- intros f0 b c l0 f' _ _ X Ef'. injection X as <- <-. rewrite Gl in Ef'. injection Ef' as <-. intros [|]; discriminate.
Qed.
(** A vector of the other point is allocated ... *)
Definition side (p : place) : option (nat * bool) := match p with Idx s => Some (s, true) | Val s => Some (s, false) | Var _ => None end.
Definition put (b : bool) (h : option nat) (f : option nat * option nat) : option nat * option nat := if b then (h, snd f) else (fst f, h).
Definition take (b : bool) (f : option nat * option nat) : option nat := if b then fst f else snd f.
Lemma take_fields b f x : take b f = Some x -> fields f x.
Proof. destruct b; cbn; [left|right]; assumption. Qed.
Lemma put_fields b h f x : fields (put b (Some h) f) x -> x = h \/ fields f x.
Proof. destruct b; cbn; intros [H|H]; cbn in H; unfold fields; try (left; congruence); tauto. Qed.
Lemma refers_side p d w g : side p = Some (d, w) -> refers p g = do (_, f) <- gpair d g; Some (take w f).
Proof. destruct p; cbn; intros H; try discriminate; injection H as <- <-; destruct (gpair s g) as [[b f]|]; reflexivity. Qed.
Lemma redirect_side p d w h g : side p = Some (d, w) -> redirect p h g = do (b, f) <- gpair d g; Some (set_gs (upd b (put w h f) (gs g)) g).
Proof. destruct p; cbn; intros H; try discriminate; injection H as <- <-; destruct (gpair s g) as [[b f]|]; reflexivity. Qed.
Lemma gpair_facts d g b f : gpair d g = Some (b, f) -> (exists l, gpoint d g = Some (Some b, l)) /\ nth_error (gs g) b = Some f.
Proof.
  unfold gpair. destruct (gpoint d g) as [[[a|] l]|]; cbn; try discriminate. destruct (nth_error (gs g) a) eqn:E; cbn; [|discriminate].
  intros H. injection H as -> ->. eauto.
Qed.
Lemma have_fine p s d w g g' b : side p = Some (d, w) -> sep s d g -> have p g = Some (g', b) ->
  fine s d g g' /\ exists c l f, gpoint d g' = Some (Some c, l) /\ nth_error (gs g') c = Some f /\ fields f b.
Proof.
  intros Hp Hs. unfold have. rewrite (refers_side _ _ _ _ Hp). destruct (gpair d g) as [[c f]|] eqn:E; cbn; [|discriminate].
  destruct (gpair_facts _ _ _ _ E) as ((l & Ed) & Ef). destruct (take w f) as [b0|] eqn:Ew.
  - intros X. injection X as <- <-. split; [split; [apply keep_refl|exact Hs]|]. exists c, l, f. split; [exact Ed|]. split; [exact Ef|]. now apply (take_fields w).
  - rewrite (redirect_side _ _ _ _ _ Hp). assert (Eg : gpair d (set_gv (gv g ++ [vec_empty]) g) = Some (c, f)) by exact E. rewrite Eg. cbn. intros X. injection X as <- <-.
    destruct Hs as ((h1 & l1 & E1 & C1) & (h2 & l2 & E2 & C2) & Hn & Ha). rewrite Ed in E2. injection E2 as <- <-.
    destruct (C2 c eq_refl) as (f2 & Ef2 & Hf2). rewrite Ef in Ef2. injection Ef2 as <-.
    set (nb := length (gv g)). set (g' := set_gs (upd c (put w (Some nb) f) (gs g)) (set_gv (gv g ++ [vec_empty]) g)).
    assert (Gv : forall b x, nth_error (gv g) b = Some x -> nth_error (gv g') b = Some x).
    { intros b x H. cbn. rewrite nth_error_app1; [exact H|]. apply nth_error_Some. congruence. }
    assert (Gn : nth_error (gv g') nb = Some vec_empty) by (cbn; unfold nb; rewrite nth_error_app2, PeanoNat.Nat.sub_diag by lia; reflexivity).
    assert (Gc : nth_error (gs g') c = Some (put w (Some nb) f)) by (cbn; rewrite upd_nth, PeanoNat.Nat.eqb_refl, Ef; reflexivity).
    assert (Go : forall a, a <> c -> nth_error (gs g') a = nth_error (gs g) a) by (intros a H; cbn; rewrite upd_nth, neqb by auto; reflexivity).
    assert (Hac : forall a, h1 = Some a -> a <> c).
    { intros a -> ->. destruct (Ha _ _ E1) as (A1 & _). exact (A1 l Ed). }
    split; [split|].
    + split; [reflexivity|]. intros a la Es. rewrite E1 in Es. injection Es as -> ->. split; [apply Go, Hac; reflexivity|].
      intros f1 b Ef1 Fb. destruct (C1 a eq_refl) as (f3 & Ef3 & Hf3). rewrite Ef1 in Ef3. injection Ef3 as <-. destruct (Hf3 _ Fb) as (x & Hx). now rewrite Hx, (Gv _ _ Hx).
    + split; [|split; [|split; [exact Hn|]]].
      * exists h1, l1. split; [exact E1|]. intros a Hh. destruct (C1 a Hh) as (f1 & Ef1 & Hf1). exists f1. rewrite Go by (now apply Hac). split; [exact Ef1|].
        intros b Fb. destruct (Hf1 _ Fb) as (x & Hx). eauto.
      * exists (Some c), l. split; [exact Ed|]. intros a X. injection X as <-. exists (put w (Some nb) f). split; [exact Gc|]. intros b Fb.
        destruct (put_fields _ _ _ _ Fb) as [->|Fb']; [eauto|]. destruct (Hf2 _ Fb') as (x & Hx). eauto.
      * intros a la Es. change (gpoint s g') with (gpoint s g) in Es. change (gpoint d g') with (gpoint d g). destruct (Ha _ _ Es) as (A1 & A2). split; [exact A1|].
        intros f1 b c' l' f' Ef1 Fb Ed' Ef' Fb'. rewrite Ed in Ed'. injection Ed' as <- <-. rewrite Gc in Ef'. injection Ef' as <-.
        rewrite E1 in Es. injection Es as -> ->. rewrite Go in Ef1 by (now apply Hac).
        destruct (put_fields _ _ _ _ Fb') as [->|Fb2]; [|exact (A2 _ _ _ _ _ Ef1 Fb Ed Ef Fb2)].
        destruct (C1 a eq_refl) as (f3 & Ef3 & Hf3). rewrite Ef1 in Ef3. injection Ef3 as <-. destruct (Hf3 _ Fb) as (x & Hx).
        assert (nb < length (gv g))%nat by (apply nth_error_Some; congruence). unfold nb in *. lia.
    + exists c, l, (put w (Some nb) f). split; [exact Ed|]. split; [exact Gc|]. destruct w; [left|right]; reflexivity.
Qed.
(** ... or changed. *)
Lemma write_fine s d g c l f b x : sep s d g -> gpoint d g = Some (Some c, l) -> nth_error (gs g) c = Some f -> fields f b ->
  fine s d g (set_gv (upd b x (gv g)) g).
Proof.
  intros ((h1 & l1 & E1 & C1) & (h2 & l2 & E2 & C2) & Hn & Ha) Ed Ef Fb.
  assert (Gx : forall a y, nth_error (gv g) a = Some y -> exists z, nth_error (upd b x (gv g)) a = Some z).
  { intros a y Hy. rewrite upd_nth. destruct (Nat.eqb_spec b a) as [->|_]; [rewrite Hy|]; eauto. }
  split.
  - split; [reflexivity|]. intros a la Es. split; [reflexivity|]. intros f1 b1 Ef1 Fb1. cbn. rewrite upd_nth, neqb; [reflexivity|].
    intros ->. destruct (Ha _ _ Es) as (_ & A2). exact (A2 _ _ _ _ _ Ef1 Fb1 Ed Ef Fb).
  - split; [|split; [|split; [exact Hn|exact Ha]]].
    + exists h1, l1. split; [exact E1|]. intros a Hh. destruct (C1 a Hh) as (f1 & Ef1 & Hf1). exists f1. split; [exact Ef1|]. intros b1 Fb1.
      destruct (Hf1 _ Fb1) as (y & Hy). cbn. eauto.
    + exists h2, l2. split; [exact E2|]. intros a Hh. destruct (C2 a Hh) as (f1 & Ef1 & Hf1). exists f1. split; [exact Ef1|]. intros b1 Fb1.
      destruct (Hf1 _ Fb1) as (y & Hy). cbn. eauto.
Qed.
Lemma change_fine s d g c l f b o g' : sep s d g -> gpoint d g = Some (Some c, l) -> nth_error (gs g) c = Some f -> fields f b ->
  change zero b o g = Some g' -> fine s d g g'.
Proof.
  intros Hs Ed Ef Fb. unfold change. destruct (nth_error (gv g) b) as [x|]; cbn; [|discriminate]. destruct (vec_step zero x o) as [x1|]; cbn; [|discriminate].
  intros X. injection X as <-. eapply write_fine; eassumption.
Qed.
Lemma fine_trans s d g1 g2 g3 : fine s d g1 g2 -> fine s d g2 g3 -> fine s d g1 g3.
Proof. intros (K1 & _) (K2 & S2). split; [eapply keep_trans; eassumption|exact S2]. Qed.
Lemma refers_fields p d w g b : side p = Some (d, w) -> refers p g = Some (Some b) ->
  exists c l f, gpoint d g = Some (Some c, l) /\ nth_error (gs g) c = Some f /\ fields f b /\ take w f = Some b.
Proof.
  intros Hp. rewrite (refers_side _ _ _ _ Hp). destruct (gpair d g) as [[c f]|] eqn:E; cbn; [|discriminate]. intros X. injection X as X.
  destruct (gpair_facts _ _ _ _ E) as ((l & Ed) & Ef). exists c, l, f. split; [exact Ed|]. split; [exact Ef|]. split; [now apply (take_fields w)|exact X].
Qed.
Lemma apply_fine p s d w o g g' : side p = Some (d, w) -> sep s d g -> apply_v zero p o g = Some g' -> fine s d g g'.
Proof.
  intros Hp Hs.
  assert (Q1 : (do (g1, b) <- have p g; change zero b o g1) = Some g' -> fine s d g g').
  { destruct (have p g) as [[g1 b]|] eqn:E; cbn; [|discriminate]. intros X. destruct (have_fine _ _ _ _ _ _ _ Hp Hs E) as (F1 & c & l & f & Ed & Ef & Fb).
    eapply fine_trans; [exact F1|]. eapply change_fine; try eassumption. apply F1. }
  assert (Q2 : forall z, (z = None \/ z = Some g) -> (do h <- refers p g; match h with None => z | Some b => change zero b o g end) = Some g' -> fine s d g g').
  { intros z Hz. destruct (refers p g) as [[b|]|] eqn:E; cbn; [| |discriminate].
    - destruct (refers_fields _ _ _ _ _ Hp E) as (c & l & f & Ed & Ef & Fb & _). intros X. eapply change_fine; eassumption.
    - intros ->. destruct Hz as [|Hz]; [discriminate|]. injection Hz as ->. split; [apply keep_refl|exact Hs]. }
  destruct o; cbn [apply_v]; try exact Q1; apply Q2; auto.
Qed.
Lemma gcopy_fine p q s d w n g g' : side p = Some (d, w) -> sep s d g -> gcopy p q n g = Some g' -> fine s d g g'.
Proof.
  intros Hp Hs. unfold gcopy. destruct (refers p g) as [[b|]|] eqn:E; cbn; [|destruct (refers q g) as [[|]|]; discriminate|discriminate].
  destruct (refers q g) as [[b'|]|]; cbn; try discriminate. destruct (nth_error (gv g) b) as [xd|]; cbn; [|discriminate].
  destruct (nth_error (gv g) b') as [xs|]; cbn; [|discriminate]. destruct (_ && _); [|discriminate]. intros X. injection X as <-.
  destruct (refers_fields _ _ _ _ _ Hp E) as (c & l & f & Ed & Ef & Fb & _). eapply write_fine; eassumption.
Qed.
Lemma both_fine s d o g g' : sep s d g -> both zero d o g = Some g' -> fine s d g g'.
Proof.
  intros Hs. unfold both. destruct (have_s d g) as [g1|] eqn:E1; cbn; [|discriminate]. destruct (have_s_fine _ _ _ _ Hs E1) as (F1 & _).
  destruct (apply_v zero (Idx d) o g1) as [g2|] eqn:E2; cbn; [|discriminate]. intros E3.
  pose proof (apply_fine (Idx d) s d true o g1 g2 eq_refl (proj2 F1) E2) as F2.
  pose proof (apply_fine (Val d) s d false o g2 g' eq_refl (proj2 F2) E3) as F3.
  eapply fine_trans; [exact F1|]. eapply fine_trans; eassumption.
Qed.

Lemma local_fine s d o g g' a : local d o -> sep s d g -> gstep zero o g = Some (g', a) -> fine s d g g'.
Proof.
  intros Hl Hs. assert (Hr : fine s d g g) by (split; [apply keep_refl|exact Hs]).
  destruct o; cbn in Hl; try contradiction; cbn [gstep].
  - destruct p as [v|s0|s0]; try contradiction; subst s0.
    + destruct (apply_v zero (Idx d) o g) eqn:E; cbn; [|discriminate]. intros X. injection X as <- <-. now apply (apply_fine (Idx d) s d true o).
    + destruct (apply_v zero (Val d) o g) eqn:E; cbn; [|discriminate]. intros X. injection X as <- <-. now apply (apply_fine (Val d) s d false o).
  - destruct (gget p i g); cbn; [|discriminate]. intros X. injection X as <- <-. exact Hr.
  - destruct (gsize p g); cbn; [|discriminate]. intros X. injection X as <- <-. exact Hr.
  - subst s0. destruct (gpoint d g) as [[h l0]|] eqn:E; cbn; [|discriminate]. intros X. injection X as <- <-. eapply label_fine; eassumption.
  - subst s0. destruct (gsize_s d g) as [n|]; cbn -[apply_v]; [|discriminate]. destruct (both zero d (VResize (S n)) g) as [g1|] eqn:E1; cbn -[apply_v]; [|discriminate].
    pose proof (both_fine _ _ _ _ _ Hs E1) as F1.
    destruct (apply_v zero (Idx d) (VSet n i) g1) as [g2|] eqn:E2; cbn -[apply_v]; [|discriminate]. pose proof (apply_fine (Idx d) s d true _ g1 g2 eq_refl (proj2 F1) E2) as F2.
    destruct (apply_v zero (Val d) (VSet n x) g2) as [g3|] eqn:E3; cbn -[apply_v]; [|discriminate]. pose proof (apply_fine (Val d) s d false _ g2 g3 eq_refl (proj2 F2) E3) as F3.
    intros X. injection X as <- <-. eapply fine_trans; [exact F1|]. eapply fine_trans; eassumption.
  - subst s0. destruct (both zero d (VResize n) g) as [g1|] eqn:E1; cbn; [|discriminate]. intros X. injection X as <- <-. eapply both_fine; eassumption.
  - subst s0. destruct (both zero d (VReserve n) g) as [g1|] eqn:E1; cbn; [|discriminate]. intros X. injection X as <- <-. eapply both_fine; eassumption.
  - subst s0. destruct (both zero d (VResize 0) g) as [g1|] eqn:E1; cbn; [|discriminate]. pose proof (both_fine _ _ _ _ _ Hs E1) as F1.
    destruct (gpoint d g1) as [[h l0]|] eqn:E; cbn; [|discriminate]. intros X. injection X as <- <-. eapply fine_trans; [exact F1|]. eapply label_fine; [apply F1|exact E].
  - subst dst. destruct (gpoint s0 g) as [[h0 l]|]; cbn; [|discriminate]. destruct (gpoint d g) as [[hd ld]|] eqn:Ed; cbn; [|discriminate].
    pose proof (label_fine _ _ _ _ _ l Hs Ed) as F0. set (g0 := set_gse _ g) in *.
    destruct (gsize_s s0 g0) as [n0|]; cbn; [|discriminate]. destruct (both zero d (VReserve n0) g0) as [g1|] eqn:E1; cbn; [|discriminate]. pose proof (both_fine _ _ _ _ _ (proj2 F0) E1) as F1.
    destruct (gsize_s s0 g1) as [n1|]; cbn; [|discriminate]. destruct (both zero d (VResize n1) g1) as [g2|] eqn:E2; cbn; [|discriminate]. pose proof (both_fine _ _ _ _ _ (proj2 F1) E2) as F2.
    destruct (gsize_s s0 g2) as [n2|]; cbn; [|discriminate]. destruct (gcopy (Idx d) (Idx s0) n2 g2) as [g3|] eqn:E3; cbn; [|discriminate].
    pose proof (gcopy_fine (Idx d) _ s d true _ _ _ eq_refl (proj2 F2) E3) as F3.
    destruct (gsize_s s0 g3) as [n3|]; cbn; [|discriminate]. destruct (gcopy (Val d) (Val s0) n3 g3) as [g4|] eqn:E4; cbn; [|discriminate].
    pose proof (gcopy_fine (Val d) _ s d false _ _ _ eq_refl (proj2 F3) E4) as F4. intros X. injection X as <- <-.
    eapply fine_trans; [exact F0|]. eapply fine_trans; [exact F1|]. eapply fine_trans; [exact F2|]. eapply fine_trans; eassumption.
  - destruct (gsize_s s0 g); cbn; [|discriminate]. intros X. injection X as <- <-. exact Hr.
  - destruct (gpoint s0 g) as [[h l]|]; cbn; [|discriminate]. intros X. injection X as <- <-. exact Hr.
Qed.
Lemma run_fine s d os : Forall (local d) os -> forall g g' l, sep s d g -> grun zero os g = Some (g', l) -> fine s d g g'.
Proof.
  induction 1 as [|o os Ho Hos IH]; intros g g' l Hs; cbn [grun].
  - intros X. injection X as <- <-. split; [apply keep_refl|exact Hs].
  - destruct (gstep zero o g) as [[g1 a]|] eqn:E; cbn; [|discriminate]. destruct (grun zero os g1) as [[g2 l2]|] eqn:E2; cbn; [|discriminate].
    intros X. injection X as <- <-. pose proof (local_fine _ _ _ _ _ _ Ho Hs E) as F1. eapply fine_trans; [exact F1|]. eapply IH; [apply F1|exact E2].
Qed.

(** What can be read from a point that is kept. *)
Lemma keep_reads s g g' : closed s g -> keep s g g' ->
  gpoint s g' = gpoint s g /\ gsize_s s g' = gsize_s s g /\
  forall i, gget (Idx s) i g' = gget (Idx s) i g /\ gget (Val s) i g' = gget (Val s) i g /\ gsize (Idx s) g' = gsize (Idx s) g.
Proof.
  intros (h & l & E & C) (K1 & K2). split; [exact K1|].
  assert (P : gpair s g' = gpair s g /\ forall a f, gpair s g = Some (a, f) -> forall b, fields f b -> nth_error (gv g') b = nth_error (gv g) b).
  { unfold gpair. rewrite K1, E. cbn. destruct h as [a|]; [|split; [reflexivity|discriminate]]. destruct (K2 _ _ E) as (K3 & K4). rewrite K3. split; [reflexivity|].
    intros a' f. destruct (nth_error (gs g) a) as [f1|] eqn:Ef; cbn; [|discriminate]. intros X. injection X as <- <-. intros b Fb. exact (K4 _ _ eq_refl Fb). }
  destruct P as (P1 & P2).
  assert (Q : forall p w, side p = Some (s, w) -> refers p g' = refers p g /\ forall b, refers p g = Some (Some b) -> nth_error (gv g') b = nth_error (gv g) b).
  { intros p w Hp. rewrite !(refers_side _ _ _ _ Hp), P1. split; [reflexivity|]. intros b. destruct (gpair s g) as [[a f]|] eqn:Eg; cbn; [|discriminate].
    intros X. injection X as X. apply (P2 _ _ eq_refl). now apply (take_fields w). }
  assert (QS : forall p w, side p = Some (s, w) -> gsize p g' = gsize p g).
  { intros p w Hp. destruct (Q p w Hp) as (Q1 & Q2). unfold gsize. rewrite Q1. destruct (refers p g) as [[b|]|] eqn:Er; cbn; try reflexivity. now rewrite (Q2 b eq_refl). }
  assert (QG : forall p w i, side p = Some (s, w) -> gget p i g' = gget p i g).
  { intros p w i Hp. destruct (Q p w Hp) as (Q1 & Q2). unfold gget. rewrite Q1. destruct (refers p g) as [[b|]|] eqn:Er; cbn; try reflexivity. now rewrite (Q2 b eq_refl). }
  split.
  - unfold gsize_s. rewrite K1, E. cbn. destruct h; [|reflexivity]. now apply (QS _ false).
  - intros i. split; [now apply (QG _ true)|]. split; [now apply (QG _ false)|]. now apply (QS _ true).
Qed.

(** Clone to a point without storage, in closed form. *)
Lemma nth_new {X} (l r : list X) x : nth_error (l ++ x :: r) (length l) = Some x.
Proof. rewrite nth_error_app2, PeanoNat.Nat.sub_diag by lia. reflexivity. Qed.
Lemma nth_new2 {X} (l r : list X) x y : nth_error (l ++ x :: y :: r) (S (length l)) = Some y.
Proof. rewrite nth_error_app2 by lia. replace (S (length l) - length l)%nat with 1%nat by lia. reflexivity. Qed.
Lemma nth_old {X} (l r : list X) i x : nth_error l i = Some x -> nth_error (l ++ r) i = Some x.
Proof. intros H. rewrite nth_error_app1; [exact H|]. apply nth_error_Some. congruence. Qed.
Lemma upd_new {X} (l r : list X) x y : upd (length l) y (l ++ x :: r) = l ++ y :: r.
Proof. induction l as [|z l IH]; cbn; [reflexivity|]. now rewrite IH. Qed.
Lemma upd_new2 {X} (l r : list X) x y z : upd (S (length l)) z (l ++ x :: y :: r) = l ++ x :: z :: r.
Proof. change (x :: y :: r) with ([x] ++ y :: r). rewrite app_assoc. replace (S (length l)) with (length (l ++ [x])) by (rewrite app_length; cbn; lia). rewrite upd_new, <- app_assoc. reflexivity. Qed.
Lemma upd_upd {X} (l : list X) i x y : upd i y (upd i x l) = upd i y l.
Proof. revert i. induction l as [|z l IH]; intros [|i]; cbn; try reflexivity. now rewrite IH. Qed.

Section Both.
Variables (V : list (vec A)) (P : list (option nat * option nat)) (E : list (option (option nat))) (S0 : list (option (option nat * Z))) (d : nat).
Definition cl (x y : vec A) : gst := mkgst (V ++ [x; y]) (P ++ [(Some (length V), Some (S (length V)))]) E S0.
Hypothesis Hd : exists l, nth_error S0 d = Some (Some (Some (length P), l)).
Lemma cl_pair x y : gpair d (cl x y) = Some (length P, (Some (length V), Some (S (length V)))).
Proof. destruct Hd as (l & H). unfold gpair, gpoint, cl. cbn. rewrite H. cbn. now rewrite nth_new. Qed.
Lemma cl_idx x y : refers (Idx d) (cl x y) = Some (Some (length V)).
Proof. unfold refers. now rewrite cl_pair. Qed.
Lemma cl_val x y : refers (Val d) (cl x y) = Some (Some (S (length V))).
Proof. unfold refers. now rewrite cl_pair. Qed.
Lemma cl_both x y o x1 y1 : (exists n, o = VResize n \/ o = VReserve n) -> vec_step zero x o = Some x1 -> vec_step zero y o = Some y1 -> both zero d o (cl x y) = Some (cl x1 y1).
Proof.
  intros (n & Ho) Hx Hy. assert (Hs : have_s d (cl x y) = Some (cl x y)) by (destruct Hd as (l & H); unfold have_s, gpoint, cl; cbn; now rewrite H).
  unfold both. rewrite Hs. cbn [bind].
  assert (H1 : apply_v zero (Idx d) o (cl x y) = Some (cl x1 y)).
  { assert (Q : (do (g1, b) <- have (Idx d) (cl x y); change zero b o g1) = Some (cl x1 y)) by (unfold have; rewrite cl_idx; cbn [bind]; unfold change, cl; cbn [gv bind]; rewrite nth_new; cbn [bind]; rewrite Hx; cbn [bind]; rewrite upd_new; reflexivity).
    destruct Ho as [->| ->]; exact Q. }
  assert (H2 : apply_v zero (Val d) o (cl x1 y) = Some (cl x1 y1)).
  { assert (Q : (do (g1, b) <- have (Val d) (cl x1 y); change zero b o g1) = Some (cl x1 y1)) by (unfold have; rewrite cl_val; cbn [bind]; unfold change, cl; cbn [gv bind]; rewrite nth_new2; cbn [bind]; rewrite Hy; cbn [bind]; rewrite upd_new2; reflexivity).
    destruct Ho as [->| ->]; exact Q. }
  rewrite H1. exact H2.
Qed.
End Both.

Lemma both_null d g l n : gpoint d g = Some (None, l) ->
  both zero d (VReserve n) g = Some (cl (gv g) (gs g) (gve g) (upd d (Some (Some (length (gs g)), l)) (gse g)) (vec_reserve zero n vec_empty) (vec_reserve zero n vec_empty)).
Proof.
  intros E. assert (Hd := gpoint_some _ _ _ E). unfold both, have_s. rewrite E. cbn [bind].
  set (S0 := upd d (Some (Some (length (gs g)), l)) (gse g)). assert (HS : nth_error S0 d = Some (Some (Some (length (gs g)), l))).
  { unfold S0. rewrite upd_nth, PeanoNat.Nat.eqb_refl. destruct (nth_error (gse g) d); [reflexivity|congruence]. }
  unfold apply_v, have, refers, redirect, gpair, gpoint, change, set_gse, set_gs, set_gv. cbn -[nth_error upd vec_step app]. rewrite HS. cbn -[nth_error upd vec_step app].
  repeat (rewrite ?HS, ?nth_new, ?upd_new; cbn -[nth_error upd vec_reserve app length]).
  rewrite <- ?app_assoc. cbn [app].
  replace (length (gv g ++ [vec_reserve zero n vec_empty])) with (S (length (gv g))) by (rewrite app_length; cbn; lia).
  reflexivity.
Qed.

(** A point whose two vectors exist, of which [n] elements are in use. *)
Definition full (s : nat) (a : nat) (l : Z) (xi xv : vec A) g : Prop :=
  exists i v, gpoint s g = Some (Some a, l) /\ nth_error (gs g) a = Some (Some i, Some v) /\ nth_error (gv g) i = Some xi /\ nth_error (gv g) v = Some xv.
Lemma full_reads s a l xi xv g : full s a l xi xv g ->
  gsize_s s g = Some (v_size xv) /\ gsize (Idx s) g = Some (v_size xi) /\ forall i, gget (Idx s) i g = vec_get i xi /\ gget (Val s) i g = vec_get i xv.
Proof.
  intros (i & v & E & Ef & Ei & Ev). unfold gsize_s, gsize, gget, refers, gpair. rewrite E. cbn. rewrite Ef. cbn. rewrite Ei, Ev. cbn. auto.
Qed.
Lemma full_copy s d a l xi xv V P E S0 x y n :
  full s a l xi xv (cl V P E S0 x y) -> (exists l, nth_error S0 d = Some (Some (Some (length P), l))) -> (a < length P)%nat ->
  (n <= length (v_store xi))%nat -> (n <= length (v_store x))%nat ->
  gcopy (Idx d) (Idx s) n (cl V P E S0 x y) = Some (cl V P E S0 (mkvec (firstn n (v_store xi) ++ skipn n (v_store x)) (v_size x)) y).
Proof.
  intros (i & v & Es & Ef & Ei & Ev) Hd Ha H1 H2. unfold gcopy. rewrite cl_idx by exact Hd. cbn [bind].
  unfold refers, gpair. rewrite Es. cbn [bind]. rewrite Ef. cbn [bind fst]. unfold cl at 1. cbn [gv]. rewrite nth_new. cbn [bind]. rewrite Ei. cbn [bind].
  rewrite (proj2 (PeanoNat.Nat.leb_le _ _) H1), (proj2 (PeanoNat.Nat.leb_le _ _) H2). unfold cl, set_gv. cbn [gv gs gve gse andb]. now rewrite upd_new.
Qed.
Lemma full_copy2 s d a l xi xv V P E S0 x y n :
  full s a l xi xv (cl V P E S0 x y) -> (exists l, nth_error S0 d = Some (Some (Some (length P), l))) -> (a < length P)%nat ->
  (n <= length (v_store xv))%nat -> (n <= length (v_store y))%nat ->
  gcopy (Val d) (Val s) n (cl V P E S0 x y) = Some (cl V P E S0 x (mkvec (firstn n (v_store xv) ++ skipn n (v_store y)) (v_size y))).
Proof.
  intros (i & v & Es & Ef & Ei & Ev) Hd Ha H1 H2. unfold gcopy. rewrite cl_val by exact Hd. cbn [bind].
  unfold refers, gpair. rewrite Es. cbn [bind]. rewrite Ef. cbn [bind snd]. unfold cl at 1. cbn [gv]. rewrite nth_new2. cbn [bind]. rewrite Ev. cbn [bind].
  rewrite (proj2 (PeanoNat.Nat.leb_le _ _) H1), (proj2 (PeanoNat.Nat.leb_le _ _) H2). unfold cl, set_gv. cbn [gv gs gve gse andb]. now rewrite upd_new2.
Qed.
Lemma clone_null s d a l ld xi xv g : s <> d -> gpoint d g = Some (None, ld) -> full s a l xi xv g ->
  (v_size xv <= length (v_store xv))%nat -> (v_size xv <= length (v_store xi))%nat ->
  gstep zero (PClone s d) g =
  Some (cl (gv g) (gs g) (gve g) (upd d (Some (Some (length (gs g)), l)) (gse g))
          (mkvec (firstn (v_size xv) (v_store xi)) (v_size xv)) (mkvec (firstn (v_size xv) (v_store xv)) (v_size xv)), Nothing).
Proof.
  intros Hn Ed Hf H1 H2. set (n := v_size xv) in *. assert (Hd := gpoint_some _ _ _ Ed).
  pose proof Hf as (i & v & Es & Ef & Ei & Ev). cbn [gstep]. rewrite Es, Ed. cbn [bind].
  set (g0 := set_gse (upd d (Some (None, l)) (gse g)) g).
  assert (E0 : gpoint d g0 = Some (None, l)) by (unfold g0; rewrite gpoint_upd, PeanoNat.Nat.eqb_refl by auto; reflexivity).
  assert (F0 : full s a l xi xv g0) by (exists i, v; unfold g0; rewrite gpoint_upd, neqb by auto; auto).
  rewrite (proj1 (full_reads _ _ _ _ _ _ F0)). cbn [bind]. fold n. rewrite (both_null _ _ _ _ E0). cbn [bind].
  change (gv g0) with (gv g). change (gs g0) with (gs g). change (gve g0) with (gve g). change (gse g0) with (upd d (Some (@None nat, l)) (gse g)). rewrite upd_upd.
  set (S0 := upd d (Some (Some (length (gs g)), l)) (gse g)).
  assert (HS : exists l, nth_error S0 d = Some (Some (Some (length (gs g)), l))).
  { exists l. unfold S0. rewrite upd_nth, PeanoNat.Nat.eqb_refl. destruct (nth_error (gse g) d); [reflexivity|congruence]. }
  assert (Ha : (a < length (gs g))%nat) by (apply nth_error_Some; congruence).
  assert (F : forall x y, full s a l xi xv (cl (gv g) (gs g) (gve g) S0 x y)).
  { intros x y. exists i, v. unfold cl. split; [|split; [|split]]; cbn [gs gv]; try (apply nth_old; assumption).
    unfold gpoint in *. cbn [gse]. unfold S0. rewrite upd_nth, neqb by auto. exact Es. }
  rewrite (proj1 (full_reads _ _ _ _ _ _ (F _ _))). cbn [bind]. fold n.
  assert (Hr : vec_step zero (vec_reserve zero n (vec_empty : vec A)) (VResize n) = Some (mkvec (repeat zero n) n)).
  { unfold vec_step, vec_resize, vec_reserve, storage_resize. cbn [v_store v_size vec_empty]. change (length (@nil A)) with O.
    assert (Hk : (if (0 <? n)%nat then [] ++ repeat zero (n - 0) else []) = repeat zero n).
    { destruct (PeanoNat.Nat.ltb_spec 0 n); [now rewrite PeanoNat.Nat.sub_0_r|]. now replace n with O by lia. }
    rewrite Hk, repeat_length, (proj2 (PeanoNat.Nat.ltb_ge n n)) by lia. reflexivity. }
  rewrite (cl_both _ _ _ _ _ HS _ _ (VResize n) _ _ (ex_intro _ n (or_introl eq_refl)) Hr Hr). cbn [bind].
  rewrite (proj1 (full_reads _ _ _ _ _ _ (F _ _))). cbn [bind]. fold n.
  rewrite (full_copy s d a l xi xv) by (auto; cbn; rewrite repeat_length; lia). cbn [bind v_store v_size].
  rewrite (proj1 (full_reads _ _ _ _ _ _ (F _ _))). cbn [bind]. fold n.
  rewrite (full_copy2 s d a l xi xv) by (auto; cbn; rewrite repeat_length; lia). cbn [bind v_store v_size].
  rewrite skipn_all2 by (rewrite repeat_length; lia). now rewrite !app_nil_r.
Qed.

(** Handles stay what they are: a point with storage keeps it. *)
Lemma redirect_gse p d w h g g' : side p = Some (d, w) -> redirect p h g = Some g' -> gse g' = gse g.
Proof. intros Hp. rewrite (redirect_side _ _ _ _ _ Hp). destruct (gpair d g) as [[b f]|]; cbn; [|discriminate]. intros X. now injection X as <-. Qed.
Lemma change_gse b o g g' : change zero b o g = Some g' -> gse g' = gse g.
Proof. unfold change. destruct (nth_error (gv g) b) as [x|]; cbn; [|discriminate]. destruct (vec_step zero x o); cbn; [|discriminate]. intros X. now injection X as <-. Qed.
Lemma apply_gse p d w o g g' : side p = Some (d, w) -> apply_v zero p o g = Some g' -> gse g' = gse g.
Proof.
  intros Hp.
  assert (Q1 : (do (g1, b) <- have p g; change zero b o g1) = Some g' -> gse g' = gse g).
  { unfold have. destruct (refers p g) as [[b|]|]; cbn; [apply change_gse| |discriminate].
    destruct (redirect p _ _) as [g1|] eqn:E; cbn; [|discriminate]. intros X. rewrite (change_gse _ _ _ _ X). now rewrite (redirect_gse _ _ _ _ _ _ Hp E). }
  assert (Q2 : forall z, (z = None \/ z = Some g) -> (do h <- refers p g; match h with None => z | Some b => change zero b o g end) = Some g' -> gse g' = gse g).
  { intros z Hz. destruct (refers p g) as [[b|]|]; cbn; [apply change_gse| |discriminate]. intros ->. destruct Hz as [|Hz]; congruence. }
  destruct o; cbn [apply_v]; try exact Q1; apply Q2; auto.
Qed.
Definition steady (d : nat) g g' : Prop :=
  forall e b l, gpoint e g = Some (Some b, l) -> exists l', gpoint e g' = Some (Some b, l') /\ (e <> d -> l' = l).
Lemma steady_gse d g g' : gse g' = gse g -> steady d g g'.
Proof. intros E e b l. unfold gpoint. rewrite E. eauto. Qed.
Lemma steady_trans d g1 g2 g3 : steady d g1 g2 -> steady d g2 g3 -> steady d g1 g3.
Proof. intros H1 H2 e b l E. destruct (H1 _ _ _ E) as (l1 & E1 & L1). destruct (H2 _ _ _ E1) as (l2 & E2 & L2). exists l2. split; [exact E2|]. intros N. rewrite L2, L1; auto. Qed.
Lemma steady_label d h l l' g : gpoint d g = Some (h, l) -> steady d g (set_gse (upd d (Some (h, l')) (gse g)) g).
Proof.
  intros E e b le Ee. rewrite gpoint_upd by (now apply (gpoint_some _ _ _ E)). destruct (Nat.eqb_spec d e) as [->|N]; [|eauto].
  rewrite E in Ee. injection Ee as -> ->. exists l'. split; [reflexivity|congruence].
Qed.
Lemma have_s_steady d g g' : have_s d g = Some g' -> steady d g g'.
Proof.
  unfold have_s. destruct (gpoint d g) as [[[a|] l]|] eqn:E; cbn; [| |discriminate]; intros X; injection X as <-; [now apply steady_gse|].
  intros e b le Ee. set (g1 := set_gs _ g). change (gse g) with (gse g1). rewrite gpoint_upd by (now apply (gpoint_some _ _ _ E)).
  destruct (Nat.eqb_spec d e) as [->|N]; [congruence|]. change (gpoint e g1) with (gpoint e g). eauto.
Qed.
Lemma both_steady d o g g' : both zero d o g = Some g' -> steady d g g'.
Proof.
  unfold both. destruct (have_s d g) as [g1|] eqn:E1; cbn; [|discriminate]. destruct (apply_v zero (Idx d) o g1) as [g2|] eqn:E2; cbn; [|discriminate]. intros E3.
  eapply steady_trans; [exact (have_s_steady _ _ _ E1)|]. apply steady_gse. rewrite (apply_gse (Val d) d false _ _ _ eq_refl E3). exact (apply_gse (Idx d) d true _ _ _ eq_refl E2).
Qed.
Lemma gcopy_gse p q n g g' : gcopy p q n g = Some g' -> gse g' = gse g.
Proof.
  unfold gcopy. destruct (refers p g) as [[b|]|]; cbn; [|destruct (refers q g) as [[|]|]; discriminate|discriminate].
  destruct (refers q g) as [[b'|]|]; cbn; try discriminate. destruct (nth_error (gv g) b) as [xd|]; cbn; [|discriminate].
  destruct (nth_error (gv g) b') as [xs|]; cbn; [|discriminate]. destruct (_ && _); [|discriminate]. intros X. now injection X as <-.
Qed.
Lemma local_steady d o g g' a : local d o -> gstep zero o g = Some (g', a) -> steady d g g'.
Proof.
  intros Hl. assert (Hr : steady d g g) by (now apply steady_gse).
  destruct o; cbn in Hl; try contradiction; cbn [gstep].
  - destruct p as [v|s0|s0]; try contradiction; subst s0.
    + destruct (apply_v zero (Idx d) o g) eqn:E; cbn; [|discriminate]. intros X. injection X as <- <-. apply steady_gse. exact (apply_gse (Idx d) d true _ _ _ eq_refl E).
    + destruct (apply_v zero (Val d) o g) eqn:E; cbn; [|discriminate]. intros X. injection X as <- <-. apply steady_gse. exact (apply_gse (Val d) d false _ _ _ eq_refl E).
  - destruct (gget p i g); cbn; [|discriminate]. intros X. injection X as <- <-. exact Hr.
  - destruct (gsize p g); cbn; [|discriminate]. intros X. injection X as <- <-. exact Hr.
  - subst s. destruct (gpoint d g) as [[h l0]|] eqn:E; cbn; [|discriminate]. intros X. injection X as <- <-. eapply steady_label; eassumption.
  - subst s. destruct (gsize_s d g) as [n|]; cbn -[apply_v]; [|discriminate]. destruct (both zero d (VResize (S n)) g) as [g1|] eqn:E1; cbn -[apply_v]; [|discriminate].
    destruct (apply_v zero (Idx d) (VSet n i) g1) as [g2|] eqn:E2; cbn -[apply_v]; [|discriminate].
    destruct (apply_v zero (Val d) (VSet n x) g2) as [g3|] eqn:E3; cbn -[apply_v]; [|discriminate].
    intros X. injection X as <- <-. eapply steady_trans; [exact (both_steady _ _ _ _ E1)|]. apply steady_gse.
    rewrite (apply_gse (Val d) d false _ _ _ eq_refl E3). exact (apply_gse (Idx d) d true _ _ _ eq_refl E2).
  - subst s. destruct (both zero d (VResize n) g) as [g1|] eqn:E1; cbn; [|discriminate]. intros X. injection X as <- <-. eapply both_steady; eassumption.
  - subst s. destruct (both zero d (VReserve n) g) as [g1|] eqn:E1; cbn; [|discriminate]. intros X. injection X as <- <-. eapply both_steady; eassumption.
  - subst s. destruct (both zero d (VResize 0) g) as [g1|] eqn:E1; cbn; [|discriminate].
    destruct (gpoint d g1) as [[h l0]|] eqn:E; cbn; [|discriminate]. intros X. injection X as <- <-. eapply steady_trans; [exact (both_steady _ _ _ _ E1)|]. eapply steady_label; exact E.
  - subst dst. destruct (gpoint s g) as [[h0 l]|]; cbn; [|discriminate]. destruct (gpoint d g) as [[hd ld]|] eqn:Ed; cbn; [|discriminate].
    pose proof (steady_label _ _ _ l _ Ed) as F0. set (g0 := set_gse _ g) in *.
    destruct (gsize_s s g0) as [n0|]; cbn; [|discriminate]. destruct (both zero d (VReserve n0) g0) as [g1|] eqn:E1; cbn; [|discriminate].
    destruct (gsize_s s g1) as [n1|]; cbn; [|discriminate]. destruct (both zero d (VResize n1) g1) as [g2|] eqn:E2; cbn; [|discriminate].
    destruct (gsize_s s g2) as [n2|]; cbn; [|discriminate]. destruct (gcopy (Idx d) (Idx s) n2 g2) as [g3|] eqn:E3; cbn; [|discriminate].
    destruct (gsize_s s g3) as [n3|]; cbn; [|discriminate]. destruct (gcopy (Val d) (Val s) n3 g3) as [g4|] eqn:E4; cbn; [|discriminate].
    intros X. injection X as <- <-. eapply steady_trans; [exact F0|]. eapply steady_trans; [exact (both_steady _ _ _ _ E1)|]. eapply steady_trans; [exact (both_steady _ _ _ _ E2)|].
    apply steady_gse. rewrite (gcopy_gse _ _ _ _ _ E4). exact (gcopy_gse _ _ _ _ _ E3).
  - destruct (gsize_s s g); cbn; [|discriminate]. intros X. injection X as <- <-. exact Hr.
  - destruct (gpoint s g) as [[h l]|]; cbn; [|discriminate]. intros X. injection X as <- <-. exact Hr.
Qed.
(** Two points with the same pair show the same features. *)
Definition same_features (s d : nat) g : Prop :=
  gsize_s s g = gsize_s d g /\ gsize (Idx s) g = gsize (Idx d) g /\ forall i, gget (Idx s) i g = gget (Idx d) i g /\ gget (Val s) i g = gget (Val d) i g.
Lemma shared_same s d b l l' g : gpoint s g = Some (Some b, l) -> gpoint d g = Some (Some b, l') -> same_features s d g.
Proof. intros E1 E2. unfold same_features, gsize_s, gsize, gget, refers, gpair. rewrite E1, E2. cbn. auto. Qed.
Lemma run_shared s d b os : Forall (fun o => local s o \/ local d o) os -> forall g g' r, (exists l, gpoint s g = Some (Some b, l)) -> (exists l, gpoint d g = Some (Some b, l)) ->
  grun zero os g = Some (g', r) -> exists l l', gpoint s g' = Some (Some b, l) /\ gpoint d g' = Some (Some b, l').
Proof.
  induction 1 as [|o os Ho Hos IH]; intros g g' r (l1 & E1) (l2 & E2); cbn [grun].
  - intros X. injection X as <- <-. eauto.
  - destruct (gstep zero o g) as [[g1 a]|] eqn:E; cbn; [|discriminate]. destruct (grun zero os g1) as [[g2 l3]|] eqn:Er; cbn; [|discriminate]. intros X. injection X as <- <-.
    assert (exists l, gpoint s g1 = Some (Some b, l)) by (destruct Ho as [Ho|Ho]; destruct (local_steady _ _ _ _ _ Ho E _ _ _ E1) as (? & ? & _); eauto).
    assert (exists l, gpoint d g1 = Some (Some b, l)) by (destruct Ho as [Ho|Ho]; destruct (local_steady _ _ _ _ _ Ho E _ _ _ E2) as (? & ? & _); eauto).
    eapply IH; eassumption.
Qed.

(** The storage of a vector is never smaller than its size. *)
Lemma grow_ge fuel : forall al n a, grow fuel al n = Some a -> n <= a.
Proof. induction fuel as [|f IH]; intros al n a; cbn [grow]; [discriminate|]. set (a' := u64 _). clearbody a'. destruct (Z.ltb_spec a' n); [apply IH|]. intros X. injection X as <-. lia. Qed.
Lemma resize_vinv n (x x1 : vec A) : vec_resize zero n x = Some x1 -> vinv x1 /\ v_size x1 = n.
Proof.
  unfold vec_resize. destruct (PeanoNat.Nat.ltb_spec (length (v_store x)) n) as [H|H].
  - destruct (grow _ _ _) as [a|] eqn:E; cbn; [|discriminate]. intros X. injection X as <-. apply grow_ge in E. unfold vinv. cbn. rewrite storage_resize_length. split; [lia|reflexivity].
  - intros X. injection X as <-. unfold vinv. cbn. split; [exact H|reflexivity].
Qed.
Lemma wr_length (l l' : list A) : forall i y, wr l i y = Some l' -> length l' = length l.
Proof. revert l'. induction l as [|z l IH]; intros l' [|i] y; cbn; try discriminate. - intros X. now injection X as <-. - destruct (wr l i y) eqn:E; cbn; [|discriminate]. intros X. injection X as <-. cbn. now rewrite (IH _ _ _ E). Qed.
Lemma set_vinv i y (x x1 : vec A) : vinv x -> vec_set i y x = Some x1 -> vinv x1.
Proof. unfold vec_set, vinv. destruct (wr (v_store x) i y) eqn:E; cbn; [|discriminate]. intros H X. injection X as <-. cbn. now rewrite (wr_length _ _ _ _ E). Qed.
Lemma step_vinv o (x x1 : vec A) : vinv x -> vec_step zero x o = Some x1 -> vinv x1.
Proof.
  intros H. destruct o; cbn [vec_step].
  - intros X. exact (proj1 (resize_vinv _ _ _ X)).
  - unfold vec_push. destruct (vec_resize zero (S (v_size x)) x) as [x2|] eqn:E; cbn; [|discriminate]. apply set_vinv. exact (proj1 (resize_vinv _ _ _ E)).
  - unfold vec_pop. destruct (v_size x =? 0)%nat; cbn; [intros X; now injection X as <-|].
    destruct (vec_resize zero (v_size x - 1) x) as [x2|] eqn:E; cbn; [|discriminate]. intros X. injection X as <-. exact (proj1 (resize_vinv _ _ _ E)).
  - intros X. exact (proj1 (resize_vinv _ _ _ X)).
  - intros X. injection X as <-. unfold vinv, vec_reserve in *. cbn. rewrite storage_resize_length. lia.
  - now apply set_vinv.
  - unfold vec_slice_op. destruct (PeanoNat.Nat.ltb_spec (v_size x) start); [discriminate|]. destruct (PeanoNat.Nat.ltb_spec (length (v_store x)) (v_size x)); [discriminate|].
    intros X. injection X as <-. unfold vinv. cbn. rewrite !app_length, map_length, !firstn_length, !skipn_length. lia.
Qed.
Definition okv g : Prop := forall b x, nth_error (gv g) b = Some x -> vinv x.
Lemma okv_upd g b x : okv g -> vinv x -> okv (set_gv (upd b x (gv g)) g).
Proof. intros H Hx a y. cbn. rewrite upd_nth. destruct (Nat.eqb b a); [|apply H]. destruct (nth_error (gv g) b); [|discriminate]. intros X. now injection X as <-. Qed.
Lemma okv_eq g g' : gv g' = gv g -> okv g -> okv g'.
Proof. intros E H b x. rewrite E. apply H. Qed.
Lemma change_okv b o g g' : okv g -> change zero b o g = Some g' -> okv g'.
Proof.
  intros H. unfold change. destruct (nth_error (gv g) b) as [x|] eqn:E; cbn; [|discriminate]. destruct (vec_step zero x o) as [x1|] eqn:E1; cbn; [|discriminate].
  intros X. injection X as <-. apply okv_upd; [exact H|]. exact (step_vinv _ _ _ (H _ _ E) E1).
Qed.
Lemma redirect_gv p h g g' : redirect p h g = Some g' -> gv g' = gv g.
Proof. destruct p; cbn; [destruct (gvar v g)|destruct (gpair s g) as [[]|]|destruct (gpair s g) as [[]|]]; cbn; intros X; try discriminate; now injection X as <-. Qed.
Lemma apply_okv p o g g' : okv g -> apply_v zero p o g = Some g' -> okv g'.
Proof.
  intros H.
  assert (Q1 : (do (g1, b) <- have p g; change zero b o g1) = Some g' -> okv g').
  { unfold have. destruct (refers p g) as [[b|]|]; cbn; [now apply change_okv| |discriminate].
    destruct (redirect p _ _) as [g1|] eqn:E; cbn; [|discriminate]. apply change_okv. eapply okv_eq; [exact (redirect_gv _ _ _ _ E)|].
    intros b x. cbn. intros Hb. destruct (PeanoNat.Nat.lt_ge_cases b (length (gv g))) as [L|L].
    - rewrite nth_error_app1 in Hb by exact L. now apply (H b).
    - rewrite nth_error_app2 in Hb by exact L. destruct (b - length (gv g))%nat as [|k]; cbn in Hb; [injection Hb as <-; unfold vinv; cbn; lia|]. destruct k; discriminate. }
  assert (Q2 : forall z, (z = None \/ z = Some g) -> (do h <- refers p g; match h with None => z | Some b => change zero b o g end) = Some g' -> okv g').
  { intros z Hz. destruct (refers p g) as [[b|]|]; cbn; [now apply change_okv| |discriminate]. intros ->. destruct Hz as [|Hz]; [discriminate|]. injection Hz as ->. exact H. }
  destruct o; cbn [apply_v]; try exact Q1; apply Q2; auto.
Qed.
Lemma have_s_okv d g g' : okv g -> have_s d g = Some g' -> okv g'.
Proof. intros H. unfold have_s. destruct (gpoint d g) as [[[a|] l]|]; cbn; intros X; try discriminate; injection X as <-; exact H. Qed.
Lemma both_okv d o g g' : okv g -> both zero d o g = Some g' -> okv g'.
Proof.
  intros H. unfold both. destruct (have_s d g) as [g1|] eqn:E1; cbn; [|discriminate]. destruct (apply_v zero (Idx d) o g1) as [g2|] eqn:E2; cbn; [|discriminate].
  apply apply_okv. eapply apply_okv; [|exact E2]. exact (have_s_okv _ _ _ H E1).
Qed.
Lemma gcopy_okv p q n g g' : okv g -> gcopy p q n g = Some g' -> okv g'.
Proof.
  intros H. unfold gcopy. destruct (refers p g) as [[b|]|]; cbn; [|destruct (refers q g) as [[|]|]; discriminate|discriminate].
  destruct (refers q g) as [[b'|]|]; cbn; try discriminate. destruct (nth_error (gv g) b) as [xd|] eqn:E; cbn; [|discriminate].
  destruct (nth_error (gv g) b') as [xs|]; cbn; [|discriminate].
  destruct (PeanoNat.Nat.leb_spec n (length (v_store xs))); cbn; [|discriminate]. destruct (PeanoNat.Nat.leb_spec n (length (v_store xd))); cbn; [|discriminate].
  intros X. injection X as <-. apply okv_upd; [exact H|]. specialize (H _ _ E). unfold vinv in *. cbn. rewrite app_length, firstn_length, skipn_length. lia.
Qed.
Lemma step_okv o g g' a : okv g -> gstep zero o g = Some (g', a) -> okv g'.
Proof.
  intros H. destruct o; cbn -[apply_v gcopy both gget gsize gsize_s].
  - destruct (unused_v v g); cbn; [|discriminate]. intros X. injection X as <- <-. exact H.
  - destruct (unused_v v g); cbn; [|discriminate]. destruct (refers p g); cbn; [|discriminate]. intros X. injection X as <- <-. exact H.
  - destruct (gvar v g); cbn; [|discriminate]. intros X. injection X as <- <-. exact H.
  - destruct (refers p g); cbn; [|discriminate]. destruct (refers q g); cbn; [|discriminate]. destruct (redirect p _ g) eqn:E; cbn; [|discriminate].
    intros X. injection X as <- <-. eapply okv_eq; [exact (redirect_gv _ _ _ _ E)|exact H].
  - destruct (apply_v zero p o g) eqn:E; cbn; [|discriminate]. intros X. injection X as <- <-. now apply (apply_okv _ _ _ _ H E).
  - destruct (gget p i g); cbn; [|discriminate]. intros X. injection X as <- <-. exact H.
  - destruct (gsize p g); cbn; [|discriminate]. intros X. injection X as <- <-. exact H.
  - destruct (unused_s s g); cbn; [|discriminate]. intros X. injection X as <- <-. exact H.
  - destruct (unused_s s g); cbn; [|discriminate]. destruct (gpoint r g); cbn; [|discriminate]. intros X. injection X as <- <-. exact H.
  - destruct (gpoint s g); cbn; [|discriminate]. intros X. injection X as <- <-. exact H.
  - destruct (gpoint s g); cbn; [|discriminate]. destruct (gpoint r g); cbn; [|discriminate]. intros X. injection X as <- <-. exact H.
  - destruct (gpoint s g) as [[]|]; cbn; [|discriminate]. intros X. injection X as <- <-. exact H.
  - destruct (gsize_s s g) as [n|]; cbn -[apply_v]; [|discriminate]. destruct (both zero s (VResize (S n)) g) as [g1|] eqn:E1; cbn -[apply_v]; [|discriminate].
    destruct (apply_v zero (Idx s) (VSet n i) g1) as [g2|] eqn:E2; cbn -[apply_v]; [|discriminate].
    destruct (apply_v zero (Val s) (VSet n x) g2) as [g3|] eqn:E3; cbn -[apply_v]; [|discriminate].
    intros X. injection X as <- <-. eapply apply_okv; [|exact E3]. eapply apply_okv; [|exact E2]. eapply both_okv; eassumption.
  - destruct (both zero s (VResize n) g) eqn:E; cbn; [|discriminate]. intros X. injection X as <- <-. now apply (both_okv _ _ _ _ H E).
  - destruct (both zero s (VReserve n) g) eqn:E; cbn; [|discriminate]. intros X. injection X as <- <-. now apply (both_okv _ _ _ _ H E).
  - destruct (both zero s (VResize 0) g) as [g1|] eqn:E; cbn; [|discriminate]. destruct (gpoint s g1) as [[]|]; cbn; [|discriminate].
    intros X. injection X as <- <-. apply (okv_eq g1); [reflexivity|]. now apply (both_okv _ _ _ _ H E).
  - destruct (gpoint s g) as [[h0 l]|]; cbn -[both gcopy gsize_s]; [|discriminate]. destruct (gpoint dst g) as [[hd ld]|] eqn:Ed; cbn -[both gcopy gsize_s]; [|discriminate].
    set (g0 := set_gse _ g) in *. assert (F0 : okv g0) by exact H.
    destruct (gsize_s s g0) as [n0|]; cbn -[both gcopy gsize_s]; [|discriminate]. destruct (both zero dst (VReserve n0) g0) as [g1|] eqn:E1; cbn -[both gcopy gsize_s]; [|discriminate].
    destruct (gsize_s s g1) as [n1|]; cbn -[both gcopy gsize_s]; [|discriminate]. destruct (both zero dst (VResize n1) g1) as [g2|] eqn:E2; cbn -[both gcopy gsize_s]; [|discriminate].
    destruct (gsize_s s g2) as [n2|]; cbn -[both gcopy gsize_s]; [|discriminate]. destruct (gcopy (Idx dst) (Idx s) n2 g2) as [g3|] eqn:E3; cbn -[both gcopy gsize_s]; [|discriminate].
    destruct (gsize_s s g3) as [n3|]; cbn -[both gcopy gsize_s]; [|discriminate]. destruct (gcopy (Val dst) (Val s) n3 g3) as [g4|] eqn:E4; cbn -[both gcopy gsize_s]; [|discriminate].
    intros X. injection X as <- <-. eapply gcopy_okv; [|exact E4]. eapply gcopy_okv; [|exact E3]. eapply both_okv; [|exact E2]. eapply both_okv; [|exact E1]. exact F0.
  - destruct (gsize_s s g); cbn; [|discriminate]. intros X. injection X as <- <-. exact H.
  - destruct (gpoint s g) as [[]|]; cbn; [|discriminate]. intros X. injection X as <- <-. exact H.
Qed.
Lemma run_okv os : forall g g' l, okv g -> grun zero os g = Some (g', l) -> okv g'.
Proof.
  induction os as [|o os IH]; intros g g' l H; cbn [grun].
  - intros X. injection X as <- <-. exact H.
  - destruct (gstep zero o g) as [[g1 a]|] eqn:E; cbn; [|discriminate]. destruct (grun zero os g1) as [[g2 l2]|] eqn:E2; cbn; [|discriminate].
    intros X. injection X as <- <-. eapply IH; [|exact E2]. eapply step_okv; eassumption.
Qed.
End Sep.
