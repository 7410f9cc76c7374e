(** The counted storage behaves as objects that are never deleted. *)
From Coq Require Import Lia.
From Verif Require Import M_Base M_Vector M_Share S_Share.

(* ------------------------------------------------------------------ lists *)
Lemma upd_len {X} i (v : X) l : length (upd i v l) = length l.
Proof. revert i. induction l; destruct i; cbn; auto. Qed.
Lemma upd_nth {X} i (v : X) l j : nth_error (upd i v l) j = if Nat.eqb i j then (match nth_error l i with Some _ => Some v | None => None end) else nth_error l j.
Proof.
  revert i j. induction l as [|x l IH]; intros i j.
  - destruct i, j; cbn; try reflexivity; destruct (Nat.eqb i j); reflexivity.
  - destruct i, j; cbn; try reflexivity. apply IH.
Qed.
Lemma upd_out {X} i (v : X) l : nth_error l i = None -> upd i v l = l.
Proof. revert i. induction l; destruct i; cbn; intros; try congruence. f_equal. auto. Qed.
Lemma total_upd {X} (f : X -> Z) l i x y : nth_error l i = Some x -> total f (upd i y l) = total f l - f x + f y.
Proof.
  revert i. induction l as [|a l IH]; intros [|i] H; cbn in *; try discriminate.
  - injection H as ->. lia.
  - rewrite (IH _ H). lia.
Qed.
Lemma total_app {X} (f : X -> Z) a b : total f (a ++ b) = total f a + total f b.
Proof. induction a; cbn; lia. Qed.
Lemma total_ge {X} (f : X -> Z) l : (forall x, 0 <= f x) -> 0 <= total f l.
Proof. intros H. induction l as [|x l IH]; cbn; [lia|]. specialize (H x). lia. Qed.
Lemma total_in {X} (f : X -> Z) l i x : (forall x, 0 <= f x) -> nth_error l i = Some x -> f x <= total f l.
Proof.
  intros H. revert i. induction l as [|a l IH]; intros [|i] E; cbn in *; try discriminate.
  - injection E as ->. pose proof (total_ge f l H). lia.
  - specialize (IH _ E). specialize (H a). lia.
Qed.
Lemma one_ge b h : 0 <= one b h.
Proof. destruct h; cbn; [destruct (Nat.eqb n b)|]; lia. Qed.
Lemma one_self b : one b (Some b) = 1.
Proof. cbn. now rewrite PeanoNat.Nat.eqb_refl. Qed.
Lemma one_other a b : a <> b -> one b (Some a) = 0.
Proof. intros H. cbn. apply PeanoNat.Nat.eqb_neq in H. now rewrite H. Qed.

(* ------------------------------------------------------------------ counted heaps *)
Section Heap.
Context {X : Type}.
Implicit Types m : heap X.
Lemma hget_upd i v m b : hget b (upd i v m) = if Nat.eqb i b then (match nth_error m i with Some _ => v | None => None end) else hget b m.
Proof. unfold hget. rewrite upd_nth. destruct (Nat.eqb i b); [destruct (nth_error m i); [destruct v|]|]; reflexivity. Qed.
Lemma hget_in b m x : hget b m = Some x -> nth_error m b = Some (Some x).
Proof. unfold hget. destruct (nth_error m b) as [[y|]|]; congruence. Qed.
Lemma hget_upd_live i v m b x : hget i m = Some x -> hget b (upd i v m) = if Nat.eqb i b then v else hget b m.
Proof. intros H. rewrite hget_upd, (hget_in _ _ _ H). reflexivity. Qed.
Lemma hget_app m y b : hget b (m ++ [y]) = if Nat.eqb b (length m) then y else hget b m.
Proof.
  unfold hget. destruct (Nat.eqb_spec b (length m)) as [->|H].
  - rewrite nth_error_app2, PeanoNat.Nat.sub_diag by lia. cbn. now destruct y.
  - destruct (Compare_dec.lt_dec b (length m)).
    + now rewrite nth_error_app1 by lia.
    + rewrite (proj2 (nth_error_None (m ++ [y]) b)) by (rewrite app_length; cbn; lia).
      now rewrite (proj2 (nth_error_None m b)) by lia.
Qed.
Lemma hget_new m : hget (length m) m = None.
Proof. unfold hget. now rewrite (proj2 (nth_error_None m (length m))) by lia. Qed.

Lemma exact_ext m r r' : (forall b, r b = r' b) -> exact m r -> exact m r'.
Proof. intros H E b. specialize (E b). now rewrite <- H. Qed.
Lemma exact_live m r b : exact m r -> 0 < r b -> exists c x, hget b m = Some (c, x).
Proof. intros E H. specialize (E b). destruct (hget b m) as [[c x]|]; [eauto|lia]. Qed.
Lemma exact_new m r : exact m r -> r (length m) = 0.
Proof. intros E. specialize (E (length m)). now rewrite hget_new in E. Qed.

Lemma exact_set m r b c x y : exact m r -> hget b m = Some (c, x) -> exact (upd b (Some (c, y)) m) r.
Proof.
  intros E H a. rewrite (hget_upd_live _ _ _ _ _ H). specialize (E a). destruct (Nat.eqb_spec b a) as [->|_]; [|exact E].
  now rewrite H in E.
Qed.
Lemma exact_alloc m r x : exact m r -> exact (m ++ [Some (1, x)]) (fun b => r b + one b (Some (length m))).
Proof.
  intros E a. rewrite hget_app. pose proof (exact_new _ _ E) as E0. specialize (E a).
  destruct (Nat.eqb_spec a (length m)) as [->|H].
  - rewrite one_self. lia.
  - rewrite one_other by auto. now rewrite Z.add_0_r.
Qed.
Lemma exact_incr m r h : exact m r -> (forall b, h = Some b -> 0 < r b) ->
  exists m', incr h m = Some m' /\ exact m' (fun b => r b + one b h) /\ length m' = length m /\
    (forall b c x, hget b m' = Some (c, x) -> exists c', hget b m = Some (c', x)) /\
    (forall f, (forall c c' x, f (Some (c, x)) = f (Some (c', x))) -> total f m' = total f m).
Proof.
  intros E H. destruct h as [b|]; cbn [incr].
  - destruct (exact_live _ _ b E (H b eq_refl)) as (c & x & Hb). rewrite Hb. cbn. eexists. split; [reflexivity|].
    split; [|split; [apply upd_len|split]].
    + intros a. rewrite (hget_upd_live _ _ _ _ _ Hb). pose proof (E a) as Ea. cbn. destruct (Nat.eqb_spec b a) as [->|Hn].
      * rewrite Hb in Ea. lia.
      * now rewrite Z.add_0_r.
    + intros a c' y. rewrite (hget_upd_live _ _ _ _ _ Hb). destruct (Nat.eqb_spec b a) as [->|Hn]; [|eauto].
      intros H1. injection H1 as <- <-. eauto.
    + intros f Hf. rewrite (total_upd f m b _ _ (hget_in _ _ _ Hb)). rewrite (Hf (c + 1) c x). lia.
  - exists m. split; [reflexivity|]. split; [|split; [reflexivity|split; [eauto|reflexivity]]]. eapply exact_ext; [|exact E]. intros a. cbn. lia.
Qed.
Lemma exact_release m r h : exact m r -> (forall b, h = Some b -> 0 < r b) ->
  exists m' o, release h m = Some (m', o) /\ exact m' (fun b => r b - one b h) /\ length m' = length m /\
    (forall b c x, hget b m' = Some (c, x) -> exists c', hget b m = Some (c', x)) /\
    match o with
    | None => forall f, (forall c c' x, f (Some (c, x)) = f (Some (c', x))) -> total f m' = total f m
    | Some x => exists b, h = Some b /\ hget b m = Some (1, x) /\ m' = upd b None m
    end.
Proof.
  intros E H. destruct h as [b|]; cbn [release].
  - destruct (exact_live _ _ b E (H b eq_refl)) as (c & x & Hb). rewrite Hb. cbn [bind].
    destruct (c - 1 =? 0) eqn:Ec.
    + eexists _, (Some x). split; [reflexivity|]. split; [|split; [apply upd_len|split]].
      * intros a. rewrite (hget_upd_live _ _ _ _ _ Hb). pose proof (E a) as Ea. cbn. destruct (Nat.eqb_spec b a) as [->|Hn].
        -- rewrite Hb in Ea. lia.
        -- now rewrite Z.sub_0_r.
      * intros a c' y. rewrite (hget_upd_live _ _ _ _ _ Hb). destruct (Nat.eqb_spec b a) as [->|Hn]; [discriminate|eauto].
      * exists b. assert (c = 1) by lia. subst c. auto.
    + eexists _, None. split; [reflexivity|]. split; [|split; [apply upd_len|split]].
      * intros a. rewrite (hget_upd_live _ _ _ _ _ Hb). pose proof (E a) as Ea. cbn. destruct (Nat.eqb_spec b a) as [->|Hn].
        -- rewrite Hb in Ea. lia.
        -- now rewrite Z.sub_0_r.
      * intros a c' y. rewrite (hget_upd_live _ _ _ _ _ Hb). destruct (Nat.eqb_spec b a) as [->|Hn]; [|eauto].
        intros H1. injection H1 as <- <-. eauto.
      * intros f Hf. rewrite (total_upd f m b _ _ (hget_in _ _ _ Hb)). rewrite (Hf (c - 1) c x). lia.
  - exists m, None. split; [reflexivity|]. split; [|split; [reflexivity|split; [eauto|reflexivity]]]. eapply exact_ext; [|exact E]. intros a. cbn. lia.
Qed.
End Heap.

(* ------------------------------------------------------------------ simulation *)
Section Sim.
Context {A : Type} (zero : A).
Notation st := (st A).
Notation gst := (gst A).

Record rel (t : st) (g : gst) (rv rs : nat -> Z) : Prop := {
  r_ve : ve t = gve g; r_se : se t = gse g;
  r_lv : length (vb t) = length (gv g); r_ls : length (sb t) = length (gs g);
  r_v : forall b c x, hget b (vb t) = Some (c, x) -> nth_error (gv g) b = Some x;
  r_s : forall b c f, hget b (sb t) = Some (c, f) -> nth_error (gs g) b = Some f;
  r_ev : exact (vb t) rv; r_es : exact (sb t) rs
}.
Definition good (t : st) (g : gst) : Prop := rel t g (vrefs t) (srefs t).

Definition fv (b : nat) (x : option (option nat)) : Z := match x with Some h => one b h | None => 0 end.
Definition fs (b : nat) (x : option (Z * (option nat * option nat))) : Z := match x with Some (_, (i, v)) => one b i + one b v | None => 0 end.
Definition fp (b : nat) (x : option (option nat * Z)) : Z := match x with Some (h, _) => one b h | None => 0 end.
Lemma vrefs_eq (t : st) b : vrefs t b = total (fv b) (ve t) + total (fs b) (sb t).
Proof. reflexivity. Qed.
Lemma srefs_eq (t : st) b : srefs t b = total (fp b) (se t).
Proof. reflexivity. Qed.
Lemma fv_ge b x : 0 <= fv b x.
Proof. destruct x as [h|]; cbn; [apply one_ge|lia]. Qed.
Lemma fs_ge b x : 0 <= fs b x.
Proof. destruct x as [[c [i v]]|]; cbn; [|lia]. pose proof (one_ge b i). pose proof (one_ge b v). lia. Qed.
Lemma fp_ge b x : 0 <= fp b x.
Proof. destruct x as [[h l]|]; cbn; [apply one_ge|lia]. Qed.

(** What variables refer to exists. *)
Lemma svar_in (t : st) s x : svar s t = Some x -> nth_error (se t) s = Some (Some x).
Proof. unfold svar. destruct (nth_error (se t) s) as [[y|]|]; congruence. Qed.
Lemma vvar_in (t : st) v x : vvar v t = Some x -> nth_error (ve t) v = Some (Some x).
Proof. unfold vvar. destruct (nth_error (ve t) v) as [[y|]|]; congruence. Qed.
Lemma srefs_pos (t : st) s b l : svar s t = Some (Some b, l) -> 0 < srefs t b.
Proof.
  intros H. rewrite srefs_eq. pose proof (total_in (fp b) _ _ _ (fp_ge b) (svar_in _ _ _ H)) as H1. unfold fp in H1 at 1. rewrite one_self in H1. lia.
Qed.
Lemma sblock_facts (t : st) s b c f : sblock s t = Some (b, c, f) -> (exists l, svar s t = Some (Some b, l)) /\ hget b (sb t) = Some (c, f).
Proof.
  unfold sblock. destruct (svar s t) as [[[a|] l]|]; cbn; try discriminate.
  destruct (hget a (sb t)) as [[c' f']|] eqn:E; cbn; [|discriminate]. intros H. injection H as -> -> ->. eauto.
Qed.
Lemma vrefs_pos (t : st) p b : geth p t = Some (Some b) -> 0 < vrefs t b.
Proof.
  rewrite vrefs_eq. pose proof (total_ge (fv b) (ve t) (fv_ge b)) as G1. pose proof (total_ge (fs b) (sb t) (fs_ge b)) as G2.
  destruct p as [v|s|s]; cbn.
  - intros H. pose proof (total_in (fv b) _ _ _ (fv_ge b) (vvar_in _ _ _ H)) as H1. unfold fv in H1 at 1. rewrite one_self in H1. lia.
  - destruct (sblock s t) as [[[a c] [i w]]|] eqn:E; cbn; [|discriminate]. intros H. injection H as ->. apply sblock_facts in E. destruct E as (_ & E).
    pose proof (total_in (fs b) _ _ _ (fs_ge b) (hget_in _ _ _ E)) as H1. unfold fs in H1 at 1. rewrite one_self in H1. pose proof (one_ge b w). lia.
  - destruct (sblock s t) as [[[a c] [i w]]|] eqn:E; cbn; [|discriminate]. intros H. injection H as ->. apply sblock_facts in E. destruct E as (_ & E).
    pose proof (total_in (fs b) _ _ _ (fs_ge b) (hget_in _ _ _ E)) as H1. unfold fs in H1 at 1. rewrite one_self in H1. pose proof (one_ge b i). lia.
Qed.

Section Rel.
Variables (t : st) (g : gst).
Lemma rel_vvar rv rs v : rel t g rv rs -> vvar v t = gvar v g.
Proof. intros H. unfold vvar, gvar. now rewrite (r_ve _ _ _ _ H). Qed.
Lemma rel_svar rv rs s : rel t g rv rs -> svar s t = gpoint s g.
Proof. intros H. unfold svar, gpoint. now rewrite (r_se _ _ _ _ H). Qed.
Lemma rel_sblock rv s : rel t g rv (srefs t) ->
  match sblock s t with
  | Some (b, c, f) => gpair s g = Some (b, f) /\ hget b (sb t) = Some (c, f)
  | None => gpair s g = None
  end.
Proof.
  intros H. unfold sblock, gpair. rewrite <- (rel_svar _ _ s H). destruct (svar s t) as [[[b|] l]|] eqn:E; cbn; try reflexivity.
  destruct (exact_live _ _ b (r_es _ _ _ _ H) (srefs_pos _ _ _ _ E)) as (c & f & Hb). rewrite Hb. cbn.
  rewrite (r_s _ _ _ _ H _ _ _ Hb). auto.
Qed.
Lemma rel_geth rv p : rel t g rv (srefs t) -> geth p t = refers p g.
Proof.
  intros H. destruct p as [v|s|s]; cbn.
  - eapply rel_vvar; eassumption.
  - pose proof (rel_sblock _ s H) as Hs. destruct (sblock s t) as [[[b c] f]|]; [destruct Hs as (-> & _)|rewrite Hs]; reflexivity.
  - pose proof (rel_sblock _ s H) as Hs. destruct (sblock s t) as [[[b c] f]|]; [destruct Hs as (-> & _)|rewrite Hs]; reflexivity.
Qed.
(** Redirecting a place moves one reference. *)
Lemma rel_seth rv p h0 h : rel t g rv (srefs t) -> geth p t = Some h0 ->
  exists t' g', seth p h t = Some t' /\ redirect p h g = Some g' /\ rel t' g' rv (srefs t') /\ vb t' = vb t /\ gv g' = gv g /\
    (forall b, vrefs t' b = vrefs t b - one b h0 + one b h) /\ geth p t' = Some h /\ se t' = se t.
Proof.
  intros H G. destruct p as [v|s|s]; cbn in *.
  - rewrite <- (rel_vvar _ _ v H), G. cbn. pose proof (vvar_in _ _ _ G) as Hin.
    eexists _, _. split; [reflexivity|]. split; [reflexivity|]. split; [|split; [reflexivity|split; [reflexivity|split; [|split; [|reflexivity]]]]].
    + destruct H. constructor; cbn; try assumption. now rewrite r_ve0.
    + intros b. rewrite !vrefs_eq. cbn. rewrite (total_upd _ _ _ _ _ Hin). cbn. lia.
    + unfold vvar. cbn. rewrite upd_nth, PeanoNat.Nat.eqb_refl, Hin. reflexivity.
  - pose proof (rel_sblock _ s H) as Hs. destruct (sblock s t) as [[[b c] f]|] eqn:Es; [|discriminate]. destruct Hs as (-> & Hb). cbn in *.
    injection G as <-. destruct (sblock_facts _ _ _ _ _ Es) as ((l & Hv) & _).
    eexists _, _. split; [reflexivity|]. split; [reflexivity|]. split; [|split; [reflexivity|split; [reflexivity|split; [|split; [|reflexivity]]]]].
    + destruct H. constructor; cbn; try assumption.
      * now rewrite !upd_len.
      * intros a c' f'. rewrite (hget_upd_live _ _ _ _ _ Hb), upd_nth. destruct (Nat.eqb_spec b a) as [->|_]; [|apply r_s0].
        intros E. injection E as <- <-. now rewrite (r_s0 _ _ _ Hb).
      * eapply exact_set; eassumption.
    + intros a. rewrite !vrefs_eq. cbn. rewrite (total_upd _ _ _ _ _ (hget_in _ _ _ Hb)). destruct f as [i w]. cbn. lia.
    + unfold sblock, svar. cbn. unfold svar in Hv. rewrite Hv. cbn. rewrite (hget_upd_live _ _ _ _ _ Hb), PeanoNat.Nat.eqb_refl. reflexivity.
  - pose proof (rel_sblock _ s H) as Hs. destruct (sblock s t) as [[[b c] f]|] eqn:Es; [|discriminate]. destruct Hs as (-> & Hb). cbn in *.
    injection G as <-. destruct (sblock_facts _ _ _ _ _ Es) as ((l & Hv) & _).
    eexists _, _. split; [reflexivity|]. split; [reflexivity|]. split; [|split; [reflexivity|split; [reflexivity|split; [|split; [|reflexivity]]]]].
    + destruct H. constructor; cbn; try assumption.
      * now rewrite !upd_len.
      * intros a c' f'. rewrite (hget_upd_live _ _ _ _ _ Hb), upd_nth. destruct (Nat.eqb_spec b a) as [->|_]; [|apply r_s0].
        intros E. injection E as <- <-. now rewrite (r_s0 _ _ _ Hb).
      * eapply exact_set; eassumption.
    + intros a. rewrite !vrefs_eq. cbn. rewrite (total_upd _ _ _ _ _ (hget_in _ _ _ Hb)). destruct f as [i w]. cbn. lia.
    + unfold sblock, svar. cbn. unfold svar in Hv. rewrite Hv. cbn. rewrite (hget_upd_live _ _ _ _ _ Hb), PeanoNat.Nat.eqb_refl. reflexivity.
Qed.
Lemma good_live p b : good t g -> geth p t = Some (Some b) -> exists c x, hget b (vb t) = Some (c, x) /\ nth_error (gv g) b = Some x.
Proof.
  intros H G. destruct (exact_live _ _ b (r_ev _ _ _ _ H) (vrefs_pos _ _ _ G)) as (c & x & Hb). exists c, x. split; [assumption|].
  now apply (r_v _ _ _ _ H _ _ _ Hb).
Qed.
End Rel.

(** Same outcome. *)
Definition sim {B} (o : option (st * B)) (o' : option (gst * B)) : Prop :=
  match o, o' with
  | Some (t, a), Some (g, a') => good t g /\ a = a'
  | None, None => True
  | _, _ => False
  end.
Definition sim1 (o : option st) (o' : option gst) : Prop :=
  match o, o' with Some t, Some g => good t g | None, None => True | _, _ => False end.

Lemma rel_vb (t : st) g rv rs m x l rv' : rel t g rv rs -> length m = length l -> x = l ->
  (forall b c x, hget b m = Some (c, x) -> nth_error l b = Some x) -> exact m rv' ->
  rel (with_vb m t) (set_gv x g) rv' rs.
Proof. intros H L -> C E. destruct H. constructor; cbn; assumption. Qed.

Lemma init_good (t : st) g p : good t g ->
  match init_v p t, have p g with
  | Some (t', b), Some (g', b') => good t' g' /\ b = b' /\ geth p t' = Some (Some b) /\ se t' = se t
  | None, None => True | _, _ => False
  end.
Proof.
  intros H. unfold init_v, have. rewrite <- (rel_geth _ _ _ p H). destruct (geth p t) as [[b|]|] eqn:G; cbn; try exact I; [auto|].
  set (t1 := with_vb (vb t ++ [Some (1, vec_empty)]) t). set (g1 := set_gv (gv g ++ [vec_empty]) g).
  assert (R1 : rel t1 g1 (fun b => vrefs t b + one b (Some (length (vb t)))) (srefs t1)).
  { apply (rel_vb t g (vrefs t) (srefs t)) with (l := gv g ++ [vec_empty]); [exact H| |reflexivity| |].
    - rewrite !app_length. cbn. f_equal. apply H.
    - intros b c x. rewrite hget_app. destruct (Nat.eqb_spec b (length (vb t))) as [->|Hn].
      + intros E. injection E as <- <-. rewrite (r_lv _ _ _ _ H), nth_error_app2, PeanoNat.Nat.sub_diag by lia. reflexivity.
      + intros E. pose proof (r_v _ _ _ _ H _ _ _ E) as Ev. rewrite nth_error_app1; [exact Ev|]. apply nth_error_Some. congruence.
    - apply exact_alloc. apply H. }
  assert (G1 : geth p t1 = Some None) by exact G.
  destruct (rel_seth t1 g1 _ p None (Some (length (vb t))) R1 G1) as (t2 & g2 & E1 & E2 & R2 & V1 & V2 & Hr & G2 & Se).
  rewrite E1. rewrite <- (r_lv _ _ _ _ H). fold g1. rewrite E2. cbn. split; [|auto].
  destruct R2. constructor; try assumption. eapply exact_ext; [|exact r_ev0]. intros b. rewrite Hr. cbn [one]. change (vrefs t1 b) with (vrefs t b). lia.
Qed.
Lemma mutate_good (t : st) g b o : good t g -> (exists c x, hget b (vb t) = Some (c, x)) -> sim1 (mutate zero b o t) (change zero b o g).
Proof.
  intros H (c & x & Hb). unfold mutate, change. rewrite Hb, (r_v _ _ _ _ H _ _ _ Hb). cbn. destruct (vec_step zero x o) as [x1|]; cbn; [|exact I].
  apply (rel_vb t g (vrefs t) (srefs t)) with (l := upd b x1 (gv g)); [exact H| |reflexivity| |].
  - rewrite !upd_len. apply H.
  - intros a c' y. rewrite (hget_upd_live _ _ _ _ _ Hb), upd_nth. destruct (Nat.eqb_spec b a) as [->|Hn]; [|apply H].
    intros E. injection E as <- <-. now rewrite (r_v _ _ _ _ H _ _ _ Hb).
  - eapply exact_set; [apply H|exact Hb].
Qed.
Lemma mut_good (t : st) g p o : good t g -> sim1 (mut_v zero p o t) (apply_v zero p o g).
Proof.
  intros H. pose proof (init_good t g p H) as I0.
  assert (Q : sim1 (do (t1, b) <- init_v p t; mutate zero b o t1) (do (g1, b) <- have p g; change zero b o g1)).
  { destruct (init_v p t) as [[t1 b]|], (have p g) as [[g1 b']|]; try contradiction; [|exact I0]. destruct I0 as (H1 & <- & G1 & _). cbn.
    apply mutate_good; [exact H1|]. destruct (good_live _ _ _ _ H1 G1) as (c & x & Hb & _). eauto. }
  assert (Q2 : forall d d', sim1 d d' -> sim1 (do h <- geth p t; match h with None => d | Some b => mutate zero b o t end)
    (do h <- refers p g; match h with None => d' | Some b => change zero b o g end)).
  { intros d d' Hd. rewrite <- (rel_geth _ _ _ p H). destruct (geth p t) as [[b|]|] eqn:G; cbn; [|exact Hd|exact I].
    apply mutate_good; [exact H|]. destruct (good_live _ _ _ _ H G) as (c & x & Hb & _). eauto. }
  destruct o; cbn [mut_v apply_v]; try exact Q; apply Q2; try exact I. exact H.
Qed.
Lemma size_good (t : st) g p : good t g -> size_v p t = gsize p g.
Proof.
  intros H. unfold size_v, gsize. rewrite <- (rel_geth _ _ _ p H). destruct (geth p t) as [[b|]|] eqn:G; cbn; try reflexivity.
  destruct (good_live _ _ _ _ H G) as (c & x & -> & ->). reflexivity.
Qed.
Lemma get_good (t : st) g p i : good t g -> get_v p i t = gget p i g.
Proof.
  intros H. unfold get_v, gget. rewrite <- (rel_geth _ _ _ p H). destruct (geth p t) as [[b|]|] eqn:G; cbn; try reflexivity.
  destruct (good_live _ _ _ _ H G) as (c & x & -> & ->). reflexivity.
Qed.
Lemma copy_good (t : st) g p q n : good t g -> sim1 (copy_n p q n t) (gcopy p q n g).
Proof.
  intros H. unfold copy_n, gcopy. rewrite <- (rel_geth _ _ _ p H), <- (rel_geth _ _ _ q H).
  destruct (geth p t) as [[d|]|] eqn:Gd; cbn; [|destruct (geth q t) as [[s|]|]; exact I|exact I].
  destruct (geth q t) as [[s|]|] eqn:Gs; cbn; try exact I.
  destruct (good_live _ _ _ _ H Gd) as (c & x & Hd & ->), (good_live _ _ _ _ H Gs) as (c' & x' & Hs & ->). rewrite Hd, Hs. cbn.
  destruct (_ && _); cbn; [|exact I].
  match goal with |- good (with_vb (upd d (Some (c, ?y)) _) _) _ => set (x1 := y) end.
  apply (rel_vb t g (vrefs t) (srefs t)) with (l := upd d x1 (gv g)); [exact H| |reflexivity| |].
  - rewrite !upd_len. apply H.
  - intros a c0 y. rewrite (hget_upd_live _ _ _ _ _ Hd), upd_nth. destruct (Nat.eqb_spec d a) as [->|Hn]; [|apply H].
    intros E. injection E as <- <-. now rewrite (r_v _ _ _ _ H _ _ _ Hd).
  - eapply exact_set; [apply H|exact Hd].
Qed.
Lemma size_s_good (t : st) g s : good t g -> size_s s t = gsize_s s g.
Proof.
  intros H. unfold size_s, gsize_s. rewrite <- (rel_svar _ _ _ _ s H). destruct (svar s t) as [[[b|] l]|]; cbn; [|reflexivity..]. now apply size_good.
Qed.

(** Changing a point variable. *)
Lemma good_se (t : st) g s x rs : rel t g (vrefs t) rs -> 
  (forall b, rs b = total (fp b) (upd s x (se t))) -> good (with_se (upd s x (se t)) t) (set_gse (upd s x (gse g)) g).
Proof.
  intros H Hr. destruct H. constructor; cbn; try assumption; [now rewrite r_se0|]. eapply exact_ext; [|exact r_es0]. exact Hr.
Qed.
Lemma init_s_good (t : st) g s : good t g -> sim1 (init_s s t) (have_s s g).
Proof.
  intros H. unfold init_s, have_s. rewrite <- (rel_svar _ _ _ _ s H). destruct (svar s t) as [[[b|] l]|] eqn:E; cbn; [exact H| |exact I].
  rewrite <- (r_ls _ _ _ _ H).
  change (good (with_se (upd s (Some (Some (length (sb t)), l)) (se (with_sb (sb t ++ [Some (1, (None, None))]) t))) (with_sb (sb t ++ [Some (1, (None, None))]) t))
    (set_gse (upd s (Some (Some (length (sb t)), l)) (gse (set_gs (gs g ++ [(None, None)]) g))) (set_gs (gs g ++ [(None, None)]) g))).
  apply good_se with (rs := fun b => srefs t b + one b (Some (length (sb t)))).
  - destruct H. constructor; cbn; try assumption.
    + rewrite !app_length. cbn. lia.
    + intros b c f. rewrite hget_app. destruct (Nat.eqb_spec b (length (sb t))) as [->|Hn].
      * intros E1. injection E1 as <- <-. rewrite r_ls0, nth_error_app2, PeanoNat.Nat.sub_diag by lia. reflexivity.
      * intros E1. pose proof (r_s0 _ _ _ E1) as Ev. rewrite nth_error_app1; [exact Ev|]. apply nth_error_Some. congruence.
    + eapply exact_ext; [|exact r_ev0]. intros b. rewrite !vrefs_eq. cbn. rewrite total_app. cbn. lia.
    + apply exact_alloc. exact r_es0.
  - intros b. cbn [with_sb se]. rewrite (total_upd _ _ _ _ _ (svar_in _ _ _ E)). rewrite srefs_eq. unfold fp at 3 4. cbn [one]. lia.
Qed.
Lemma both_good (t : st) g s o (f : st -> option st) : good t g ->
  (forall t, f t = do t1 <- init_s s t; do t2 <- mut_v zero (Idx s) o t1; mut_v zero (Val s) o t2) -> sim1 (f t) (both zero s o g).
Proof.
  intros H ->. unfold both. pose proof (init_s_good t g s H) as H1.
  destruct (init_s s t) as [t1|], (have_s s g) as [g1|]; try contradiction; cbn; [|exact I].
  pose proof (mut_good t1 g1 (Idx s) o H1) as H2. destruct (mut_v zero (Idx s) o t1) as [t2|], (apply_v zero (Idx s) o g1) as [g2|]; try contradiction; cbn; [|exact I].
  now apply mut_good.
Qed.
(** Giving up a reference to a point's block. *)
Lemma release_s_good (t : st) g h : good t g -> (forall b, h = Some b -> 0 < srefs t b) ->
  exists t', release_s h t = Some t' /\ rel t' g (vrefs t') (fun b => srefs t b - one b h) /\ se t' = se t.
Proof.
  intros H Hp. unfold release_s. destruct (exact_release (sb t) (srefs t) h (r_es _ _ _ _ H) Hp) as (m & o & -> & E & L & C & D). cbn.
  assert (Rs : forall b c f, hget b m = Some (c, f) -> nth_error (gs g) b = Some f).
  { intros b c f Hb. destruct (C _ _ _ Hb) as (c' & Hb'). eapply (r_s _ _ _ _ H); eassumption. }
  destruct o as [[i v]|].
  - destruct D as (b & -> & Hb & ->).
    assert (Pi : forall a, i = Some a -> 0 < vrefs t a).
    { intros a ->. rewrite vrefs_eq. pose proof (total_ge (fv a) (ve t) (fv_ge a)). pose proof (total_in (fs a) _ _ _ (fs_ge a) (hget_in _ _ _ Hb)) as H1.
      unfold fs in H1 at 1. rewrite one_self in H1. pose proof (one_ge a v). lia. }
    destruct (exact_release (vb t) (vrefs t) i (r_ev _ _ _ _ H) Pi) as (m1 & o1 & -> & E1 & L1 & C1 & _). cbn.
    assert (Pv : forall a, v = Some a -> 0 < vrefs t a - one a i).
    { intros a ->. rewrite vrefs_eq. pose proof (total_ge (fv a) (ve t) (fv_ge a)). pose proof (total_in (fs a) _ _ _ (fs_ge a) (hget_in _ _ _ Hb)) as H1.
      unfold fs in H1 at 1. rewrite one_self in H1. lia. }
    destruct (exact_release m1 _ v E1 Pv) as (m2 & o2 & -> & E2 & L2 & C2 & _). cbn.
    eexists. split; [reflexivity|]. split; [|reflexivity].
    destruct H. constructor; cbn; try assumption.
    + congruence.
    + now rewrite upd_len.
    + intros a c x Ha. destruct (C2 _ _ _ Ha) as (c2 & Ha2). destruct (C1 _ _ _ Ha2) as (c1 & Ha1). eapply r_v0; eassumption.
    + eapply exact_ext; [|exact E2]. intros a. rewrite !vrefs_eq. cbn. rewrite (total_upd _ _ _ _ _ (hget_in _ _ _ Hb)). cbn. lia.
  - eexists. split; [reflexivity|]. split; [|reflexivity].
    destruct H. constructor; cbn; try assumption; [congruence|].
    eapply exact_ext; [|exact r_ev0]. intros a. rewrite !vrefs_eq. cbn. f_equal. symmetry. apply (D (fs a)). reflexivity.
Qed.

Lemma upd_same {X} (l : list X) i x : nth_error l i = Some x -> upd i x l = l.
Proof. revert i. induction l; destruct i; cbn; intros E; try discriminate; [congruence|]. f_equal. auto. Qed.
Lemma redirect_same p h (g : gst) : refers p g = Some h -> redirect p h g = Some g.
Proof.
  destruct g as [a b c d]. destruct p as [v|s|s]; cbn.
  - unfold gvar. cbn. destruct (nth_error c v) as [[h'|]|] eqn:E; try discriminate. intros X. injection X as ->. cbn. now rewrite (upd_same _ _ _ E).
  - destruct (gpair s (mkgst a b c d)) as [[x [i w]]|] eqn:E; cbn; [|discriminate]. intros X. injection X as <-.
    unfold gpair in E. destruct (gpoint s (mkgst a b c d)) as [[[y|] l]|]; cbn in E; try discriminate.
    destruct (nth_error b y) eqn:E2; cbn in E; [|discriminate]. injection E as -> ->. now rewrite (upd_same _ _ _ E2).
  - destruct (gpair s (mkgst a b c d)) as [[x [i w]]|] eqn:E; cbn; [|discriminate]. intros X. injection X as <-.
    unfold gpair in E. destruct (gpoint s (mkgst a b c d)) as [[[y|] l]|]; cbn in E; try discriminate.
    destruct (nth_error b y) eqn:E2; cbn in E; [|discriminate]. injection E as -> ->. now rewrite (upd_same _ _ _ E2).
Qed.
Lemma rel_sb (t : st) g m rs : rel t g (vrefs t) rs -> forall rs', length m = length (sb t) ->
  (forall b c x, hget b m = Some (c, x) -> exists c', hget b (sb t) = Some (c', x)) ->
  (forall f, (forall c c' x, f (Some (c, x)) = f (Some (c', x))) -> total f m = total f (sb t)) -> exact m rs' ->
  rel (with_sb m t) g (vrefs (with_sb m t)) rs'.
Proof.
  intros H rs' L C T E. destruct H. constructor; cbn; try assumption.
  - congruence.
  - intros b c f Hb. destruct (C _ _ _ Hb) as (c' & Hb'). eapply r_s0; eassumption.
  - eapply exact_ext; [|exact r_ev0]. intros b. rewrite !vrefs_eq. cbn. f_equal. symmetry. apply (T (fs b)). reflexivity.
Qed.
Lemma label_good (t : st) g s h l l' : good t g -> svar s t = Some (h, l) ->
  good (with_se (upd s (Some (h, l')) (se t)) t) (set_gse (upd s (Some (h, l')) (gse g)) g).
Proof.
  intros H E. apply good_se with (rs := srefs t); [exact H|]. intros b. rewrite (total_upd _ _ _ _ _ (svar_in _ _ _ E)), srefs_eq. unfold fp at 3 4. lia.
Qed.
Lemma seq_good {B} (o : option st) (o' : option gst) (f : st -> option (st * B)) (f' : gst -> option (gst * B)) :
  sim1 o o' -> (forall t g, good t g -> sim (f t) (f' g)) -> sim (do t <- o; f t) (do g <- o'; f' g).
Proof. intros H Hf. destruct o, o'; cbn in *; try contradiction; auto. Qed.
Lemma num_good {B C} (n n' : option B) (f : B -> option (st * C)) (f' : B -> option (gst * C)) :
  n = n' -> (forall b, sim (f b) (f' b)) -> sim (do x <- n; f x) (do x <- n'; f' x).
Proof. intros <- Hf. destruct n; cbn; auto. Qed.
Lemma done_good (t : st) g (a : obs A) : good t g -> sim (Some (t, a)) (Some (g, a)).
Proof. cbn. auto. Qed.
Theorem step_good (t : st) g o : good t g -> sim (sstep zero o t) (gstep zero o g).
Proof.
  intros H. destruct o; cbn [sstep gstep].
  - unfold free_v, unused_v. rewrite <- (r_ve _ _ _ _ H). destruct (nth_error (ve t) v) as [[h|]|] eqn:E; cbn; try exact I. split; [|reflexivity].
    destruct H. constructor; cbn; try assumption; try reflexivity. eapply exact_ext; [|exact r_ev0]. intros b. rewrite !vrefs_eq. cbn.
    rewrite (total_upd _ _ _ _ _ E). cbn. lia.
  - unfold free_v, unused_v. rewrite <- (r_ve _ _ _ _ H), <- (rel_geth _ _ _ p H). destruct (nth_error (ve t) v) as [[h|]|] eqn:E; cbn; try exact I.
    destruct (geth p t) as [h|] eqn:G; cbn; [|exact I].
    destruct (exact_incr (vb t) (vrefs t) h (r_ev _ _ _ _ H)) as (m & -> & E1 & L & C & _). { intros b ->. eapply vrefs_pos; eassumption. }
    cbn. split; [|reflexivity]. destruct H. constructor; cbn; try assumption; try reflexivity.
    + congruence.
    + intros b c x Hb. destruct (C _ _ _ Hb) as (c' & Hb'). eapply r_v0; eassumption.
    + eapply exact_ext; [|exact E1]. intros b. rewrite !vrefs_eq. cbn. rewrite (total_upd _ _ _ _ _ E). cbn. lia.
  - rewrite <- (rel_vvar _ _ _ _ v H). destruct (vvar v t) as [h|] eqn:G; cbn; [|exact I].
    destruct (exact_release (vb t) (vrefs t) h (r_ev _ _ _ _ H)) as (m & o & -> & E1 & L & C & _). { intros b ->. apply (vrefs_pos t (Var v)). exact G. }
    cbn. split; [|reflexivity]. destruct H. constructor; cbn; try assumption.
    + now rewrite r_ve0.
    + congruence.
    + intros b c x Hb. destruct (C _ _ _ Hb) as (c' & Hb'). eapply r_v0; eassumption.
    + eapply exact_ext; [|exact E1]. intros b. rewrite !vrefs_eq. cbn. rewrite (total_upd _ _ _ _ _ (vvar_in _ _ _ G)). cbn. lia.
  - unfold assign_v. rewrite <- (rel_geth _ _ _ p H), <- (rel_geth _ _ _ q H).
    destruct (geth p t) as [hp|] eqn:Gp; cbn; [|exact I]. destruct (geth q t) as [hq|] eqn:Gq; cbn; [|exact I].
    destruct (match hp with Some a => match hq with Some b => Nat.eqb a b | None => false end | None => match hq with Some _ => false | None => true end end) eqn:Eb.
    + assert (hp = hq) by (destruct hp, hq; try discriminate; try reflexivity; apply PeanoNat.Nat.eqb_eq in Eb; congruence). subst hq. cbn.
      rewrite (redirect_same p hp g) by (rewrite <- (rel_geth _ _ _ p H); exact Gp). cbn. auto.
    + assert (hp <> hq) by (destruct hp, hq; try congruence; apply PeanoNat.Nat.eqb_neq in Eb; congruence).
      destruct (exact_release (vb t) (vrefs t) hp (r_ev _ _ _ _ H)) as (m & o & -> & E1 & L & C & _). { intros b ->. eapply vrefs_pos; eassumption. }
      cbn.
      assert (R1 : rel (with_vb m t) g (fun b => vrefs t b - one b hp) (srefs (with_vb m t))).
      { destruct H. constructor; cbn; try assumption; [congruence|]. intros b c x Hb. destruct (C _ _ _ Hb) as (c' & Hb'). eapply r_v0; eassumption. }
      destruct (rel_seth (with_vb m t) g _ p hp hq R1 Gp) as (t2 & g2 & -> & -> & R2 & V1 & V2 & Hr & G2 & Se). cbn.
      destruct (exact_incr (vb t2) _ hq (r_ev _ _ _ _ R2)) as (m2 & -> & E3 & L3 & C3 & _).
      { intros b ->. assert (one b hp = 0) as -> by (destruct hp; [apply one_other; congruence|reflexivity]). apply vrefs_pos in Gq. lia. }
      cbn. split; [|reflexivity]. destruct R2. constructor; cbn; try assumption; [congruence| |].
      * intros b c x Hb. destruct (C3 _ _ _ Hb) as (c' & Hb'). eapply r_v0; eassumption.
      * eapply exact_ext; [|exact E3]. intros b. change (vrefs (with_vb m2 t2) b) with (vrefs t2 b). rewrite Hr. change (vrefs (with_vb m t) b) with (vrefs t b). lia.
  - pose proof (mut_good t g p o H) as Hm. destruct (mut_v zero p o t), (apply_v zero p o g); try contradiction; cbn; auto.
  - rewrite (get_good _ _ p i H). destruct (gget p i g); cbn; auto.
  - rewrite (size_good _ _ p H). destruct (gsize p g); cbn; auto.
  - unfold free_s, unused_s. rewrite <- (r_se _ _ _ _ H). destruct (nth_error (se t) s) as [[h|]|] eqn:E; cbn; try exact I. split; [|reflexivity].
    rewrite (r_se _ _ _ _ H) at 2. apply good_se with (rs := srefs t); [exact H|]. intros b. rewrite (total_upd _ _ _ _ _ E). rewrite srefs_eq. cbn. lia.
  - unfold free_s, unused_s. rewrite <- (r_se _ _ _ _ H), <- (rel_svar _ _ _ _ r H). destruct (nth_error (se t) s) as [[h|]|] eqn:E; cbn; try exact I.
    destruct (svar r t) as [[h l]|] eqn:G; cbn; [|exact I].
    destruct (exact_incr (sb t) (srefs t) h (r_es _ _ _ _ H)) as (m & -> & E1 & L & C & T). { intros b ->. eapply srefs_pos; eassumption. }
    cbn. split; [|reflexivity]. rewrite (r_se _ _ _ _ H) at 2. apply (good_se (with_sb m t)) with (rs := fun b => srefs t b + one b h).
    + eapply rel_sb; eassumption.
    + intros b. cbn. rewrite (total_upd _ _ _ _ _ E), srefs_eq. cbn. lia.
  - rewrite <- (rel_svar _ _ _ _ s H). destruct (svar s t) as [[h l]|] eqn:G; cbn; [|exact I].
    destruct (release_s_good t g h H) as (t1 & -> & R1 & Se). { intros b ->. eapply srefs_pos; eassumption. }
    cbn. split; [|reflexivity]. rewrite <- Se. apply good_se with (rs := fun b => srefs t b - one b h); [exact R1|].
    intros b. rewrite Se, (total_upd _ _ _ _ _ (svar_in _ _ _ G)), srefs_eq. cbn. lia.
  - rewrite <- (rel_svar _ _ _ _ s H), <- (rel_svar _ _ _ _ r H). destruct (svar s t) as [[hs ls]|] eqn:Gs; cbn; [|exact I].
    destruct (svar r t) as [[hr l]|] eqn:Gr; cbn; [|exact I].
    destruct (match hs with Some a => match hr with Some b => Nat.eqb a b | None => false end | None => match hr with Some _ => false | None => true end end) eqn:Eb.
    + assert (hs = hr) by (destruct hs, hr; try discriminate; try reflexivity; apply PeanoNat.Nat.eqb_eq in Eb; congruence). subst hr. cbn.
      split; [|reflexivity]. eapply label_good; eassumption.
    + assert (hs <> hr) by (destruct hs, hr; try congruence; apply PeanoNat.Nat.eqb_neq in Eb; congruence).
      destruct (release_s_good t g hs H) as (t1 & -> & R1 & Se). { intros b ->. eapply srefs_pos; eassumption. }
      cbn. destruct (exact_incr (sb t1) _ hr (r_es _ _ _ _ R1)) as (m & -> & E1 & L & C & T).
      { intros b ->. assert (one b hs = 0) as -> by (destruct hs; [apply one_other; congruence|reflexivity]). apply srefs_pos in Gr. lia. }
      cbn. split; [|reflexivity].
      replace (se t) with (se (with_sb m t1)) by (cbn; exact Se). apply (good_se (with_sb m t1)) with (rs := fun b => srefs t b - one b hs + one b hr).
      * eapply rel_sb; eassumption.
      * intros b. cbn. rewrite Se, (total_upd _ _ _ _ _ (svar_in _ _ _ Gs)), srefs_eq. cbn. lia.
  - rewrite <- (rel_svar _ _ _ _ s H). destruct (svar s t) as [[h l0]|] eqn:G; cbn; [|exact I]. split; [|reflexivity]. eapply label_good; eassumption.
  - apply num_good; [now apply size_s_good|]. intros n. apply seq_good; [apply both_good; [exact H|reflexivity]|]. clear t g H. intros t g H.
    apply seq_good; [now apply mut_good|]. clear t g H. intros t g H. apply seq_good; [now apply mut_good|]. clear t g H. intros t g H. now apply done_good.
  - apply seq_good; [apply both_good; [exact H|reflexivity]|]. clear t g H. intros t g H. now apply done_good.
  - apply seq_good; [apply both_good; [exact H|reflexivity]|]. clear t g H. intros t g H. now apply done_good.
  - apply seq_good; [apply both_good; [exact H|reflexivity]|]. clear t g H. intros t g H.
    rewrite <- (rel_svar _ _ _ _ s H). destruct (svar s t) as [[h l0]|] eqn:G; cbn; [|exact I]. split; [|reflexivity]. eapply label_good; eassumption.
  - rewrite <- (rel_svar _ _ _ _ s H), <- (rel_svar _ _ _ _ dst H). destruct (svar s t) as [[hs l]|] eqn:Gs; cbn; [|exact I].
    destruct (svar dst t) as [[hd l0]|] eqn:Gd; cbn; [|exact I].
    assert (H0 : good (with_se (upd dst (Some (hd, l)) (se t)) t) (set_gse (upd dst (Some (hd, l)) (gse g)) g)) by (eapply label_good; eassumption).
    revert H0. generalize (with_se (upd dst (Some (hd, l)) (se t)) t) (set_gse (upd dst (Some (hd, l)) (gse g)) g). clear t g H Gs Gd. intros t g H.
    apply num_good; [now apply size_s_good|]. intros n. apply seq_good; [apply both_good; [exact H|reflexivity]|]. clear t g H. intros t g H.
    apply num_good; [now apply size_s_good|]. intros n1. apply seq_good; [apply both_good; [exact H|reflexivity]|]. clear t g H. intros t g H.
    apply num_good; [now apply size_s_good|]. intros n2. apply seq_good; [now apply copy_good|]. clear t g H. intros t g H.
    apply num_good; [now apply size_s_good|]. intros n3. apply seq_good; [now apply copy_good|]. clear t g H. intros t g H. now apply done_good.
  - apply num_good; [now apply size_s_good|]. intros n. now apply done_good.
  - rewrite <- (rel_svar _ _ _ _ s H). destruct (svar s t) as [[h l0]|] eqn:G; cbn; [|exact I]. auto.
Qed.
Theorem run_good os : forall (t : st) g, good t g ->
  match srun zero os t, grun zero os g with
  | Some (t', l), Some (g', l') => good t' g' /\ l = l'
  | None, None => True
  | _, _ => False
  end.
Proof.
  induction os as [|o os IH]; intros t g H; cbn [srun grun]; [auto|].
  pose proof (step_good t g o H) as Hs. destruct (sstep zero o t) as [[t1 a]|], (gstep zero o g) as [[g1 a']|]; try contradiction; cbn; [|exact I].
  destruct Hs as (H1 & ->). specialize (IH t1 g1 H1). destruct (srun zero os t1) as [[t2 l]|], (grun zero os g1) as [[g2 l']|]; try contradiction; cbn; [|exact I].
  destruct IH as (H2 & ->). auto.
Qed.
Lemma total_repeat {X} (f : X -> Z) x n : f x = 0 -> total f (repeat x n) = 0.
Proof. intros H. induction n; cbn; lia. Qed.
Lemma start_good nv ns : good (start nv ns) (gstart nv ns).
Proof.
  constructor; cbn; try reflexivity; try (intros [|b] c x; discriminate).
  - intros b. replace (hget b []) with (@None (Z * vec A)) by (destruct b; reflexivity). rewrite vrefs_eq. cbn. rewrite total_repeat; reflexivity.
  - intros b. replace (hget b []) with (@None (Z * (option nat * option nat))) by (destruct b; reflexivity). rewrite srefs_eq. cbn. rewrite total_repeat; reflexivity.
Qed.
End Sim.
