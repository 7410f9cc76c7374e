(** C60: the reference-counted storage of Vector, SVector and DataPoint. *)
From Coq Require Import Lia.
From Verif Require Import M_Base M_Vector P_DataPoint P_Vector M_Share S_Share P_Share P_Share2.

Section Props.
Context {A : Type} (zero : A).

(** The states a program can be in. *)
Definition reached (t : st A) : Prop := exists nv ns os l, srun zero os (start nv ns) = Some (t, l).
Lemma reached_good t : reached t -> exists g, good t g /\ okv g.
Proof.
  intros (nv & ns & os & l & E). pose proof (run_good zero os _ _ (start_good nv ns)) as H. rewrite E in H.
  destruct (grun zero os (gstart nv ns)) as [[g l']|] eqn:G; [|contradiction]. destruct H as (H & _). exists g. split; [exact H|].
  eapply run_okv; [|exact G]. intros b x. cbn. destruct b; discriminate.
Qed.

(** Counting references and deleting is not visible: every program does what it would do if all blocks
    lived forever, and it has undefined behaviour (use of a deleted block or of a null pointer) only if it
    has it there as well, where nothing is ever deleted. *)
Theorem C60_transparent : forall nv ns os,
  match srun zero os (start nv ns), grun zero os (gstart nv ns) with
  | Some (t, l), Some (g, l') => l = l' /\ ve t = gve g /\ se t = gse g
  | None, None => True
  | _, _ => False
  end.
Proof.
  intros nv ns os. pose proof (run_good zero os _ _ (start_good nv ns)) as H.
  destruct (srun zero os (start nv ns)) as [[t l]|], (grun zero os (gstart nv ns)) as [[g l']|]; auto. destruct H as (H & ->).
  split; [reflexivity|]. split; [exact (r_ve _ _ _ _ H)|exact (r_se _ _ _ _ H)].
Qed.

(** The counters are the numbers of handles; a block is deleted exactly when there are none. *)
Theorem C60_counts : forall t, reached t -> exact (vb t) (vrefs t) /\ exact (sb t) (srefs t).
Proof. intros t H. destruct (reached_good _ H) as (g & Hg & _). split; [exact (r_ev _ _ _ _ Hg)|exact (r_es _ _ _ _ Hg)]. Qed.

(** Nothing leaks: when all variables are gone, all blocks are deleted. *)
Theorem C60_no_leak : forall t, reached t ->
  Forall (fun x => x = None) (ve t) -> Forall (fun x => x = None) (se t) ->
  Forall (fun x => x = None) (vb t) /\ Forall (fun x => x = None) (sb t).
Proof.
  intros t H Hv Hs. destruct (C60_counts t H) as (Ev & Es).
  assert (T : forall X (f : option X -> Z) (l : list (option X)), f None = 0 -> Forall (fun x => x = None) l -> total f l = 0).
  { intros X f l F0 Hl. induction Hl as [|x l -> _ IH]; cbn; lia. }
  assert (D : forall X (m : heap X) r, exact m r -> (forall b, r b = 0) -> Forall (fun x => x = None) m).
  { intros X m r E Hr. apply Forall_forall. intros x Hx. destruct (In_nth_error _ _ Hx) as (b & Hb). specialize (E b). unfold hget in E. rewrite Hb in E.
    destruct x as [[c y]|]; [|reflexivity]. rewrite Hr in E. lia. }
  assert (S0 : Forall (fun x => x = None) (sb t)).
  { apply (D _ _ _ Es). intros b. unfold srefs. apply T; [reflexivity|exact Hs]. }
  split; [|exact S0]. apply (D _ _ _ Ev). intros b. unfold vrefs.
  rewrite (T _ (fun x => match x with Some h => one b h | None => 0 end) (ve t) eq_refl Hv).
  rewrite (T _ (fun x => match x with Some (_, (i, v)) => one b i + one b v | None => 0 end) (sb t) eq_refl S0). reflexivity.
Qed.

(** The views of the two levels. *)
Lemma good_closed (t : st A) g s x : good t g -> svar s t = Some x -> closed s g.
Proof.
  intros H E. destruct x as [h l]. exists h, l. rewrite <- (rel_svar _ _ _ _ s H). split; [exact E|]. intros a ->.
  pose proof (rel_sblock _ _ _ s H) as Hb. unfold sblock in Hb. rewrite E in Hb. cbn in Hb.
  destruct (exact_live _ _ a (r_es _ _ _ _ H) (srefs_pos _ _ _ _ E)) as (c & f & Hf). rewrite Hf in Hb. cbn in Hb. destruct Hb as (Hp & _).
  destruct (gpair_facts _ _ _ _ Hp) as (_ & Ef). exists f. split; [exact Ef|]. intros b [Fb|Fb].
  - assert (G : geth (Idx s) t = Some (Some b)) by (unfold geth, sblock; rewrite E; cbn; rewrite Hf; cbn; now rewrite Fb).
    destruct (good_live _ _ _ _ H G) as (c' & x & _ & Hx). eauto.
  - assert (G : geth (Val s) t = Some (Some b)) by (unfold geth, sblock; rewrite E; cbn; rewrite Hf; cbn; now rewrite Fb).
    destruct (good_live _ _ _ _ H G) as (c' & x & _ & Hx). eauto.
Qed.
Lemma kept (t : st A) g t' g' s : good t g -> good t' g' -> closed s g -> keep s g g' -> shows s t s t' /\ label_of s t = label_of s t'.
Proof.
  intros H H' C K. destruct (keep_reads _ _ _ C K) as (R1 & R2 & R3). unfold shows, label_of.
  rewrite !(size_s_good _ _ s H), !(size_s_good _ _ s H'), !(size_good _ _ _ H), !(size_good _ _ _ H'), (rel_svar _ _ _ _ s H), (rel_svar _ _ _ _ s H'), R1.
  split; [|reflexivity]. split; [congruence|]. split; [symmetry; apply (R3 O)|]. intros i. rewrite !(get_good _ _ _ _ H), !(get_good _ _ _ _ H'). destruct (R3 i) as (-> & -> & _). auto.
Qed.
Lemma run_sep os s d : Forall (fun o => local s o \/ local d o) os -> forall (g g' : gst A) l, sep s d g -> grun zero os g = Some (g', l) -> sep s d g'.
Proof.
  induction 1 as [|o os Ho Hos IH]; intros g g' l Hs; cbn [grun].
  - intros X. injection X as <- <-. exact Hs.
  - destruct (gstep zero o g) as [[g1 a]|] eqn:E; cbn; [|discriminate]. destruct (grun zero os g1) as [[g2 l2]|] eqn:E2; cbn; [|discriminate].
    intros X. injection X as <- <-. eapply IH; [|exact E2]. destruct Ho as [Ho|Ho].
    + apply sep_sym. exact (proj2 (local_fine _ _ _ _ _ _ _ Ho (sep_sym _ _ _ Hs) E)).
    + exact (proj2 (local_fine _ _ _ _ _ _ _ Ho Hs E)).
Qed.

(** A point that was default-constructed shares nothing, and never will by what is done to the two points
    themselves: however they are filled, cleared, cloned to and changed, no operation on one of them is seen
    through the other. *)
Theorem C60_independent : forall t s d ls ld os t1 l1 o t2 a,
  reached t -> s <> d -> svar s t = Some ls -> svar d t = Some (None, ld) ->
  Forall (fun o => local s o \/ local d o) os -> srun zero os t = Some (t1, l1) ->
  sstep zero o t1 = Some (t2, a) ->
  (local d o -> shows s t1 s t2 /\ label_of s t1 = label_of s t2) /\
  (local s o -> shows d t1 d t2 /\ label_of d t1 = label_of d t2).
Proof.
  intros t s d ls ld os t1 l1 o t2 a Hr Hn Es Ed Hos E1 E2. destruct (reached_good _ Hr) as (g & H & _).
  assert (Hsep : sep s d g).
  { split; [eapply good_closed; eassumption|]. split; [eapply good_closed; eassumption|]. split; [exact Hn|]. intros b l _.
    rewrite <- (rel_svar _ _ _ _ d H), Ed. split; [intros l'; discriminate|]. intros; discriminate. }
  pose proof (run_good zero os _ _ H) as R. rewrite E1 in R. destruct (grun zero os g) as [[g1 l']|] eqn:G1; [|contradiction]. destruct R as (H1 & _).
  pose proof (run_sep _ _ _ Hos _ _ _ Hsep G1) as S1. pose proof (step_good zero _ _ o H1) as R2. rewrite E2 in R2.
  destruct (gstep zero o g1) as [[g2 a']|] eqn:G2; [|contradiction]. destruct R2 as (H2 & _). split; intros Hl.
  - eapply kept; try eassumption; [apply S1|]. exact (proj1 (local_fine _ _ _ _ _ _ _ Hl S1 G2)).
  - eapply kept; try eassumption; [apply S1|]. exact (proj1 (local_fine _ _ _ _ _ _ _ Hl (sep_sym _ _ _ S1) G2)).
Qed.

(** Clone to such a point always works if there is storage to clone, and gives the same label and features. *)
Theorem C60_clone : forall t s d n i v ld,
  reached t -> s <> d -> svar d t = Some (None, ld) ->
  geth (Idx s) t = Some (Some i) -> geth (Val s) t = Some (Some v) -> size_v (Idx s) t = Some n -> size_s s t = Some n ->
  exists t', sstep zero (PClone s d) t = Some (t', Nothing) /\
    label_of d t' = label_of s t /\ size_s d t' = Some n /\ size_v (Idx d) t' = Some n /\
    forall k, (k < n)%nat -> get_v (Idx d) k t' = get_v (Idx s) k t /\ get_v (Val d) k t' = get_v (Val s) k t /\ get_v (Idx d) k t' <> None /\ get_v (Val d) k t' <> None.
Proof.
  intros t s d n i v ld Hr Hn Ed Gi Gv Si Ss. destruct (reached_good _ Hr) as (g & H & Hk).
  destruct (good_live _ _ _ _ H Gi) as (ci & xi & _ & Xi). destruct (good_live _ _ _ _ H Gv) as (cv & xv & _ & Xv).
  assert (F : exists a l, full s a l xi xv g).
  { rewrite (rel_geth _ _ _ _ H) in Gi. rewrite (rel_geth _ _ _ _ H) in Gv. unfold refers in Gi, Gv. destruct (gpair s g) as [[a f]|] eqn:Ep; cbn in Gi, Gv; [|discriminate].
    destruct (gpair_facts _ _ _ _ Ep) as ((l & El) & Ef). exists a, l, i, v. destruct f as [fi fv]. cbn in Gi, Gv. injection Gi as ->. injection Gv as ->. auto. }
  destruct F as (a & l & F). destruct (full_reads _ _ _ _ _ _ F) as (R1 & R2 & R3).
  rewrite (size_s_good _ _ s H), R1 in Ss. injection Ss as Sn. rewrite (size_good _ _ _ H), R2 in Si. injection Si as Sm.
  assert (Li : (v_size xi <= length (v_store xi))%nat) by (now apply (Hk i)). assert (Lv : (v_size xv <= length (v_store xv))%nat) by (now apply (Hk v)).
  assert (Ed' : gpoint d g = Some (None, ld)) by (now rewrite <- (rel_svar _ _ _ _ d H)).
  pose proof (clone_null zero s d a l ld xi xv g Hn Ed' F Lv ltac:(lia)) as C.
  pose proof (step_good zero _ _ (PClone s d) H) as R. rewrite C in R. destruct (sstep zero (PClone s d) t) as [[t' b]|]; [|contradiction]. destruct R as (H' & ->).
  exists t'. split; [reflexivity|]. set (g' := cl _ _ _ _ _ _) in *.
  assert (F' : full d (length (gs g)) l (mkvec (firstn n (v_store xi)) n) (mkvec (firstn n (v_store xv)) n) g').
  { exists (length (gv g)), (S (length (gv g))). unfold g', cl. rewrite Sn. cbn [gs gv]. rewrite !nth_new, nth_new2. split; [|auto].
    unfold gpoint. cbn [gse]. rewrite upd_nth, PeanoNat.Nat.eqb_refl. pose proof (gpoint_some _ _ _ Ed') as Q. destruct (nth_error (gse g) d); [reflexivity|congruence]. }
  destruct (full_reads _ _ _ _ _ _ F') as (Q1 & Q2 & Q3). rewrite (size_s_good _ _ d H'), Q1, (size_good _ _ _ H'), Q2. unfold label_of.
  rewrite (rel_svar _ _ _ _ d H'), (rel_svar _ _ _ _ s H).
  split; [destruct F as (? & ? & -> & _), F' as (? & ? & -> & _); reflexivity|]. split; [reflexivity|]. split; [reflexivity|].
  intros k Hkn. rewrite !(get_good _ _ _ _ H'), !(get_good _ _ _ _ H). destruct (Q3 k) as (-> & ->), (R3 k) as (-> & ->). unfold vec_get, rd. cbn [v_store].
  assert (T : forall l : list A, (n <= length l)%nat -> nth_error (firstn n l) k = nth_error l k /\ nth_error (firstn n l) k <> None).
  { intros l0 Hl0. assert (nth_error (firstn n l0) k = nth_error l0 k).
    { rewrite <- (firstn_skipn n l0) at 2. rewrite nth_error_app1; [reflexivity|]. rewrite firstn_length. lia. }
    split; [assumption|]. apply nth_error_Some. rewrite firstn_length. lia. }
  destruct (T (v_store xi) ltac:(lia)), (T (v_store xv) ltac:(lia)). auto.
Qed.

(** A copy of a point with storage shares its features for good: whatever is done to the two, they show
    the same features; labels are not shared. *)
Theorem C60_copy_shares : forall t s d b l t1 a os t2 l2,
  reached t -> svar s t = Some (Some b, l) -> sstep zero (PCopy d s) t = Some (t1, a) ->
  Forall (fun o => local s o \/ local d o) os -> srun zero os t1 = Some (t2, l2) ->
  shows s t2 d t2 /\ label_of d t1 = label_of s t /\ (Forall (local d) os -> label_of s t2 = label_of s t).
Proof.
  intros t s d b l t1 a os t2 l2 Hr Es E1 Hos E2. destruct (reached_good _ Hr) as (g & H & _).
  pose proof (step_good zero _ _ (PCopy d s) H) as R. rewrite E1 in R. destruct (gstep zero (PCopy d s) g) as [[g1 a']|] eqn:G1; [|contradiction]. destruct R as (H1 & _).
  pose proof (run_good zero os _ _ H1) as R2. rewrite E2 in R2. destruct (grun zero os g1) as [[g2 l']|] eqn:G2; [|contradiction]. destruct R2 as (H2 & _).
  rewrite (rel_svar _ _ _ _ s H) in Es. cbn [gstep] in G1. unfold unused_s in G1. destruct (nth_error (gse g) d) as [[x|]|] eqn:Ed; cbn in G1; try discriminate.
  rewrite Es in G1. cbn in G1. injection G1 as <- _.
  assert (Hn : s <> d) by (intros ->; unfold gpoint in Es; rewrite Ed in Es; discriminate).
  set (g1 := set_gse _ g) in *.
  assert (P1 : gpoint s g1 = Some (Some b, l)) by (unfold g1; rewrite gpoint_upd, neqb by (auto; congruence); exact Es).
  assert (P2 : gpoint d g1 = Some (Some b, l)) by (unfold g1; rewrite gpoint_upd, PeanoNat.Nat.eqb_refl by (auto; congruence); reflexivity).
  destruct (run_shared zero s d b os Hos _ _ _ (ex_intro _ _ P1) (ex_intro _ _ P2) G2) as (l3 & l4 & Q1 & Q2).
  split; [|split].
  - destruct (shared_same _ _ _ _ _ _ Q1 Q2) as (S1 & S2 & S3). unfold shows. rewrite !(size_s_good _ _ _ H2), !(size_good _ _ _ H2). split; [exact S1|]. split; [exact S2|].
    intros i. rewrite !(get_good _ _ _ _ H2). apply S3.
  - unfold label_of. rewrite (rel_svar _ _ _ _ d H1), (rel_svar _ _ _ _ s H), P2, Es. reflexivity.
  - intros Hd. unfold label_of. rewrite (rel_svar _ _ _ _ s H2), (rel_svar _ _ _ _ s H), Es, Q1. cbn. f_equal.
    clear - Hd G2 P1 Q1 Hn. revert g2 l' G2 Q1. clearbody g1. revert g1 P1. induction Hd as [|o os Ho Hos IH]; intros g1 P1 g2 l' G2 Q1; cbn [grun] in G2.
    + injection G2 as <- _. congruence.
    + destruct (gstep zero o g1) as [[g3 a]|] eqn:E; cbn in G2; [|discriminate]. destruct (grun zero os g3) as [[g4 l5]|] eqn:Er; cbn in G2; [|discriminate]. injection G2 as <- _.
      destruct (local_steady zero _ _ _ _ _ Ho E _ _ _ P1) as (l6 & P3 & P4). rewrite (P4 Hn) in P3. eapply IH; eassumption.
Qed.
End Props.
Print Assumptions C60_transparent.
Print Assumptions C60_counts.
Print Assumptions C60_no_leak.
Print Assumptions C60_independent.
Print Assumptions C60_clone.
Print Assumptions C60_copy_shares.

(** Two points and a vector: a point is filled, copied, cloned; its values are kept alive by a vector
    variable after the points are gone. *)
Example C60_witness :
  let os := [PNew 0; PAdd 0 3 10; PAdd 0 5 20; PLabel 0 7; PCopy 1 0; PNew 2; PClone 0 2; VMut (Val 1) (VSet 0%nat 99); VCopy 0 (Val 0);
             VGet (Val 0) 0; VGet (Val 1) 0; VGet (Val 2) 0; PSize 2; PGetLabel 2; PDrop 0; PDrop 1; VGet (Var 0) 0; VGet (Var 0) 1; PDrop 2; VDrop 0] in
  match srun 0 os (start 1 3) with
  | Some (t, l) =>
    filter (fun o => match o with Nothing => false | _ => true end) l = [Elem 99; Elem 99; Elem 10; Number 2; Label 7; Elem 99; Elem 20] /\
    ve t = [None] /\ se t = [None; None; None] /\ vb t = [None; None; None; None] /\ sb t = [None; None]
  | None => False
  end.
Proof. vm_compute. repeat split. Qed.
(** Before the destructors: the pair of points 0 and 1 is counted twice, its values also by the vector. *)
Example C60_witness_counts :
  match srun 0 [PNew 0; PAdd 0 3 10; PCopy 1 0; VNew 0; VAssign (Var 0) (Val 1)] (start 1 2) with
  | Some (t, _) => map (option_map fst) (vb t) = [Some 1; Some 2] /\ map (option_map fst) (sb t) = [Some 2]
  | None => False
  end.
Proof. vm_compute. repeat split. Qed.
(** The hypotheses of C60_independent, C60_clone and C60_copy_shares. *)
Example C60_witness_clone :
  match srun 0 [PNew 0; PAdd 0 3 10; PNew 1] (start 0 3) with
  | Some (t, _) =>
    svar 0 t = Some (Some 0%nat, 0) /\ svar 1 t = Some (None, 0) /\ geth (Idx 0) t = Some (Some 0%nat) /\ geth (Val 0) t = Some (Some 1%nat) /\
    size_v (Idx 0) t = Some 1%nat /\ size_s 0 t = Some 1%nat /\
    match sstep 0 (PClone 0 1) t with
    | Some (t1, _) => get_v (Val 1) 0 t1 = Some 10 /\
      match srun 0 [PAdd 1 4 11; VMut (Val 1) (VSet 0%nat 5); PLabel 1 3] t1 with
      | Some (t2, _) => get_v (Val 0) 0 t2 = Some 10 /\ get_v (Val 1) 0 t2 = Some 5 /\ size_s 0 t2 = Some 1%nat /\ label_of 0 t2 = Some 0
      | None => False
      end
    | None => False
    end
  | None => False
  end.
Proof. vm_compute. repeat split. Qed.
Example C60_witness_copy :
  match srun 0 [PNew 0; PAdd 0 3 10; PCopy 1 0; PAdd 1 4 11; PLabel 1 3] (start 0 2) with
  | Some (t, _) => size_s 0 t = Some 2%nat /\ get_v (Val 0) 1 t = Some 11 /\ label_of 0 t = Some 0 /\ label_of 1 t = Some 3
  | None => False
  end.
Proof. vm_compute. repeat split. Qed.

(** A copy is not a copy of the features: changing it changes the original. *)
Theorem C60_copy_value_refuted : exists os o t l t' a,
  srun 0 os (start 0 2) = Some (t, l) /\ local 1 o /\ sstep 0 o t = Some (t', a) /\ get_v (Val 0) 0 t' <> get_v (Val 0) 0 t.
Proof.
  exists [PNew 0; PAdd 0 3 10; PCopy 1 0], (VMut (Val 1) (VSet 0%nat 5)).
  destruct (srun 0 [PNew 0; PAdd 0 3 10; PCopy 1 0] (start 0 2)) as [[t l]|] eqn:E; [|vm_compute in E; discriminate].
  assert (E' := E). vm_compute in E'. injection E' as <- <-. do 4 eexists. split; [reflexivity|]. split; [reflexivity|]. split; [vm_compute; reflexivity|]. vm_compute. discriminate.
Qed.
(** ... unless the original had no features yet: then the two have nothing in common, and only the copy gets them. *)
Theorem C60_copy_shares_refuted : exists os t l,
  Forall (fun o => local 0 o \/ local 1 o) os /\ srun 0 (PNew 0 :: PCopy 1 0 :: os) (start 0 2) = Some (t, l) /\ size_s 0 t = Some 0%nat /\ size_s 1 t = Some 1%nat.
Proof.
  exists [PAdd 1 3 10]. do 2 eexists. split; [constructor; [right; reflexivity|constructor]|]. split; [vm_compute; reflexivity|]. split; reflexivity.
Qed.
(** Clone of a default-constructed point dereferences a null pointer, although the point may be asked for its size. *)
Theorem C60_clone_empty_refuted : exists os t l,
  srun 0 os (start 0 2) = Some (t, l) /\ size_s 0 t = Some 0%nat /\ svar 1 t = Some (None, 0) /\ sstep 0 (PClone 0 1) t = None.
Proof.
  exists [PNew 0; PNew 1]. do 2 eexists. split; [reflexivity|]. repeat split.
Qed.
(** Clone to a point that shares its storage overwrites what the others see. *)
Theorem C60_clone_target_refuted : exists os t l t' a,
  srun 0 os (start 0 3) = Some (t, l) /\ get_v (Val 1) 0 t = Some 20 /\ sstep 0 (PClone 0 2) t = Some (t', a) /\ get_v (Val 1) 0 t' = Some 10.
Proof.
  exists [PNew 0; PAdd 0 3 10; PNew 1; PAdd 1 4 20; PCopy 2 1]. do 4 eexists. split; [vm_compute; reflexivity|]. split; [reflexivity|]. split; vm_compute; reflexivity.
Qed.
Print Assumptions C60_copy_value_refuted.
Print Assumptions C60_copy_shares_refuted.
Print Assumptions C60_clone_empty_refuted.
Print Assumptions C60_clone_target_refuted.
