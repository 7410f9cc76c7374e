(** The feature-selection models are safe, and keep their weights inside the features kept by the
    heap. *)
From Verif Require Import M_Base M_Num M_Expr M_Loss M_Online M_Olm M_OlmSel M_Heap S_Expr S_Online
  S_Heap P_DataPoint P_Expr P_Online P_Predict P_Step P_Safe P_SafeOlm P_Heap.
From Coq Require Import Sorted.

Section P.
Context {R : Type}.
Variable N : num R.
Local Notation zero := (zero N).
Local Notation one := (one N).
Local Notation len_is d := (fun w : list R => length w = d).

(** Feature id i (index i + 1) has weight zero in every class. *)
Definition zeroed (ws : list (list R)) (i : nat) : Prop :=
  forall w, In w ws -> nth_error w (S i) = Some zero.
(** Features outside the heap have weight zero. *)
Definition sparse_in (d : nat) (h : heap) (ws : list (list R)) : Prop :=
  forall i, (S i < d)%nat -> ~ kept h i -> zeroed ws i.

(** Split conjunctions without opening [heap_wf]. *)
Ltac conj := repeat match goal with |- _ /\ _ => split end.

Lemma kept_dec h i : {kept h i} + {~ kept h i}.
Proof. apply in_dec, Nat.eq_dec. Qed.

(** ** The selection loops *)
Lemma zero_at_ok d i ws : Forall (len_is d) ws -> (i < d)%nat ->
  exists ws', zero_at N i ws = Some ws' /\ ws' = map (upd i zero) ws /\ Forall (len_is d) ws' /\
    length ws' = length ws.
Proof.
  intros F Hi. unfold zero_at. rewrite (mapM_spec _ (upd i zero)).
  - eexists. split; [reflexivity|]. split; [reflexivity|]. split; [|apply map_length].
    rewrite Forall_forall in *. intros w Hw. apply in_map_iff in Hw as (u & <- & Hu).
    rewrite upd_length. auto.
  - intros w Hw. apply wr_upd. rewrite Forall_forall in F. rewrite F; auto.
Qed.
Lemma zeroed_at d i j ws : Forall (len_is d) ws -> (S i < d)%nat -> zeroed ws j \/ j = i ->
  zeroed (map (upd (S i) zero) ws) j.
Proof.
  intros F Hi H w Hw. apply in_map_iff in Hw as (u & <- & Hu).
  rewrite Forall_forall in F. pose proof (F u Hu) as L. simpl in L.
  rewrite nth_error_upd. destruct (Nat.eqb_spec (S i) (S j)) as [E|E].
  - replace (S j <? length u)%nat with true by lia. reflexivity.
  - destruct H as [H| ->]; [|lia]. now apply H.
Qed.

(** One offer, from the point of view of the weights. *)
Lemma offer_step (cmp : R -> R -> bool) d values h i (done : nat -> Prop) ws :
  heap_wf h -> h_N h = (d - 1)%nat -> (d - 1 <= length values)%nat -> (S i < d)%nat ->
  Forall (len_is d) ws -> (forall j, (S j < d)%nat -> done j -> ~ kept h j -> zeroed ws j) ->
  exists h' r, update_heap cmp values h i = Some (h', r) /\ heap_wf h' /\ h_N h' = h_N h /\
    h_K h' = h_K h /\
    match r with
    | None => forall j, (S j < d)%nat -> done j \/ j = i -> ~ kept h' j -> zeroed ws j
    | Some k => (S k < d)%nat /\
        forall j, (S j < d)%nat -> done j \/ j = i -> ~ kept h' j -> zeroed (map (upd (S k) zero) ws) j
    end.
Proof.
  intros Hh HN Hv Hi HF Hd.
  destruct (update_heap_spec cmp values h i Hh) as (h' & r & E & W & EN & EK & Ha & Hb); [lia|lia|].
  exists h', r. split; [exact E|]. split; [exact W|]. split; [exact EN|]. split; [exact EK|].
  destruct (kept_dec h i) as [Hk|Hk].
  - destruct (Ha Hk) as (-> & ->). intros j Hj [Hdj| ->] Hnk; [auto|easy].
  - destruct (Hb Hk) as (top & xt & xi & Etop & Ext & Exi & Hf & Ht).
    destruct (cmp xt xi).
    + destruct (Ht eq_refl) as (-> & Hkept & _).
      assert (Hktop : kept h top) by (eapply nth_error_In; eauto).
      apply (kept_pos h top Hh) in Hktop as (q & Hq & _).
      pose proof (nth_error_len _ _ _ Hq) as Hl. destruct Hh as (L1 & _).
      split; [lia|]. intros j Hj Hdj Hnk. apply (zeroed_at d); auto; [lia|].
      destruct (Nat.eq_dec j top) as [|Hne]; [auto|]. left.
      assert (j <> i /\ ~ kept h j) as (Hji & Hkj).
      { split; intros Hc; apply Hnk, Hkept; [now left|right; auto]. }
      destruct Hdj; [auto|easy].
    + destruct (Hf eq_refl) as (-> & ->). split; [lia|]. intros j Hj Hdj Hnk.
      apply (zeroed_at d); auto. destruct Hdj as [Hdj| ->]; auto.
Qed.

Lemma offer_scores_ok d ids : forall h scores ws (done : nat -> Prop),
  heap_wf h -> h_N h = (d - 1)%nat -> length scores = d -> (1 <= d)%nat ->
  (forall i, In i ids -> (S i < d)%nat) -> Forall (len_is d) ws ->
  (forall j, (S j < d)%nat -> done j -> ~ kept h j -> zeroed ws j) ->
  exists h' scores' ws', offer_scores N ids h scores ws = Some (h', scores', ws') /\
    heap_wf h' /\ h_N h' = h_N h /\ h_K h' = h_K h /\ length scores' = d /\
    Forall (len_is d) ws' /\ length ws' = length ws /\
    (forall j, (S j < d)%nat -> done j \/ In j ids -> ~ kept h' j -> zeroed ws' j).
Proof.
  induction ids as [|i ids IH]; intros h scores ws done Hh HN Hs Hd Hi HF Hz.
  - exists h, scores, ws. split; [reflexivity|]. conj; auto.
    intros j Hj [|[]]; auto.
  - cbn [offer_scores].
    destruct (offer_step (cmp_min N) d (skipn 1 scores) h i done ws) as (h1 & r & E & W & EN & EK & Hr);
      auto.
    { rewrite skipn_length. lia. }
    { apply Hi. now left. }
    rewrite E. cbn [bind]. destruct r as [k|].
    + destruct Hr as (Hk & Hr).
      destruct (zero_at_ok d (k + 1) ws HF) as (ws1 & Ez & -> & HF1 & Lw); [lia|].
      rewrite Ez. cbn [bind]. rewrite wr_upd by lia. cbn [bind].
      replace (k + 1)%nat with (S k) in * by lia.
      destruct (IH h1 (upd (S k) zero scores) (map (upd (S k) zero) ws) (fun j => done j \/ j = i))
        as (h' & s' & ws' & E' & W' & EN' & EK' & Ls & HF' & Lw' & Hz'); auto.
      { lia. }
      { now rewrite upd_length. }
      { intros. apply Hi. now right. }
      exists h', s', ws'. split; [exact E'|]. conj; auto; try lia.
      intros j Hj Hdj. apply Hz'; auto. simpl in Hdj. intuition.
    + destruct (IH h1 scores ws (fun j => done j \/ j = i))
        as (h' & s' & ws' & E' & W' & EN' & EK' & Ls & HF' & Lw' & Hz'); auto.
      { lia. }
      { intros. apply Hi. now right. }
      exists h', s', ws'. split; [exact E'|]. conj; auto; try lia.
      intros j Hj Hdj. apply Hz'; auto. simpl in Hdj. intuition.
Qed.

Lemma offer_ids_ok cmp d values ids : forall h ws (done : nat -> Prop),
  heap_wf h -> h_N h = (d - 1)%nat -> (d - 1 <= length values)%nat ->
  (forall i, In i ids -> 0 <= i /\ i + 1 < Z.of_nat d) -> Forall (len_is d) ws ->
  (forall j, (S j < d)%nat -> done j -> ~ kept h j -> zeroed ws j) ->
  exists h' ws', offer_ids N cmp values ids h ws = Some (h', ws') /\
    heap_wf h' /\ h_N h' = h_N h /\ h_K h' = h_K h /\
    Forall (len_is d) ws' /\ length ws' = length ws /\
    (forall j, (S j < d)%nat -> done j \/ In (Z.of_nat j) ids -> ~ kept h' j -> zeroed ws' j).
Proof.
  induction ids as [|i ids IH]; intros h ws done Hh HN Hs Hi HF Hz.
  - exists h, ws. split; [reflexivity|]. conj; auto.
    intros j Hj [|[]]; auto.
  - cbn [offer_ids]. destruct (Hi i (or_introl eq_refl)) as (Hi0 & Hi1).
    replace (i <? 0) with false by lia.
    destruct (offer_step cmp d values h (Z.to_nat i) done ws) as (h1 & r & E & W & EN & EK & Hr); auto.
    { lia. }
    rewrite E. cbn [bind]. destruct r as [k|].
    + destruct Hr as (Hk & Hr).
      destruct (zero_at_ok d (k + 1) ws HF) as (ws1 & Ez & -> & HF1 & Lw); [lia|].
      rewrite Ez. cbn [bind].
      replace (k + 1)%nat with (S k) in * by lia.
      destruct (IH h1 (map (upd (S k) zero) ws) (fun j => done j \/ j = Z.to_nat i))
        as (h' & ws' & E' & W' & EN' & EK' & HF' & Lw' & Hz'); auto.
      { lia. }
      { intros. apply Hi. now right. }
      exists h', ws'. split; [exact E'|]. conj; auto; try lia.
      intros j Hj Hdj. apply Hz'; auto. simpl in Hdj.
      destruct Hdj as [|[Hij|]]; auto. left. right. lia.
    + destruct (IH h1 ws (fun j => done j \/ j = Z.to_nat i))
        as (h' & ws' & E' & W' & EN' & EK' & HF' & Lw' & Hz'); auto.
      { lia. }
      { intros. apply Hi. now right. }
      exists h', ws'. split; [exact E'|]. conj; auto; try lia.
      intros j Hj Hdj. apply Hz'; auto. simpl in Hdj.
      destruct Hdj as [|[Hij|]]; auto. left. right. lia.
Qed.

(** ** PET and FOFS *)
Definition sel1_inv (P : Prop) (B : nat) (ws : list (list R)) (d : nat) (s : sel1 (R:=R)) : Prop :=
  (B = O /\ h_K (snd s) = O) \/
  ((1 <= B)%nat /\ length (fst s) = d /\ heap_wf (snd s) /\ h_N (snd s) = (d - 1)%nat /\
   h_K (snd s) = B /\ (P -> sparse_in d (snd s) ws)).

Lemma kept_set_N h n h' : heap_wf h -> heap_set_N h n = Some h' -> forall i, kept h' i <-> kept h i.
Proof.
  intros Hh E i. unfold kept, heap_set_N in *. destruct (h_K h); [inv E; tauto|].
  destruct (n <? h_N h)%nat; inv E. cbn. tauto.
Qed.
(** Growth keeps the weights sparse: new weights are zero. *)
Lemma sparse_grow d c h : wf_core c -> sparse_in (c_dim c) h (c_ws c) ->
  sparse_in (Nat.max (c_dim c) d) h (c_ws (linear_update_dim N d c)).
Proof.
  intros Hc H i Hi Hk w Hw. unfold linear_update_dim in Hw.
  destruct (Nat.ltb_spec (c_dim c) d).
  - cbn in Hw. apply in_map_iff in Hw as (u & <- & Hu).
    destruct (wf_len c u Hc Hu) as (Lu & _).
    rewrite (nth_error_nth' _ zero) by (rewrite (grow_length (c_dim c)); lia).
    rewrite grow_nth by lia. destruct (Nat.ltb_spec (S i) (c_dim c)) as [Hl|]; auto.
    apply (H i Hl Hk u) in Hu. now apply nth_error_nth with (d := zero) in Hu as ->.
  - apply (H i); auto. lia.
Qed.

Lemma sel1_grow_ok P B p c s : wf_core c -> sel1_inv P B (c_ws c) (c_dim c) s ->
  exists s1, sel1_grow N (Z.to_nat (x_dim (R:=R) p)) c s
    = Some (linear_update_dim N (Z.to_nat (x_dim p)) c, s1) /\
  sel1_inv P B (c_ws (linear_update_dim N (Z.to_nat (x_dim p)) c))
    (Nat.max (c_dim c) (Z.to_nat (x_dim p))) s1.
Proof.
  intros Hc HI. set (d := Z.to_nat (x_dim p)). destruct s as (ab, h). unfold sel1_grow.
  destruct (Nat.ltb_spec (c_dim c) d) as [Hd|Hd].
  - destruct HI as [(-> & HK)|(HB & Hl & Hh & HN & HK & HP)]; cbn [fst snd] in *.
    + unfold heap_set_N. rewrite HK. cbn [bind]. eexists. split; [reflexivity|]. now left.
    + destruct (set_N_spec h (d - 1) Hh) as (h' & E & W & EN & EK & EP); [lia|].
      rewrite E. cbn [bind]. eexists. split; [reflexivity|]. right. cbn [fst snd].
      split; auto. split.
      { rewrite app_length, repeat_length, firstn_length, app_length, repeat_length. lia. }
      split; auto. split; [lia|]. split; [lia|]. intros HPp.
      intros i Hi Hk. apply (sparse_grow d c h Hc (HP HPp) i Hi).
      intros Hkk. apply Hk. unfold kept in *. now rewrite EP.
  - rewrite linear_grow_eq by lia. eexists. split; [reflexivity|].
    replace (Nat.max (c_dim c) d) with (c_dim c) by lia. exact HI.
Qed.

Lemma calc_l1_ok op w x ab : sorted_ix x -> length w = length ab ->
  exists ab', calc op ab (eL1 N (eslice w x)) = Some ab' /\ length ab' = length ab.
Proof.
  intros Hs Hl. rewrite (calc_sparse zero op x); [|simpl; auto|reflexivity|auto|simpl; split; auto; lia].
  eexists. split; [reflexivity|]. apply smap_length.
Qed.
Lemma add_abs_ok d x ws : forall ab, sorted_ix x -> Forall (len_is d) ws -> length ab = d ->
  exists ab', add_abs N x ws ab = Some ab' /\ length ab' = d.
Proof.
  induction ws as [|w ws IH]; intros ab Hs HF Hl; cbn [add_abs]; [eauto|]. inversion HF; subst.
  destruct (calc_l1_ok (n_add N) w x ab Hs) as (a1 & E & L1); [lia|]. rewrite E. cbn [bind].
  apply IH; auto.
Qed.
Lemma abs_scores_ok d x ws ab : sorted_ix x -> ws <> [] -> Forall (len_is d) ws -> length ab = d ->
  exists ab', abs_scores N x ws ab = Some ab' /\ length ab' = d.
Proof.
  intros Hs Hne HF Hl. destruct ws as [|w ws]; [easy|]. inversion HF; subst. cbn [abs_scores].
  destruct (calc_l1_ok assign w x ab Hs) as (a1 & E & L1); [lia|]. rewrite E. cbn [bind].
  apply add_abs_ok; auto.
Qed.

Lemma lens_rel d (ws ws' : list (list R)) : Forall (len_is d) ws -> Forall (len_is d) ws' ->
  length ws' = length ws -> Forall2 same_len ws ws'.
Proof.
  intros H. revert ws'. induction H; intros [|w' ws'] H' L; simpl in L; try discriminate; constructor.
  - inversion H'; subst. unfold same_len. congruence.
  - apply IHForall; [now inversion H'|lia].
Qed.

Lemma sel1_select_ok P B p c s : wf_point 0 p -> wf_core c ->
  sel1_inv False B (c_ws c) (c_dim c) s ->
  exists c' s', sel1_select N B p c s = Some (c', s') /\ framed same_len c c' /\
    sel1_inv P B (c_ws c') (c_dim c) s'.
Proof.
  intros Hp Hc HI. destruct s as (ab, h). unfold sel1_select.
  destruct HI as [(-> & HK)|(HB & Hl & Hh & HN & HK & _)]; cbn [fst snd] in *.
  - exists c, (ab, h). split; [reflexivity|]. split; [apply framed_refl, wrel_len|]. now left.
  - destruct B as [|B]; [lia|]. pose proof Hc as (Hd & Hne & HF & _).
    destruct (abs_scores_ok (c_dim c) (feats p) (c_ws c) ab) as (ab1 & E1 & L1); auto using fs.
    rewrite E1. cbn [bind].
    destruct (build_heap_spec (cmp_min N) (skipn 1 ab1) h Hh) as (h1 & E2 & W1 & N1 & K1 & _ & _).
    { rewrite skipn_length. lia. }
    rewrite E2. cbn [bind].
    destruct (offer_scores_ok (c_dim c) (seq 0 (c_dim c - 1)) h1 ab1 (c_ws c) (fun _ => False))
      as (h2 & ab2 & ws & E3 & W2 & N2 & K2 & L2 & F2 & Lw & Hz); auto.
    { lia. }
    { intros i Hi. apply in_seq in Hi. lia. }
    { tauto. }
    rewrite E3. cbn [bind]. eexists _, _. split; [reflexivity|]. split.
    + apply framed_set_ws. eapply lens_rel; eauto.
    + right. cbn [fst snd c_ws set_ws]. conj; auto; try lia.
      intros _ i Hi Hk. apply Hz; auto. right. apply in_seq. lia.
Qed.

Lemma sel1_inv_weak P B ws ws' d s : sel1_inv P B ws d s -> sel1_inv False B ws' d s.
Proof. intros [H|(H1 & H2 & H3 & H4 & H5 & _)]; [now left|right]. conj; auto; easy. Qed.

Lemma sel1_gsafe P B upd :
  (forall p loss c, wf_point 0 p -> wf_core c -> (Z.to_nat (x_dim p) <= c_dim c)%nat ->
     exists c', upd p loss c = Some c' /\ framed same_len c c') ->
  gsafe N 0 (mkalg (sel1_grow N) (sel1_begin N B) reg_begin_none prep_none margin_none
    (fun p loss c s => do c1 <- upd p loss c; sel1_select N B p c1 s) reg_end_none end_none)
    (sel1_inv P B) (fun _ => same_len).
Proof.
  intros Hu. split; [intros; apply wrel_len|]. split.
  { intros p c s Hp Hc HI. destruct (sel1_grow_ok P B p c s Hc HI) as (s1 & E & HI').
    exists s1, s1. auto. }
  split.
  { intros p c e Hp Hc Hd HI. exists c, e. split; [reflexivity|]. split; auto.
    apply framed_refl, wrel_len. }
  split; [intros; exact I|]. split.
  { intros p loss c s Hp Hc Hd HI. cbn [a_update].
    destruct (Hu p loss c Hp Hc Hd) as (c1 & E1 & F1). rewrite E1. cbn [bind].
    destruct (framed_wf _ _ _ wrel_len F1 Hc) as (Hc1 & _). pose proof (proj1 F1) as Ed.
    destruct (sel1_select_ok P B p c1 s Hp Hc1) as (c2 & s2 & E2 & F2 & HI2).
    { rewrite Ed. eapply sel1_inv_weak; eauto. }
    rewrite E2. exists c2, s2. split; [reflexivity|]. split.
    - eapply framed_trans; [apply wrel_len|exact F1|exact F2].
    - now rewrite Ed in HI2. }
  intros. exists e. auto.
Qed.
Lemma local_len idx (w w' : list R) : local idx w w' -> same_len w w'.
Proof. intros (L & _). exact L. Qed.
Lemma framed_local_len idx c c' : framed (local (R:=R) idx) c c' -> framed same_len c c'.
Proof.
  intros (H1 & H2 & H). split; auto. split; auto. clear - H2. induction H2; constructor; auto.
  eapply local_len; eauto.
Qed.
Lemma gsafe_pet P eta0 power_t B : gsafe N 0 (pet N eta0 power_t B) (sel1_inv P B) (fun _ => same_len).
Proof.
  apply sel1_gsafe. intros p loss c Hp Hc Hd.
  destruct (ogd_upd_ok N eta0 power_t p loss c Hp Hc) as (c' & E & F). exists c'. split; auto.
  eapply framed_local_len; eauto.
Qed.
Lemma fofs_step_ok lam eta bias x g w : sorted_ix x -> (1 <= length w)%nat ->
  exists w', fofs_step N lam eta bias x g w = Some w' /\ length w' = length w.
Proof.
  intros Hs Hl. unfold fofs_step. cbv zeta.
  rewrite (calc_dense zero) by (simpl; auto). cbn [bind].
  rewrite (grad_step_spec N) by (auto; rewrite imap_length; auto). cbn [bind].
  rewrite (norm2_dense N zero). cbn [bind]. destruct (n_lt N _ one).
  - rewrite (calc_dense zero) by (simpl; auto). eexists. split; [reflexivity|].
    rewrite imap_length, pstep_length. apply imap_length.
  - eexists. split; [reflexivity|]. rewrite pstep_length. apply imap_length.
Qed.
Lemma gsafe_fofs P lam B : gsafe N 0 (fofs N lam B) (sel1_inv P B) (fun _ => same_len).
Proof.
  assert (H := sel1_gsafe P B (fun p loss c =>
    do ws <- each_class N (fofs_step N lam (c_eta c) (bias_eta N c) (feats p)) (c_g c) (c_ws c);
    Some (set_ws c ws))).
  match type of H with ?A -> _ => assert (HA : A) end.
  { intros p loss c Hp Hc Hd.
    destruct (each_class_ok N (fofs_step N lam (c_eta c) (bias_eta N c) (feats p)) (c_g c) (c_ws c))
      as (ws & E & F).
    - now apply wf_glen.
    - intros g w Hw. destruct (wf_len c w Hc Hw). apply fofs_step_ok; auto using fs.
    - rewrite E. cbn [bind]. eexists. split; [reflexivity|]. now apply framed_set_ws. }
  specialize (H HA). destruct H as (H1 & H2 & H3 & H4 & H5 & H6).
  split; [exact H1|]. split; [exact H2|]. split; [exact H3|]. split; [exact H4|]. split; [|exact H6].
  intros p loss c e Hp Hc Hd HI. destruct (H5 p loss c e Hp Hc Hd HI) as (c' & e' & E & F).
  exists c', e'. split; [|exact F]. cbn [a_update] in E |- *. unfold fofs, a_update, fofs_update.
  destruct (each_class N (fofs_step N lam (c_eta c) (bias_eta N c) (feats p)) (c_g c) (c_ws c));
    cbn [bind] in *; exact E.
Qed.
End P.
