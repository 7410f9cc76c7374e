(** Proofs about the indexed heap. *)
From Verif Require Import M_Base M_Heap S_Heap P_DataPoint.
From Coq Require Import Permutation.
Local Open Scope nat_scope.
Ltac Zify.zify_post_hook ::= Z.div_mod_to_equations.

Lemma nth_error_upd {A} (l : list A) : forall i (v : A) j, nth_error (upd i v l) j =
  if (i =? j)%nat then (if (j <? length l)%nat then Some v else None) else nth_error l j.
Proof.
  induction l as [|x l IH]; intros i v j.
  - destruct i; cbn [upd nth_error length]; destruct j; cbn; try destruct (_ =? _); reflexivity.
  - destruct i as [|i], j as [|j]; cbn [upd nth_error length]; try reflexivity.
    rewrite IH. cbn [Nat.eqb]. destruct (i =? j); [|reflexivity].
    change (S j <? S (length l)) with (j <? length l). reflexivity.
Qed.
Lemma nth_error_upd_eq {A} (l : list A) i v : i < length l -> nth_error (upd i v l) i = Some v.
Proof. intros. rewrite nth_error_upd, Nat.eqb_refl. replace (i <? length l) with true by lia. reflexivity. Qed.
Lemma nth_error_upd_ne {A} (l : list A) i v j : i <> j -> nth_error (upd i v l) j = nth_error l j.
Proof. intros. rewrite nth_error_upd. replace (i =? j) with false by lia. reflexivity. Qed.
Lemma nth_error_lt {A} (l : list A) i : i < length l -> exists v, nth_error l i = Some v.
Proof. intros H. destruct (nth_error l i) eqn:E; [eauto|]. apply nth_error_None in E. lia. Qed.
Lemma nth_error_len {A} (l : list A) i v : nth_error l i = Some v -> i < length l.
Proof. intros H. apply nth_error_Some. congruence. Qed.

Definition WF (N K : nat) (P I : list nat) : Prop :=
  (forall pos, pos < K -> exists id, nth_error P pos = Some id /\ nth_error I id = Some pos) /\
  (forall id pos, nth_error I id = Some pos -> pos < K -> nth_error P pos = Some id).

Section H.
Context {V : Type}.
Variable cmp : V -> V -> bool.
Variable values : list V.
Variables N K : nat.
Hypothesis HNv : N <= length values.
Hypothesis HK : 1 <= K.

Notation le := (le_id cmp values).

Definition ordered_from (s : nat) (P : list nat) : Prop :=
  forall c a b, 1 <= c < K -> s <= (c - 1) / 2 ->
    nth_error P ((c - 1) / 2) = Some a -> nth_error P c = Some b -> le a b.
Definition OInv (s cur : nat) (P : list nat) : Prop :=
  (forall c a b, 1 <= c < K -> s <= (c - 1) / 2 -> (c - 1) / 2 <> cur ->
     nth_error P ((c - 1) / 2) = Some a -> nth_error P c = Some b -> le a b) /\
  (s < cur -> forall c a b, 1 <= c < K -> (c - 1) / 2 = cur ->
     nth_error P ((cur - 1) / 2) = Some a -> nth_error P c = Some b -> le a b).

Definition same_kept (I I' : list nat) : Prop :=
  forall id p, nth_error I id = Some p ->
    exists p', nth_error I' id = Some p' /\ (p < K <-> p' < K) /\ (K <= p -> p' = p).

Lemma le_of_cmp a b x y : nth_error values a = Some x -> nth_error values b = Some y ->
  cmp y x = false -> le a b.
Proof. intros Ha Hb H x' y' Ha' Hb'. congruence. Qed.
Lemma cmp_of_le a b x y : le a b -> nth_error values a = Some x -> nth_error values b = Some y ->
  cmp y x = false.
Proof. intros H Ha Hb. now apply (H x y). Qed.
Lemma le_trans a b c y : strict_weak cmp -> nth_error values b = Some y -> le a b -> le b c -> le a c.
Proof.
  intros [_ T] Hb H1 H2 x z Ha Hc. apply T with y; [now apply H2|now apply H1].
Qed.

Lemma adjust_loop_spec fuel : forall i2p p2i tgt tgt_val parent,
  parent < K -> K - parent <= fuel -> 1 <= fuel ->
  length p2i = K -> length i2p = N -> tgt < N -> nth_error values tgt = Some tgt_val ->
  WF N K (upd parent tgt p2i) (upd tgt parent i2p) ->
  exists i2p' p2i' parent',
    adjust_loop cmp fuel values i2p p2i tgt_val parent (K - 1) = Some (i2p', p2i', parent') /\
    parent' < K /\ length p2i' = K /\ length i2p' = N /\
    WF N K (upd parent' tgt p2i') (upd tgt parent' i2p') /\
    same_kept (upd tgt parent i2p) (upd tgt parent' i2p') /\
    (forall s, strict_weak cmp -> s <= parent -> OInv s parent (upd parent tgt p2i) ->
       ordered_from s (upd parent' tgt p2i')).
Proof.
  induction fuel as [|fuel IH]; intros i2p p2i tgt tv parent Hpar Hfuel Hf1 Hlp Hli Htgt Htv HWF; [lia|].
  cbn [adjust_loop].
  set (P := upd parent tgt p2i) in *. set (I := upd tgt parent i2p) in *.
  assert (HP0 : nth_error P parent = Some tgt) by (apply nth_error_upd_eq; lia).
  assert (HI0 : nth_error I tgt = Some parent) by (apply nth_error_upd_eq; lia).
  assert (HPne : forall j, j <> parent -> nth_error p2i j = nth_error P j)
    by (intros j Hj; unfold P; rewrite nth_error_upd_ne; auto).
  assert (Hrefl : same_kept I I).
  { intros id p Hp. exists p. tauto. }
  (* done: hole filled at parent *)
  assert (Hdone : (forall s, strict_weak cmp -> s <= parent -> OInv s parent P ->
                     ordered_from s P) ->
    exists i2p' p2i' parent', Some (i2p, p2i, parent) = Some (i2p', p2i', parent') /\
      parent' < K /\ length p2i' = K /\ length i2p' = N /\
      WF N K (upd parent' tgt p2i') (upd tgt parent' i2p') /\
      same_kept I (upd tgt parent' i2p') /\
      (forall s, strict_weak cmp -> s <= parent -> OInv s parent P ->
         ordered_from s (upd parent' tgt p2i'))).
  { intros HO. exists i2p, p2i, parent. fold P I. repeat split; auto; apply HWF. }
  destruct (Nat.leb_spec (2 * parent + 1) (K - 1)) as [Hc|Hc].
  2:{ apply Hdone. intros s SW Hs [O1 _] c a b Hcc Hsc Ha Hb.
      apply O1 with c; auto. intros E. lia. }
  destruct HWF as [W1 W2].
  assert (Hval : forall pos, pos < K -> pos <> parent -> exists id x,
    nth_error P pos = Some id /\ nth_error I id = Some pos /\ nth_error values id = Some x /\
    value_by_pos values p2i pos = Some x /\ id < N).
  { intros pos Hp Hne. destruct (W1 pos Hp) as (id & E1 & E2).
    pose proof (nth_error_len _ _ _ E2) as Hid. unfold I in Hid. rewrite upd_length in Hid.
    destruct (nth_error_lt values id) as (x & Ex); [lia|].
    exists id, x. unfold value_by_pos, rd. rewrite HPne by auto. rewrite E1. cbn [bind].
    repeat split; auto. lia. }
  (* choose the child *)
  assert (Hchild : exists child, 2 * parent + 1 <= child <= 2 * parent + 2 /\ child < K /\
    (if 2 * parent + 1 <? K - 1 then
       do a <- value_by_pos values p2i (2 * parent + 1 + 1);
       do b <- value_by_pos values p2i (2 * parent + 1);
       Some (if cmp a b then 2 * parent + 1 + 1 else 2 * parent + 1)
     else Some (2 * parent + 1)) = Some child /\
    (strict_weak cmp -> forall c a b, c < K -> 2 * parent + 1 <= c <= 2 * parent + 2 -> nth_error P child = Some a ->
       nth_error P c = Some b -> le a b)).
  { assert (Srefl : strict_weak cmp -> forall x, cmp x x = false).
    { intros [A _] x. destruct (cmp x x) eqn:E; [|reflexivity]. pose proof (A x x E). congruence. }
    destruct (Nat.ltb_spec (2 * parent + 1) (K - 1)) as [Hlt|Hge].
    - destruct (Hval (2 * parent + 1 + 1)) as (i2 & x2 & E1 & _ & E2 & E3 & _); [lia|lia|].
      destruct (Hval (2 * parent + 1)) as (i1 & x1 & F1 & _ & F2 & F3 & _); [lia|lia|].
      rewrite E3, F3. cbn [bind]. destruct (cmp x2 x1) eqn:Ecmp.
      + exists (2 * parent + 1 + 1). split; [lia|]. split; [lia|]. split; [reflexivity|].
        intros SW c a b HcK Hcc Ha Hb. rewrite E1 in Ha. inversion Ha; subst a.
        assert (c = 2 * parent + 1 + 1 \/ c = 2 * parent + 1) as [-> | ->] by lia.
        * rewrite E1 in Hb. inversion Hb; subst b. apply le_of_cmp with x2 x2; auto.
        * rewrite F1 in Hb. inversion Hb; subst b. apply le_of_cmp with x2 x1; auto. now apply SW.
      + exists (2 * parent + 1). split; [lia|]. split; [lia|]. split; [reflexivity|].
        intros SW c a b HcK Hcc Ha Hb. rewrite F1 in Ha. inversion Ha; subst a.
        assert (c = 2 * parent + 1 + 1 \/ c = 2 * parent + 1) as [-> | ->] by lia.
        * rewrite E1 in Hb. inversion Hb; subst b. apply le_of_cmp with x1 x2; auto.
        * rewrite F1 in Hb. inversion Hb; subst b. apply le_of_cmp with x1 x1; auto.
    - destruct (Hval (2 * parent + 1)) as (i1 & x1 & F1 & _ & F2 & F3 & _); [lia|lia|].
      exists (2 * parent + 1). split; [lia|]. split; [lia|]. split; [reflexivity|].
      intros SW c a b HcK Hcc Ha Hb. rewrite F1 in Ha. inversion Ha; subst a.
      assert (c = 2 * parent + 1) as -> by lia.
      rewrite F1 in Hb. inversion Hb; subst b. apply le_of_cmp with x1 x1; auto. }
  destruct Hchild as (child & Hch & HchK & Ech & Hmin).
  cbn zeta. rewrite Ech. cbn [bind].
  destruct (Hval child) as (cid & cv & E1 & E2 & E3 & E4 & HcN); [lia|lia|].
  rewrite E4. cbn [bind].
  destruct (cmp cv tv) eqn:Ecmp; cbn [negb].
  2:{ (* the target belongs here *)
    apply Hdone. intros s SW Hs [O1 _] c a b Hcc Hsc Ha Hb.
    destruct (Nat.eq_dec ((c - 1) / 2) parent) as [Ep|Ep]; [|apply O1 with c; auto].
    rewrite Ep in Ha. rewrite HP0 in Ha. inversion Ha; subst a.
    apply le_trans with cid cv; auto.
    - apply le_of_cmp with tv cv; auto.
    - apply (Hmin SW c); auto; lia. }
  (* move the child up *)
  assert (Hcid : rd p2i child = Some cid) by (unfold rd; rewrite HPne by lia; exact E1).
  rewrite Hcid. cbn [bind]. rewrite wr_upd by lia. cbn [bind]. rewrite wr_upd by lia. cbn [bind].
  assert (Hne : cid <> tgt).
  { intros ->. rewrite HI0 in E2. inversion E2. lia. }
  set (p2 := upd parent cid p2i). set (i2 := upd cid parent i2p).
  assert (Lp2 : length p2 = K) by (unfold p2; rewrite upd_length; auto).
  assert (Li2 : length i2 = N) by (unfold i2; rewrite upd_length; auto).
  set (P' := upd child tgt p2). set (I' := upd tgt child i2).
  assert (P'c : nth_error P' child = Some tgt) by (apply nth_error_upd_eq; lia).
  assert (P'p : nth_error P' parent = Some cid).
  { unfold P'. rewrite nth_error_upd_ne by lia. apply nth_error_upd_eq. lia. }
  assert (P'o : forall j, j <> child -> j <> parent -> nth_error P' j = nth_error P j).
  { intros j H1 H2. unfold P', p2, P. rewrite !nth_error_upd_ne by auto. reflexivity. }
  assert (I't : nth_error I' tgt = Some child) by (apply nth_error_upd_eq; lia).
  assert (I'c : nth_error I' cid = Some parent).
  { unfold I'. rewrite nth_error_upd_ne by auto. apply nth_error_upd_eq. lia. }
  assert (I'o : forall j, j <> cid -> j <> tgt -> nth_error I' j = nth_error I j).
  { intros j H1 H2. unfold I', i2, I. rewrite !nth_error_upd_ne by auto. reflexivity. }
  assert (HWF' : WF N K P' I').
  { split.
    - intros pos Hpos. destruct (Nat.eq_dec pos child) as [->|Hn1]; [eauto|].
      destruct (Nat.eq_dec pos parent) as [->|Hn2]; [eauto|].
      destruct (W1 pos Hpos) as (id & F1 & F2). exists id. rewrite P'o by auto. split; [exact F1|].
      rewrite I'o; auto; intros ->; congruence.
    - intros id pos Hid Hpos. destruct (Nat.eq_dec id tgt) as [->|Hn1]; [congruence|].
      destruct (Nat.eq_dec id cid) as [->|Hn2]; [congruence|].
      rewrite I'o in Hid by auto. pose proof (W2 _ _ Hid Hpos) as F.
      rewrite P'o; auto; intros ->; congruence. }
  destruct (IH i2 p2 tgt tv child) as (i3 & p3 & par3 & R1 & R2 & R3 & R4 & R5 & R6 & R7);
    auto; try lia.
  fold P' I' in R6, R7.
  exists i3, p3, par3. split; [exact R1|]. split; [exact R2|]. split; [exact R3|]. split; [exact R4|].
  split; [exact R5|]. split.
  - intros id p Hp.
    destruct (Nat.eq_dec id tgt) as [->|Hn1].
    { destruct (R6 _ _ I't) as (p' & G1 & G2 & G3). exists p'. split; auto.
      assert (p = parent) as -> by congruence. split; [lia|]. lia. }
    destruct (Nat.eq_dec id cid) as [->|Hn2].
    { destruct (R6 _ _ I'c) as (p' & G1 & G2 & G3). exists p'. split; auto.
      assert (p = child) as -> by congruence. split; [lia|]. lia. }
    apply R6. now rewrite I'o by auto.
  - intros s SW Hs [O1 O2]. apply R7; [exact SW|lia|]. split.
    + intros c a b Hcc Hsc Hnc Ha Hb.
      destruct (Nat.eq_dec ((c - 1) / 2) parent) as [Ep|Ep].
      * rewrite Ep, P'p in Ha. inversion Ha; subst a.
        destruct (Nat.eq_dec c child) as [->|Hnc2].
        -- rewrite P'c in Hb. inversion Hb; subst b. apply le_of_cmp with cv tv; auto. now apply SW.
        -- rewrite P'o in Hb by lia. apply (Hmin SW c); auto; lia.
      * rewrite P'o in Ha by lia.
        destruct (Nat.eq_dec c parent) as [->|Hncp].
        -- rewrite P'p in Hb. inversion Hb; subst b. apply (O2 ltac:(lia) child); auto; lia.
        -- destruct (Nat.eq_dec c child) as [->|Hncc]; [lia|].
           rewrite P'o in Hb by lia. apply O1 with c; auto.
    + intros _ c a b Hcc Ep Ha Hb.
      replace ((child - 1) / 2) with parent in Ha by lia. rewrite P'p in Ha. inversion Ha; subst a.
      rewrite P'o in Hb by lia. apply O1 with c; auto; try lia. now rewrite Ep.
Qed.
End H.

Definition WFh (h : heap) : Prop :=
  length (h_id2pos h) = h_N h /\ length (h_pos2id h) = h_K h /\ 1 <= h_K h /\
  WF (h_N h) (h_K h) (h_pos2id h) (h_id2pos h).
Lemma WFh_heap_wf h : WFh h <-> heap_wf h.
Proof.
  unfold WFh, heap_wf, WF. tauto.
Qed.

Lemma upd_same_nth {A} (l : list A) i v : nth_error l i = Some v -> upd i v l = l.
Proof.
  revert i. induction l as [|x l IH]; intros [|i] H; cbn [upd nth_error] in *; try discriminate; auto.
  - congruence.
  - now rewrite IH.
Qed.

Lemma wf_pos h pos : heap_wf h -> pos < h_K h -> exists id,
  nth_error (h_pos2id h) pos = Some id /\ nth_error (h_id2pos h) id = Some pos /\ id < h_N h.
Proof.
  intros (L1 & L2 & HK & W1 & W2) Hp. destruct (W1 pos Hp) as (id & E1 & E2).
  exists id. repeat split; auto. apply nth_error_len in E2. lia.
Qed.

Lemma kept_pos h id : heap_wf h -> (kept h id <-> exists p, nth_error (h_id2pos h) id = Some p /\ p < h_K h).
Proof.
  intros Hwf. pose proof Hwf as (L1 & L2 & HK & W1 & W2). unfold kept. split.
  - intros Hin. apply In_nth_error in Hin as (p & Hp). pose proof (nth_error_len _ _ _ Hp) as Hl.
    destruct (W1 p) as (id' & E1 & E2); [lia|]. exists p. split; [congruence|lia].
  - intros (p & Hp & HpK). apply nth_error_In with p. auto.
Qed.

Section Ops.
Context {V : Type}.
Variable cmp : V -> V -> bool.

Lemma adjust_heap_spec values h s : heap_wf h -> h_N h <= length values -> s < h_K h ->
  exists h', adjust_heap cmp values h s (h_K h - 1) = Some h' /\ heap_wf h' /\
    h_N h' = h_N h /\ h_K h' = h_K h /\
    same_kept (h_K h) (h_id2pos h) (h_id2pos h') /\
    (strict_weak cmp -> ordered_from cmp values (h_K h) (S s) (h_pos2id h) ->
       ordered_from cmp values (h_K h) s (h_pos2id h')).
Proof.
  intros Hwf Hv Hs. pose proof Hwf as Hwf0. apply WFh_heap_wf in Hwf as (L1 & L2 & HK & W).
  destruct (wf_pos h s Hwf0 Hs) as (tgt & E1 & E2 & E3).
  destruct (nth_error_lt values tgt) as (tv & Ev); [lia|].
  unfold adjust_heap, rd. rewrite E1. cbn [bind]. rewrite Ev. cbn [bind].
  pose proof (upd_same_nth _ _ _ E1) as U1. pose proof (upd_same_nth _ _ _ E2) as U2.
  destruct (adjust_loop_spec cmp values (h_N h) (h_K h) Hv HK (S (h_K h - 1))
              (h_id2pos h) (h_pos2id h) tgt tv s)
    as (i2 & p2 & par & R1 & R2 & R3 & R4 & R5 & R6 & R7); auto; try lia.
  { now rewrite U1, U2. }
  rewrite R1. cbn [bind]. rewrite wr_upd by lia. cbn [bind]. rewrite wr_upd by lia. cbn [bind].
  eexists. split; [reflexivity|]. rewrite U1, U2 in *.
  split. { apply (proj1 (WFh_heap_wf _)). unfold WFh. cbn [h_N h_K h_id2pos h_pos2id]. rewrite !upd_length. auto. }
  cbn [h_N h_K h_id2pos h_pos2id]. split; [reflexivity|]. split; [reflexivity|].
  split; [exact R6|].
  intros SW HO. apply R7; [exact SW|lia|]. split; [|lia].
  intros c a b Hc Hsc Hne. apply HO; auto. lia.
Qed.

Lemma same_kept_refl K I : same_kept K I I.
Proof. intros id p Hp. exists p. tauto. Qed.
Lemma same_kept_trans K I J L : same_kept K I J -> same_kept K J L -> same_kept K I L.
Proof.
  intros H1 H2 id p Hp. destruct (H1 _ _ Hp) as (q & Hq & E1 & F1).
  destruct (H2 _ _ Hq) as (r & Hr & E2 & F2). exists r. split; auto. split; [tauto|].
  intros Hk. rewrite F2, F1; auto. rewrite F1; auto.
Qed.
Lemma same_kept_kept h h' : heap_wf h -> heap_wf h' -> h_K h' = h_K h -> h_N h' = h_N h ->
  same_kept (h_K h) (h_id2pos h) (h_id2pos h') -> forall id, kept h' id <-> kept h id.
Proof.
  intros W W' EK EN HS id. rewrite !kept_pos by assumption. rewrite EK. split.
  - intros (p' & Hp' & Hlt).
    pose proof (nth_error_len _ _ _ Hp') as Hl. destruct W' as (L1' & _). destruct W as (L1 & _).
    destruct (nth_error_lt (h_id2pos h) id) as (p & Hp); [lia|].
    destruct (HS _ _ Hp) as (q & Hq & E & _). exists p. split; auto.
    rewrite Hp' in Hq. inversion Hq; subst. tauto.
  - intros (p & Hp & Hlt). destruct (HS _ _ Hp) as (q & Hq & E & _). exists q. tauto.
Qed.

Lemma build_loop_spec values i : forall h, heap_wf h -> h_N h <= length values -> i < h_K h ->
  exists h', build_loop cmp values i h = Some h' /\ heap_wf h' /\ h_N h' = h_N h /\ h_K h' = h_K h /\
    same_kept (h_K h) (h_id2pos h) (h_id2pos h') /\
    (strict_weak cmp -> ordered_from cmp values (h_K h) (S i) (h_pos2id h) ->
       ordered_from cmp values (h_K h) 0 (h_pos2id h')).
Proof.
  induction i as [|i IH]; intros h Hwf Hv Hi; cbn [build_loop];
    destruct (adjust_heap_spec values h _ Hwf Hv Hi) as (h1 & E1 & W1 & N1 & K1 & S1 & O1);
    rewrite E1; cbn [bind].
  - exists h1. repeat split; auto; apply W1.
  - destruct (IH h1) as (h2 & E2 & W2 & N2 & K2 & S2 & O2); auto; try lia.
    exists h2. rewrite E2. split; [reflexivity|]. split; [exact W2|]. split; [lia|]. split; [lia|].
    rewrite K1 in *. split; [eapply same_kept_trans; eauto|]. auto.
Qed.

Lemma build_heap_spec values h : heap_wf h -> h_N h <= length values ->
  exists h', build_heap cmp values h = Some h' /\ heap_wf h' /\ h_N h' = h_N h /\ h_K h' = h_K h /\
    same_kept (h_K h) (h_id2pos h) (h_id2pos h') /\
    (strict_weak cmp -> ordered_from cmp values (h_K h) 0 (h_pos2id h')).
Proof.
  intros Hwf Hv. pose proof Hwf as (L1 & L2 & HK & _). unfold build_heap.
  destruct (h_K h) as [|k] eqn:EK; [lia|].
  destruct (build_loop_spec values (k / 2) h Hwf Hv) as (h' & E & W & N1 & K1 & S1 & O1); [lia|].
  rewrite EK in *. exists h'. repeat split; auto; try apply W.
  intros SW. apply O1; auto. intros c a b Hc Hs. lia.
Qed.

Lemma heap_order_from values h : heap_order cmp values h <-> ordered_from cmp values (h_K h) 0 (h_pos2id h).
Proof.
  unfold heap_order, ordered_from. split; intros H c a b Hc.
  - intros _. now apply H.
  - apply H; auto. lia.
Qed.

(** In an ordered heap the top is not after any kept id. *)
Lemma order_top values h top : strict_weak cmp -> heap_wf h -> h_N h <= length values ->
  heap_order cmp values h -> nth_error (h_pos2id h) 0 = Some top ->
  forall pos id, nth_error (h_pos2id h) pos = Some id -> le_id cmp values top id.
Proof.
  intros SW Hwf Hv HO Ht. pose proof Hwf as (L1 & L2 & HK & _).
  induction pos as [pos IH] using lt_wf_ind. intros id Hid.
  destruct pos as [|pos].
  - assert (id = top) as -> by congruence. intros x y Hx Hy. assert (x = y) as -> by congruence.
    destruct SW as [A _]. destruct (cmp y y) eqn:E; [|reflexivity]. pose proof (A _ _ E). congruence.
  - pose proof (nth_error_len _ _ _ Hid) as Hl.
    destruct (wf_pos h ((S pos - 1) / 2)) as (pid & P1 & P2 & P3); auto; try lia.
    destruct (nth_error_lt values pid) as (y & Hy); [lia|].
    eapply le_trans; [exact SW|exact Hy|apply (IH ((S pos - 1) / 2)); auto; lia|].
    apply (HO (S pos)); auto. lia.
Qed.

(** UpdateHeap. *)
Lemma update_heap_spec values h idx : heap_wf h -> h_N h <= length values -> idx < h_N h ->
  exists h' r, update_heap cmp values h idx = Some (h', r) /\ heap_wf h' /\
    h_N h' = h_N h /\ h_K h' = h_K h /\
    (kept h idx -> h' = h /\ r = None) /\
    (~ kept h idx -> exists top xt xi, nth_error (h_pos2id h) 0 = Some top /\
       nth_error values top = Some xt /\ nth_error values idx = Some xi /\
       (cmp xt xi = false -> h' = h /\ r = Some idx) /\
       (cmp xt xi = true -> r = Some top /\
          (forall id, kept h' id <-> (id = idx \/ (kept h id /\ id <> top))) /\
          (strict_weak cmp -> heap_order cmp values h -> heap_order cmp values h'))).
Proof.
  intros Hwf Hv Hidx. pose proof Hwf as (L1 & L2 & HK & W1 & W2).
  unfold update_heap, rd. destruct (nth_error_lt (h_id2pos h) idx) as (cur & Ecur); [lia|].
  rewrite Ecur. cbn [bind].
  destruct (Nat.ltb_spec cur (h_K h)) as [Hin|Hout].
  { assert (kept h idx) by (apply kept_pos; eauto).
    exists h, None. repeat split; auto; tauto. }
  assert (Hnk : ~ kept h idx).
  { rewrite kept_pos by auto. intros (p & Hp & Hlt). assert (p = cur) by congruence. lia. }
  destruct (nth_error_lt values idx) as (xi & Exi); [lia|]. rewrite Exi. cbn [bind].
  destruct (wf_pos h 0 Hwf) as (top & Et1 & Et2 & Et3); [lia|].
  destruct (nth_error_lt values top) as (xt & Ext); [lia|].
  unfold value_by_pos, rd. rewrite Et1. cbn [bind]. rewrite Ext. cbn [bind].
  destruct (cmp xt xi) eqn:Ecmp.
  2:{ exists h, (Some idx). split; [reflexivity|]. split; [exact Hwf|]. split; [reflexivity|].
      split; [reflexivity|]. split; [tauto|]. intros _. exists top, xt, xi.
      repeat split; auto; congruence. }
  assert (Hne : idx <> top) by (intros ->; apply Hnk; apply nth_error_In with 0; auto).
  do 3 (rewrite wr_upd by (rewrite ?upd_length; lia); cbn [bind]).
  set (i2 := upd idx 0 (upd top (h_K h) (h_id2pos h))). set (p2 := upd 0 idx (h_pos2id h)).
  set (h1 := mkheap (h_N h) (h_K h) i2 p2).
  assert (I2i : nth_error i2 idx = Some 0) by (apply nth_error_upd_eq; rewrite upd_length; lia).
  assert (I2t : nth_error i2 top = Some (h_K h)).
  { unfold i2. rewrite nth_error_upd_ne by auto. apply nth_error_upd_eq. lia. }
  assert (I2o : forall j, j <> idx -> j <> top -> nth_error i2 j = nth_error (h_id2pos h) j).
  { intros j H1 H2. unfold i2. rewrite !nth_error_upd_ne by auto. reflexivity. }
  assert (P20 : nth_error p2 0 = Some idx) by (apply nth_error_upd_eq; lia).
  assert (P2o : forall j, j <> 0 -> nth_error p2 j = nth_error (h_pos2id h) j).
  { intros j Hj. unfold p2. rewrite nth_error_upd_ne by auto. reflexivity. }
  assert (Hwf1 : heap_wf h1).
  { unfold heap_wf, h1. cbn [h_N h_K h_id2pos h_pos2id].
    split; [unfold i2; rewrite !upd_length; auto|]. split; [unfold p2; rewrite upd_length; auto|].
    split; [auto|]. split.
    - intros pos Hpos. destruct (Nat.eq_dec pos 0) as [->|Hn]; [eauto|].
      destruct (W1 pos Hpos) as (id & F1 & F2). exists id. rewrite P2o by auto.
      split; auto. rewrite I2o; auto; intros ->; [rewrite Ecur in F2; inversion F2; lia|congruence].
    - intros id pos Hid Hpos. destruct (Nat.eq_dec id idx) as [->|Hn1]; [congruence|].
      destruct (Nat.eq_dec id top) as [->|Hn2]; [rewrite I2t in Hid; inversion Hid; lia|].
      rewrite I2o in Hid by auto. pose proof (W2 _ _ Hid Hpos).
      rewrite P2o; auto. intros ->. congruence. }
  destruct (adjust_heap_spec values h1 0 Hwf1) as (h' & E & W' & N' & K' & S' & O');
    [cbn [h1 h_N]; lia|cbn [h1 h_K]; lia|].
  cbn [h1 h_K] in E. fold h1 in E. rewrite E. cbn [bind].
  exists h', (Some top). split; [reflexivity|]. split; [exact W'|]. split; [exact N'|].
  split; [exact K'|]. split; [tauto|]. intros _. exists top, xt, xi.
  split; [reflexivity|]. split; [auto|]. split; [auto|]. split; [congruence|].
  intros _. split; [reflexivity|]. split.
  - intros id. rewrite (same_kept_kept h1 h') by auto. rewrite (kept_pos h1), (kept_pos h) by auto.
    cbn [h1 h_K h_id2pos]. split.
    + intros (p & Hp & Hlt). destruct (Nat.eq_dec id idx) as [->|Hn1]; [auto|].
      destruct (Nat.eq_dec id top) as [->|Hn2]; [rewrite I2t in Hp; inversion Hp; lia|].
      rewrite I2o in Hp by auto. right. eauto.
    + intros [->|((p & Hp & Hlt) & Hn2)]; [exists 0; split; auto; lia|].
      destruct (Nat.eq_dec id idx) as [->|Hn1]; [exists 0; split; auto; lia|].
      exists p. rewrite I2o by auto. auto.
  - intros SW HO. apply heap_order_from. rewrite K'. apply O'; auto.
    intros c a b Hc Hs Ha Hb. cbn [h1 h_K h_pos2id] in *.
    rewrite P2o in Ha by lia. rewrite P2o in Hb by lia. apply (HO c); auto.
Qed.

(* --------------------------------------------------------------- histories *)

Lemma set_N_spec h N : heap_wf h -> h_N h <= N -> exists h', heap_set_N h N = Some h' /\
  heap_wf h' /\ h_N h' = N /\ h_K h' = h_K h /\ h_pos2id h' = h_pos2id h.
Proof.
  intros Hwf HN. pose proof Hwf as (L1 & L2 & HK & W1 & W2). unfold heap_set_N.
  destruct (h_K h) as [|k] eqn:EK; [lia|]. replace (N <? h_N h) with false by lia.
  eexists. split; [reflexivity|].
  rewrite firstn_all2 by lia.
  assert (HKN : S k <= h_N h).
  { (* K distinct ids below N *)
    enough (length (h_pos2id h) <= length (seq 0 (length (h_id2pos h)))) as Hle
      by (rewrite seq_length in Hle; lia).
    apply NoDup_incl_length.
    - apply NoDup_nth_error. intros i j Hi Hij. destruct (W1 i) as (id & A1 & A2); [lia|].
      assert (Hj : j < length (h_pos2id h)).
      { apply nth_error_Some. rewrite <- Hij. congruence. }
      destruct (W1 j) as (id' & B1 & B2); [lia|]. assert (id = id') as <- by congruence. congruence.
    - intros id Hin. apply In_nth_error in Hin as (p & Hp). pose proof (nth_error_len _ _ _ Hp).
      destruct (W1 p) as (id' & A1 & A2); [lia|]. assert (id' = id) as -> by congruence.
      apply in_seq. apply nth_error_len in A2. lia. }
  cbn [h_N h_K h_id2pos h_pos2id]. split; [|auto].
  unfold heap_wf. cbn [h_N h_K h_id2pos h_pos2id].
  split; [rewrite app_length, seq_length; lia|]. split; [lia|]. split; [lia|]. split.
  - intros pos Hpos. destruct (W1 pos Hpos) as (id & A1 & A2). exists id. split; auto.
    rewrite nth_error_app1; auto. apply nth_error_len in A2. auto.
  - intros id pos Hid Hpos. destruct (Nat.lt_ge_cases id (length (h_id2pos h))) as [Hl|Hl].
    + rewrite nth_error_app1 in Hid by auto. auto.
    + rewrite nth_error_app2 in Hid by auto.
      apply nth_error_nth with (d := 0) in Hid as Hid2.
      pose proof (nth_error_len _ _ _ Hid) as Hl2. rewrite seq_length in Hl2.
      rewrite seq_nth in Hid2 by lia. lia.
Qed.

Lemma hop_step h o : heap_wf h -> hop_ok (h_N h) (h_K h) o ->
  exists h', hop_run cmp h o = Some h' /\ heap_wf h' /\ h_K h' = h_K h /\ h_N h' = hop_N (h_N h) o.
Proof.
  intros Hwf Hok. destruct o as [values s|values|values idx|N]; cbn [hop_run hop_ok hop_N] in *.
  - destruct (adjust_heap_spec values h s) as (h' & E & W & EN & EK & _); try assumption; try apply Hok. exists h'. auto.
  - destruct (build_heap_spec values h) as (h' & E & W & EN & EK & _); try assumption; try apply Hok. exists h'. auto.
  - destruct (update_heap_spec values h idx) as (h' & r & E & W & EN & EK & _); try assumption; try apply Hok.
    rewrite E. cbn [bind]. exists h'. auto.
  - destruct (set_N_spec h N) as (h' & E & W & EN & EK & _); auto. exists h'. auto.
Qed.

Lemma hops_spec ops : forall h, heap_wf h -> hops_ok (h_N h) (h_K h) ops ->
  exists h', hops_run cmp h ops = Some h' /\ heap_wf h' /\ h_K h' = h_K h /\
    h_N h' = hops_N (h_N h) ops.
Proof.
  induction ops as [|o ops IH]; intros h Hwf Hok; cbn [hops_run hops_ok hops_N] in *.
  - eauto.
  - destruct Hok as [H1 H2]. destruct (hop_step h o Hwf H1) as (h1 & E & W & EK & EN).
    rewrite E. cbn [bind]. destruct (IH h1 W) as (h2 & E2 & W2 & EK2 & EN2).
    { now rewrite EK, EN. }
    exists h2. rewrite E2, EK2, EN2, EN. auto.
Qed.

Lemma init_wf N K : 1 <= K <= N -> heap_wf (mkheap N K (seq 0 N) (seq 0 K)).
Proof.
  intros H. unfold heap_wf. cbn [h_N h_K h_id2pos h_pos2id]. rewrite !seq_length.
  assert (S0 : forall n i, i < n -> nth_error (seq 0 n) i = Some i).
  { intros n i Hi. rewrite (nth_error_nth' _ 0) by (rewrite seq_length; lia).
    now rewrite seq_nth by lia. }
  repeat split; auto; try lia.
  - intros pos Hpos. exists pos. rewrite !S0 by lia. auto.
  - intros id pos Hid Hpos. pose proof (nth_error_len _ _ _ Hid) as Hl. rewrite seq_length in Hl.
    rewrite S0 in Hid by lia. inversion Hid; subst. now apply S0.
Qed.

Lemma heap_init_spec values N K : 1 <= K <= N -> N <= length values ->
  exists h, heap_init cmp N K values = Some h /\ heap_wf h /\ h_N h = N /\ h_K h = K /\
    (forall id, kept h id <-> id < K) /\
    (strict_weak cmp -> heap_order cmp values h).
Proof.
  intros HK Hv. pose proof (init_wf N K HK) as Hwf. unfold heap_init.
  destruct (build_heap_spec values _ Hwf) as (h & E & W & EN & EK & S & O); [assumption|].
  cbn [h_N h_K h_id2pos h_pos2id] in *. exists h. split; [exact E|]. split; [exact W|].
  split; [exact EN|]. split; [exact EK|]. split.
  - intros id. rewrite (same_kept_kept _ h Hwf W) by auto. unfold kept. cbn [h_pos2id].
    rewrite in_seq. lia.
  - intros SW. apply heap_order_from. rewrite EK. auto.
Qed.

(** Init with given ids. *)
Lemma set_positions_spec ids : forall i t, (forall id, In id ids -> id < length t) -> NoDup ids ->
  exists t', set_positions i ids t = Some t' /\ length t' = length t /\
    (forall j id, nth_error ids j = Some id -> nth_error t' id = Some (i + j)) /\
    (forall id, ~ In id ids -> nth_error t' id = nth_error t id).
Proof.
  induction ids as [|x ids IH]; intros i t Hb Hnd; cbn [set_positions].
  - exists t. repeat split; auto. intros [|j] id; discriminate.
  - inversion Hnd as [|? ? Hnx Hnd']; subst.
    rewrite wr_upd by (apply Hb; left; auto). cbn [bind].
    destruct (IH (S i) (upd x i t)) as (t' & E & L & A & B).
    { intros id Hid. rewrite upd_length. apply Hb. now right. } { exact Hnd'. }
    exists t'. rewrite upd_length in L. split; [exact E|]. split; [exact L|]. split.
    + intros [|j] id Hj; cbn [nth_error] in Hj.
      * inversion Hj; subst. rewrite B by assumption. rewrite nth_error_upd_eq by (apply Hb; left; auto).
        f_equal. lia.
      * rewrite (A j id Hj). f_equal. lia.
    + intros id Hid. rewrite B by (intros ?; apply Hid; now right).
      apply nth_error_upd_ne. intros ->. apply Hid. now left.
Qed.

Lemma heap_init_idx_spec values N K ids : 1 <= K <= length ids -> N <= length values ->
  NoDup (firstn K ids) -> (forall id, In id (firstn K ids) -> id < N) ->
  exists h, heap_init_idx cmp N K ids values = Some h /\ heap_wf h /\ h_N h = N /\ h_K h = K /\
    (forall id, kept h id <-> In id (firstn K ids)) /\
    (strict_weak cmp -> heap_order cmp values h).
Proof.
  intros HK Hv Hnd Hb. unfold heap_init_idx. replace (K <=? length ids) with true by lia.
  set (l := firstn K ids) in *.
  assert (Ll : length l = K) by (unfold l; rewrite firstn_length_le; lia).
  destruct (set_positions_spec l 0 (repeat K N)) as (t & E & L & A & B); auto.
  { intros id Hid. rewrite repeat_length. auto. }
  rewrite repeat_length in L. rewrite E. cbn [bind].
  assert (Hwf : heap_wf (mkheap N K t l)).
  { unfold heap_wf. cbn [h_N h_K h_id2pos h_pos2id]. split; [exact L|]. split; [exact Ll|].
    split; [lia|]. split.
    - intros pos Hpos. destruct (nth_error_lt l pos) as (id & Hid); [lia|]. exists id.
      split; auto. now apply (A pos id).
    - intros id pos Hid Hpos. destruct (in_dec Nat.eq_dec id l) as [Hin|Hnin].
      + apply In_nth_error in Hin as (j & Hj). pose proof (A j id Hj) as Aj. cbn in Aj. congruence.
      + rewrite B in Hid by auto. apply nth_error_In, repeat_spec in Hid. lia. }
  destruct (build_heap_spec values _ Hwf) as (h & E2 & W & EN & EK & S & O); [assumption|].
  cbn [h_N h_K h_id2pos h_pos2id] in *. exists h. split; [exact E2|]. split; [exact W|].
  split; [exact EN|]. split; [exact EK|]. split.
  - intros id. rewrite (same_kept_kept _ h Hwf W) by auto. reflexivity.
  - intros SW. apply heap_order_from. rewrite EK. auto.
Qed.

(** Offering ids: those offered (and those dropped) are never strictly better than a kept one. *)
Lemma offer_all_inv values ids : strict_weak cmp -> forall h (done : nat -> Prop),
  heap_wf h -> h_N h <= length values -> (forall i, In i ids -> i < h_N h) ->
  heap_order cmp values h ->
  (forall o k, done o -> ~ kept h o -> kept h k -> le_id cmp values o k) ->
  exists h', offer_all cmp values h ids = Some h' /\ heap_wf h' /\ h_N h' = h_N h /\
    h_K h' = h_K h /\ heap_order cmp values h' /\
    (forall o k, done o \/ In o ids \/ kept h o -> ~ kept h' o -> kept h' k -> le_id cmp values o k).
Proof.
  intros SW. induction ids as [|i ids IH]; intros h done Hwf Hv Hids HO Hd; cbn [offer_all].
  - exists h. repeat split; auto; try apply Hwf. intros o k [H|[[]|H]]; [now apply Hd|tauto].
  - destruct (update_heap_spec values h i Hwf Hv) as (h1 & r & E & W & EN & EK & Hk & Hnk).
    { apply Hids. now left. }
    rewrite E. cbn [bind].
    (* invariant for h1 with i added to done, and everything previously kept added as well *)
    assert (G : heap_order cmp values h1 /\
      forall o k, (done o \/ o = i \/ kept h o) -> ~ kept h1 o -> kept h1 k -> le_id cmp values o k).
    { destruct (in_dec Nat.eq_dec i (h_pos2id h)) as [Hin|Hnin].
      - destruct (Hk Hin) as [-> _]. split; [exact HO|].
        intros o k [Ho|[->|Ho]] Hno Hkk; [now apply Hd|tauto|tauto].
      - destruct (Hnk Hnin) as (top & xt & xi & T1 & T2 & T3 & Hf & Ht).
        assert (Htop : forall k, kept h k -> le_id cmp values top k).
        { intros k Hkk. apply In_nth_error in Hkk as (p & Hp).
          exact (order_top values h top SW Hwf Hv HO T1 p k Hp). }
        destruct (cmp xt xi) eqn:Ecmp.
        + destruct (Ht eq_refl) as (_ & Hkept & HO1). split; [now apply HO1|].
          assert (Htk : forall k, kept h1 k -> le_id cmp values top k).
          { intros k Hkk. apply Hkept in Hkk as [->|[Hkk _]]; [|auto].
            apply (le_of_cmp cmp values top i xt xi); auto. destruct SW as [A _]. now apply A. }
          assert (Hktop : kept h top) by (apply nth_error_In with 0; auto).
          intros o k Ho Hno Hkk.
          assert (Hoi : o <> i) by (intros ->; apply Hno, Hkept; auto).
          assert (Ho2 : o = top \/ (done o /\ ~ kept h o)).
          { destruct (Nat.eq_dec o top) as [|Hot]; [auto|]. right.
            assert (~ kept h o) by (intros Hc; apply Hno, Hkept; auto).
            destruct Ho as [Ho|[Ho|Ho]]; [auto|congruence|tauto]. }
          destruct Ho2 as [->|[Ho2 Hnk2]]; [auto|].
          eapply le_trans; [exact SW|exact T2|apply Hd; auto|auto].
        + destruct (Hf eq_refl) as [-> _]. split; [exact HO|].
          intros o k [Ho|[->|Ho]] Hno Hkk; [now apply Hd| |tauto].
          eapply le_trans; [exact SW|exact T2| |now apply Htop].
          apply (le_of_cmp cmp values i top xi xt); auto. }
    destruct G as [HO1 G].
    destruct (IH h1 (fun o => done o \/ o = i \/ kept h o)) as (h2 & E2 & W2 & EN2 & EK2 & HO2 & G2);
      auto; try lia.
    { intros j Hj. rewrite EN. apply Hids. now right. }
    exists h2. split; [exact E2|]. split; [exact W2|]. split; [lia|]. split; [lia|].
    split; [exact HO2|]. intros o k Ho. apply G2.
    destruct Ho as [Ho|[[->|Ho]|Ho]]; auto.
Qed.

Lemma offer_all_best values N K : strict_weak cmp -> 1 <= K <= N -> N <= length values ->
  exists h0 h, heap_init cmp N K values = Some h0 /\
    offer_all cmp values h0 (seq 0 N) = Some h /\ heap_wf h /\ h_N h = N /\ h_K h = K /\
    best_k cmp values h.
Proof.
  intros SW HK Hv. destruct (heap_init_spec values N K HK Hv) as (h0 & E & W & EN & EK & Hk & HO).
  destruct (offer_all_inv values (seq 0 N) SW h0 (fun _ => False)) as (h & E2 & W2 & EN2 & EK2 & HO2 & G);
    auto; try lia.
  { intros i Hi. apply in_seq in Hi. lia. }
  exists h0, h. split; [exact E|]. split; [exact E2|]. split; [exact W2|]. split; [lia|]. split; [lia|].
  intros k o Hkk Ho Hno. apply G; auto. right. left. apply in_seq. lia.
Qed.
End Ops.
