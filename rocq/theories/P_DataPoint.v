(** Proofs about DataPoint::Sort. *)
From Coq Require Import Permutation Sorted.
From Verif Require Import M_Base M_DataPoint.

Section P.
Context {V : Type} (d : Z * V).
Notation at_ L k := (nth k L d).

Lemma upd_length {A} i (v : A) l : length (upd i v l) = length l.
Proof. revert i; induction l as [|x l IH]; intros [|i]; cbn; auto. Qed.

Lemma nth_upd {A} (dd : A) i v l k : (i < length l)%nat ->
  nth k (upd i v l) dd = if (k =? i)%nat then v else nth k l dd.
Proof.
  revert i k; induction l as [|x l IH]; intros i k Hi; cbn in Hi; [lia|].
  destruct i, k; cbn; auto. rewrite IH by lia. reflexivity.
Qed.

Lemma map_upd {A B} (f : A -> B) i v l : map f (upd i v l) = upd i (f v) (map f l).
Proof. revert i; induction l as [|x l IH]; intros [|i]; cbn; auto. now rewrite IH. Qed.

Lemma wr_upd {A} i (v : A) l : (i < length l)%nat -> wr l i v = Some (upd i v l).
Proof.
  revert i; induction l as [|x l IH]; intros [|i] Hi; cbn in *; try lia; auto.
  now rewrite IH by lia.
Qed.

Lemma rd_map {A B} (f : A -> B) dd l i : (i < length l)%nat ->
  rd (map f l) i = Some (f (nth i l dd)).
Proof.
  intros Hi. unfold rd. rewrite nth_error_map, (nth_error_nth' l dd Hi). reflexivity.
Qed.

Lemma wr_map {A B} (f : A -> B) i v l : (i < length l)%nat ->
  wr (map f l) i (f v) = Some (map f (upd i v l)).
Proof. intros Hi. rewrite wr_upd by now rewrite map_length. now rewrite map_upd. Qed.

Lemma upd_split {A} i (v : A) l : (i < length l)%nat ->
  upd i v l = firstn i l ++ v :: skipn (S i) l.
Proof.
  revert i; induction l as [|x l IH]; intros [|i] Hi; cbn in *; try lia; auto.
  now rewrite IH by lia.
Qed.

Lemma upd_perm_cons {A} i (v w : A) l : (i < length l)%nat ->
  Permutation (v :: upd i w l) (w :: upd i v l).
Proof.
  revert i; induction l as [|x l IH]; intros [|i] Hi; cbn in *; try lia.
  - apply perm_swap.
  - specialize (IH i ltac:(lia)).
    rewrite perm_swap. etransitivity; [apply perm_skip, IH|]. apply perm_swap.
Qed.

(** Moving the hole: writing l[j] into i and x into j is a permutation of writing x into i. *)
Lemma upd_move {A} (dd x : A) l : forall i j, (i < length l)%nat -> (j < length l)%nat -> i <> j ->
  Permutation (upd j x (upd i (nth j l dd) l)) (upd i x l).
Proof.
  induction l as [|y l IH]; intros [|i] [|j] Hi Hj Hne; cbn in *; try lia.
  - symmetry. 
    assert (E : l = upd j (nth j l dd) l).
    { clear -Hj. assert (j < length l)%nat by lia. clear Hj. revert j H.
      induction l as [|z l IH]; intros [|j] H; cbn in *; try lia; auto. now rewrite <- IH by lia. }
    rewrite E at 1. apply upd_perm_cons. lia.
  - symmetry.
    assert (E : l = upd i (nth i l dd) l).
    { clear -Hi. assert (i < length l)%nat by lia. clear Hi. revert i H.
      induction l as [|z l IH]; intros [|j] H; cbn in *; try lia; auto. now rewrite <- IH by lia. }
    etransitivity; [|apply upd_perm_cons; lia]. apply Permutation_refl.
  - apply perm_skip, IH; lia.
Qed.

Lemma upd_same {A} (dd : A) i l : (i < length l)%nat -> upd i (nth i l dd) l = l.
Proof.
  revert i; induction l as [|z l IH]; intros [|i] Hi; cbn in *; try lia; auto.
  now rewrite IH by lia.
Qed.

Notation fsts := (map (@fst Z V)).
Notation snds := (map (@snd Z V)).

Lemma scan_right_spec fuel : forall (L : list (Z * V)) temp i j,
  (i <= j < length L)%nat -> (j - i < fuel)%nat ->
  exists j', scan_right fuel (fsts L) temp i j = Some j' /\ (i <= j' <= j)%nat /\
    (forall k, (j' < k <= j)%nat -> temp < fst (at_ L k)) /\
    ((i < j')%nat -> fst (at_ L j') <= temp).
Proof.
  induction fuel as [|f IH]; intros L temp i j Hij Hf; [lia|].
  cbn [scan_right]. destruct (Nat.ltb_spec i j) as [Hlt|Hge].
  - rewrite (rd_map fst d) by lia. cbn [bind].
    destruct (Z.ltb_spec temp (fst (at_ L j))) as [Ht|Ht].
    + destruct (IH L temp i (j - 1)%nat) as (j' & E & Hb & Hk & Hj); [lia|lia|].
      exists j'. split; [exact E|]. split; [lia|]. split; [|exact Hj].
      intros k Hkk. destruct (Nat.eq_dec k j) as [->|]; [lia|]. apply Hk; lia.
    + exists j. split; [reflexivity|]. split; [lia|]. split; [lia|]. intros _; lia.
  - exists j. split; [reflexivity|]. split; [lia|]. split; lia.
Qed.

Lemma scan_left_spec fuel : forall (L : list (Z * V)) temp i j,
  (i <= j < length L)%nat -> (j - i < fuel)%nat ->
  exists i', scan_left fuel (fsts L) temp i j = Some i' /\ (i <= i' <= j)%nat /\
    (forall k, (i <= k < i')%nat -> fst (at_ L k) < temp) /\
    ((i' < j)%nat -> temp <= fst (at_ L i')).
Proof.
  induction fuel as [|f IH]; intros L temp i j Hij Hf; [lia|].
  cbn [scan_left]. destruct (Nat.ltb_spec i j) as [Hlt|Hge].
  - rewrite (rd_map fst d) by lia. cbn [bind].
    destruct (Z.ltb_spec (fst (at_ L i)) temp) as [Ht|Ht].
    + destruct (IH L temp (i + 1)%nat j) as (i' & E & Hb & Hk & Hj); [lia|lia|].
      exists i'. split; [exact E|]. split; [lia|]. split; [|exact Hj].
      intros k Hkk. destruct (Nat.eq_dec k i) as [->|]; [lia|]. apply Hk; lia.
    + exists i. split; [reflexivity|]. split; [lia|]. split; [lia|]. intros _; lia.
  - exists i. split; [reflexivity|]. split; [lia|]. split; lia.
Qed.

(** Invariant of the partition loop: hole at [h], pivot [pv] out of the array. *)
Definition PInv (L0 L : list (Z * V)) (pv : Z * V) (low high i j h : nat) : Prop :=
  length L = length L0 /\
  Permutation (upd h pv L) L0 /\
  (forall k, (k < low \/ high < k)%nat -> at_ L k = at_ L0 k) /\
  (forall k, (low <= k < i)%nat -> fst (at_ L k) <= fst pv) /\
  (forall k, (j < k <= high)%nat -> fst pv <= fst (at_ L k)) /\
  (forall Q : Z * V -> Prop, (forall k, (low <= k <= high)%nat -> Q (at_ L0 k)) ->
     Q pv /\ forall k, (low <= k <= high)%nat -> k <> h -> Q (at_ L k)).

Lemma PInv_move L0 L pv low high i j h h' i' j' :
  PInv L0 L pv low high i j h ->
  (low <= h <= high)%nat -> (low <= h' <= high)%nat -> (high < length L0)%nat -> h <> h' ->
  (forall k, (low <= k < i')%nat -> k <> h -> fst (at_ L k) <= fst pv) ->
  ((h < i')%nat -> fst (at_ L h') <= fst pv) ->
  (forall k, (j' < k <= high)%nat -> k <> h -> fst pv <= fst (at_ L k)) ->
  ((j' < h)%nat -> fst pv <= fst (at_ L h')) ->
  PInv L0 (upd h (at_ L h') L) pv low high i' j' h'.
Proof.
  intros (Hlen & Hp & Hout & Hlo & Hhi & HQ) Hh Hh' Hhigh Hne H1 H2 H3 H4.
  assert (Hhl : (h < length L)%nat) by lia. assert (Hhl' : (h' < length L)%nat) by lia.
  repeat split.
  - now rewrite upd_length.
  - rewrite upd_move by lia. exact Hp.
  - intros k Hk. rewrite nth_upd by lia. destruct (Nat.eqb_spec k h); [lia|]. now apply Hout.
  - intros k Hk. rewrite nth_upd by lia. destruct (Nat.eqb_spec k h); [subst; apply H2; lia|].
    apply H1; lia.
  - intros k Hk. rewrite nth_upd by lia. destruct (Nat.eqb_spec k h); [subst; apply H4; lia|].
    apply H3; lia.
  - now apply (HQ Q).
  - intros k Hk Hkne. rewrite nth_upd by lia. destruct (HQ Q H) as [_ Hall].
    destruct (Nat.eqb_spec k h); [apply Hall; lia|]. apply Hall; lia.
Qed.

Lemma part_loop_spec fuel : forall L0 L pv low high i j,
  (low <= i)%nat -> (i <= j <= high)%nat -> (high < length L0)%nat -> (j - i < fuel)%nat ->
  PInv L0 L pv low high i j i ->
  exists L' m, part_loop fuel (fsts L) (snds L) (fst pv) i j = Some (fsts L', snds L', m, m) /\
    (low <= m <= high)%nat /\ PInv L0 L' pv low high m m m.
Proof.
  induction fuel as [|f IH]; intros L0 L pv low high i j Hlo Hij Hhi Hf HI; [lia|].
  cbn [part_loop]. destruct (Nat.ltb_spec i j) as [Hlt|Hge].
  2: { assert (i = j) by lia; subst j. exists L, i. split; [reflexivity|split; [lia|exact HI]]. }
  pose proof HI as (Hlen & Hp & Hout & HL & HH & HQ).
  destruct (scan_right_spec (S f) L (fst pv) i j) as (j1 & -> & Hj1 & Hr1 & Hr2); [lia|lia|].
  cbn [bind].
  destruct (Nat.ltb_spec i j1) as [Hlt1|Hge1].
  - (* move L[j1] into i *)
    rewrite (rd_map fst d) by lia. cbn [bind]. rewrite wr_map by lia. cbn [bind].
    rewrite (rd_map snd d) by lia. cbn [bind]. rewrite wr_map by lia. cbn [bind].
    set (L1 := upd i (at_ L j1) L).
    assert (HI1 : PInv L0 L1 pv low high (i + 1) j1 j1).
    { eapply PInv_move; try eassumption; try lia.
      - intros k Hk Hne. apply HL; lia.
      - intros k Hk Hne. destruct (Nat.le_gt_cases k j); [apply Z.lt_le_incl, Hr1|apply HH]; lia. }
    assert (Hlen1 : length L1 = length L0) by apply HI1.
    destruct (scan_left_spec (S f) L1 (fst pv) (i + 1) j1) as (i2 & -> & Hi2 & Hl1 & Hl2); [lia|lia|].
    cbn [bind].
    destruct (Nat.ltb_spec i2 j1) as [Hlt2|Hge2].
    + rewrite (rd_map fst d) by lia. cbn [bind]. rewrite wr_map by lia. cbn [bind].
      rewrite (rd_map snd d) by lia. cbn [bind]. rewrite wr_map by lia. cbn [bind].
      apply IH; try lia.
      pose proof HI1 as (_ & _ & _ & HL1 & HH1 & _).
      eapply PInv_move; try eassumption; try lia.
      * intros k Hk Hne. destruct (Nat.lt_ge_cases k (i + 1)); [apply HL1|apply Z.lt_le_incl, Hl1]; lia.
      * intros k Hk Hne. apply HH1; lia.
    + assert (i2 = j1) by lia; subst i2. apply IH; try lia.
      destruct HI1 as (A1 & A2 & A3 & A4 & A5 & A6).
      split; [exact A1|]. split; [exact A2|]. split; [exact A3|]. split; [|split; [exact A5|exact A6]].
      intros k Hk. destruct (Nat.lt_ge_cases k (i + 1)); [apply A4|apply Z.lt_le_incl, Hl1]; lia.
  - assert (j1 = i) by lia; subst j1. cbn [bind].
    cbn [scan_left]. rewrite Nat.ltb_irrefl. cbn [bind]. rewrite Nat.ltb_irrefl. cbn [bind].
    apply IH; try lia.
    split; [exact Hlen|]. split; [exact Hp|]. split; [exact Hout|]. split; [exact HL|].
    split; [|exact HQ].
    intros k Hk. destruct (Nat.le_gt_cases k j); [apply Z.lt_le_incl, Hr1|apply HH]; lia.
Qed.

Definition sorted_seg (L : list (Z * V)) (low high : nat) : Prop :=
  forall k m, (low <= k <= m)%nat -> (m <= high)%nat -> fst (at_ L k) <= fst (at_ L m).

Definition QPost (L L' : list (Z * V)) (low high : nat) : Prop :=
  length L' = length L /\ Permutation L' L /\
  (forall k, (k < low \/ high < k)%nat -> at_ L' k = at_ L k) /\
  (forall Q : Z * V -> Prop, (forall k, (low <= k <= high)%nat -> Q (at_ L k)) ->
     forall k, (low <= k <= high)%nat -> Q (at_ L' k)) /\
  sorted_seg L' low high.

Lemma quick_sort_spec fuel : forall L low high,
  (low <= high < length L)%nat -> (high - low < fuel)%nat ->
  exists L', quick_sort fuel (fsts L) (snds L) low high = Some (fsts L', snds L') /\
             QPost L L' low high.
Proof.
  induction fuel as [|f IH]; intros L low high Hlh Hf; [lia|].
  cbn [quick_sort]. rewrite map_length.
  rewrite (rd_map fst d) by lia. cbn [bind]. rewrite (rd_map snd d) by lia. cbn [bind].
  destruct (part_loop_spec (S (length L)) L L (at_ L low) low high low high)
    as (L1 & m & -> & Hm & Hlen & Hp & Hout & HL & HH & HQ); try lia.
  { unfold PInv. rewrite upd_same by lia. split; [reflexivity|]. split; [reflexivity|].
    split; [auto|]. split; [lia|]. split; [lia|]. intros Q Hq. split; [apply Hq; lia|auto]. }
  cbn [bind]. rewrite !wr_map by lia. cbn [bind].
  set (pv := at_ L low) in *. set (L2 := upd m pv L1) in *.
  assert (Hlen2 : length L2 = length L) by (unfold L2; now rewrite upd_length).
  assert (H2 : forall k, at_ L2 k = if (k =? m)%nat then pv else at_ L1 k).
  { intros k. apply nth_upd. lia. }
  assert (HQ2 : forall Q : Z * V -> Prop, (forall k, (low <= k <= high)%nat -> Q (at_ L k)) ->
     forall k, (low <= k <= high)%nat -> Q (at_ L2 k)).
  { intros Q Hq k Hk. rewrite H2. destruct (HQ Q Hq) as [A B].
    destruct (Nat.eqb_spec k m); [exact A|]. apply B; lia. }
  assert (Hle : forall k, (low <= k <= m)%nat -> fst (at_ L2 k) <= fst pv).
  { intros k Hk. rewrite H2. destruct (Nat.eqb_spec k m); [lia|]. apply HL; lia. }
  assert (Hge : forall k, (m <= k <= high)%nat -> fst pv <= fst (at_ L2 k)).
  { intros k Hk. rewrite H2. destruct (Nat.eqb_spec k m); [lia|]. apply HH; lia. }
  assert (Hout2 : forall k, (k < low \/ high < k)%nat -> at_ L2 k = at_ L k).
  { intros k Hk. rewrite H2. destruct (Nat.eqb_spec k m); [lia|]. now apply Hout. }
  (* left part *)
  assert (Hleft : exists L3,
    (if (low <? m)%nat then quick_sort f (fsts L2) (snds L2) low (m - 1)
     else Some (fsts L2, snds L2)) = Some (fsts L3, snds L3) /\
    length L3 = length L2 /\ Permutation L3 L2 /\
    (forall k, (k < low \/ m <= k)%nat -> at_ L3 k = at_ L2 k) /\
    (forall Q : Z * V -> Prop, (forall k, (low <= k < m)%nat -> Q (at_ L2 k)) ->
       forall k, (low <= k < m)%nat -> Q (at_ L3 k)) /\
    (forall k n, (low <= k <= n)%nat -> (n < m)%nat -> fst (at_ L3 k) <= fst (at_ L3 n))).
  { destruct (Nat.ltb_spec low m) as [Hlt|Hnlt].
    - destruct (IH L2 low (m - 1)%nat) as (L3 & E & A1 & A2 & A3 & A4 & A5); [lia|lia|].
      exists L3. split; [exact E|]. split; [exact A1|]. split; [exact A2|].
      split; [intros k Hk; apply A3; lia|]. split.
      + intros Q Hq k Hk. apply (A4 Q); [intros; apply Hq; lia|lia].
      + intros k n Hk Hn. apply A5; lia.
    - exists L2. split; [reflexivity|]. split; [reflexivity|]. split; [reflexivity|].
      split; [auto|]. split; [auto|]. intros k n Hk Hn. lia. }
  destruct Hleft as (L3 & -> & B1 & B2 & B3 & B4 & B5). cbn [bind].
  assert (Hle3 : forall k, (low <= k < m)%nat -> fst (at_ L3 k) <= fst pv).
  { apply (B4 (fun z => fst z <= fst pv)). intros k Hk. apply Hle; lia. }
  assert (Hm3 : at_ L3 m = pv).
  { rewrite B3 by lia. rewrite H2. now rewrite Nat.eqb_refl. }
  assert (Hge3 : forall k, (m <= k <= high)%nat -> fst pv <= fst (at_ L3 k)).
  { intros k Hk. rewrite B3 by lia. now apply Hge. }
  assert (Hright : exists L4,
    (if (m <? high)%nat then quick_sort f (fsts L3) (snds L3) (m + 1) high
     else Some (fsts L3, snds L3)) = Some (fsts L4, snds L4) /\
    length L4 = length L3 /\ Permutation L4 L3 /\
    (forall k, (k <= m \/ high < k)%nat -> at_ L4 k = at_ L3 k) /\
    (forall Q : Z * V -> Prop, (forall k, (m < k <= high)%nat -> Q (at_ L3 k)) ->
       forall k, (m < k <= high)%nat -> Q (at_ L4 k)) /\
    (forall k n, (m < k <= n)%nat -> (n <= high)%nat -> fst (at_ L4 k) <= fst (at_ L4 n))).
  { destruct (Nat.ltb_spec m high) as [Hlt|Hnlt].
    - destruct (IH L3 (m + 1)%nat high) as (L4 & E & A1 & A2 & A3 & A4 & A5); [lia|lia|].
      exists L4. split; [exact E|]. split; [exact A1|]. split; [exact A2|].
      split; [intros k Hk; apply A3; lia|]. split.
      + intros Q Hq k Hk. apply (A4 Q); [intros; apply Hq; lia|lia].
      + intros k n Hk Hn. apply A5; lia.
    - exists L3. split; [reflexivity|]. split; [reflexivity|]. split; [reflexivity|].
      split; [auto|]. split; [auto|]. intros k n Hk Hn. lia. }
  destruct Hright as (L4 & -> & C1 & C2 & C3 & C4 & C5).
  exists L4. split; [reflexivity|].
  assert (Hge4 : forall k, (m < k <= high)%nat -> fst pv <= fst (at_ L4 k)).
  { apply (C4 (fun z => fst pv <= fst z)). intros k Hk. apply Hge3; lia. }
  split; [lia|]. split; [now rewrite C2, B2|]. split.
  { intros k Hk. rewrite C3, B3 by lia. apply Hout2; lia. } split.
  { intros Q Hq k Hk. specialize (HQ2 Q Hq).
    destruct (Nat.le_gt_cases k m) as [Hkm|Hkm].
    - rewrite C3 by lia. destruct (Nat.eq_dec k m) as [->|].
      + rewrite B3 by lia. apply HQ2; lia.
      + apply (B4 Q); [|lia]. intros k' Hk'. apply HQ2; lia.
    - apply (C4 Q); [|lia]. intros k' Hk'. rewrite B3 by lia. apply HQ2; lia. }
  intros k n Hk Hn.
  destruct (Nat.lt_trichotomy n m) as [Hnm|[->|Hnm]].
  - rewrite !C3 by lia. apply B5; lia.
  - rewrite !C3 by lia. rewrite Hm3. destruct (Nat.eq_dec k m) as [->|]; [rewrite Hm3; lia|].
    apply Hle3; lia.
  - destruct (Nat.lt_trichotomy k m) as [Hkm|[->|Hkm]].
    + etransitivity; [|apply Hge4; lia]. rewrite C3 by lia. apply Hle3; lia.
    + rewrite (C3 m) by lia. rewrite Hm3. apply Hge4; lia.
    + apply C5; lia.
Qed.
End P.

Section Final.
Context {V : Type}.

Lemma combine_fst (a : list Z) (b : list V) : length a = length b -> map fst (combine a b) = a.
Proof. revert b; induction a as [|x a IH]; intros [|y b] H; cbn in *; try lia; auto. now rewrite IH by lia. Qed.
Lemma combine_snd (a : list Z) (b : list V) : length a = length b -> map snd (combine a b) = b.
Proof. revert b; induction a as [|x a IH]; intros [|y b] H; cbn in *; try lia; auto. now rewrite IH by lia. Qed.
Lemma combine_map_fst_snd (L : list (Z * V)) : combine (map fst L) (map snd L) = L.
Proof. induction L as [|[x y] L IH]; cbn; auto. now rewrite IH. Qed.

Lemma is_sorted_from_StronglySorted x l : is_sorted_from x l = true ->
  Forall (Z.lt x) l /\ StronglySorted Z.lt l.
Proof.
  revert x; induction l as [|y l IH]; intros x H; cbn in *; [split; constructor|].
  destruct (Z.leb_spec y x); [discriminate|]. destruct (IH y H) as [A B]. split.
  - constructor; [lia|]. eapply Forall_impl; [|exact A]. cbn; lia.
  - constructor; assumption.
Qed.

Lemma is_sorted_StronglySorted l : is_sorted l = true <-> StronglySorted Z.lt l.
Proof.
  destruct l as [|x l]; [split; [constructor|reflexivity]|]. cbn [is_sorted]. split.
  - intros H. destruct (is_sorted_from_StronglySorted x l H). now constructor.
  - intros H. inversion H as [|? ? H1 H2]; subst. clear H. revert x H2.
    induction H1 as [|y l Hl IH Hy]; intros x Hx; [reflexivity|]. cbn.
    inversion Hx; subst. destruct (Z.leb_spec y x); [lia|]. now apply IH.
Qed.

Lemma StronglySorted_weak l : StronglySorted Z.lt l -> StronglySorted Z.le l.
Proof.
  induction 1 as [|x l Hl IH Hx]; constructor; auto.
  eapply Forall_impl; [|exact Hx]. cbn; lia.
Qed.

Lemma seg_sorted (l : list Z) :
  (forall k m, (k <= m < length l)%nat -> nth k l 0 <= nth m l 0) -> StronglySorted Z.le l.
Proof.
  induction l as [|x l IH]; intros H; constructor.
  - apply IH. intros k m Hk. apply (H (S k) (S m)). cbn; lia.
  - apply Forall_forall. intros y Hy. apply (In_nth _ _ 0) in Hy. destruct Hy as (n & Hn & <-).
    apply (H O (S n)). cbn; lia.
Qed.

Lemma dp_sort_spec (p : point V) : length (p_idx p) = length (p_val p) ->
  exists q, dp_sort p = Some q /\ p_label q = p_label p /\
    length (p_idx q) = length (p_val q) /\
    StronglySorted Z.le (p_idx q) /\
    Permutation (combine (p_idx q) (p_val q)) (combine (p_idx p) (p_val p)) /\
    (StronglySorted Z.lt (p_idx p) -> q = p).
Proof.
  intros Hlen. unfold dp_sort. destruct (is_sorted (p_idx p)) eqn:Hs.
  - exists p. repeat split; auto. apply StronglySorted_weak. now apply is_sorted_StronglySorted.
  - destruct p as [lab idx val]; cbn [p_idx p_val p_label] in *.
    destruct idx as [|x0 idx]; [discriminate|]. destruct val as [|v0 val]; [discriminate|].
    set (a := x0 :: idx) in *. set (b := v0 :: val) in *.
    set (L := combine a b).
    assert (HL : length L = length a) by (unfold L; rewrite combine_length; lia).
    destruct (quick_sort_spec (x0, v0) (length a) L 0 (length a - 1)) as (L' & E & Hl & Hp & _ & _ & Hsrt);
      [rewrite HL; subst a; cbn [length]; lia|subst a; cbn [length]; lia|].
    unfold L in E. rewrite combine_fst, combine_snd in E by assumption.
    exists (mkpt lab (map fst L') (map snd L')). rewrite E. cbn [bind p_label p_idx p_val].
    split; [reflexivity|]. split; [reflexivity|]. split; [now rewrite !map_length|].
    split.
    + apply seg_sorted. intros k m Hk. rewrite map_length in Hk.
      rewrite !(nth_indep _ 0 (fst (x0, v0))) by (rewrite map_length; lia).
      rewrite !map_nth. apply Hsrt; lia.
    + split; [rewrite combine_map_fst_snd; exact Hp|].
      intros Hss. apply is_sorted_StronglySorted in Hss. congruence.
Qed.
End Final.
