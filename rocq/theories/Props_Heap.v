(** Properties C18 and C19: the indexed top-K heap. *)
From Verif Require Import M_Base M_Heap S_Heap P_Heap.
Local Open Scope nat_scope.

(** C18: building the heap, with the first K ids or with given ids, never leaves a table and gives
    consistent tables.  The comparison is arbitrary (it may be inconsistent, as with NaN). *)
Theorem C18_heap_init : forall (V : Type) (cmp : V -> V -> bool) values N K,
  1 <= K <= N -> N <= length values ->
  exists h, heap_init cmp N K values = Some h /\ heap_wf h /\ h_N h = N /\ h_K h = K /\
    (forall id, kept h id <-> id < K).
Proof.
  intros V cmp values N K HK Hv.
  destruct (heap_init_spec cmp values N K HK Hv) as (h & E & W & EN & EK & Hk & _). exists h. auto.
Qed.
Print Assumptions C18_heap_init.

Theorem C18_heap_init_ids : forall (V : Type) (cmp : V -> V -> bool) values N K ids,
  1 <= K <= length ids -> N <= length values -> NoDup (firstn K ids) ->
  (forall id, In id (firstn K ids) -> id < N) ->
  exists h, heap_init_idx cmp N K ids values = Some h /\ heap_wf h /\ h_N h = N /\ h_K h = K /\
    (forall id, kept h id <-> In id (firstn K ids)).
Proof.
  intros V cmp values N K ids HK Hv Hnd Hb.
  destruct (heap_init_idx_spec cmp values N K ids HK Hv Hnd Hb) as (h & E & W & EN & EK & Hk & _).
  exists h. auto.
Qed.
Print Assumptions C18_heap_init_ids.

(** C18: every sequence of operations, with arbitrary scores at each of them, stays inside the
    tables and keeps them inverse to each other. *)
Theorem C18_heap_operations : forall (V : Type) (cmp : V -> V -> bool) ops h,
  heap_wf h -> hops_ok (h_N h) (h_K h) ops ->
  exists h', hops_run cmp h ops = Some h' /\ heap_wf h' /\ h_K h' = h_K h /\
    h_N h' = hops_N (h_N h) ops.
Proof. exact @hops_spec. Qed.
Print Assumptions C18_heap_operations.

(** C18: in consistent tables K different ids are kept and isTopK answers exactly whether an id is
    kept. *)
Theorem C18_kept_exactly_K : forall h, heap_wf h ->
  NoDup (h_pos2id h) /\ length (h_pos2id h) = h_K h /\
  forall id, id < h_N h -> exists b, is_topk h id = Some b /\ (b = true <-> kept h id).
Proof.
  intros h Hwf. pose proof Hwf as (L1 & L2 & HK & W1 & W2). split; [|split; [exact L2|]].
  - apply NoDup_nth_error. intros i j Hi Hij. destruct (W1 i) as (id & A1 & A2); [lia|].
    assert (Hj : j < length (h_pos2id h)) by (apply nth_error_Some; congruence).
    destruct (W1 j) as (id' & B1 & B2); [lia|]. assert (id = id') as <- by congruence. congruence.
  - intros id Hid. destruct (nth_error_lt (h_id2pos h) id) as (p & Hp); [lia|].
    unfold is_topk, rd. rewrite Hp. cbn [bind]. eexists. split; [reflexivity|].
    rewrite kept_pos by exact Hwf. split.
    + intros H. exists p. split; auto. lia.
    + intros (q & Hq & Hlt). assert (p = q) by congruence. lia.
Qed.
Print Assumptions C18_kept_exactly_K.

(** The operations really do something: six features, three kept, the scores change twice. *)
Example C18_witness : exists h h', heap_init Nat.ltb 6 3 [4; 9; 2; 7; 7; 1] = Some h /\ heap_wf h /\
  let ops := [HUpdate [4; 9; 2; 7; 7; 1] 3; HAdjust [4; 0; 2; 7; 7; 1] 2; HBuild [4; 0; 2; 7; 7; 1];
              HUpdate [4; 0; 2; 7; 7; 1] 5; HSetN 8; HUpdate [4; 0; 2; 7; 7; 1; 5; 5] 7] in
  hops_ok (h_N h) (h_K h) ops /\ hops_run Nat.ltb h ops = Some h' /\ h_N h' = 8 /\
  h_pos2id h' = [0; 7; 3].
Proof.
  destruct (C18_heap_init nat Nat.ltb [4; 9; 2; 7; 7; 1] 6 3) as (h & E & W & _); [lia|cbn; lia|].
  exists h. vm_compute in E. inversion E; subst h. clear E.
  eexists. split; [vm_compute; reflexivity|]. split; [exact W|]. cbn zeta.
  split; [cbn; lia|]. split; [vm_compute; reflexivity|]. split; vm_compute; reflexivity.
Qed.

(** C18, finding: with K = 0 building the heap reads outside the tables. *)
Theorem C18_zero_size_refuted : exists (values : list nat) N,
  N <= length values /\ heap_init Nat.ltb N 0 values = None.
Proof. exists [1; 2; 3], 3. split; [cbn; lia|reflexivity]. Qed.
Print Assumptions C18_zero_size_refuted.

(** C19: after building, the heap order holds. *)
Theorem C19_build_order : forall (V : Type) (cmp : V -> V -> bool) values h,
  strict_weak cmp -> heap_wf h -> h_N h <= length values ->
  exists h', build_heap cmp values h = Some h' /\ heap_order cmp values h' /\
    (forall id, kept h' id <-> kept h id).
Proof.
  intros V cmp values h SW Hwf Hv.
  destruct (build_heap_spec cmp values h Hwf Hv) as (h' & E & W & EN & EK & S & O).
  exists h'. split; [exact E|]. split.
  - apply heap_order_from. rewrite EK. auto.
  - now apply same_kept_kept.
Qed.
Print Assumptions C19_build_order.

(** C19: with the heap order, the top is the worst kept id. *)
Theorem C19_top_is_worst : forall (V : Type) (cmp : V -> V -> bool) values h,
  strict_weak cmp -> heap_wf h -> h_N h <= length values -> heap_order cmp values h ->
  exists top, nth_error (h_pos2id h) 0 = Some top /\
    forall id, kept h id -> le_id cmp values top id.
Proof.
  intros V cmp values h SW Hwf Hv HO. pose proof Hwf as (_ & _ & HK & _).
  destruct (wf_pos h 0 Hwf) as (top & E & _); [lia|].
  exists top. split; [exact E|]. intros id Hk. apply In_nth_error in Hk as (p & Hp).
  exact (order_top cmp values h top SW Hwf Hv HO E p id Hp).
Qed.
Print Assumptions C19_top_is_worst.

(** C19: one offer. *)
Theorem C19_offer : forall (V : Type) (cmp : V -> V -> bool) values h idx,
  heap_wf h -> h_N h <= length values -> idx < h_N h ->
  exists h' r, update_heap cmp values h idx = Some (h', r) /\
    (kept h idx -> h' = h /\ r = None) /\
    (~ kept h idx -> exists top xt xi, nth_error (h_pos2id h) 0 = Some top /\
       nth_error values top = Some xt /\ nth_error values idx = Some xi /\
       (cmp xt xi = false -> h' = h /\ r = Some idx) /\
       (cmp xt xi = true -> r = Some top /\
          (forall id, kept h' id <-> (id = idx \/ (kept h id /\ id <> top))) /\
          (strict_weak cmp -> heap_order cmp values h -> heap_order cmp values h'))).
Proof.
  intros V cmp values h idx Hwf Hv Hi.
  destruct (update_heap_spec cmp values h idx Hwf Hv Hi) as (h' & r & E & _ & _ & _ & A & B).
  exists h', r. auto.
Qed.
Print Assumptions C19_offer.

(** C19: offering every id once to an ordered heap, from any kept set, leaves the K best. *)
Theorem C19_offer_everything : forall (V : Type) (cmp : V -> V -> bool) values h,
  strict_weak cmp -> heap_wf h -> h_N h <= length values -> heap_order cmp values h ->
  exists h', offer_all cmp values h (seq 0 (h_N h)) = Some h' /\ heap_wf h' /\
    h_N h' = h_N h /\ h_K h' = h_K h /\ heap_order cmp values h' /\ best_k cmp values h'.
Proof.
  intros V cmp values h SW Hwf Hv HO.
  destruct (offer_all_inv cmp values (seq 0 (h_N h)) SW h (fun _ => False) Hwf Hv)
    as (h' & E & W & EN & EK & HO' & G); auto.
  - intros i Hi. apply in_seq in Hi. lia.
  - intros ? ? [].
  - exists h'. repeat split; auto; try apply W.
    intros k o Hk Ho Hn. apply G; auto. right. left. apply in_seq. lia.
Qed.
Print Assumptions C19_offer_everything.

Theorem C19_init_and_offer_everything : forall (V : Type) (cmp : V -> V -> bool) values N K,
  strict_weak cmp -> 1 <= K <= N -> N <= length values ->
  exists h0 h, heap_init cmp N K values = Some h0 /\
    offer_all cmp values h0 (seq 0 N) = Some h /\ heap_wf h /\ h_N h = N /\ h_K h = K /\
    best_k cmp values h.
Proof. exact @offer_all_best. Qed.
Print Assumptions C19_init_and_offer_everything.

Lemma nat_ltb_strict_weak : strict_weak Nat.ltb.
Proof.
  split.
  - intros a b H. apply Nat.ltb_lt in H. apply Nat.ltb_ge. lia.
  - intros a b c H1 H2. apply Nat.ltb_ge in H1, H2. apply Nat.ltb_ge. lia.
Qed.

(** Seven features, three kept: the ids 1, 3 and 6 with scores 9, 8 and 7 remain. *)
Example C19_witness : strict_weak Nat.ltb /\ exists h0 h,
  heap_init Nat.ltb 7 3 [4; 9; 2; 8; 6; 1; 7] = Some h0 /\ heap_wf h0 /\
  heap_order Nat.ltb [4; 9; 2; 8; 6; 1; 7] h0 /\ ~ best_k Nat.ltb [4; 9; 2; 8; 6; 1; 7] h0 /\
  offer_all Nat.ltb [4; 9; 2; 8; 6; 1; 7] h0 (seq 0 7) = Some h /\ h_pos2id h = [6; 1; 3].
Proof.
  split; [exact nat_ltb_strict_weak|].
  destruct (heap_init_spec Nat.ltb [4; 9; 2; 8; 6; 1; 7] 7 3) as (h & E & W & _ & _ & _ & O); [lia|cbn; lia|].
  specialize (O nat_ltb_strict_weak).
  exists h. vm_compute in E. inversion E; subst h. clear E.
  eexists. split; [vm_compute; reflexivity|]. split; [exact W|]. split; [exact O|].
  split.
  - intros B. specialize (B 2 3). cbn in B.
    assert (X : le_id Nat.ltb [4; 9; 2; 8; 6; 1; 7] 3 2) by (apply B; [tauto|lia|intuition lia]).
    specialize (X 8 2 eq_refl eq_refl). discriminate.
  - split; [vm_compute; reflexivity|]. vm_compute; reflexivity.
Qed.
