(** Proofs about the data tools. *)
From Verif Require Import M_Base M_DataPoint M_Num M_Tools S_Tools P_F32.
From Coq Require Import Sorted Permutation Lia.
Ltac Zify.zify_post_hook ::= Z.div_mod_to_equations.

Section P.
Context {V : Type}.
Implicit Types (p : point V).

Lemma skipn_skipn {A} (a b : nat) (l : list A) : skipn a (skipn b l) = skipn (b + a) l.
Proof. revert l; induction b as [|b IH]; intros l; [reflexivity|]. destruct l; cbn [skipn Nat.add]; [now rewrite skipn_nil|apply IH]. Qed.
Lemma nth_error_ext {A} (a : list A) : forall b, (forall i, nth_error a i = nth_error b i) -> a = b.
Proof. induction a as [|x a IH]; intros [|y b] H; [reflexivity|discriminate (H O)|discriminate (H O)|]. assert (E := H O). cbn in E. injection E as ->. f_equal. apply IH. intros i. exact (H (S i)). Qed.

(* ---------------------------------------------------------------- split *)
Lemma write_fold_spec (l : list (point V)) : forall e i, write_fold e i l =
  (firstn (Z.to_nat (e - i)) l, i + Z.of_nat (length (firstn (Z.to_nat (e - i)) l)), skipn (Z.to_nat (e - i)) l).
Proof.
  induction l as [|p l IH]; intros e i; cbn [write_fold].
  - rewrite firstn_nil, skipn_nil. cbn. f_equal. f_equal. lia.
  - destruct (Z.ltb_spec i e).
    + rewrite IH. replace (Z.to_nat (e - i)) with (S (Z.to_nat (e - (i + 1)))) by lia. cbn [firstn skipn length]. f_equal. f_equal. lia.
    + replace (Z.to_nat (e - i)) with O by lia. cbn. f_equal. f_equal. lia.
Qed.

Lemma write_folds_spec k : forall s i (l : list (point V)), 0 <= s -> 0 <= i -> (i + 1 + Z.of_nat k) * s < two64 ->
  forall l0, l = skipn (Z.to_nat (i * s)) l0 ->
  let d := Z.min (i * s) (Z.of_nat (length l0)) in
  length (write_folds k s d (i * s + s) l) = k /\
  forall j, (j < k)%nat -> nth_error (write_folds k s d (i * s + s) l) j =
    Some (firstn (Z.to_nat s) (skipn ((Z.to_nat i + j) * Z.to_nat s) l0)).
Proof.
  induction k as [|k IH]; intros s i l Hs Hi Hov l0 El d; cbn [write_folds]; [split; [reflexivity|lia]|].
  rewrite write_fold_spec. set (m := Z.to_nat (i * s + s - d)).
  assert (L : length l = (length l0 - Z.to_nat (i * s))%nat) by (rewrite El; apply skipn_length).
  (* the window [d, e) of l is the first s elements of l *)
  assert (F : firstn m l = firstn (Z.to_nat s) l /\ skipn m l = skipn (Z.to_nat s) l).
  { destruct (Z_le_gt_dec (i * s) (Z.of_nat (length l0))) as [A|A].
    - replace m with (Z.to_nat s) by (unfold m, d; lia). auto.
    - assert (length l = 0)%nat by lia. destruct l; [|discriminate]. now rewrite !firstn_nil, !skipn_nil. }
  destruct F as (F1 & F2). rewrite F1, F2.
  assert (D : d + Z.of_nat (length (firstn (Z.to_nat s) l)) = Z.min ((i + 1) * s) (Z.of_nat (length l0))).
  { rewrite firstn_length, L. unfold d. nia. }
  rewrite D. assert (U : u64 (i * s + s + s) = (i + 1) * s + s).
  { unfold u64. rewrite Z.mod_small; [lia|]. unfold two64 in *. nia. }
  rewrite U. destruct (IH s (i + 1) (skipn (Z.to_nat s) l) Hs ltac:(lia) ltac:(nia) l0) as (I1 & I2).
  { rewrite El, skipn_skipn. f_equal. nia. }
  split; [cbn; now rewrite I1|]. intros [|j] Hj; cbn [nth_error].
  - f_equal. f_equal. rewrite El. f_equal. nia.
  - rewrite I2 by lia. f_equal. f_equal. f_equal. nia.
Qed.

(** The folds together are the data, if there are enough of them. *)
Lemma cut_concat s : forall k (l : list (point V)) fs, cut s k l fs -> concat fs = firstn (k * s) l.
Proof.
  induction k as [|k IH]; intros l fs (L & H).
  - destruct fs; [reflexivity|discriminate].
  - destruct fs as [|f fs]; [discriminate|]. cbn [concat].
    assert (E := H O ltac:(lia)). cbn in E. injection E as ->.
    rewrite (IH (skipn s l) fs).
    + cbn [Nat.mul]. rewrite <- (firstn_skipn s (firstn (s + k * s) l)). rewrite firstn_firstn, Nat.min_l by lia. f_equal.
      rewrite firstn_skipn_comm. reflexivity.
    + split; [cbn in L; lia|]. intros i Hi. specialize (H (S i) ltac:(lia)). cbn [nth_error] in H. rewrite H. do 2 f_equal. now rewrite skipn_skipn.
Qed.

(* -------------------------------------------------------------- shuffle *)
Lemma reorder_map perm : forall (l : list (point V)) r, reorder perm l = Some r -> map Some r = map (nth_error l) perm.
Proof.
  induction perm as [|i perm IH]; cbn; intros l r H; [injection H as <-; reflexivity|].
  unfold rd in H. destruct (nth_error l i) eqn:E; cbn in H; [|discriminate]. destruct (reorder perm l) eqn:E2; cbn in H; [|discriminate]. injection H as <-. cbn. now rewrite (IH l l0).
Qed.
Lemma map_Some_inj {A} (a b : list A) : Permutation (map Some a) (map Some b) -> Permutation a b.
Proof.
  intros H. apply Permutation_map with (f := fun o => match o with Some x => [x] | None => [] end) in H. rewrite !map_map in H.
  assert (E : forall c : list A, concat (map (fun x => [x]) c) = c) by (induction c; cbn; congruence).
  rewrite <- (E a), <- (E b). clear E. induction H; cbn; eauto using Permutation_app_head, Permutation_trans.
  rewrite !app_assoc. apply Permutation_app_tail, Permutation_app_comm.
Qed.
Lemma seq_nth_error (l : list (point V)) : map (nth_error l) (seq 0 (length l)) = map Some l.
Proof. induction l as [|x l IH] using rev_ind; [reflexivity|]. rewrite app_length. cbn [length]. rewrite Nat.add_1_r, seq_S, map_app, map_app. cbn [map Nat.add]. f_equal.
  - rewrite <- IH. apply map_ext_in. intros i Hi%in_seq. apply nth_error_app1. lia.
  - rewrite nth_error_app2, Nat.sub_diag by lia. reflexivity.
Qed.
Lemma reorder_total (l : list (point V)) perm : Permutation perm (seq 0 (length l)) -> exists r, reorder perm l = Some r /\ Permutation r l.
Proof.
  intros H. assert (T : forall pm, Forall (fun i => (i < length l)%nat) pm -> exists r, reorder pm l = Some r).
  { induction pm as [|i pm IH]; cbn; intros F; [eauto|]. inversion F; subst. destruct (IH H3) as (r & ->). unfold rd.
    destruct (nth_error l i) eqn:E; [cbn; eauto|]. apply nth_error_None in E. lia. }
  destruct (T perm) as (r & Er).
  - rewrite Forall_forall. intros i Hi. apply (Permutation_in _ H) in Hi. apply in_seq in Hi. lia.
  - exists r. split; [exact Er|]. apply map_Some_inj. rewrite (reorder_map _ _ _ Er), <- seq_nth_error. now apply Permutation_map.
Qed.

(* -------------------------------------------------------------- analyze *)
Lemma each_app {A S} (f : A -> S -> option S) a b s : each f (a ++ b) s = (do s' <- each f a s; each f b s').
Proof. revert s; induction a as [|x a IH]; intros s; cbn; [reflexivity|]. destruct (f x s); cbn; auto. Qed.

Lemma total_cons k c m : total ((k, c) :: m) = c + total m.
Proof. reflexivity. Qed.
Lemma class_add_spec y m : StronglySorted Z.lt (map fst m) ->
  StronglySorted Z.lt (map fst (class_add y m)) /\ total (class_add y m) = total m + 1 /\
  (forall x, In x (map fst (class_add y m)) <-> x = y \/ In x (map fst m)) /\
  (forall x n, In (x, n) (class_add y m) <-> (x <> y /\ In (x, n) m) \/ (x = y /\ (In (y, n - 1) m \/ (~ In y (map fst m) /\ n = 1)))).
Proof.
  induction m as [|(k, c) m IH]; intros Hs; cbn [class_add].
  - split; [repeat constructor|]. split; [reflexivity|]. split; [cbn; intuition|]. intros x n. cbn. split.
    + intros [E|[]]. injection E as <- <-. right. auto.
    + intros [(_ & [])|(-> & [[]|(_ & ->)])]. auto.
  - cbn in Hs. apply StronglySorted_inv in Hs. destruct Hs as (Hs & Hf). rewrite Forall_forall in Hf.
    destruct (Z.ltb_spec y k); [|destruct (Z.eqb_spec y k) as [<-|Hk]].
    + assert (NI : ~ In y (map fst ((k, c) :: m))). { cbn. intros [->|I]; [lia|]. specialize (Hf _ I). lia. }
      split; [|split; [|split]].
      * cbn. constructor; [constructor; [exact Hs|now rewrite Forall_forall]|]. constructor; [lia|]. rewrite Forall_forall. intros z Hz. specialize (Hf _ Hz). lia.
      * rewrite !total_cons. lia.
      * cbn. intuition.
      * intros x n. cbn [In]. split.
        -- intros [E|I]; [injection E as <- <-; right; auto|]. left. split; [|exact I]. intros ->. apply NI. change y with (fst (y, n)). apply in_map. exact I.
        -- intros [(_ & I)|(-> & [I|(_ & ->)])]; [auto| |auto]. exfalso. apply NI. change y with (fst (y, n - 1)). apply in_map. exact I.
    + split; [cbn; constructor; [exact Hs|now rewrite Forall_forall]|]. split; [rewrite !total_cons; lia|]. split; [cbn; intuition|].
      assert (NI : forall n, ~ In (y, n) m). { intros n I. apply (in_map fst) in I. cbn in I. specialize (Hf _ I). lia. }
      intros x n. cbn [In]. split.
      * intros [E|I].
        -- injection E as <- <-. right. split; [reflexivity|]. left. left. f_equal. lia.
        -- left. split; [intros ->; now apply (NI n)|auto].
      * intros [(Hx & [E|I])|(-> & [[E|I]|(N & _)])]; [congruence|auto| |now apply NI in I|].
        -- injection E as E. left. f_equal. lia.
        -- exfalso. apply N. cbn. auto.
    + destruct (IH Hs) as (I1 & I2 & I3 & I4). split; [|split; [|split]].
      * cbn. constructor; [exact I1|]. rewrite Forall_forall. intros z Hz. apply I3 in Hz. destruct Hz as [->|Hz]; [lia|auto].
      * rewrite !total_cons. lia.
      * intros x. cbn [map In fst]. rewrite I3. intuition.
      * intros x n. cbn [In]. rewrite I4. split.
        -- intros [E|[(A & B)|(-> & [B|(B & ->)])]].
           ++ injection E as -> ->. left. split; [congruence|auto].
           ++ auto.
           ++ right. auto.
           ++ right. split; [reflexivity|]. right. split; [|reflexivity]. cbn. intuition.
        -- intros [(A & [E|B])|(-> & [[E|B]|(B & ->)])].
           ++ auto.
           ++ right. left. auto.
           ++ injection E as <- _. congruence.
           ++ right. right. auto.
           ++ right. right. split; [reflexivity|]. right. split; [|reflexivity]. intros C. apply B. cbn. auto.
Qed.

(** What analyze has found after the examples ps. *)
Definition found (ps : list (point V)) (s : counts) : Prop :=
  feat_num s = Z.of_nat (length (all_idx ps)) /\
  0 <= feat_dim s <= 4294967295 /\ length (feat_flags s) = Z.to_nat (feat_dim s) /\
  (forall i, In i (all_idx ps) -> 0 <= i < feat_dim s) /\
  (all_idx ps <> [] -> In (feat_dim s - 1) (all_idx ps)) /\ (all_idx ps = [] -> feat_dim s = 0) /\
  (forall i, 0 <= i < feat_dim s -> nth_error (feat_flags s) (Z.to_nat i) = Some (if in_dec Z.eq_dec i (all_idx ps) then 1 else 0)) /\
  StronglySorted Z.lt (map fst (classes s)) /\ total (classes s) = Z.of_nat (length ps) /\
  (forall y n, In (y, n) (classes s) <-> n = occurrences y (all_labels ps) /\ 0 < n).

Lemma wr_spec {A} (l : list A) i v : (i < length l)%nat -> exists l' : list A, wr l i v = Some l' /\ length l' = length l /\
  forall j, nth_error l' j = if (j =? i)%nat then Some v else nth_error l j.
Proof.
  revert i; induction l as [|x l IH]; intros [|i] H; cbn in H; try lia; cbn [wr].
  - exists (v :: l). split; [reflexivity|]. split; [reflexivity|]. intros [|j]; reflexivity.
  - destruct (IH i ltac:(lia)) as (l' & -> & L & N). cbn [bind]. exists (x :: l'). split; [reflexivity|]. split; [cbn; lia|]. intros [|j]; [reflexivity|]. cbn [nth_error]. rewrite N. reflexivity.
Qed.
Lemma set_flags_spec idx : forall fl, Forall (fun i => 0 <= i < Z.of_nat (length fl)) idx ->
  exists fl', set_flags idx fl = Some fl' /\ length fl' = length fl /\
  forall i, 0 <= i -> nth_error fl' (Z.to_nat i) = if in_dec Z.eq_dec i idx then Some 1 else nth_error fl (Z.to_nat i).
Proof.
  induction idx as [|k idx IH]; intros fl F; cbn [set_flags].
  - exists fl. split; [reflexivity|]. split; [reflexivity|]. intros i _. destruct (in_dec _ _ _) as [[]|]; reflexivity.
  - inversion F; subst. destruct (wr_spec fl (Z.to_nat k) 1 ltac:(lia)) as (fl1 & E & L & N). rewrite E. cbn [bind].
    destruct (IH fl1) as (fl' & E' & L' & N').
    { rewrite L. auto. }
    exists fl'. split; [exact E'|]. split; [lia|]. intros i Hi. rewrite N' by exact Hi. rewrite N.
    destruct (in_dec Z.eq_dec i idx) as [I|I]; destruct (in_dec Z.eq_dec i (k :: idx)) as [J|J]; try reflexivity.
    + exfalso. apply J. now right.
    + destruct J as [->|J]; [|contradiction]. now rewrite Nat.eqb_refl.
    + destruct (Nat.eqb_spec (Z.to_nat i) (Z.to_nat k)); [|reflexivity]. exfalso. apply J. left. lia.
Qed.
Lemma sorted_dim (idx : list Z) : StronglySorted Z.lt idx -> Forall (fun i => 0 <= i < 4294967295) idx ->
  (idx = [] /\ sv_dim idx = 0) \/ (In (sv_dim idx - 1) idx /\ Forall (fun i => i < sv_dim idx) idx /\ 0 < sv_dim idx <= 4294967295).
Proof.
  intros S F. destruct (rev idx) as [|x r] eqn:E.
  - left. assert (idx = []) by (rewrite <- (rev_involutive idx), E; reflexivity). subst. auto.
  - right. assert (E2 : idx = rev r ++ [x]) by (rewrite <- (rev_involutive idx), E; reflexivity).
    assert (Fx : 0 <= x < 4294967295). { rewrite E2 in F. apply Forall_app in F. destruct F as (_ & F). now inversion F. }
    unfold sv_dim. rewrite E. unfold u32, two32. rewrite Z.mod_small by lia. split; [|split; [|lia]].
    + rewrite E2. apply in_app_iff. right. left. lia.
    + rewrite E2 in *. clear E E2 F. induction (rev r) as [|y r' IH]; cbn in *; [repeat constructor; lia|].
      apply StronglySorted_inv in S. destruct S as (S & Fy). constructor; [|auto]. rewrite Forall_forall in Fy. specialize (Fy x). assert (y < x) by (apply Fy, in_app_iff; right; now left). lia.
Qed.
Lemma occ_snoc y ls z : occurrences y (ls ++ [z]) = occurrences y ls + (if z =? y then 1 else 0).
Proof. unfold occurrences. rewrite count_occ_app. cbn. destruct (Z.eq_dec z y); destruct (Z.eqb_spec z y); lia. Qed.

Lemma analyze_point_spec ps p s : found ps s -> sorted_point p ->
  exists s', analyze_point p s = Some s' /\ data_num s' = data_num s /\ found (ps ++ [p]) s'.
Proof.
  intros (A1 & A2 & A3 & A4 & A5 & A6 & A7 & A8 & A9 & A10) (S & F & _).
  unfold analyze_point. set (d := Z.max (feat_dim s) (dp_dim p)). set (fl := feat_flags s ++ repeat 0 (Z.to_nat d - length (feat_flags s))).
  assert (AI : all_idx (ps ++ [p]) = all_idx ps ++ p_idx p) by (unfold all_idx; rewrite map_app, concat_app; cbn; now rewrite app_nil_r).
  assert (D := sorted_dim _ S F). fold (dp_dim p) in D.
  assert (Hd : 0 <= d <= 4294967295) by (unfold d; destruct D as [(_ & D)|(_ & _ & D)]; unfold dp_dim in *; lia).
  assert (Lfl : length fl = Z.to_nat d) by (unfold fl; rewrite app_length, repeat_length; lia).
  assert (Fd : Forall (fun i => 0 <= i < Z.of_nat (length fl)) (p_idx p)).
  { rewrite Lfl. rewrite Forall_forall in F |- *. intros i Hi. destruct D as [(E & _)|(_ & D & _)].
    - rewrite E in Hi. destruct Hi.
    - rewrite Forall_forall in D. specialize (D i Hi). specialize (F i Hi). unfold d, dp_dim in *. lia. }
  destruct (set_flags_spec (p_idx p) fl Fd) as (fl' & E & L & N). rewrite E. cbn [bind]. eexists. split; [reflexivity|]. split; [reflexivity|].
  destruct (class_add_spec (p_label p) (classes s) A8) as (C1 & C2 & C3 & C4).
  unfold found. cbn [feat_num feat_dim feat_flags classes]. rewrite AI. split; [rewrite app_length; lia|]. split; [exact Hd|]. split; [lia|].
  split; [|split; [|split; [|split; [|split; [exact C1|split]]]]].
  - intros i Hi. apply in_app_iff in Hi. destruct Hi as [Hi|Hi]; [specialize (A4 i Hi); lia|]. rewrite Forall_forall in Fd. specialize (Fd i Hi). lia.
  - intros Hne. apply in_app_iff. destruct D as [(D & D2)|(D & _ & D2)].
    + destruct (all_idx ps) eqn:Ea; [exfalso; apply Hne; rewrite D; reflexivity|]. left. unfold d. rewrite D2. replace (Z.max (feat_dim s) 0) with (feat_dim s) by lia. apply A5. discriminate.
    + destruct (Z_le_gt_dec (feat_dim s) (dp_dim p)) as [H|H].
      * right. replace d with (dp_dim p) by lia. exact D.
      * left. replace d with (feat_dim s) by lia. apply A5. intros En. specialize (A6 En). unfold dp_dim in *. lia.
  - intros En. apply app_eq_nil in En. destruct En as (E1 & E2). specialize (A6 E1). unfold d, dp_dim. rewrite E2, A6. reflexivity.
  - intros i Hi. rewrite N by lia. destruct (in_dec Z.eq_dec i (p_idx p)) as [I|I].
    + destruct (in_dec Z.eq_dec i (all_idx ps ++ p_idx p)) as [J|J]; [reflexivity|]. exfalso. apply J, in_app_iff. auto.
    + unfold fl. destruct (Z_lt_le_dec i (feat_dim s)) as [H|H].
      * rewrite nth_error_app1 by lia. rewrite A7 by lia. f_equal.
        destruct (in_dec Z.eq_dec i (all_idx ps)) as [J|J]; destruct (in_dec Z.eq_dec i (all_idx ps ++ p_idx p)) as [K|K]; try reflexivity; exfalso; rewrite in_app_iff in K; tauto.
      * rewrite nth_error_app2 by lia. rewrite nth_error_repeat by lia. f_equal.
        destruct (in_dec Z.eq_dec i (all_idx ps ++ p_idx p)) as [K|K]; [|reflexivity]. exfalso. rewrite in_app_iff in K. destruct K as [K|K]; [specialize (A4 i K); lia|tauto].
  - rewrite C2, A9, app_length. cbn. lia.
  - intros y n. unfold all_labels. rewrite map_app. fold (all_labels ps). cbn [map]. rewrite occ_snoc, C4. split.
    + intros [(Hy & I)|(-> & [I|(I & ->)])].
      * apply A10 in I. destruct (Z.eqb_spec (p_label p) y); [congruence|]. lia.
      * apply A10 in I. rewrite Z.eqb_refl. lia.
      * rewrite Z.eqb_refl. assert (occurrences (p_label p) (all_labels ps) = 0); [|lia].
        destruct (Z.eq_dec (occurrences (p_label p) (all_labels ps)) 0) as [Z0|Z0]; [exact Z0|]. exfalso. apply I.
        change (p_label p) with (fst (p_label p, occurrences (p_label p) (all_labels ps))). apply in_map, A10. split; [reflexivity|]. unfold occurrences in *. lia.
    + intros (-> & Hn). destruct (Z.eqb_spec (p_label p) y) as [Ey|Hy]; [subst y|].
      * right. split; [reflexivity|]. destruct (Z_lt_le_dec 0 (occurrences (p_label p) (all_labels ps))).
        -- left. apply A10. lia.
        -- right. split; [|unfold occurrences in *; lia]. intros I. apply in_map_iff in I. destruct I as ((y', n') & Ey & I). cbn in Ey. rewrite Ey in I. apply A10 in I. lia.
      * left. split; [congruence|]. apply A10. lia.
Qed.
Lemma found_data ps a b f e g h k : found ps (mkcounts a f e g h) -> b = k -> found ps (mkcounts k f e g h).
Proof. intros H _. exact H. Qed.
Lemma found0 : found [] counts0.
Proof.
  unfold found, counts0, all_idx, all_labels, occurrences. cbn. repeat split; try lia; try constructor; try tauto; try congruence.
Qed.
Lemma analyze_points_spec qs : forall ps s, found ps s -> Forall sorted_point qs ->
  exists s', each analyze_point qs s = Some s' /\ data_num s' = data_num s /\ found (ps ++ qs) s'.
Proof.
  induction qs as [|q qs IH]; intros ps s H F; cbn [each].
  - exists s. rewrite app_nil_r. auto.
  - inversion F; subst. destruct (analyze_point_spec ps q s H H2) as (s1 & -> & D & F1). cbn [bind].
    destruct (IH _ _ F1 H3) as (s2 & E & D2 & F2). exists s2. rewrite <- app_assoc in F2. rewrite E. split; [reflexivity|]. split; [congruence|exact F2].
Qed.
Lemma analyze_batches_spec bs : forall ps s, found ps s -> Forall sorted_point (concat bs) ->
  exists s', each analyze_batch bs s = Some s' /\ data_num s' = data_num s + Z.of_nat (length (concat bs)) /\ found (ps ++ concat bs) s'.
Proof.
  induction bs as [|b bs IH]; intros ps s H F; cbn [each concat].
  - exists s. rewrite app_nil_r. split; [reflexivity|]. split; [cbn; lia|exact H].
  - cbn in F. apply Forall_app in F. destruct F as (F1 & F2). unfold analyze_batch at 1.
    destruct (analyze_points_spec b ps (mkcounts (data_num s + Z.of_nat (length b)) (feat_num s) (feat_dim s) (feat_flags s) (classes s)) H F1) as (s1 & -> & D1 & G1).
    cbn [bind]. destruct (IH _ _ G1 F2) as (s2 & E & D2 & G2). exists s2. rewrite <- app_assoc in G2. split; [exact E|]. split; [|exact G2].
    rewrite D2, D1. cbn [data_num]. rewrite app_length. lia.
Qed.

(** The number of set flags is the number of distinct features. *)
Lemma filter_seq (f : nat -> Z) n : filter (fun c => c =? 1) (map f (seq 0 n)) = map f (filter (fun i => f i =? 1) (seq 0 n)).
Proof. generalize 0%nat. induction n as [|n IH]; intros k; cbn; [reflexivity|]. rewrite IH. destruct (f k =? 1); reflexivity. Qed.
Lemma used_spec ps s : found ps s -> length (filter (fun c => c =? 1) (feat_flags s)) = length (nodup Z.eq_dec (all_idx ps)).
Proof.
  intros (_ & A2 & A3 & A4 & _ & _ & A7 & _).
  assert (E : feat_flags s = map (fun i => if in_dec Z.eq_dec (Z.of_nat i) (all_idx ps) then 1 else 0) (seq 0 (Z.to_nat (feat_dim s)))).
  { apply nth_error_ext. intros i. destruct (Nat.lt_ge_cases i (Z.to_nat (feat_dim s))) as [H|H].
    - specialize (A7 (Z.of_nat i) ltac:(lia)). rewrite Nat2Z.id in A7. rewrite A7. symmetry. rewrite nth_error_map. rewrite (nth_error_nth' _ 0%nat) by (rewrite seq_length; lia). rewrite seq_nth by lia. reflexivity.
    - rewrite !(proj2 (nth_error_None _ _)); [reflexivity| |]; rewrite ?map_length, ?seq_length; lia. }
  rewrite E, filter_seq, map_length. rewrite <- (map_length Z.of_nat).
  apply Permutation_length. apply NoDup_Permutation.
  - apply FinFun.Injective_map_NoDup; [intros a b; lia|]. apply NoDup_filter, seq_NoDup.
  - apply NoDup_nodup.
  - intros x. rewrite nodup_In, in_map_iff. split.
    + intros (i & <- & I). apply filter_In in I. destruct I as (_ & I). destruct (in_dec _ _ _); [assumption|discriminate].
    + intros I. exists (Z.to_nat x). specialize (A4 x I). split; [lia|]. apply filter_In. split; [apply in_seq; lia|].
      rewrite Z2Nat.id by lia. destruct (in_dec _ _ _); [reflexivity|contradiction].
Qed.

(* -------------------------------------------------------------- convert *)
Lemma max_dim_from (ps : list (point V)) : forall qs d, dimension_of d qs -> 0 <= d <= 4294967295 -> Forall sorted_point ps ->
  dimension_of (fold_left (fun d p => Z.max d (dp_dim p)) ps d) (qs ++ ps) /\
  0 <= fold_left (fun d p => Z.max d (dp_dim p)) ps d <= 4294967295.
Proof.
  induction ps as [|p ps IH]; intros qs d D B F; cbn [fold_left].
  - rewrite app_nil_r. auto.
  - inversion F as [|? ? S F']; subst. destruct S as (S1 & S2 & _). assert (X := sorted_dim _ S1 S2). fold (dp_dim p) in X.
    change (p :: ps) with ([p] ++ ps). rewrite app_assoc. apply IH; [| |exact F'].
    + destruct D as (D1 & D2 & D3). unfold dimension_of.
      assert (AI : all_idx (qs ++ [p]) = all_idx qs ++ p_idx p) by (unfold all_idx; rewrite map_app, concat_app; cbn; now rewrite app_nil_r).
      rewrite AI. split; [|split].
      * intros i I. apply in_app_iff in I. destruct I as [I|I]; [specialize (D1 i I); lia|].
        destruct X as [(E & _)|(_ & X & _)]; [rewrite E in I; destruct I|]. rewrite Forall_forall in X. specialize (X i I). unfold dp_dim in *. lia.
      * intros Hne. apply in_app_iff. destruct X as [(E & E2)|(E & _ & E2)].
        -- left. rewrite E, app_nil_r in Hne. rewrite E2, Z.max_l by lia. auto.
        -- destruct (Z_le_gt_dec d (dp_dim p)) as [H|H]; [right; rewrite Z.max_r by lia; exact E|left].
           rewrite Z.max_l by lia. apply D2. intros En. specialize (D3 En). unfold dp_dim in *. lia.
      * intros En. apply app_eq_nil in En. destruct En as (E1 & E2). specialize (D3 E1). unfold dp_dim. rewrite E2, D3. reflexivity.
    + destruct X as [(_ & X)|(_ & _ & X)]; unfold dp_dim in *; lia.
Qed.
Lemma max_dim_spec (bs : list (list (point V))) : Forall sorted_point (concat bs) -> dimension_of (max_dim bs) (concat bs).
Proof.
  intros F. unfold max_dim. apply (max_dim_from (concat bs) [] 0); [|lia|exact F].
  split; [intros i []|]. split; [intros H; now elim H|reflexivity].
Qed.
Lemma binarize_spec above (o m : V) ps : Forall2 (binarized above o m) ps (map (binarize above o m) ps).
Proof.
  induction ps as [|p ps IH]; cbn; constructor; [|exact IH]. split; [reflexivity|]. split; [reflexivity|]. cbn.
  induction (p_val p) as [|v l IHl]; cbn; constructor; [|exact IHl]. destruct (above v); auto.
Qed.

(* ------------------------------------------------------- split, together *)
Lemma split_run k perm (bs : list (list (point V))) l s : concat bs <> [] ->
  match perm with None => l = concat bs | Some pm => reorder pm (concat bs) = Some l end ->
  fold_size (Z.of_nat (length l)) k = Some s -> 0 <= s -> (1 + Z.of_nat (Z.to_nat k)) * s < two64 ->
  exists fs, split k perm bs = Some (max_dim bs, fs) /\ cut (Z.to_nat s) (Z.to_nat k) l fs.
Proof.
  intros Hne Hl Hs H0 Hov. exists (write_folds (Z.to_nat k) s 0 s l). split.
  - unfold split. destruct (concat bs) eqn:E; [congruence|]. rewrite <- E in *.
    replace (match perm with Some pm => reorder pm (concat bs) | None => Some (concat bs) end) with (Some l) by (destruct perm; congruence).
    cbn [bind]. rewrite Hs. reflexivity.
  - destruct (write_folds_spec (Z.to_nat k) s 0 l H0 ltac:(lia) ltac:(lia) l eq_refl) as (A & B).
    replace (Z.min (0 * s) (Z.of_nat (length l))) with 0 in * by lia. replace (0 * s + s) with s in * by lia.
    split; [exact A|]. intros i Hi. rewrite (B i Hi). reflexivity.
Qed.
End P.
