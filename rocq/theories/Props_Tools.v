(** Properties C40-C43: the data tools. *)
From Coq Require Import Permutation Sorted.
From Verif Require Import M_Base M_Binary M_Text S_Text M_Tools S_Tools.
From Verif Require Import P_Binary P_TextFiles P_F32 P_Tools Props_Data Props_Text.

(** What shuffling may do: the positions come out in some order. *)
Definition shuffled {V} (perm : option (list nat)) (ps : list (point V)) : Prop :=
  match perm with None => True | Some pm => Permutation pm (seq 0 (length ps)) end.

(** C40: each example goes to exactly one of the k folds; without shuffling in the order of the data;
    fold i gets the examples from i * ceil(n/k) on. *)
Theorem C40_split : forall V k perm (bs : list (list (point V))),
  1 <= k < 2147483648 -> 1 <= Z.of_nat (length (concat bs)) <= 16777216 -> shuffled perm (concat bs) ->
  exists d l fs, split k perm bs = Some (d, fs) /\
    Permutation l (concat bs) /\ (perm = None -> l = concat bs) /\
    cut (Z.to_nat ((Z.of_nat (length l) + k - 1) / k)) (Z.to_nat k) l fs /\ concat fs = l.
Proof.
  intros V k perm bs Hk Hn Hp.
  assert (Hne : concat bs <> []) by (intros E; rewrite E in Hn; cbn in Hn; lia).
  assert (L : exists l, match perm with None => l = concat bs | Some pm => reorder pm (concat bs) = Some l end /\ Permutation l (concat bs)).
  { destruct perm as [pm|]; [|now exists (concat bs)]. exact (reorder_total _ _ Hp). }
  destruct L as (l & L1 & L2). assert (Len := Permutation_length L2).
  set (s := (Z.of_nat (length l) + k - 1) / k).
  assert (S1 : 0 <= s /\ s <= 16777216 /\ Z.of_nat (length l) <= k * s).
  { unfold s. assert (X := Z.mul_succ_div_gt (Z.of_nat (length l) + k - 1) k ltac:(lia)).
    assert (Y := Z.mul_div_le (Z.of_nat (length l) + k - 1) k ltac:(lia)). nia. }
  destruct (split_run k perm bs l s Hne L1) as (fs & E & C).
  - apply fold_size_correct; lia.
  - lia.
  - unfold two64. nia.
  - exists (max_dim bs), l, fs. split; [exact E|]. split; [exact L2|]. split; [intros ->; exact L1|]. split; [exact C|].
    rewrite (cut_concat _ _ _ _ C). apply firstn_all2. nia.
Qed.
Print Assumptions C40_split.

(** Five examples, three folds, shuffled: 2 + 2 + 1. *)
Definition ex (y i : Z) : point Z := mkpt y [i] [1065353216].
Example C40_witness : let bs := [[ex 1 1; ex 2 2]; [ex 3 3; ex 4 4]; [ex 5 9]] in
  1 <= Z.of_nat (length (concat bs)) <= 16777216 /\ shuffled (Some [4; 0; 2; 1; 3]%nat) (concat bs) /\
  split 3 (Some [4; 0; 2; 1; 3]%nat) bs = Some (10, [[ex 5 9; ex 1 1]; [ex 3 3; ex 2 2]; [ex 4 4]]) /\
  split 4 None bs = Some (10, [[ex 1 1; ex 2 2]; [ex 3 3; ex 4 4]; [ex 5 9]; []]).
Proof.
  cbn zeta. split; [cbn; lia|]. split.
  - cbn [shuffled]. apply NoDup_Permutation; [repeat constructor; cbn; intuition lia|apply seq_NoDup|].
    intros x. cbn. intuition lia.
  - split; vm_compute; reflexivity.
Qed.

(** The files of the folds (binary format) hold the folds. *)
Theorem C40_fold_files : forall k perm (bs : list (list (point Z))) d fs,
  1 <= k < 2147483648 -> 1 <= Z.of_nat (length (concat bs)) <= 16777216 -> shuffled perm (concat bs) ->
  Forall wf_point (concat bs) -> split k perm bs = Some (d, fs) ->
  Permutation (concat fs) (concat bs) /\
  Forall (fun f => exists file, bin_write_all f = Some file /\ bin_read_file file = Some (f, Status_EndOfFile)) fs.
Proof.
  intros k perm bs d fs Hk Hn Hp Hw E. destruct (C40_split _ k perm bs Hk Hn Hp) as (d' & l & fs' & E' & P & _ & _ & C).
  rewrite E in E'. injection E' as <- <-. rewrite C. split; [exact P|].
  rewrite Forall_forall. intros f Hf. apply C03_binary_roundtrip.
  rewrite Forall_forall in Hw |- *. intros p Hpt. apply Hw. apply (Permutation_in _ P). rewrite <- C. apply in_concat. eauto.
Qed.
Print Assumptions C40_fold_files.

Example C40_files_witness : Forall wf_point (concat [[ex 1 1; ex (-2) 2]; [ex 3 4294967295]]) /\
  split 2 None [[ex 1 1; ex (-2) 2]; [ex 3 4294967295]] = Some (3, [[ex 1 1; ex (-2) 2]; [ex 3 4294967295]]).
Proof.
  split; [|vm_compute; reflexivity].
  repeat (apply Forall_cons || apply Forall_nil); unfold wf_point, is_i32, is_u32, two32; cbn; repeat split; try lia; repeat constructor; lia.
Qed.

(** C40, finding: 2^24 + 1 examples into one fold: the last example is in no file, because the
    number of examples is rounded to a float. *)
Theorem C40_split_large_refuted : exists (bs : list (list (point Z))) d fs,
  Z.of_nat (length (concat bs)) = 16777217 /\ split 1 None bs = Some (d, fs) /\
  Z.of_nat (length (concat fs)) = 16777216.
Proof.
  exists [repeat (ex 1 1) (Z.to_nat 16777217)].
  assert (E : concat [repeat (ex 1 1) (Z.to_nat 16777217)] = repeat (ex 1 1) (Z.to_nat 16777217)) by (cbn [concat]; apply app_nil_r).
  assert (L : length (repeat (ex 1 1) (Z.to_nat 16777217)) = Z.to_nat 16777217) by apply repeat_length.
  revert E L. generalize (repeat (ex 1 1) (Z.to_nat 16777217)). intros l E L.
  assert (F : fold_size (Z.of_nat (length l)) 1 = Some 16777216).
  { rewrite L, Z2Nat.id by lia. vm_compute. reflexivity. }
  destruct (split_run 1 None [l] l 16777216) as (fs & S & C).
  - rewrite E. intros En. rewrite En in L. cbn [length] in L. lia.
  - now rewrite E.
  - exact F.
  - lia.
  - unfold two64. change (Z.to_nat 1) with 1%nat. lia.
  - exists (max_dim [l]), fs. rewrite E, L. split; [lia|]. split; [exact S|].
    rewrite (cut_concat _ _ _ _ C). rewrite firstn_length, L. change (Z.to_nat 1) with 1%nat. lia.
Qed.
Print Assumptions C40_split_large_refuted.

(** C40, finding: zero folds make a division by zero, whose ceiling is converted to size_t. *)
Theorem C40_zero_folds_refuted : exists (bs : list (list (point Z))), concat bs <> [] /\ split 0 None bs = None.
Proof. exists [[ex 1 1]]. split; [discriminate|vm_compute; reflexivity]. Qed.
Print Assumptions C40_zero_folds_refuted.

(** C41: shuffle writes a permutation of the data, which the reader gets back (binary format). *)
Theorem C41_shuffle : forall V perm (bs : list (list (point V))),
  Permutation perm (seq 0 (length (concat bs))) ->
  exists d l, shuffle perm bs = Some (d, l) /\ Permutation l (concat bs) /\
    (Forall sorted_point (concat bs) -> dimension_of d l).
Proof.
  intros V perm bs H. destruct (reorder_total _ _ H) as (l & E & P). exists (max_dim bs), l.
  unfold shuffle. rewrite E. split; [reflexivity|]. split; [exact P|]. intros S.
  destruct (max_dim_spec bs S) as (D1 & D2 & D3).
  assert (A : Permutation (all_idx l) (all_idx (concat bs))).
  { unfold all_idx. clear -P. induction P; cbn; [constructor| | |eauto using Permutation_trans].
    - now apply Permutation_app_head.
    - rewrite !app_assoc. apply Permutation_app_tail, Permutation_app_comm. }
  split; [|split].
  - intros i I. apply D1. now apply (Permutation_in _ A).
  - intros Hne. apply (Permutation_in _ (Permutation_sym A)). apply D2. intros En. apply Hne. rewrite En in A. now apply Permutation_sym, Permutation_nil in A.
  - intros En. apply D3. rewrite En in A. now apply Permutation_nil in A.
Qed.
Print Assumptions C41_shuffle.
Theorem C41_shuffle_file : forall perm (bs : list (list (point Z))) d l,
  Permutation perm (seq 0 (length (concat bs))) -> Forall wf_point (concat bs) -> shuffle perm bs = Some (d, l) ->
  exists file, bin_write_all l = Some file /\ bin_read_file file = Some (l, Status_EndOfFile) /\ Permutation l (concat bs).
Proof.
  intros perm bs d l H W E. destruct (C41_shuffle _ perm bs H) as (d' & l' & E' & P & _). rewrite E in E'. injection E' as <- <-.
  destruct (C03_binary_roundtrip l) as (f & F1 & F2).
  - rewrite Forall_forall in W |- *. intros p I. apply W. now apply (Permutation_in _ P).
  - exists f. auto.
Qed.
Print Assumptions C41_shuffle_file.
Example C41_witness : shuffle [2; 0; 1]%nat [[ex 1 1; ex 2 2]; [ex 3 7]] = Some (8, [ex 3 7; ex 1 1; ex 2 2]) /\
  Permutation [2; 0; 1]%nat (seq 0 3) /\ Forall sorted_point [ex 1 1; ex 2 2; ex 3 7].
Proof.
  split; [vm_compute; reflexivity|]. split.
  - apply NoDup_Permutation; [repeat constructor; cbn; intuition lia|apply seq_NoDup|]. intros x. cbn. intuition lia.
  - repeat constructor; cbn; lia.
Qed.

(** C42: without binarisation, the points written are the points read, in order; the file read back
    (binary format) holds them. *)
Theorem C42_convert_binary : forall bs : list (list (point Z)), Forall wf_point (concat bs) ->
  exists out file, convert false None bs = (Status_OK, None, out) /\ out = concat bs /\
    bin_write_all out = Some file /\ bin_read_file file = Some (concat bs, Status_EndOfFile).
Proof. intros bs W. destruct (C03_binary_roundtrip _ W) as (f & F1 & F2). exists (concat bs), f. auto. Qed.
Print Assumptions C42_convert_binary.
Example C42_binary_witness : Forall wf_point (concat [[ex 1 1; ex (-2) 2]; [ex 3 4294967295]]).
Proof. exact (proj1 C40_files_witness). Qed.

(** C42 for the svm format: values as printed with six significant digits. *)
Theorem C42_convert_svm : forall (V : Type) pow10i (mkval : Z -> Z -> V) bs, Forall writable (concat bs) ->
  exists out file qs, convert false None bs = (Status_OK, None, out) /\
    svm_write_all g6 out = Some file /\ svm_read_file pow10i mkval file = Some (qs, Status_EndOfFile) /\
    Forall2 (fun p q => p_label q = p_label p /\ (StronglySorted Z.lt (p_idx p) -> p_idx q = p_idx p /\
      Forall2 (fun d v => exists m e, v = mkval m e /\ agrees d m e) (p_val p) (p_val q))) (concat bs) qs.
Proof.
  intros V pow10i mkval bs W. destruct (C08_svm_roundtrip V pow10i mkval _ W) as (f & qs & F1 & F2 & F3).
  exists (concat bs), f, qs. split; [reflexivity|]. split; [exact F1|]. split; [exact F2|].
  clear -F3. induction F3 as [|p q ps qs H _ IH]; constructor; [|exact IH].
  destruct H as (H1 & _ & _ & vs & H2 & _ & H3). split; [exact H1|]. intros S. destruct (H3 S) as (-> & ->). auto.
Qed.
Print Assumptions C42_convert_svm.
Example C42_svm_witness : Forall writable (concat [[mkpt (-3) [1; 7] [mkdec6 false 250000 (-1); mkdec6 true 150000 10]]; [mkpt 2 [] []]]).
Proof.
  cbn [concat app].
  repeat apply Forall_cons; try apply Forall_nil; unfold writable; cbn [p_label p_idx p_val length];
  (split; [lia|]); (split; [repeat constructor; lia|]);
  (split; [repeat constructor; unfold dec6_ok; cbn; lia|]); (split; [reflexivity|lia]).
Qed.

(** C42 for csv: the dimension found in the first pass is large enough for every feature, so nothing
    but explicit zeros is lost. *)
Theorem C42_convert_csv : forall (V : Type) pow10i (mkval : Z -> Z -> V) (is_zero : V -> bool) bs,
  (forall m e, is_zero (mkval m e) = (m =? 0)) ->
  Forall (csv_writable 16777216) (concat bs) -> all_idx (concat bs) <> [] ->
  exists d out file qs, convert true None bs = (Status_OK, Some d, out) /\ dimension_of d (concat bs) /\
    csv_write_file g6 d out = Some file /\ csv_read_file pow10i mkval is_zero file = Some (qs, Status_EndOfFile) /\
    Forall2 (fun p q =>
      let kept := filter (fun x => negb (d_sig (snd x) =? 0)) (combine (p_idx p) (p_val p)) in
      p_label q = p_label p /\ p_idx q = map fst kept /\
      Forall2 (fun d v => exists m e, v = mkval m e /\ agrees d m e) (map snd kept) (p_val q)) (concat bs) qs.
Proof.
  intros V pow10i mkval is_zero bs Hz W Hne.
  assert (S : Forall sorted_point (concat bs)).
  { eapply Forall_impl; [|exact W]. intros p (_ & A & _ & B & C). split; [exact B|]. split; [|exact A].
    eapply Forall_impl; [|exact C]. cbn. lia. }
  assert (D := max_dim_spec bs S). set (d := max_dim bs) in *.
  assert (Bd : 1 < d <= 16777216).
  { destruct D as (_ & D & _). specialize (D Hne). unfold all_idx in D. apply in_concat in D. destruct D as (x & X1 & X2).
    apply in_map_iff in X1. destruct X1 as (p & <- & X1). rewrite Forall_forall in W. destruct (W p X1) as (_ & _ & _ & _ & C).
    rewrite Forall_forall in C. specialize (C _ X2). cbn in C. lia. }
  assert (W' : Forall (csv_writable d) (concat bs)).
  { rewrite Forall_forall in W |- *. intros p I. destruct (W p I) as (A1 & A2 & A3 & A4 & A5). repeat (split; [assumption|]).
    rewrite Forall_forall in A5 |- *. intros i J. specialize (A5 i J). cbn in A5. destruct D as (D & _). specialize (D i).
    assert (i < d); [|lia]. apply D. apply in_concat. exists (p_idx p). split; [now apply in_map|exact J]. }
  destruct (C09_csv_roundtrip V pow10i mkval is_zero Hz d _ ltac:(lia) W') as (f & qs & F1 & F2 & F3).
  exists d, (concat bs), f, qs. split; [|auto]. unfold convert. fold d. replace (d =? 0) with false by lia. reflexivity.
Qed.
Print Assumptions C42_convert_csv.
Example C42_csv_witness : let bs := [[mkpt 5 [1; 3] [mkdec6 false 250000 (-1); mkdec6 true 150000 10]]; [mkpt (-1) [2] [mkdec6 false 0 0]]] in
  Forall (csv_writable 16777216) (concat bs) /\ all_idx (concat bs) <> [] /\ convert true None bs = (Status_OK, Some 4, concat bs).
Proof.
  cbn zeta. split; [|split; [discriminate|reflexivity]]. cbn [concat app].
  repeat apply Forall_cons; try apply Forall_nil; unfold csv_writable; cbn [p_label p_idx p_val length];
  (split; [lia|]); (split; [reflexivity|]);
  (split; [repeat constructor; unfold dec6_ok; cbn; lia|]);
  (split; [repeat constructor; lia|repeat constructor; lia]).
Qed.

(** C42, binarisation, for any value type and threshold test. *)
Theorem C42_binarize : forall V (above : V -> bool) one minus_one bs, exists out,
  convert false (Some (above, one, minus_one)) bs = (Status_OK, None, out) /\
  Forall2 (binarized above one minus_one) (concat bs) out.
Proof. intros. eexists. split; [reflexivity|]. apply binarize_spec. Qed.
Print Assumptions C42_binarize.
Example C42_binarize_witness :
  convert false (Some (fun v => 3 <? v, 1, -1)) [[mkpt 7 [2; 9] [3; 4]]; [mkpt (-5) [1] [100]]]
  = (Status_OK, None, [mkpt 7 [2; 9] [-1; 1]; mkpt (-5) [1] [1]]).
Proof. reflexivity. Qed.
(** C42, finding: data without any feature cannot be converted to csv (nothing is written although
    every record has a label). *)
Theorem C42_no_features_refuted : exists bs : list (list (point Z)),
  concat bs <> [] /\ convert true None bs = (Status_Invalid_Format, Some 0, []).
Proof. exists [[mkpt 1 [] []]]. split; [discriminate|reflexivity]. Qed.
Print Assumptions C42_no_features_refuted.

(** C43: the numbers of the report are exact. *)
Theorem C43_analyze : forall V (bs : list (list (point V))), Forall sorted_point (concat bs) ->
  exists r, analyze bs = Some r /\
    r_data r = Z.of_nat (length (concat bs)) /\
    r_feats r = Z.of_nat (length (all_idx (concat bs))) /\
    (all_idx (concat bs) <> [] -> In (r_dim r) (all_idx (concat bs)) /\ forall i, In i (all_idx (concat bs)) -> i <= r_dim r) /\
    r_used r = Z.of_nat (length (nodup Z.eq_dec (all_idx (concat bs)))) /\
    r_class_num r = Z.of_nat (length (nodup Z.eq_dec (all_labels (concat bs)))) /\
    StronglySorted Z.lt (map fst (r_classes r)) /\
    (forall y n, In (y, n) (r_classes r) <-> n = occurrences y (all_labels (concat bs)) /\ 0 < n) /\
    total (r_classes r) = r_data r.
Proof.
  intros V bs S. destruct (analyze_batches_spec bs [] counts0 found0 S) as (s & E & D & F).
  cbn [app] in F. unfold analyze. rewrite E. cbn [bind]. eexists. split; [reflexivity|].
  cbn [r_data r_feats r_dim r_used r_class_num r_classes]. assert (U := used_spec _ _ F).
  destruct F as (A1 & A2 & A3 & A4 & A5 & A6 & A7 & A8 & A9 & A10). cbn in D.
  split; [exact D|]. split; [exact A1|]. split; [|split; [|split; [|split; [exact A8|split; [exact A10|lia]]]]].
  - intros Hne. specialize (A5 Hne). assert (X := A4 _ A5). unfold u64, two64. rewrite Z.mod_small by lia.
    split; [exact A5|]. intros i Hi. specialize (A4 i Hi). lia.
  - now rewrite U.
  - f_equal. rewrite <- (map_length fst). apply Permutation_length. apply NoDup_Permutation.
    + clear -A8. induction A8 as [|x l S IH F]; constructor; [|exact IH]. intros I. rewrite Forall_forall in F. specialize (F x I). lia.
    + apply NoDup_nodup.
    + intros y. rewrite nodup_In, in_map_iff, (count_occ_In Z.eq_dec). split.
      * intros ((y', n) & <- & I). apply A10 in I. unfold occurrences in I. cbn. lia.
      * intros I. exists (y, occurrences y (all_labels (concat bs))). split; [reflexivity|]. apply A10. unfold occurrences. lia.
Qed.
Print Assumptions C43_analyze.
Example C43_witness : let bs := [[mkpt 3 [2; 5] [1; 1]; mkpt (-1) [5] [1]]; [mkpt 3 [] []]] in
  Forall sorted_point (concat bs) /\ analyze bs = Some (mkreport 3 3 5 2 2 [(-1, 1); (3, 2)]).
Proof. cbn zeta. split; [repeat constructor; cbn; lia|vm_compute; reflexivity]. Qed.
(** C43, findings: without features the reported dimension is 2^64 - 1; a record with decreasing
    indexes (or with index 2^32 - 1) makes the tool write outside its array. *)
Theorem C43_no_features_refuted : exists bs : list (list (point Z)), concat bs <> [] /\
  exists r, analyze bs = Some r /\ r_dim r = 18446744073709551615.
Proof. exists [[mkpt 1 [] []]]. split; [discriminate|]. eexists. split; vm_compute; reflexivity. Qed.
Print Assumptions C43_no_features_refuted.
Theorem C43_unsorted_refuted :
  (exists p : point Z, Forall (fun i => 0 <= i < 4294967295) (p_idx p) /\ analyze [[p]] = None) /\
  (exists p : point Z, StronglySorted Z.lt (p_idx p) /\ Forall is_u32 (p_idx p) /\ length (p_val p) = length (p_idx p) /\ analyze [[p]] = None).
Proof.
  split.
  - exists (mkpt 1 [5; 2] [1; 1]). split; [repeat constructor; lia|vm_compute; reflexivity].
  - exists (mkpt 1 [4294967295] [1]). split; [repeat constructor|]. split; [repeat constructor; unfold two32; lia|]. split; reflexivity.
Qed.
Print Assumptions C43_unsorted_refuted.
