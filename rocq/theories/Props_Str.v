(** Properties C44-C47: string helpers, paths of in-memory matrices and their readers, component
    registry. *)
From Coq Require Import String.
From Coq Require Import Permutation Sorted.
From Verif Require Import M_Base M_Text M_Str S_Str M_Array S_Array P_Str P_Array.

(** C44: split returns the maximal non-empty separator-free pieces, and nothing else has this
    property. *)
Theorem C44_split : forall d s, exists ps, str_split d s = Some ps /\ pieces d s ps /\ forall qs, pieces d s qs -> qs = ps.
Proof. intros d s. destruct (str_split_spec d s) as (ps & E & P). exists ps. split; [exact E|]. split; [exact P|]. intros qs Q. exact (pieces_fun d s qs Q ps P). Qed.
Print Assumptions C44_split.
Theorem C44_join_split : forall d ps, Forall (fun p => p <> [] /\ Forall (fun c => c <> d) p) ps -> str_split d (join d ps) = Some ps.
Proof. intros d ps H. destruct (C44_split d (join d ps)) as (qs & -> & _ & U). f_equal. symmetry. apply U. now apply pieces_join. Qed.
Print Assumptions C44_join_split.
(** strip: leading blanks and everything from the next blank on are removed. *)
Theorem C44_strip : forall s, exists pre rest, s = pre ++ strip s ++ rest /\
  Forall (fun c => c = 32 \/ c = 9) pre /\ Forall (fun c => c <> 32 /\ c <> 9) (strip s) /\
  (strip s = [] -> rest = []) /\ (rest = [] \/ exists c r, rest = c :: r /\ (c = 32 \/ c = 9)).
Proof. exact strip_spec. Qed.
Print Assumptions C44_strip.
(** C44, finding: so strip is not a trim; text after an inner blank is lost. *)
Theorem C44_strip_trims_refuted : exists w, ~ In 9 w /\ w <> [] /\ (forall c r, w = c :: r -> c <> 32) /\ last w 32 <> 32 /\
  strip ([32] ++ w ++ [32]) <> w.
Proof. exists (bytes "a b"). vm_compute. split; [intuition congruence|]. split; [discriminate|]. split; [intros c r E; injection E as <-; discriminate|]. split; discriminate. Qed.
Print Assumptions C44_strip_trims_refuted.
Theorem C44_lower : forall s, length (lower s) = length s /\ lower (lower s) = lower s /\ same_name s (lower s) /\
  Forall (fun c => ~ 65 <= c <= 90) (lower s) /\ forall t, lower s = lower t <-> same_name s t.
Proof.
  intros s. split; [apply map_length|]. split; [apply lower_idem|]. destruct (lower_spec s) as (A & B). split; [exact A|]. split; [exact B|].
  intros t. symmetry. apply lower_same.
Qed.
Print Assumptions C44_lower.
Example C44_witness :
  str_split 59 (bytes ";;12;-3;x y;;") = Some [bytes "12"; bytes "-3"; bytes "x y"] /\
  Forall (fun p => p <> [] /\ Forall (fun c => c <> 59) p) [bytes "12"; bytes "x y"] /\
  str_split 59 (join 59 [bytes "12"; bytes "x y"]) = Some [bytes "12"; bytes "x y"] /\
  strip (bytes "  ab cd ") = bytes "ab" /\ lower (bytes "AdaRDA-L1") = bytes "adarda-l1".
Proof.
  split; [reflexivity|]. split; [|repeat split; reflexivity].
  repeat (apply Forall_cons; [split; [discriminate|vm_compute; repeat constructor; discriminate]|]). apply Forall_nil.
Qed.

(** C45: addresses and sizes survive the path string: every 64-bit address, every int. *)
Theorem C45_numpy_path : forall x y rows cols stride, 0 <= x < two64 -> 0 <= y < two64 ->
  is_i32 rows -> is_i32 cols -> is_i32 stride ->
  exists path, numpy_path x y rows cols stride = Some path /\ numpy_parse path = Some (Parsed (x, y, rows, cols, stride)).
Proof.
  intros x y rows cols stride Hx Hy Hr Hc Hs. unfold numpy_path.
  destruct (print_d64_ok (i64 x) (i64_range x)) as (a & Ea & _ & Na & Ca).
  destruct (print_d64_ok (i64 y) (i64_range y)) as (b & Eb & _ & Nb & Cb).
  assert (R : forall z, is_i32 z -> -9223372036854775808 <= z <= 9223372036854775807) by (unfold is_i32; intros; lia).
  destruct (print_d64_ok rows (R _ Hr)) as (c & Ec & _ & Nc & Cc).
  destruct (print_d64_ok cols (R _ Hc)) as (d & Ed & _ & Nd & Cd).
  destruct (print_d64_ok stride (R _ Hs)) as (e & Ee & _ & Ne & Ce).
  rewrite Ea, Eb, Ec, Ed, Ee. cbn [bind]. eexists. split; [reflexivity|]. unfold numpy_parse.
  rewrite path_split by (repeat (constructor; [split; assumption|]); constructor). cbn [bind].
  rewrite (parse_addr_ok u64 a _ Ea (i64_range x)), (parse_addr_ok u64 b _ Eb (i64_range y)), (parse_addr_ok i32 c _ Ec (R _ Hr)),
    (parse_addr_ok i32 d _ Ed (R _ Hc)), (parse_addr_ok i32 e _ Ee (R _ Hs)). cbn [then_].
  rewrite !u64_i64, !i32_id by assumption. reflexivity.
Qed.
Print Assumptions C45_numpy_path.
Theorem C45_csr_path : forall indices indptr features y n, 0 <= indices < two64 -> 0 <= indptr < two64 ->
  0 <= features < two64 -> 0 <= y < two64 -> is_i32 n ->
  exists path, csr_path indices indptr features y n = Some path /\ csr_parse path = Some (Parsed (indices, indptr, features, y, n)).
Proof.
  intros i p f y n Hi Hp Hf Hy Hn. unfold csr_path.
  destruct (print_d64_ok (i64 i) (i64_range i)) as (a & Ea & _ & Na & Ca).
  destruct (print_d64_ok (i64 p) (i64_range p)) as (b & Eb & _ & Nb & Cb).
  destruct (print_d64_ok (i64 f) (i64_range f)) as (c & Ec & _ & Nc & Cc).
  destruct (print_d64_ok (i64 y) (i64_range y)) as (d & Ed & _ & Nd & Cd).
  assert (R : forall z, is_i32 z -> -9223372036854775808 <= z <= 9223372036854775807) by (unfold is_i32; intros; lia).
  destruct (print_d64_ok n (R _ Hn)) as (e & Ee & _ & Ne & Ce).
  rewrite Ea, Eb, Ec, Ed, Ee. cbn [bind]. eexists. split; [reflexivity|]. unfold csr_parse.
  rewrite path_split by (repeat (constructor; [split; assumption|]); constructor). cbn [bind].
  rewrite (parse_addr_ok u64 a _ Ea (i64_range i)), (parse_addr_ok u64 b _ Eb (i64_range p)), (parse_addr_ok u64 c _ Ec (i64_range f)),
    (parse_addr_ok u64 d _ Ed (i64_range y)), (parse_addr_ok i32 e _ Ee (R _ Hn)). cbn [then_].
  rewrite !u64_i64, !i32_id by assumption. reflexivity.
Qed.
Print Assumptions C45_csr_path.
Example C45_witness :
  numpy_path 140737488355328 18446744073709551615 3 5 (-40) = Some (bytes "140737488355328;-1;3;5;-40") /\
  numpy_parse (bytes " 140737488355328;-1; 3;5;-40") = Some (Parsed (140737488355328, 18446744073709551615, 3, 5, -40)) /\
  csr_path 8 16 24 0 7 = Some (bytes "8;16;24;0;7") /\ is_i32 (-40).
Proof. repeat split; try reflexivity; cbv; congruence. Qed.
(** C45, findings: a number outside 64 bits makes the parser throw instead of reporting an error;
    sizes outside 32 bits are silently reduced. *)
Theorem C45_bad_path_refuted :
  (exists path, numpy_parse path = Some Thrown) /\
  (exists path, numpy_parse path = Some (Parsed (0, 0, 1, 2, 8)) /\ path = bytes "0;0;4294967297;2;8").
Proof. split; [exists (bytes "99999999999999999999;0;1;1;8"); reflexivity|]. eexists. split; [|reflexivity]. reflexivity. Qed.
Print Assumptions C45_bad_path_refuted.

(** C46: a dense matrix is read row by row; whatever had been read before, rewinding starts over. *)
Theorem C46_numpy : forall D V nonzero (to_real : D -> V) to_label rows cols (r : numpy (D := D)) dst,
  laid_out rows cols (np_stride r) (np_x r) -> np_n r = Z.of_nat (length rows) -> np_cols r = Z.of_nat cols ->
  (forall i, (i < length rows)%nat -> exists l, row_label to_label (np_y r) i l) ->
  (forall i, (i < length rows)%nat -> is_i32 (Z.of_nat i * np_stride r)) ->
  exists ps r', read_k (numpy_next nonzero to_real to_label) (S (length rows)) (numpy_rewind r) dst =
    Some (ps, if (0 <? length rows)%nat then Status_EndOfFile else Status_IO_Error, r') /\
    numpy_rewind r' = numpy_rewind r /\ length ps = length rows /\
    forall i p, nth_error ps i = Some p -> row_label to_label (np_y r) i (p_label p) /\ length (p_idx p) = length (p_val p) /\
      exists row, nth_error rows i = Some row /\ combine (p_idx p) (p_val p) = dense_feats nonzero to_real row.
Proof.
  intros D V nonzero to_real to_label rows cols r dst H1 H2 H3 H4 H5.
  destruct (numpy_reads nonzero to_real to_label rows cols r dst H1 H2 H3 H4 H5) as (ps & E & L & P). exists ps, (numpy_at r (length rows)). auto.
Qed.
Print Assumptions C46_numpy.
(** Two rows of three columns with padding: stride 32. *)
Example C46_numpy_witness :
  let x := fun off => nth_error [1; 0; 5; 99; 0; 0; 7; 99] (Z.to_nat (off / 8)) in
  let r := mknumpy x (Some [-1; 1]) 2 3 32 1 in
  laid_out [[1; 0; 5]; [0; 0; 7]] 3 (np_stride r) (np_x r) /\
  read_k (numpy_next (fun v => negb (v =? 0)) (fun v => v) Some) 3 (numpy_rewind r) (mkpt 9 [9] [9])
  = Some ([mkpt (-1) [1; 3] [1; 5]; mkpt 1 [3] [7]], Status_EndOfFile, mknumpy x (Some [-1; 1]) 2 3 32 2).
Proof.
  cbn zeta. split; [|reflexivity]. split; [repeat constructor|].
  intros [|[|[|i]]] j row v Hr Hv; cbn in Hr; try discriminate; injection Hr as <-;
    destruct j as [|[|[|[|j]]]]; cbn in Hv; try discriminate; injection Hv as <-; reflexivity.
Qed.
(** C46, finding: the position of a row is computed in int, so a matrix whose rows lie 2^31 or more
    bytes apart from the first makes the reader fail although every row is there. *)
Theorem C46_numpy_large_refuted : exists rows cols (r : numpy (D := Z)) dst,
  laid_out rows cols (np_stride r) (np_x r) /\ np_n r = Z.of_nat (length rows) /\ np_cols r = Z.of_nat cols /\ np_y r = None /\
  read_k (numpy_next (fun v => negb (v =? 0)) (fun v => v) Some) (S (length rows)) (numpy_rewind r) dst = None.
Proof.
  exists [[1]; [1]; [1]], 1%nat, (mknumpy (fun _ => Some 1) None 3 1 1073741824 0), (mkpt 0 [] []).
  split; [|repeat split; vm_compute; reflexivity]. split; [repeat constructor|].
  intros [|[|[|i]]] [|j] row v Hr Hv; cbn in Hr; try discriminate; try (injection Hr as <-; cbn in Hv; try discriminate; injection Hv as <-; reflexivity).
  - injection Hr as <-. destruct j; discriminate.
  - injection Hr as <-. destruct j; discriminate.
  - injection Hr as <-. destruct j; discriminate.
  - destruct i; discriminate.
  - destruct i; discriminate.
Qed.
Print Assumptions C46_numpy_large_refuted.

(** C46 for sparse matrices in row order. *)
Theorem C46_csr : forall D V (to_real : D -> V) to_label base rows (r : csr (D := D)) dst,
  csr_arrays base rows (cs_indices r) (cs_indptr r) (cs_feats r) -> cs_n r = Z.of_nat (length rows) ->
  Forall (Forall (fun e : Z * D => 0 <= fst e < 2147483647)) rows -> Z.of_nat (length (concat rows)) < 2147483648 ->
  (forall i, (i < length rows)%nat -> exists l, row_label to_label (cs_y r) i l) ->
  exists ps r', read_k (csr_next to_real to_label) (S (length rows)) (csr_rewind r) dst =
    Some (ps, if (0 <? length rows)%nat then Status_EndOfFile else Status_IO_Error, r') /\
    csr_rewind r' = csr_rewind r /\ length ps = length rows /\
    forall i p, nth_error ps i = Some p -> row_label to_label (cs_y r) i (p_label p) /\
      exists row, nth_error rows i = Some row /\ sparse_example to_real row p.
Proof.
  intros D V to_real to_label base rows r dst H1 H2 H3 H4 H5.
  destruct (csr_reads to_real to_label base rows r dst H1 H2 H3 H4 H5) as (ps & E & L & P). exists ps, (csr_at r (length rows)). auto.
Qed.
Print Assumptions C46_csr.
Example C46_csr_witness :
  let r := mkcsr [4; 0; 2] [10; 12; 12; 13] [7; 8; 9] None 3 2 in
  csr_arrays 10 [[(4, 7); (0, 8)]; []; [(2, 9)]] (cs_indices r) (cs_indptr r) (cs_feats r) /\
  read_k (csr_next (fun v => v) Some) 4 (csr_rewind r) (mkpt 9 [9] [9])
  = Some ([mkpt 0 [1; 5] [8; 7]; mkpt 0 [] []; mkpt 0 [3] [9]], Status_EndOfFile, mkcsr [4; 0; 2] [10; 12; 12; 13] [7; 8; 9] None 3 3).
Proof.
  cbn zeta. split; [|vm_compute; reflexivity]. split; [reflexivity|]. split; [reflexivity|]. split; [reflexivity|].
  intros [|[|[|[|i]]]] H; cbn in H; try lia; reflexivity.
Qed.

(** C47: a program's registrations succeed exactly if no two names agree up to case; then a lookup
    finds exactly what was registered under that name. *)
Theorem C47_register : forall A (h : list (list Z * A)),
  register_all [] h <> None <-> ForallOrdPairs (fun a b => ~ same_name (fst a) (fst b)) h.
Proof.
  intros A h. destruct (register_all_spec h [] (NoDup_nil _)) as (_ & ->). rewrite app_nil_r, map_rev.
  assert (R : forall l : list (list Z), NoDup (rev l) <-> NoDup l).
  { intros l. split; intros H; [rewrite <- (rev_involutive l)|]; apply NoDup_rev; exact H. }
  rewrite R, map_map. cbn [fst]. clear R. induction h as [|(n, x) h IH]; cbn [map fst].
  - split; constructor.
  - split.
    + intros H. inversion H; subst. constructor; [|now apply IH]. rewrite Forall_forall. intros (k, y) I S. cbn [fst] in S. apply lower_same in S.
      apply H2. rewrite S. change k with (fst (k, y)). now apply (in_map (fun e : list Z * A => lower (fst e))).
    + intros H. inversion H as [|? ? F G]; subst. constructor; [|now apply IH]. intros I. apply in_map_iff in I. destruct I as ((k, y) & E & I).
      rewrite Forall_forall in F. apply (F _ I). cbn [fst] in *. apply lower_same. auto.
Qed.
Print Assumptions C47_register.
Theorem C47_lookup : forall A (h : list (list Z * A)) m n x, register_all [] h = Some m ->
  (create_object m n = Some x <-> exists k, In (k, x) h /\ same_name k n).
Proof.
  intros A h m n x E. destruct (register_all_spec h [] (NoDup_nil _)) as (S & _). destruct (S m E) as (Em & N). rewrite app_nil_r in Em.
  unfold create_object. split.
  - intros F. apply reg_find_some in F. rewrite Em, <- in_rev in F. apply in_map_iff in F. destruct F as ((k, y) & F & I). cbn [fst snd] in F.
    injection F as F1 ->. exists k. split; [exact I|]. now apply lower_same.
  - intros (k & I & Sk). apply lower_same in Sk. apply reg_find_unique; [exact N|]. rewrite Em, <- in_rev, <- Sk.
    change (lower k, x) with ((fun e : list Z * A => (lower (fst e), snd e)) (k, x)). now apply in_map.
Qed.
Print Assumptions C47_lookup.
(** Components of different families never answer to the same name. *)
Theorem C47_families : forall f g a b, same_name (full_name f a) (full_name g b) <-> f = g /\ same_name a b.
Proof.
  intros f g a b. rewrite !lower_same. unfold full_name, lower. rewrite !map_app.
  split.
  - intros E. assert (X : f = g).
    { apply (f_equal (@rev Z)) in E. rewrite !rev_app_distr in E. destruct f, g; try reflexivity; exfalso; vm_compute in E; discriminate. }
    split; [exact X|]. subst g. now apply app_inv_tail in E.
  - intros (-> & ->). reflexivity.
Qed.
Print Assumptions C47_families.
(** The components of the library: in whatever order they are registered, registration succeeds and
    each is found by family and name, ignoring case. *)
Theorem C47_builtin : forall h, Permutation h (map (fun e => (full_name (fst e) (snd e), e)) builtin) ->
  exists m, register_all [] h = Some m /\
  forall f n e, create_object m (full_name f n) = Some e <-> In e builtin /\ fst e = f /\ same_name (snd e) n.
Proof.
  intros h P. assert (N : register_all [] h <> None).
  { destruct (register_all_spec h [] (NoDup_nil _)) as (_ & ->). rewrite app_nil_r.
    set (k := fun e : list Z * (family * list Z) => (lower (fst e), snd e)).
    assert (Q : Permutation (map fst (rev (map k h))) (map fst (map k (map (fun e => (full_name (fst e) (snd e), e)) builtin)))).
    { apply Permutation_map. eapply Permutation_trans; [apply Permutation_sym, Permutation_rev|]. now apply Permutation_map. }
    apply (Permutation_NoDup (Permutation_sym Q)). apply (NoDup_map_inv (fun l => l)).
    assert (B : forall l : list (list Z), (fix nd (l : list (list Z)) := match l with [] => true | x :: r => negb (existsb (str_eqb x) r) && nd r end) l = true -> NoDup l).
    { induction l as [|x l IH]; intros H; constructor; apply andb_prop in H; destruct H as (H1 & H2); [|auto].
      intros I. apply negb_true_iff in H1. assert (existsb (str_eqb x) l = true); [|congruence]. apply existsb_exists. exists x. split; [exact I|]. now apply str_eqb_eq. }
    apply B. vm_compute. reflexivity. }
  destruct (register_all [] h) as [m|] eqn:E; [|congruence]. exists m. split; [reflexivity|]. intros f n e. rewrite (C47_lookup _ _ _ _ _ E). split.
  - intros (k & I & S). apply (Permutation_in _ P) in I. apply in_map_iff in I. destruct I as (e' & Ee & I). injection Ee as <- ->.
    apply C47_families in S. tauto.
  - intros (I & <- & S). exists (full_name (fst e) (snd e)). split.
    + apply (Permutation_in _ (Permutation_sym P)). apply in_map_iff. eauto.
    + apply C47_families. auto.
Qed.
Print Assumptions C47_builtin.
Example C47_witness :
  match register_all [] (map (fun e => (full_name (fst e) (snd e), e)) builtin) with
  | Some m => create_object m (full_name Model (bytes "Ada-RDA-L1")) = Some (Model, bytes "ada-rda-l1") /\
              create_object m (full_name Loss (bytes "ada-rda-l1")) = None /\
              create_object m (full_name Model (bytes "svm")) = None
  | None => False
  end /\
  register_all [] [(bytes "pa", 1); (bytes "PA1", 2); (bytes "Pa", 3)] = None.
Proof. vm_compute. repeat split; reflexivity. Qed.

(** C42, finding: convert recognises the target "csv" by comparing the text (tools.cc:121) while the
    writer is looked up ignoring case, so for "CSV" the csv writer is used without ever being told the
    dimension (its field feat_dim_, csv_writer.h:36, is uninitialised). *)
Theorem C42_csv_case_refuted : exists t m,
  register_all [] (map (fun e => (full_name (fst e) (snd e), e)) builtin) = Some m /\
  create_object m (full_name Writer t) = Some (Writer, bytes "csv") /\ str_eqb t (bytes "csv") = false.
Proof. exists (bytes "CSV"). eexists. split; [vm_compute; reflexivity|]. split; vm_compute; reflexivity. Qed.
Print Assumptions C42_csv_case_refuted.
