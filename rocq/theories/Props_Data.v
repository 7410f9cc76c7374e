(** Properties C01-C04, C10, C11: codecs, binary files, sorting, growable arrays. *)
From Coq Require Import Permutation Sorted.
From Verif Require Import M_Base M_Compress M_Binary M_DataPoint M_Vector S_Vector.
From Verif Require Import P_Compress P_Binary P_DataPoint P_Vector.

(** C01: compress then decompress is the identity on every list of uint32 indexes. *)
Theorem C01_index_compression_lossless : forall xs, Forall is_u32 xs ->
  exists codes, comp_index xs = Some codes /\ Forall is_byte codes /\
                decomp_index codes = Some xs.
Proof. exact comp_index_roundtrip_l. Qed.
Print Assumptions C01_index_compression_lossless.

Example C01_witness : Forall is_u32 [7; 4294967295; 0; 300; 300] /\
  comp_index [7; 4294967295; 0; 300; 300] <> None.
Proof. split; [repeat constructor; cbv; intuition congruence|vm_compute; discriminate]. Qed.

(** C02: totality and length of codes, and decoding exactly one code from any longer buffer
    (up to the sign extension that the 32-bit truncation of the caller removes). *)
Theorem C02_encode_total : forall i, 0 <= i < two64 ->
  exists c, run_len_encode i = Some c /\ (1 <= length c <= 10)%nat /\ Forall is_byte c /\
            (i < two32 -> (length c <= 5)%nat).
Proof. exact encode_total. Qed.
Print Assumptions C02_encode_total.

Theorem C02_decode_self_delimiting : forall i c rest, is_u32 i -> run_len_encode i = Some c ->
  exists v, run_len_decode (c ++ rest) = Some (v, rest) /\ u32 v = i.
Proof. exact decode_self_delimiting_l. Qed.
Print Assumptions C02_decode_self_delimiting.

(** C02, finding: a buffer that ends in a continuation byte makes the decoder read past it. *)
Theorem C02_decode_in_bounds_refuted :
  exists bs, bs <> [] /\ Forall is_byte bs /\ run_len_decode bs = None.
Proof. exact decode_overread_l. Qed.
Print Assumptions C02_decode_in_bounds_refuted.

Theorem C02_decode_overread_always : forall bs, Forall (fun b => 128 <= b < 256) bs ->
  run_len_decode bs = None.
Proof. exact (fun bs => decode_overread_go bs 0 0). Qed.
Print Assumptions C02_decode_overread_always.

Example C02_witness : is_u32 4294967295 /\
  run_len_encode 4294967295 = Some [255; 255; 255; 255; 15] /\
  Forall (fun b => 128 <= b < 256) [200; 128].
Proof. repeat split; try (cbv; congruence); repeat constructor; lia. Qed.

(** C03: writing any points and reading the file gives them back, then end of file. *)
Theorem C03_binary_roundtrip : forall ps, Forall wf_point ps ->
  exists file, bin_write_all ps = Some file /\
               bin_read_file file = Some (ps, Status_EndOfFile).
Proof. exact binary_roundtrip_l. Qed.
Print Assumptions C03_binary_roundtrip.

Example C03_witness :
  Forall wf_point [mkpt (-1) [5; 2; 4294967295] [1; 2; 4286578688]; mkpt 7 [] []].
Proof.
  repeat apply Forall_cons; try apply Forall_nil; unfold wf_point; cbn [p_label p_idx p_val length];
  (split; [cbv; intuition congruence|]); (split; [repeat constructor; cbv; intuition congruence|]);
  (split; [repeat constructor; cbv; intuition congruence|]); split; reflexivity.
Qed.

(** C04: the exact behaviour on a file cut [c] bytes into the record after [pre]. *)
Theorem C04_truncation_exact : forall pre p a b c, Forall wf_point pre -> wf_point p ->
  bin_write_all pre = Some a -> bin_write p = Some b -> (0 < c < length b)%nat ->
  bin_read_file (a ++ firstn c b) =
    Some (pre ++ (if andb (4 <=? c)%nat (c <? 12)%nat then [mkpt (p_label p) [] []] else []),
          if (c <? 12)%nat then Status_EndOfFile else Status_Invalid_Format).
Proof. exact binary_truncation_l. Qed.
Print Assumptions C04_truncation_exact.

(** C04, the whole claim with its one exception: a file cut at any byte is read as the records it wholly
    contains and a status other than OK, unless the cut falls into the 8-byte feature count of the next
    record: then its label without features is delivered as well. *)
Theorem C04_every_cut : forall ps file k, Forall wf_point ps -> bin_write_all ps = Some file -> (k <= length file)%nat ->
  exists n a st, (n <= length ps)%nat /\ bin_write_all (firstn n ps) = Some a /\ (length a <= k)%nat /\
    (forall b, bin_write_all (firstn (S n) ps) = Some b -> (n < length ps)%nat -> (k < length b)%nat) /\
    st <> Status_OK /\
    (bin_read_file (firstn k file) = Some (firstn n ps, st) \/
     ((length a + 4 <= k < length a + 12)%nat /\ exists p, nth_error ps n = Some p /\
      bin_read_file (firstn k file) = Some (firstn n ps ++ [mkpt (p_label p) [] []], Status_EndOfFile))).
Proof. exact binary_every_cut_l. Qed.
Print Assumptions C04_every_cut.

(** C04, finding: a cut file can be read "successfully" with a point that was never written. *)
Theorem C04_no_wrong_point_refuted : exists ps file k pts st,
  Forall wf_point ps /\ bin_write_all ps = Some file /\ (k < length file)%nat /\
  bin_read_file (firstn k file) = Some (pts, st) /\ (forall n, pts <> firstn n ps).
Proof. exact binary_truncation_refuted_l. Qed.
Print Assumptions C04_no_wrong_point_refuted.

Example C04_witness : let p := mkpt 3 [1; 9] [1065353216; 0] in
  wf_point p /\ exists b, bin_write p = Some b /\ (0 < 13 < length b)%nat.
Proof.
  cbn zeta. split.
  - unfold wf_point; cbn [p_label p_idx p_val length].
    (split; [cbv; intuition congruence|]); (split; [repeat constructor; cbv; intuition congruence|]);
    (split; [repeat constructor; cbv; intuition congruence|]); split; reflexivity.
  - eexists. split; [vm_compute; reflexivity|]. cbn [length]. lia.
Qed.

Example C04_every_witness : let ps := [mkpt 3 [1; 9] [1065353216; 0]; mkpt (-1) [4] [0]] in
  Forall wf_point ps /\ exists file, bin_write_all ps = Some file /\ (length file = 55)%nat /\
  bin_read_file (firstn 31 file) = Some (firstn 1 ps, Status_EndOfFile) /\
  bin_read_file (firstn 36 file) = Some ([mkpt 3 [1; 9] [1065353216; 0]; mkpt (-1) [] []], Status_EndOfFile) /\
  bin_read_file (firstn 45 file) = Some (firstn 1 ps, Status_Invalid_Format).
Proof.
  cbv zeta. split.
  - repeat constructor; cbn; try lia; cbv; intuition congruence.
  - eexists. split; [vm_compute; reflexivity|]. vm_compute. auto.
Qed.

(** C10: sorting terminates in bounds, sorts, keeps every index/value pair, and does nothing to a
    point that is already strictly increasing. *)
Theorem C10_sort : forall (V : Type) (p : point V), length (p_idx p) = length (p_val p) ->
  exists q, dp_sort p = Some q /\ p_label q = p_label p /\
    length (p_idx q) = length (p_val q) /\
    StronglySorted Z.le (p_idx q) /\
    Permutation (combine (p_idx q) (p_val q)) (combine (p_idx p) (p_val p)) /\
    (StronglySorted Z.lt (p_idx p) -> q = p).
Proof. exact @dp_sort_spec. Qed.
Print Assumptions C10_sort.

Example C10_witness : dp_sort (mkpt 1 [4; 2; 9; 2; 0] [10; 20; 30; 40; 50]) =
  Some (mkpt 1 [0; 2; 2; 4; 9] [50; 40; 20; 10; 30]).
Proof. vm_compute. reflexivity. Qed.

(** C11: every admissible history of a vector is a history of the abstract sequence; no
    undefined behaviour, and the size never exceeds the capacity. *)
Theorem C11_vector_is_sequence : forall (A : Type) (zero : A) ops, ops_ok 0 ops ->
  exists v, vec_run zero ops vec_empty = Some v /\ (v_size v <= length (v_store v))%nat /\
            seq_run ops [] (vec_contents v) /\
            forall i, (i < v_size v)%nat -> vec_get i v = nth_error (vec_contents v) i.
Proof. exact vec_history_l. Qed.
Print Assumptions C11_vector_is_sequence.

Example C11_witness : ops_ok (A := Z) 0
  [VPush 5; VPush 6; VResize 9; VSet 8 1; VPop; VReserve 40; VSlice (Z.add 1) 2; VClear; VPop].
Proof. cbn. repeat split; cbv; intuition congruence || lia. Qed.
