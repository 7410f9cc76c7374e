(** Properties C05-C09 and C53: line reading, number parsing, libsvm and csv files. *)
From Verif Require Import M_Base M_DataPoint M_Text S_Text.
From Verif Require Import P_Lines P_Parse P_PrintG P_TextFiles P_TextMore.
From Coq Require Import QArith Permutation Sorted.
Local Open Scope Z_scope.

(** C05: a NUL-free text file is delivered as exactly its lines, whatever their lengths compared
    with the buffer, then end of file.  (2^29 bounds a line so that the int buffer length does not
    overflow.) *)
Theorem C05_lines_read_whole : forall file ls n, is_lines ls file -> ~ In 0 file ->
  2 <= n < 1073741824 -> Forall (fun l => Z.of_nat (length l) <= 536870910) ls ->
  exists n', read_lines (S (length file)) n file = Some (ls, Status_EndOfFile, n').
Proof.
  exact (fun file ls n H H0 Hn HL =>
    let (n', p) := read_lines_l ls file H H0 (S (length file)) n Hn HL
                     (le_n_S _ _ (is_lines_length ls file H)) in
    ex_intro _ n' (proj1 p)).
Qed.
Print Assumptions C05_lines_read_whole.

Theorem C05_every_file_has_lines : forall file, exists ls, is_lines ls file.
Proof. exact is_lines_exists. Qed.
Print Assumptions C05_every_file_has_lines.

(** The text (plus its terminating NUL) always fits in the buffer, for every file, NUL or not. *)
Theorem C05_buffer_never_overrun : forall n file st l n' rest, 2 <= n ->
  read_line n file = Some (st, l, n', rest) ->
  Z.of_nat (length l) < n' /\ n <= n' <= Z.max n 2147483647.
Proof. exact read_line_bound. Qed.
Print Assumptions C05_buffer_never_overrun.

Example C05_witness : is_lines [[97; 98; 99; 10]; [10]; [120]] [97; 98; 99; 10; 10; 120] /\
  read_lines 7 2 [97; 98; 99; 10; 10; 120] =
    Some ([[97; 98; 99; 10]; [10]; [120]], Status_EndOfFile, 16).
Proof.
  split; [|reflexivity].
  apply (is_lines_cons [97; 98; 99]). { cbn; lia. }
  apply (is_lines_cons []). { cbn; lia. }
  apply is_lines_last; [discriminate|cbn; lia].
Qed.

(** C05, finding: a NUL byte makes the rest of its line (and the following line) disappear. *)
Theorem C05_nul_byte_refuted : exists file n ls n',
  2 <= n < 1073741824 /\ read_lines (S (length file)) n file = Some (ls, Status_EndOfFile, n') /\
  concat ls <> file.
Proof.
  exists [97; 0; 98; 10; 99; 10], 64, [[97; 99; 10]], 128.
  split; [lia|]. split; [vm_compute; reflexivity|vm_compute; discriminate].
Qed.
Print Assumptions C05_nul_byte_refuted.

(** C53: a file whose lines are all terminated can be read in any number of passes; each pass
    delivers the same lines. *)
Theorem C53_any_number_of_passes : forall file ls k n, is_lines ls file -> ~ In 0 file ->
  Forall (fun l => In 10 l) ls -> Forall (fun l => Z.of_nat (length l) <= 1073741823) ls ->
  2 <= n <= 2147483647 ->
  exists n', read_passes k n file = Some (repeat ls k, n').
Proof. exact (fun file ls k n H H0 Ht HL => passes_term_l ls file H H0 Ht HL k n). Qed.
Print Assumptions C53_any_number_of_passes.

Example C53_witness : let file := [49; 32; 49; 58; 50; 10; 10] in
  is_lines [[49; 32; 49; 58; 50; 10]; [10]] file /\
  read_passes 3 4096 file = Some (repeat [[49; 32; 49; 58; 50; 10]; [10]] 3, 4096).
Proof.
  split; [|reflexivity].
  apply (is_lines_cons [49; 32; 49; 58; 50]); [cbn; lia|].
  apply (is_lines_cons []); [cbn; lia|]. constructor.
Qed.

(** C53, finding: without the final newline every pass doubles the buffer, and the twentieth pass
    over a one-byte file overflows the int buffer length. *)
Theorem C53_any_number_of_passes_refuted : exists file k ls,
  is_lines ls file /\ ~ In 0 file /\ read_passes k 4096 file = None.
Proof.
  exists [49], 20%nat, [[49]].
  split; [apply is_lines_last; [discriminate|cbn; lia]|]. split; [cbn; lia|].
  vm_compute. reflexivity.
Qed.
Print Assumptions C53_any_number_of_passes_refuted.

(** C06: the spelling of an integer, after any blanks and before any text that does not continue
    it, is parsed to that integer; parsing stops at the first non-blank after it. *)
Theorem C06_int_parsed : forall pow10i bl s n rest, Forall blank bl -> spelling s n ->
  -2147483599 <= n <= 2147483599 -> num_end rest ->
  parse_int pow10i (bl ++ s ++ rest) = Some (n, strip_line rest).
Proof. exact parse_int_spelled. Qed.
Print Assumptions C06_int_parsed.

Theorem C06_uint_parsed : forall pow10i bl ds rest, Forall blank bl -> ds <> [] ->
  Forall digit_char ds -> 0 <= dec_value ds < 4294967296 -> num_end rest ->
  parse_uint pow10i (bl ++ ds ++ rest) = Some (dec_value ds, strip_line rest).
Proof. exact parse_uint_spelled. Qed.
Print Assumptions C06_uint_parsed.

(** Text that does not start with a number (nor a blank, sign, point or exponent letter) is not
    consumed. *)
Theorem C06_non_number_not_consumed : forall pow10i p, non_number p ->
  parse_int pow10i p = Some (0, p) /\ parse_uint pow10i p = Some (0, p).
Proof.
  exact (fun pw p H => let h := parse_non_number_l pw pair p H in conj (proj1 h) (proj1 (proj2 h))).
Qed.
Print Assumptions C06_non_number_not_consumed.

Example C06_witness : spelling [45; 52; 48] (-40) /\ Forall blank [32; 9] /\ num_end [58; 49] /\
  dec_value [52; 50; 57; 52; 57; 54; 55; 50; 57; 53] = 4294967295 /\ non_number [102; 111; 111] /\
  parse_int (fun _ => 0) [32; 45; 52; 48; 32; 58] = Some (-40, [58]).
Proof.
  split; [change (-40) with (- dec_value [52; 48]); constructor; [discriminate|];
          repeat constructor; unfold digit_char; lia|].
  split; [repeat constructor; unfold blank; lia|]. split; [cbn; unfold digit_char; lia|].
  split; [reflexivity|]. split; [cbn; unfold blank, digit_char; lia|reflexivity].
Qed.

(** C06, findings: (a) INT_MAX makes the accumulator overflow before the digit offset is
    subtracted; (b) blank followed by a non-number is accepted as 0; (c) so is a lone sign;
    (d) "1.0" is not accepted as an integer. *)
Theorem C06_int_max_overflows_refuted : forall pow10i, exists s,
  spelling s 2147483647 /\ parse_int pow10i s = None.
Proof.
  intros pw. exists [50; 49; 52; 55; 52; 56; 51; 54; 52; 55]. split; [|vm_compute; reflexivity].
  change 2147483647 with (dec_value [50; 49; 52; 55; 52; 56; 51; 54; 52; 55]).
  constructor; [discriminate|]. repeat constructor; unfold digit_char; lia.
Qed.
Print Assumptions C06_int_max_overflows_refuted.

Theorem C06_non_number_accepted_refuted : forall pow10i, exists p q,
  p = [32; 102; 111; 111] /\ q = [45; 102] /\
  parse_int pow10i p = Some (0, [102; 111; 111]) /\ parse_int pow10i q = Some (0, [102]) /\
  parse_int pow10i [49; 46; 48] = Some (0, [49; 46; 48]).
Proof. intros pw. do 2 eexists. repeat split. Qed.
Print Assumptions C06_non_number_accepted_refuted.

(** C07: a decimal numeral is parsed to its value, exactly when it has at most seven fraction
    digits, else rounded towards zero at the seventh; the end pointer is at the first non-blank. *)
Theorem C07_decimal_parsed : forall (V : Type) (mkval : Z -> Z -> V) (neg : bool) bl ip fr et x rest,
  Forall blank bl -> ip <> [] -> Forall digit_char ip -> Forall digit_char fr -> exp_text et x ->
  dec_value (ip ++ firstn 7 fr) <= 2147483599 -> -2147483599 <= x <= 2147483599 -> num_end rest ->
  exists m e,
  parse_float mkval (bl ++ (if neg then [45] else []) ++ ip ++ frac_text fr ++ et ++ rest) =
    Some (mkval (if neg then - m else m) e, strip_line rest) /\
  ((length fr <= 7)%nat -> (dec_q m e == dec_q (dec_value (ip ++ fr)) (x - Z.of_nat (length fr)))%Q) /\
  (dec_q m e <= dec_q (dec_value (ip ++ fr)) (x - Z.of_nat (length fr)))%Q /\
  (dec_q (dec_value (ip ++ fr)) (x - Z.of_nat (length fr)) - dec_q m e < (10 # 1) ^ (x - 7))%Q.
Proof. exact @parse_decimal_l. Qed.
Print Assumptions C07_decimal_parsed.

(** "-12.5e-3," : value -12.5e-3, the comma is next. *)
Example C07_witness : exp_text [101; 45; 51] (-3) /\
  parse_float pair [45; 49; 50; 46; 53; 101; 45; 51; 44] = Some ((-125, -4), [44]) /\
  (dec_q (-125) (-4) == -125 # 10000)%Q.
Proof.
  split; [|split; reflexivity].
  change (-3) with (- dec_value [51]).
  apply ex_neg; [auto|discriminate|]. repeat constructor; unfold digit_char; lia.
Qed.

(** C07, finding: ten integer digits overflow the int accumulator. *)
Theorem C07_decimal_overflow_refuted : exists ds, Forall digit_char ds /\ ds <> [] /\
  parse_float (V := Z * Z) pair ds = None.
Proof.
  exists [57; 57; 57; 57; 57; 57; 57; 57; 57; 57]. split; [repeat constructor; unfold digit_char; lia|].
  split; [discriminate|vm_compute; reflexivity].
Qed.
Print Assumptions C07_decimal_overflow_refuted.

(** Text of a six-digit decimal under "%g". *)
Definition g6 (d : dec6) : option (list Z) := Some (print_g6 (d_neg d) (d_sig d) (d_ex d)).

(** C08: points written in libsvm format are read back: same labels, same features sorted by
    index (in place when already strictly increasing), values equal to the printed decimals
    (see [agrees] in S_Text for the digits lost below 10^-7), then end of file. *)
Theorem C08_svm_roundtrip : forall (V : Type) pow10i (mkval : Z -> Z -> V) ps,
  Forall writable ps -> exists file qs,
  svm_write_all g6 ps = Some file /\
  svm_read_file pow10i mkval file = Some (qs, Status_EndOfFile) /\
  Forall2 (fun p q =>
    p_label q = p_label p /\ length (p_idx q) = length (p_val q) /\
    StronglySorted Z.le (p_idx q) /\
    exists vs, Forall2 (fun d v => exists m e, v = mkval m e /\ agrees d m e) (p_val p) vs /\
      Permutation (combine (p_idx q) (p_val q)) (combine (p_idx p) vs) /\
      (StronglySorted Z.lt (p_idx p) -> p_idx q = p_idx p /\ p_val q = vs)) ps qs.
Proof. exact @svm_roundtrip_l. Qed.
Print Assumptions C08_svm_roundtrip.

(** -3 1:0.25 7:-1.5e+10 / 2 (no features) / 0 with unsorted indexes. *)
Example C08_witness : let ps := [mkpt (-3) [1; 7] [mkdec6 false 250000 (-1); mkdec6 true 150000 10];
                                 mkpt 2 [] []; mkpt 0 [9; 4] [mkdec6 false 100000 0; mkdec6 false 0 0]] in
  Forall writable ps /\
  match svm_write_all g6 ps with
  | Some f => svm_read_file (fun _ => 0) pair f =
     Some ([mkpt (-3) [1; 7] [(25, -2); (-15, 9)]; mkpt 2 [] [];
            mkpt 0 [4; 9] [(0, 0); (1, 0)]], Status_EndOfFile)
  | None => False
  end.
Proof.
  cbn zeta. split; [|vm_compute; reflexivity].
  repeat apply Forall_cons; try apply Forall_nil; unfold writable; cbn [p_label p_idx p_val length];
  (split; [lia|]); (split; [repeat constructor; lia|]);
  (split; [repeat constructor; unfold dec6_ok; cbn; lia|]); (split; [reflexivity|lia]).
Qed.

(** C08, findings: (a) 0.00123456 comes back as 0.0012345; (b) a feature index of 2^31 or more is
    printed as a negative number and the reader rejects its own writer's file. *)
Theorem C08_svm_digits_lost_refuted : exists d t m e, writable (mkpt 1 [1] [d]) /\
  svm_write_all g6 [mkpt 1 [1] [d]] = Some t /\
  svm_read_file (fun _ => 0) pair t = Some ([mkpt 1 [1] [(m, e)]], Status_EndOfFile) /\
  ~ (dec_q m e == dec6_q d)%Q.
Proof.
  exists (mkdec6 false 123456 (-3)). eexists. exists 12345, (-7).
  split; [unfold writable; cbn [p_label p_idx p_val length]; split; [lia|];
    split; [repeat constructor; lia|]; split; [repeat constructor; unfold dec6_ok; cbn; lia|];
    split; [reflexivity|lia]|].
  split; [vm_compute; reflexivity|]. split; [vm_compute; reflexivity|]. vm_compute. discriminate.
Qed.
Print Assumptions C08_svm_digits_lost_refuted.

Theorem C08_svm_large_index_refuted : exists i t, is_u32 i /\
  svm_write_all g6 [mkpt 1 [i] [mkdec6 false 100000 0]] = Some t /\
  svm_read_file (fun _ => 0) pair t = Some ([], Status_Invalid_Format).
Proof.
  exists 2147483648. eexists. split; [cbv; intuition congruence|].
  split; [vm_compute; reflexivity|]. vm_compute; reflexivity.
Qed.
Print Assumptions C08_svm_large_index_refuted.

(** C09: csv files with strictly increasing indexes in [1, dim) are read back with the explicit
    zeros dropped.  [is_zero] is the comparison of a read value with 0; exactness of that test on
    printed values is the only assumption on floating point. *)
Theorem C09_csv_roundtrip : forall (V : Type) pow10i (mkval : Z -> Z -> V) (is_zero : V -> bool),
  (forall m e, is_zero (mkval m e) = (m =? 0)) ->
  forall dim ps, 1 <= dim <= 16777216 -> Forall (csv_writable dim) ps -> exists file qs,
  csv_write_file g6 dim ps = Some file /\
  csv_read_file pow10i mkval is_zero file = Some (qs, Status_EndOfFile) /\
  Forall2 (fun p q =>
    let kept := filter (fun x => negb (d_sig (snd x) =? 0)) (combine (p_idx p) (p_val p)) in
    p_label q = p_label p /\ p_idx q = map fst kept /\
    Forall2 (fun d v => exists m e, v = mkval m e /\ agrees d m e) (map snd kept) (p_val q)) ps qs.
Proof. exact @csv_roundtrip_l. Qed.
Print Assumptions C09_csv_roundtrip.

Example C09_witness : let ps := [mkpt 5 [1; 3] [mkdec6 false 250000 (-1); mkdec6 true 150000 10];
                                 mkpt (-1) [2] [mkdec6 false 0 0]] in
  Forall (csv_writable 4) ps /\
  (forall m e : Z, (fun v => fst v =? 0) (m, e) = (m =? 0)) /\
  match csv_write_file g6 4 ps with
  | Some f => csv_read_file (fun _ => 0) pair (fun v => fst v =? 0) f =
     Some ([mkpt 5 [1; 3] [(25, -2); (-15, 9)]; mkpt (-1) [] []], Status_EndOfFile)
  | None => False
  end.
Proof.
  cbn zeta. split; [|split; [reflexivity|vm_compute; reflexivity]].
  repeat apply Forall_cons; try apply Forall_nil; unfold csv_writable; cbn [p_label p_idx p_val length];
  (split; [lia|]); (split; [reflexivity|]);
  (split; [repeat constructor; unfold dec6_ok; cbn; lia|]);
  (split; [repeat constructor; lia|repeat constructor; lia]).
Qed.

(** C09, finding: outside those conditions features are lost without an error: an unsorted point
    loses the feature that comes too late, index 0 blocks everything after it. *)
Theorem C09_csv_unsorted_loses_features_refuted : exists dim p q f1 f2,
  Forall (fun i => 0 <= i < dim) (p_idx p) /\ length (p_idx p) = length (p_val p) /\
  csv_write_file g6 dim [p] = Some f1 /\
  csv_read_file (fun _ => 0) pair (fun v => fst v =? 0) f1 =
    Some ([mkpt (p_label p) [3] [(1, 0)]], Status_EndOfFile) /\
  Forall (fun i => 0 <= i < dim) (p_idx q) /\ StronglySorted Z.lt (p_idx q) /\
  csv_write_file g6 dim [q] = Some f2 /\
  csv_read_file (fun _ => 0) pair (fun v => fst v =? 0) f2 =
    Some ([mkpt (p_label q) [] []], Status_EndOfFile).
Proof.
  exists 5, (mkpt 1 [3; 2] [mkdec6 false 100000 0; mkdec6 false 100000 0]),
    (mkpt 1 [0; 2] [mkdec6 false 100000 0; mkdec6 false 100000 0]).
  do 2 eexists. cbn [p_label p_idx p_val length].
  split; [repeat constructor; lia|]. split; [reflexivity|].
  split; [vm_compute; reflexivity|]. split; [vm_compute; reflexivity|].
  split; [repeat constructor; lia|]. split; [repeat constructor; lia|].
  split; [vm_compute; reflexivity|]. vm_compute; reflexivity.
Qed.
Print Assumptions C09_csv_unsorted_loses_features_refuted.
