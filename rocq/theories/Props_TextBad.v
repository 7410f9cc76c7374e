(** Property C55: well-formed text records are accepted, malformed ones are rejected. *)
From Verif Require Import M_Base M_DataPoint M_Text S_Text S_TextBad P_DataPoint P_Lines P_Parse P_TextFiles
  P_TextMore P_TextBad.
From Coq Require Import Sorted Permutation.

(** ** libsvm *)
(** A record written by hand, with any blanks around the parts and any spelling of the numbers, is
    accepted with exactly the features written. *)
Theorem C55_svm_accepts : forall (V : Type) pow10i (mkval : Z -> Z -> V) b0 lab n cells b,
  Forall blank b0 -> spelling lab n -> -2147483599 <= n <= 2147483599 ->
  Forall cell_ok cells -> Forall blank b ->
  exists vs q,
    svm_parse_line pow10i mkval (b0 ++ lab ++ concat (map cell_text cells) ++ b) = Some (Status_OK, q) /\
    p_label q = n /\ length (p_idx q) = length (p_val q) /\ StronglySorted Z.le (p_idx q) /\
    Permutation (combine (p_idx q) (p_val q)) (combine (map (fun c => dec_value (cl_ix c)) cells) vs) /\
    Forall2 (fun c v => exists m e, v = mkval (if cl_neg c then - m else m) e /\ stands_for c m e) cells vs.
Proof.
  intros V pw mkval b0 lab n cells b H0 Hl Hn Hc Hb.
  destruct (svm_line_good pw mkval b0 lab n cells b H0 Hl Hn Hc Hb) as (vs & q & HF & E & Q1 & Q2 & Q3 & Q4).
  exists vs, q. auto 10.
Qed.
Print Assumptions C55_svm_accepts.
(** An accepted line is a label followed by cells index:value; there are as many features as cells,
    and as many as colons. *)
Theorem C55_svm_accepted : forall (V : Type) pow10i (mkval : Z -> Z -> V) line q,
  svm_parse_line pow10i mkval line = Some (Status_OK, q) ->
  exists lab cells, line = svm_shape lab cells /\ svm_record lab cells /\
    length (p_idx q) = length cells /\ length (p_val q) = length cells /\
    length (filter (Z.eqb 58) line) = length cells.
Proof.
  intros V pw mkval line q H. destruct (svm_line_shape pw mkval (fun _ => true) line q H) as (lab & cells & E & R & L1 & L2).
  exists lab, cells. rewrite E at 2. rewrite svm_colons by exact R. auto.
Qed.
Print Assumptions C55_svm_accepted.
(** So a line with a character that belongs to no number and is no colon is rejected. *)
Theorem C55_svm_rejected : forall (V : Type) pow10i (mkval : Z -> Z -> V) line c st q,
  In c line -> ~ number_char c -> c <> 58 ->
  svm_parse_line pow10i mkval line = Some (st, q) -> st = Status_Invalid_Format.
Proof.
  intros V pw mkval line c st q Hin Hc Hn H. destruct (svm_status pw mkval line st q H) as [->|]; [exfalso|auto].
  destruct (svm_line_shape pw mkval (fun _ => true) line q H) as (lab & cells & E & R & _). rewrite E in Hin.
  destruct (svm_chars lab cells c R Hin); auto.
Qed.
Print Assumptions C55_svm_rejected.

(** ** csv *)
Theorem C55_csv_accepted : forall (V : Type) pow10i (mkval : Z -> Z -> V) is_zero line q,
  csv_parse_line pow10i mkval is_zero line = Some (Status_OK, q) ->
  exists lab cells, line = csv_shape lab cells /\ csv_record lab cells /\
    (length (p_idx q) <= length cells)%nat /\ length (p_val q) = length (p_idx q) /\
    length (filter (Z.eqb 44) line) = length cells.
Proof.
  intros V pw mkval is_zero line q H. destruct (csv_line_shape pw mkval is_zero line q H) as (lab & cells & E & R & L1 & L2).
  exists lab, cells. rewrite E at 2. rewrite csv_commas by exact R. auto.
Qed.
Print Assumptions C55_csv_accepted.
Theorem C55_csv_rejected : forall (V : Type) pow10i (mkval : Z -> Z -> V) is_zero line c st q,
  In c line -> ~ number_char c -> c <> 44 ->
  csv_parse_line pow10i mkval is_zero line = Some (st, q) -> st = Status_Invalid_Format.
Proof.
  intros V pw mkval is_zero line c st q Hin Hc Hn H. destruct (csv_status pw mkval is_zero line st q H) as [->|]; [exfalso|auto].
  destruct (csv_line_shape pw mkval is_zero line q H) as (lab & cells & E & R & _). rewrite E in Hin.
  destruct (csv_chars lab cells c R Hin); auto.
Qed.
Print Assumptions C55_csv_rejected.

(** ** Files *)
(** The records before the first bad line are delivered; then the error is reported. *)
Theorem C55_file_stops : forall (V : Type) pow10i (mkval : Z -> Z -> V) file good bad rest ps q,
  is_lines (good ++ bad :: rest) file -> ~ In 0 file ->
  Forall (fun l => Z.of_nat (length l) <= 536870910) (good ++ bad :: rest) ->
  Forall2 (fun l p => svm_parse_line pow10i mkval l = Some (Status_OK, p)) good ps ->
  svm_parse_line pow10i mkval bad = Some (Status_Invalid_Format, q) ->
  svm_read_file pow10i mkval file = Some (ps, Status_Invalid_Format).
Proof.
  intros V pw mkval file good bad rest ps q Hl H0 HL HF Hb. unfold svm_read_file.
  eapply (read_text_bad pw mkval (fun _ => true) _ _ _ Hl H0); eauto; try lia; try discriminate.
  pose proof (is_lines_length _ _ Hl). lia.
Qed.
Print Assumptions C55_file_stops.

(** "+1 3 : -0.5e1 1:2\n" is accepted; "1 2 3:4" (missing colon) and "1 x:2" are rejected. *)
Example C55_witness :
  let c1 := mkcell [32] [51] [32] [32] true [48] [53] [101; 49] 1 in
  let c2 := mkcell [32; 9] [49] [] [] false [50] [] [] 0 in
  cell_ok c1 /\ cell_ok c2 /\
  [43; 49] ++ concat (map cell_text [c1; c2]) ++ [10] =
    [43; 49; 32; 51; 32; 58; 32; 45; 48; 46; 53; 101; 49; 32; 9; 49; 58; 50; 10] /\
  svm_parse_line (fun _ => 0) pair ([43; 49] ++ concat (map cell_text [c1; c2]) ++ [10]) =
    Some (Status_OK, mkpt 1 [1; 3] [(2, 0); (-5, 0)]) /\
  svm_parse_line (fun _ => 0) pair [49; 32; 50; 32; 51; 58; 52] = Some (Status_Invalid_Format, mkpt 1 [] []) /\
  svm_parse_line (fun _ => 0) pair [49; 32; 120; 58; 50] = Some (Status_Invalid_Format, mkpt 1 [] []) /\
  ~ number_char 120 /\
  svm_read_file (fun _ => 0) pair [49; 32; 50; 58; 51; 10; 120; 10; 52; 10] =
    Some ([mkpt 1 [2] [(3, 0)]], Status_Invalid_Format).
Proof.
  cbv zeta. split; [|split].
  - unfold cell_ok. cbn [cl_b1 cl_b2 cl_b3 cl_ix cl_int cl_frac cl_exp cl_x].
    repeat split; try discriminate; try (repeat constructor; unfold blank, digit_char; lia); try (cbn; lia).
    change 1 with (dec_value [49]). apply ex_plain; [auto|discriminate|repeat constructor; unfold digit_char; lia].
  - unfold cell_ok. cbn [cl_b1 cl_b2 cl_b3 cl_ix cl_int cl_frac cl_exp cl_x].
    repeat split; try discriminate; try (repeat constructor; unfold blank, digit_char; lia); try (cbn; lia).
  - split; [reflexivity|]. split; [vm_compute; reflexivity|]. split; [vm_compute; reflexivity|].
    split; [vm_compute; reflexivity|]. split; [|vm_compute; reflexivity].
    unfold number_char, digit_char, blank. cbn. lia.
Qed.
