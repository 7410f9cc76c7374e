(** Specification vocabulary for the text formats, independent of the parser and printer. *)
From Verif Require Import M_Base.
From Coq Require Import QArith Sorted.
Local Open Scope Z_scope.

(** The lines of a file: their concatenation is the file, each ends at its only newline, except
    that the last one may be unterminated (and is then not empty). *)
Inductive is_lines : list (list Z) -> list Z -> Prop :=
| is_lines_nil : is_lines [] []
| is_lines_last b : b <> [] -> ~ In 10 b -> is_lines [b] b
| is_lines_cons b ls file : ~ In 10 b -> is_lines ls file ->
    is_lines ((b ++ [10]) :: ls) ((b ++ [10]) ++ file).

(** Positional value of a string of decimal digits (codes 48..57). *)
Fixpoint dec_value (ds : list Z) : Z :=
  match ds with
  | [] => 0
  | d :: r => (d - 48) * 10 ^ Z.of_nat (length r) + dec_value r
  end.
Definition digit_char (c : Z) : Prop := 48 <= c <= 57.

(** Blank characters a number may be surrounded by. *)
Definition blank (c : Z) : Prop := c = 32 \/ c = 9 \/ c = 10 \/ c = 13.

(** [spelling s n]: s is a decimal spelling of the integer n: optional sign, digits. *)
Inductive spelling : list Z -> Z -> Prop :=
| sp_plain ds : ds <> [] -> Forall digit_char ds -> spelling ds (dec_value ds)
| sp_plus ds : ds <> [] -> Forall digit_char ds -> spelling (43 :: ds) (dec_value ds)
| sp_minus ds : ds <> [] -> Forall digit_char ds -> spelling (45 :: ds) (- dec_value ds).

(** The rational number m * 10^e. *)
Definition dec_q (m e : Z) : Q := (inject_Z m * (10 # 1) ^ e)%Q.

(** A number with six significant decimal digits (what "%g" prints): zero, or
    sign * sig * 10^(ex-5) with 100000 <= sig <= 999999, in the exponent range of float. *)
Record dec6 := mkdec6 { d_neg : bool; d_sig : Z; d_ex : Z }.
Definition dec6_ok (d : dec6) : Prop :=
  d_sig d = 0 \/ (100000 <= d_sig d <= 999999 /\ -45 <= d_ex d <= 38).
Definition dec6_signed (d : dec6) : Z := if d_neg d then - d_sig d else d_sig d.
Definition dec6_q (d : dec6) : Q :=
  if d_sig d =? 0 then 0%Q else dec_q (dec6_signed d) (d_ex d - 5).

(** Exponents for which the reader keeps all digits of the "%g" text. *)
Definition keeps_digits (d : dec6) : Prop := d_sig d = 0 \/ -2 <= d_ex d \/ d_ex d < -4.

(** Text of a number, for the parser: integer digits, optional fraction, optional exponent. *)
Inductive exp_text : list Z -> Z -> Prop :=
| ex_none : exp_text [] 0
| ex_pos c ds : (c = 101 \/ c = 69) -> ds <> [] -> Forall digit_char ds ->
    exp_text (c :: 43 :: ds) (dec_value ds)
| ex_plain c ds : (c = 101 \/ c = 69) -> ds <> [] -> Forall digit_char ds ->
    exp_text (c :: ds) (dec_value ds)
| ex_neg c ds : (c = 101 \/ c = 69) -> ds <> [] -> Forall digit_char ds ->
    exp_text (c :: 45 :: ds) (- dec_value ds).
Definition frac_text (fr : list Z) : list Z := match fr with [] => [] | _ => 46 :: fr end.

(** What may follow a number without being taken as part of it. *)
Definition num_end (p : list Z) : Prop :=
  match p with [] => True | c :: _ => ~ digit_char c /\ c <> 46 /\ c <> 69 /\ c <> 101 end.

(** The number m * 10^e read for the printed number d: the same number when no digit is dropped;
    in any case it is d rounded towards zero with an error below 10^-7. *)
Definition agrees (d : dec6) (m e : Z) : Prop :=
  (keeps_digits d -> (dec_q m e == dec6_q d)%Q) /\
  (d_neg d = false -> (dec_q m e <= dec6_q d)%Q /\ (dec6_q d - dec_q m e < 1 # 10000000)%Q) /\
  (d_neg d = true -> (dec6_q d <= dec_q m e)%Q /\ (dec_q m e - dec6_q d < 1 # 10000000)%Q) /\
  (m = 0 <-> d_sig d = 0).

(** Points that can be written: limits of the label (int arithmetic of the parser), of the indexes
    ("%d") and of the line length. *)
Definition writable (p : point dec6) : Prop :=
  -2147483599 <= p_label p <= 2147483599 /\
  Forall (fun i => 0 <= i < 2147483648) (p_idx p) /\
  Forall dec6_ok (p_val p) /\ length (p_idx p) = length (p_val p) /\
  Z.of_nat (length (p_idx p)) <= 16777216.

(** Points that fit a csv file with [dim - 1] feature columns numbered from 1. *)
Definition csv_writable (dim : Z) (p : point dec6) : Prop :=
  -2147483599 <= p_label p <= 2147483599 /\
  length (p_idx p) = length (p_val p) /\ Forall dec6_ok (p_val p) /\
  StronglySorted Z.lt (p_idx p) /\ Forall (fun i => 1 <= i < dim) (p_idx p).

(** Text that does not start with (a blank or) a number. *)
Definition non_number (p : list Z) : Prop :=
  match p with
  | [] => False
  | c :: _ => ~ blank c /\ ~ digit_char c /\ ~ In c [43; 45; 46; 69; 101]
  end.
