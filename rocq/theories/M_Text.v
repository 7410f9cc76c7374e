(** Model of the text formats: line reading (src/sol/pario/file_reader.cc), number parsing
    (include/sol/pario/numeric_parser.h), libsvm and csv readers and writers.
    Characters are their codes in [Z]; a C string is the list of its characters without the
    terminating NUL, a [char*] into it is a suffix, and [*p == '\0'] is the empty suffix. *)
From Verif Require Import M_Base M_DataPoint.

(** Character constants used by numeric_parser.h:19,36-56 and the readers. *)
Definition c_tab := 9. Definition c_nl := 10. Definition c_cr := 13. Definition c_sp := 32.
Definition c_plus := 43. Definition c_comma := 44. Definition c_minus := 45. Definition c_dot := 46.
Definition c_0 := 48. Definition c_9 := 57. Definition c_colon := 58.
Definition c_E := 69. Definition c_e := 101. Definition c_v := 118.

(* ------------------------------------------------------------------ lines *)

(** Part of the buffer before the first NUL, i.e. the C string stored in it (what strrchr and
    strlen see, file_reader.cc:108,111). *)
Fixpoint cstr (l : list Z) : list Z :=
  match l with
  | [] => []
  | c :: r => if c =? 0 then [] else c :: cstr r
  end.

(** What fgets stores: at most k characters, stopping after a newline (C standard 7.21.7.2). *)
Fixpoint take_line (k : Z) (l : list Z) : list Z * list Z :=
  match l with
  | [] => ([], [])
  | c :: r =>
    if k <=? 0 then ([], l)
    else if c =? c_nl then ([c], r)
    else let (a, b) := take_line (k - 1) r in (c :: a, b)
  end.

(** fgets(dst, n, file); [None] is the NULL returned at end of file.  Used at
    file_reader.cc:100,112.  Device errors are not modelled. *)
Definition fgets (n : Z) (file : list Z) : option (list Z * list Z) :=
  match file with
  | [] => None
  | _ => Some (take_line (n - 1) file)
  end.

(** The growing loop, file_reader.cc:108-113.  Outer [None]: undefined behaviour (int overflow
    of dst_len) or fuel exhausted.  [buf] is everything written to dst (from its start to the
    last NUL), the appended text starts at strlen(dst). *)
Fixpoint read_line_loop (fuel : nat) (buf : list Z) (dst_len : Z) (file : list Z)
  : option (list Z * Z * list Z) :=
  match fuel with
  | O => None
  | S f =>
    if existsb (Z.eqb c_nl) (cstr buf) then Some (buf, dst_len, file)
    else
      let dst_len' := dst_len * 2 in
      if 2147483647 <? dst_len' then None
      else
        let s := cstr buf in
        match fgets (dst_len' - Z.of_nat (length s)) file with
        | None => Some (buf, dst_len', file)
        | Some (a, file') => read_line_loop f (s ++ a) dst_len' file'
        end
  end.

(** FileReader::ReadLine, file_reader.cc:93-115: status, the C string in dst, the new dst_len,
    the rest of the file.  Text mode is assumed (otherwise it throws). *)
Definition read_line (dst_len : Z) (file : list Z) : option (status * list Z * Z * list Z) :=
  match fgets dst_len file with
  | None => Some (Status_EndOfFile, [], dst_len, file)
  | Some (a, file') =>
    do (buf, n, rest) <- read_line_loop (S (length file)) a dst_len file';
    Some (Status_OK, cstr buf, n, rest)
  end.

(** Reading lines until the status is not OK (what repeated Next calls do, e.g.
    svm_reader.cc:19-20).  Fuel exhaustion is [None]. *)
Fixpoint read_lines (fuel : nat) (dst_len : Z) (file : list Z)
  : option (list (list Z) * status * Z) :=
  match fuel with
  | O => None
  | S f =>
    do (st, l, n, rest) <- read_line dst_len file;
    match st with
    | Status_OK => do (ls, e, n') <- read_lines f n rest; Some (l :: ls, e, n')
    | _ => Some ([], st, n)
    end
  end.

(** Repeated passes over the same file with Rewind in between (data_reader.h:76 keeps the buffer,
    hence its length). *)
Fixpoint read_passes (k : nat) (n : Z) (file : list Z) : option (list (list (list Z)) * Z) :=
  match k with
  | O => Some ([], n)
  | S k' =>
    do (ls, _, n') <- read_lines (S (length file)) n file;
    do (r, n'') <- read_passes k' n' file; Some (ls :: r, n'')
  end.

(* ---------------------------------------------------------------- numbers *)

(** is_space and strip_line, numeric_parser.h:18-25. *)
Definition is_space (c : Z) : bool := (c =? c_sp) || (c =? c_tab) || (c =? c_nl) || (c =? c_cr).
Fixpoint strip_line (p : list Z) : list Z :=
  match p with
  | [] => []
  | c :: r => if is_space c then strip_line r else p
  end.

(** [*p >= '0' && *p <= '9'], numeric_parser.h:43 and others. *)
Definition is_digit (c : Z) : bool := (c_0 <=? c) && (c <=? c_9).

(** [acc = acc * 10 + *p++ - '0'] on int, numeric_parser.h:43: evaluated left to right, each
    intermediate result must fit in int, otherwise undefined. *)
Definition acc_int (acc c : Z) : option Z :=
  if 2147483647 <? acc * 10 then None
  else if 2147483647 <? acc * 10 + c then None
  else Some (acc * 10 + c - c_0).

(** The digit loop on int with at most [lim] digits ([None] = no limit), numeric_parser.h:43,
    48-51, 57, 123-126.  Returns acc, number of digits, rest. *)
Fixpoint digits_int (lim : option nat) (acc : Z) (p : list Z) : option (Z * Z * list Z) :=
  match p with
  | c :: r =>
    if is_digit c && negb (match lim with Some O => true | _ => false end) then
      do a <- acc_int acc c;
      do (a', n, q) <- digits_int (match lim with Some k => Some (pred k) | None => None end) a r;
      Some (a', n + 1, q)
    else Some (acc, 0, p)
  | [] => Some (acc, 0, p)
  end.

(** The digit loop on unsigned int, numeric_parser.h:75,80-83 (wraps). *)
Fixpoint digits_uint (acc : Z) (p : list Z) : Z * Z * list Z :=
  match p with
  | c :: r =>
    if is_digit c then
      let '(a', n, q) := digits_uint (u32 (acc * 10 + c - c_0)) r in (a', n + 1, q)
    else (acc, 0, p)
  | [] => (acc, 0, p)
  end.

(** Skipping surplus fraction digits, numeric_parser.h:127. *)
Fixpoint skip_digits (p : list Z) : list Z :=
  match p with
  | c :: r => if is_digit c then skip_digits r else p
  | [] => []
  end.

(** First character test [*p == c] (false at the terminating NUL). *)
Definition starts (c : Z) (p : list Z) : bool :=
  match p with x :: _ => x =? c | [] => false end.

Section Numeric.
(** (int)powf(10, k) and (unsigned)powf(10, k), numeric_parser.h:62,94: library call, left as a
    parameter. *)
Variable pow10i : Z -> Z.

(** ParseInt, numeric_parser.h:28-66: value and end pointer; [None] is signed overflow. *)
Definition parse_int (p0 : list Z) : option (Z * list Z) :=
  let p := strip_line p0 in
  match p with
  | [] => Some (0, p0)
  | _ =>
    let '(s, p) := if starts c_plus p then (1, tl p)
                   else if starts c_minus p then (-1, tl p) else (1, p) in
    do (acc, _, p) <- digits_int None 0 p;
    do (acc, num_dec, p) <-
      (if starts c_dot p then digits_int None acc (tl p) else Some (acc, 0, p));
    do (exp_acc, _, p) <-
      (if starts c_e p || starts c_E p then
         let p := tl p in
         digits_int None 0 (if starts c_plus p then tl p else p)
       else Some (0, 0, p));
    if exp_acc <? num_dec then Some (0, p0)
    else
      do acc <- (if 0 <? exp_acc then
                   let v := acc * pow10i (exp_acc - num_dec) in
                   if (v <? -2147483648) || (2147483647 <? v) then None else Some v
                 else Some acc);
      Some (s * acc, strip_line p)
  end.

(** ParseUint, numeric_parser.h:69-97. *)
Definition parse_uint (p0 : list Z) : option (Z * list Z) :=
  let p := strip_line p0 in
  match p with
  | [] => Some (0, p0)
  | _ =>
    let '(acc, _, p) := digits_uint 0 p in
    let '(acc, num_dec, p) :=
      if starts c_dot p then digits_uint acc (tl p) else (acc, 0, p) in
    do (exp_acc, _, p) <-
      (if starts c_e p || starts c_E p then
         let p := tl p in
         digits_int None 0 (if starts c_plus p then tl p else p)
       else Some (0, 0, p));
    if exp_acc <? num_dec then Some (0, p0)
    else
      let acc := if 0 <? exp_acc then u32 (acc * pow10i (exp_acc - num_dec)) else acc in
      Some (acc, strip_line p)
  end.

Context {V : Type}.
(** [mkval m e] is the float computed from s*acc = m and the final exponent e,
    numeric_parser.h:144-148 (float(m) if e = 0, else m * powf(10, e)); a parameter, so that the
    model can be read with exact or with rounded arithmetic. *)
Variable mkval : Z -> Z -> V.
(** [feat != 0], csv_reader.cc:73. *)
Variable is_zero : V -> bool.

(** ParseFloat, numeric_parser.h:104-149. *)
Definition parse_float (p0 : list Z) : option (V * list Z) :=
  let p := strip_line p0 in
  match p with
  | [] => Some (mkval 0 0, p0)
  | _ =>
    let p := if starts c_plus p then tl p else p in
    let '(s, p) := if starts c_minus p then (-1, tl p) else (1, p) in
    do (acc, _, p) <- digits_int None 0 p;
    do (acc, num_dec, p) <-
      (if starts c_dot p then
         do (a, n, q) <- digits_int (Some 7%nat) acc (tl p);
         Some (a, n, skip_digits q)
       else Some (acc, 0, p));
    do (exp_acc, p) <-
      (if starts c_e p || starts c_E p then
         let p := tl p in
         let p := if starts c_plus p then tl p else p in
         let '(es, p) := if starts c_minus p then (-1, tl p) else (1, p) in
         do (x, _, p) <- digits_int None 0 p; Some (x * es, p)
       else Some (0, p));
    Some (mkval (s * acc) (exp_acc - num_dec), strip_line p)
  end.

(* ------------------------------------------------------------------ libsvm *)

(** [endptr == iter]: two suffixes of the same string are equal iff equally long. *)
Definition same_ptr (p q : list Z) : bool := (length p =? length q)%nat.

(** The feature loop, svm_reader.cc:38-64.  Result: [inr] the features, [inl tt] for
    Status_Invalid_Format; outer [None] undefined behaviour or fuel exhausted. *)
Fixpoint svm_feats (fuel : nat) (iter : list Z) (p : point V) : option (unit + point V) :=
  match iter with
  | [] => Some (inr p)
  | _ =>
    match fuel with
    | O => None
    | S f =>
      do (index, e1) <- parse_uint iter;
      if same_ptr e1 iter then Some (inl tt)
      else if negb (starts c_colon e1) then Some (inl tt)
      else
        let iter2 := tl e1 in
        do (feat, e2) <- parse_float iter2;
        if same_ptr e2 iter2 then Some (inl tt)
        else svm_feats f e2 (dp_add p index feat)
    end
  end.

(** SVMReader::Next on one line, svm_reader.cc:22-67.  Not modelled: stderr, is_good_. *)
Definition svm_parse_line (line : list Z) : option (status * point V) :=
  match line with
  | [] => Some (Status_Invalid_Format, dp_clear)
  | _ =>
    do (label, e) <- parse_int line;
    if same_ptr e line then Some (Status_Invalid_Format, mkpt label [] [])
    else
      do r <- svm_feats (length line) e (mkpt label [] []);
      match r with
      | inl _ => Some (Status_Invalid_Format, mkpt label [] [])
      | inr p => do q <- dp_sort p; Some (Status_OK, q)
      end
  end.

(** The feature loop of the csv reader, csv_reader.cc:54-77. *)
Fixpoint csv_feats (fuel : nat) (iter : list Z) (index : Z) (p : point V)
  : option (unit + point V) :=
  match iter with
  | [] => Some (inr p)
  | _ =>
    match fuel with
    | O => None
    | S f =>
      if negb (starts c_comma iter) then Some (inl tt)
      else
        let iter2 := tl iter in
        do (feat, e2) <- parse_float iter2;
        if same_ptr e2 iter2 then Some (inl tt)
        else csv_feats f e2 (u32 (index + 1))
               (if is_zero feat then p else dp_add p index feat)
    end
  end.

(** CSVReader::Next on one line, csv_reader.cc:38-79. *)
Definition csv_parse_line (line : list Z) : option (status * point V) :=
  match line with
  | [] => Some (Status_Invalid_Format, dp_clear)
  | _ =>
    do (label, e) <- parse_int line;
    if same_ptr e line then Some (Status_Invalid_Format, mkpt label [] [])
    else
      do r <- csv_feats (length line) e 1 (mkpt label [] []);
      match r with
      | inl _ => Some (Status_Invalid_Format, mkpt label [] [])
      | inr p => Some (Status_OK, p)
      end
  end.

(** Repeated Next on a text file: [parse] is the line parser of the format.  svm_reader.cc:18-20,
    csv_reader.cc:34-36.  Result: points delivered with OK and the first other status. *)
Fixpoint read_text (fuel : nat) (parse : list Z -> option (status * point V)) (dst_len : Z)
  (file : list Z) : option (list (point V) * status) :=
  match fuel with
  | O => None
  | S f =>
    do (st, l, n, rest) <- read_line dst_len file;
    match st with
    | Status_OK =>
      do (st2, p) <- parse l;
      match st2 with
      | Status_OK => do (ps, e) <- read_text f parse n rest; Some (p :: ps, e)
      | _ => Some ([], st2)
      end
    | _ => Some ([], st)
    end
  end.

(** Reading a libsvm file; initial buffer of 4096 bytes, data_reader.cc:28-32. *)
Definition svm_read_file (file : list Z) : option (list (point V) * status) :=
  read_text (S (length file)) svm_parse_line 4096 file.

(** Number of columns announced by the header, csv_reader.cc:82-92. *)
Definition csv_feat_dim (header : list Z) : Z :=
  u32 (Z.of_nat (length (filter (Z.eqb c_comma) header)) + 1).

(** CSVReader::Open followed by repeated Next, csv_reader.cc:19-26,34-80. *)
Definition csv_read_file (file : list Z) : option (list (point V) * status) :=
  do (st, l, n, rest) <- read_line 4096 file;
  match st with
  | Status_OK => read_text (S (length rest)) csv_parse_line n rest
  | _ => Some ([], st)
  end.
End Numeric.

(* ----------------------------------------------------------------- writers *)

(** Decimal digits of a non-negative integer, most significant first, as printf's %d and %u
    produce them.  Fuel exhaustion is [None]; 20 rounds cover 64-bit values. *)
Fixpoint dec_digits (fuel : nat) (n : Z) : option (list Z) :=
  match fuel with
  | O => None
  | S f =>
    if n <? 10 then Some [c_0 + n]
    else do r <- dec_digits f (n / 10); Some (r ++ [c_0 + n mod 10])
  end.

(** printf("%d"), svm_writer.cc:18,20, csv_writer.cc:18. *)
Definition print_d (n : Z) : option (list Z) :=
  if n <? 0 then do r <- dec_digits 20 (- n); Some (c_minus :: r) else dec_digits 20 n.

Section Write.
Context {V : Type}.
(** Text that printf("%g") produces for a value: library call, a parameter here. *)
Variable print_g : V -> option (list Z).

(** SVMWriter::Write, svm_writer.cc:16-24.  The index is an unsigned int printed with %d: its
    bit pattern is read as int. *)
Fixpoint svm_write_feats (idx : list Z) (val : list V) : option (list Z) :=
  match idx, val with
  | [], _ => Some []
  | _ :: _, [] => None     (* reads past the end of the value array *)
  | i :: ir, v :: vr =>
    do a <- print_d (i32 i); do b <- print_g v; do r <- svm_write_feats ir vr;
    Some (c_sp :: a ++ c_colon :: b ++ r)
  end.
Definition svm_write (p : point V) : option (list Z) :=
  do l <- print_d (p_label p);
  do f <- svm_write_feats (p_idx p) (p_val p);
  Some (l ++ f ++ [c_nl]).
Fixpoint svm_write_all (ps : list (point V)) : option (list Z) :=
  match ps with
  | [] => Some []
  | p :: r => do a <- svm_write p; do b <- svm_write_all r; Some (a ++ b)
  end.

(** The two column loops of CSVWriter::Write, csv_writer.cc:20-29: [n] columns remain, the
    current one is [j]. *)
Fixpoint csv_cols (n : nat) (j : Z) (idx : list Z) (val : list V) : option (list Z) :=
  match n with
  | O => Some []
  | S n' =>
    match idx, val with
    | [], _ => do r <- csv_cols n' (j + 1) [] []; Some (c_comma :: c_0 :: r)
    | i :: ir, _ =>
      if i =? j then
        match val with
        | [] => None
        | v :: vr => do b <- print_g v; do r <- csv_cols n' (j + 1) ir vr;
                     Some (c_comma :: b ++ r)
        end
      else do r <- csv_cols n' (j + 1) idx val; Some (c_comma :: c_0 :: r)
    end
  end.

(** CSVWriter::Write, csv_writer.cc:16-33, with feat_dim_ = [dim]. *)
Definition csv_write (dim : Z) (p : point V) : option (list Z) :=
  do l <- print_d (p_label p);
  do c <- csv_cols (Z.to_nat (dim - 1)) 1 (p_idx p) (p_val p);
  Some (l ++ c ++ [c_nl]).
Fixpoint csv_write_points (dim : Z) (ps : list (point V)) : option (list Z) :=
  match ps with
  | [] => Some []
  | p :: r => do a <- csv_write dim p; do b <- csv_write_points dim r; Some (a ++ b)
  end.
End Write.

(** Header columns ",v1" ... , csv_writer.cc:43-45. *)
Fixpoint csv_header_cols (n : nat) (i : Z) : option (list Z) :=
  match n with
  | O => Some []
  | S n' => do d <- dec_digits 20 i; do r <- csv_header_cols n' (i + 1);
            Some (c_comma :: c_v :: d ++ r)
  end.
(** CSVWriter::SetExtraInfo, csv_writer.cc:35-48: "class" and the columns. *)
Definition csv_header (dim : Z) : option (list Z) :=
  do c <- csv_header_cols (Z.to_nat (dim - 1)) 1;
  Some ([99; 108; 97; 115; 115] ++ c ++ [c_nl]).
(** A whole csv file as written by convert, src/sol/tools.cc:121-164. *)
Definition csv_write_file {V} (print_g : V -> option (list Z)) (dim : Z) (ps : list (point V))
  : option (list Z) :=
  do h <- csv_header dim; do b <- csv_write_points print_g dim ps; Some (h ++ b).

(* --------------------------------------------------------------------- %g *)

(** Removal of trailing zeros of the fraction, as "%g" does (C standard 7.21.6.1p8). *)
Fixpoint drop_zeros (l : list Z) : list Z :=
  match l with
  | c :: r => if c =? c_0 then drop_zeros r else l
  | [] => []
  end.
Definition strip_zeros (l : list Z) : list Z := rev (drop_zeros (rev l)).

(** The six digits of a significand in 100000..999999. *)
Definition digits6 (s : Z) : list Z :=
  map (fun k => c_0 + s / 10 ^ k mod 10) [5; 4; 3; 2; 1; 0].

(** A fraction with its point, dropped when empty (C standard 7.21.6.1p8). *)
Definition frac (l : list Z) : list Z := match l with [] => [] | _ => c_dot :: l end.

(** Text of printf("%g") for the value with sign [neg], six-digit significand [sig] and decimal
    exponent [ex]; fixed notation iff -4 <= ex < 6 (C standard 7.21.6.1p8), used at
    svm_writer.cc:20 and csv_writer.cc:24.  Simplified: the rounding of a float to six
    significant digits has already happened; inf and nan are not covered. *)
Definition print_g6 (neg : bool) (sig ex : Z) : list Z :=
  (if neg then [c_minus] else []) ++
  (if sig =? 0 then [c_0]
   else
     let ds := digits6 sig in
     if (-4 <=? ex) && (ex <? 6) then
       if 0 <=? ex then
         firstn (Z.to_nat (ex + 1)) ds ++ frac (strip_zeros (skipn (Z.to_nat (ex + 1)) ds))
       else c_0 :: frac (strip_zeros (repeat c_0 (Z.to_nat (- ex - 1)) ++ ds))
     else
       firstn 1 ds ++ frac (strip_zeros (skipn 1 ds)) ++
       [c_e; if ex <? 0 then c_minus else c_plus;
        c_0 + Z.abs ex / 10; c_0 + Z.abs ex mod 10]).
