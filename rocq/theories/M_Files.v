(** The data tools on files: convert, shuffle, split of src/sol/tools.cc and the body of tools/concat.cc from
    the opening of the files to the end of the process, on top of M_Tools (what is done with the examples),
    M_Binary and M_Text (what is in the files) and M_Iter (the order in which the examples arrive).
    A file system is a map from path names to contents: one name per file, no links, no directories; the
    contents are those when the process has ended (all stdio buffers flushed).  The path "-" (standard input
    and output) is not modelled: [None].  Reading and writing do not fail once a file is open.
    [None]: undefined behaviour, or a result that depends on how much stdio has buffered or flushed. *)
From Coq Require Import String.
From Verif Require Import M_Base M_Str M_DataPoint M_Text M_Binary M_Iter S_Iter M_Tools.

Section Files.
Context {V : Type}.
(** printf's "%g" of a value; the value of digits and a power of ten (numeric_parser.h); int(pow(10, x)); the
    comparison of a value with 0; the four bytes of a value and back (fwrite, fread of real_t). *)
Variable print_g : V -> option (list Z).
Variable mkval : Z -> Z -> V.
Variable pow10i : Z -> Z.
Variable is_zero : V -> bool.
Variable bits : V -> Z.
Variable unbits : Z -> V.
(** Whether fopen(path, "w") succeeds. *)
Variable can_write : list Z -> bool.

Definition files := list Z -> option (list Z).
(** fopen(path, "w") and all output to the file: the file has these contents, the others are as before. *)
Definition put (fs : files) (path c : list Z) : files := fun q => if str_eqb q path then Some c else fs q.

Inductive kind := KSvm | KCsv | KBin.
Definition kind_of (name : list Z) : option kind :=
  if str_eqb name (bytes "svm") then Some KSvm else if str_eqb name (bytes "csv") then Some KCsv
  else if str_eqb name (bytes "bin") then Some KBin else None.
(** DataReader::Create, DataWriter::Create (data_reader.cc:20-23, data_writer.cc:20-23): the entry found in the
    registry of all components. *)
Definition lookup (f : family) (t : list Z) : option (option (list Z)) :=
  do m <- register_all [] (map (fun e => (full_name (fst e) (snd e), e)) builtin);
  Some (match create_object m (full_name f t) with Some (_, n) => Some n | None => None end).
Definition is_dash (path : list Z) : bool := str_eqb path (bytes "-").

(** A reader after AddReader: path, format, the contents when it was opened. *)
Record input := mkinput { in_path : list Z; in_kind : kind; in_was : list Z }.
(** DataIter::AddReader (data_iter.cc:65-78) through DataReadTask (data_read_task.cc:14-28),
    DataFileReader::Open (data_reader.cc:41-48), BinaryReader::Open (binary_reader.cc:18-20) and CSVReader::Open,
    which also reads the first line (csv_reader.cc:19-26, 82-92).  Result: the status and the reader.
    The readers of arrays in memory ("numpy", "csr_matrix") are not modelled here: [None]. *)
Definition add_reader (fs : files) (path t : list Z) : option (status * list input) :=
  do e <- lookup Reader t;
  match e with
  | None => Some (Status_Invalid_Argument, [])
  | Some n =>
    do k <- kind_of n;
    if is_dash path then None else
    match fs path with
    | None => Some (Status_Invalid_Argument, [])
    | Some c =>
      match k with
      | KCsv =>
        do (st, _, _, _) <- read_line 4096 c;
        match st with
        | Status_OK => Some (Status_OK, [mkinput path k c])
        | _ => Some (Status_Invalid_Argument, [])
        end
      | _ => Some (Status_OK, [mkinput path k c])
      end
    end
  end.
(** for (path : input_list) { ret = AddReader(...); if (ret != Status_OK) return ret; }, tools/concat.cc:60-63, 78-81. *)
Fixpoint add_readers (fs : files) (paths : list (list Z)) (t : list Z) : option (status * list input) :=
  match paths with
  | [] => Some (Status_OK, [])
  | p :: r =>
    do (st, i) <- add_reader fs p t;
    match st with
    | Status_OK => do (st', l) <- add_readers fs r t; Some (st', i ++ l)
    | _ => Some (st, [])
    end
  end.

Definition recode {A B} (f : A -> B) (p : point A) : point B := mkpt (p_label p) (p_idx p) (map f (p_val p)).
(** Repeated Next on the contents of a file: the examples before the end or the first error. *)
Definition read (k : kind) (c : list Z) : option (list (point V)) :=
  match k with
  | KSvm => do (ps, _) <- svm_read_file pow10i mkval c; Some ps
  | KCsv => do (ps, _) <- csv_read_file pow10i mkval is_zero c; Some ps
  | KBin => do (ps, _) <- bin_read_file c; Some (map (recode unbits) ps)
  end.
(** The mini-batches a reader delivers while the files are [fs].  A reader opens its file in AddReader but
    reads from it (apart from the header of a csv file) only when it is started, data_iter.cc:91. *)
Definition reads (fs : files) (i : input) : option (list (list (point V))) :=
  do c <- fs (in_path i);
  match in_kind i with
  | KCsv => if str_eqb c (in_was i) then do ps <- read KCsv c; Some (cut 256 [] ps) else None
  | k => do ps <- read k c; Some (cut 256 [] ps)
  end.
(** while (true) { mb = iter.Next(mb); if (mb == nullptr) break; ... } with the readers [l]: the mini-batches
    of all of them in turn (C14), while the file [out] is written: if examples were already written, reading
    it gives what happens to be flushed. *)
Fixpoint gather (fs : files) (out : list Z) (wrote : bool) (l : list input) : option (list (list (point V))) :=
  match l with
  | [] => Some []
  | i :: r =>
    if str_eqb (in_path i) out && wrote then None else
    do bs <- reads fs i;
    do rest <- gather fs out (wrote || negb (length (concat bs) =? 0)%nat) r;
    Some (bs ++ rest)
  end.

(** DataWriter::Create and Open (data_writer.cc:20-23, 29-36); [inl]: the status of the failure. *)
Definition open_writer (path t : list Z) : option (status + kind) :=
  do e <- lookup Writer t;
  match e with
  | None => Some (inl Status_Invalid_Argument)
  | Some n => do k <- kind_of n;
              if is_dash path then None else
              if can_write path then Some (inr k) else Some (inl Status_IO_Error)
  end.
(** SetExtraInfo with this dimension, if it was called (only csv_writer.cc:35-48 does something), and Write of
    each example: the contents of the file.  Without SetExtraInfo the dimension of a csv writer is
    uninitialised (csv_writer.h:36). *)
Definition contents (k : kind) (dim : option Z) (ps : list (point V)) : option (list Z) :=
  match k with
  | KSvm => svm_write_all print_g ps
  | KBin => bin_write_all (map (recode bits) ps)
  | KCsv => match dim, ps with
            | Some d, _ => csv_write_file print_g d ps
            | None, [] => Some []
            | None, _ => None
            end
  end.
Definition csv_name (t : list Z) : bool := str_eqb t (bytes "csv").

(** convert, tools.cc:101-169: status and the files at the end.  Line 137: without features the tool returns
    after SetExtraInfo, and the second AddReader (139) is not reached. *)
Definition run_convert (src st dst dt : list Z) (bin : option ((V -> bool) * V * V)) (fs : files)
  : option (status * files) :=
  do (s, l) <- add_reader fs src st;
  match s with
  | Status_OK =>
    do w <- open_writer dst dt;
    match w with
    | inl e => Some (e, fs)
    | inr k =>
      let fs1 := put fs dst [] in
      do bs <- gather fs1 dst false l;
      let '(s1, dim, out) := convert (csv_name dt) bin bs in
      match s1 with
      | Status_OK =>
        if csv_name dt then
          if str_eqb src dst then None else
          do (s2, l2) <- add_reader fs1 src st;
          match s2 with
          | Status_OK =>
            do bs2 <- gather fs1 dst true l2;
            let '(_, _, out2) := convert false bin bs2 in
            do c <- contents k dim out2; Some (Status_OK, put fs dst c)
          | _ => do c <- contents k dim []; Some (s2, put fs dst c)
          end
        else do c <- contents k dim out; Some (Status_OK, put fs dst c)
      | _ => do c <- contents k dim []; Some (s1, put fs dst c)
      end
    end
  | _ => Some (s, fs)
  end.

(** shuffle, tools.cc:171-221; an empty output type means the type of the source (174). *)
Definition run_shuffle (src st dst dt0 : list Z) (perm : list nat) (fs : files) : option (status * files) :=
  let dt := match dt0 with [] => st | _ => dt0 end in
  do (s, l) <- add_reader fs src st;
  match s with
  | Status_OK =>
    do w <- open_writer dst dt;
    match w with
    | inl e => Some (e, fs)
    | inr k =>
      do bs <- gather (put fs dst []) dst false l;
      do (d, out) <- shuffle perm bs;
      do c <- contents k (Some d) out; Some (Status_OK, put fs dst c)
    end
  | _ => Some (s, fs)
  end.

(** output_prefix << i << "." << dst_type, tools.cc:266-267. *)
Definition fold_path (prefix t : list Z) (i : Z) : option (list Z) :=
  do d <- print_d i; Some (prefix ++ d ++ bytes "." ++ t).
(** The loop over the folds, tools.cc:260-283: fold [i] gets the examples of the first of [outs]. *)
Fixpoint run_folds (prefix dt : list Z) (d i : Z) (outs : list (list (point V))) (fs : files) : option (status * files) :=
  match outs with
  | [] => Some (Status_OK, fs)
  | out :: r =>
    do path <- fold_path prefix dt i;
    do w <- open_writer path dt;
    match w with
    | inl e => Some (e, fs)
    | inr k => do c <- contents k (Some d) out; run_folds prefix dt d (i + 1) r (put fs path c)
    end
  end.
(** split, tools.cc:223-285. *)
Definition run_split (src st : list Z) (fold_num : Z) (prefix dt : list Z) (perm : option (list nat)) (fs : files)
  : option (status * files) :=
  do (s, l) <- add_reader fs src st;
  match s with
  | Status_OK =>
    do bs <- gather fs [] false l;
    do (d, outs) <- split fold_num perm bs;
    run_folds prefix dt d 0 outs fs
  | _ => Some (s, fs)
  end.

(** main of tools/concat.cc, 43-99, after the command line: the output is opened first (43-51), the inputs are the
    pieces between ';' (55), for csv they are read twice (57-74, 76-94). *)
Definition run_concat (src st dst dt : list Z) (fs : files) : option (status * files) :=
  do w <- open_writer dst dt;
  match w with
  | inl e => Some (e, fs)
  | inr k =>
    let fs1 := put fs dst [] in
    do paths <- str_split 59 src;
    if csv_name dt then
      do (s, l) <- add_readers fs1 paths st;
      match s with
      | Status_OK =>
        do bs <- gather fs1 dst false l;
        let d := max_dim bs in
        if existsb (fun p => str_eqb p dst) paths then None else
        do (s2, l2) <- add_readers fs1 paths st;
        match s2 with
        | Status_OK => do bs2 <- gather fs1 dst true l2; do c <- contents k (Some d) (concat bs2); Some (Status_OK, put fs dst c)
        | _ => do c <- contents k (Some d) []; Some (s2, put fs dst c)
        end
      | _ => Some (s, fs1)
      end
    else
      do (s, l) <- add_readers fs1 paths st;
      match s with
      | Status_OK => do bs <- gather fs1 dst false l; do c <- contents k None (concat bs); Some (Status_OK, put fs dst c)
      | _ => Some (s, fs1)
      end
  end.
End Files.
