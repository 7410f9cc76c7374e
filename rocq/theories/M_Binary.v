(** Model of the binary data format: src/sol/pario/binary_writer.cc, binary_reader.cc and the
    raw read of file_reader.cc.  A value is its 32-bit pattern. *)
From Verif Require Import M_Base M_Compress.

(** The n bytes of an unsigned integer in memory order; little-endian platform assumed
    (binary_writer.cc:24,27,32 write the object representation). *)
Fixpoint bytes_of (n : nat) (z : Z) : list Z :=
  match n with
  | O => []
  | S m => z mod 256 :: bytes_of m (z / 256)
  end.

(** Inverse: object representation read back into an unsigned integer
    (binary_reader.cc:26,31,39). *)
Fixpoint of_bytes (bs : list Z) : Z :=
  match bs with
  | [] => 0
  | b :: r => b + 256 * of_bytes r
  end.

(** Object representation of the float array: 4 bytes per value, binary_writer.cc:34-35. *)
Fixpoint bytes_of_vals (vs : list Z) : list Z :=
  match vs with
  | [] => []
  | v :: r => bytes_of 4 v ++ bytes_of_vals r
  end.

(** Reading the float array back, binary_reader.cc:57-58; [n] values of 4 bytes. *)
Fixpoint vals_of_bytes (n : nat) (bs : list Z) : list Z :=
  match n with
  | O => []
  | S m => of_bytes (firstn 4 bs) :: vals_of_bytes m (skipn 4 bs)
  end.

(** BinaryWriter::Write, binary_writer.cc:22-38: bytes appended to the file.  [None] if the
    value array is shorter than the index array (reads past its end) or the encoder fails.
    Not modelled: failure of fwrite (its status is ignored by the code). *)
Definition bin_write (p : point Z) : option (list Z) :=
  let feat_num := length (p_idx p) in
  let head := bytes_of 4 (u32 (p_label p)) ++ bytes_of 8 (Z.of_nat feat_num) in
  if (0 <? feat_num)%nat then
    do codes <- comp_index (p_idx p);
    if (length (p_val p) <? feat_num)%nat then None
    else Some (head ++ bytes_of 8 (Z.of_nat (length codes)) ++ codes
                    ++ bytes_of_vals (firstn feat_num (p_val p)))
  else Some head.

(** A whole file: consecutive Write calls, e.g. src/sol/tools.cc:101-169. *)
Fixpoint bin_write_all (ps : list (point Z)) : option (list Z) :=
  match ps with
  | [] => Some []
  | p :: r => do a <- bin_write p; do b <- bin_write_all r; Some (a ++ b)
  end.

(** FileReader::Read, file_reader.cc:80-91, on a file given by its remaining bytes.  [length]
    is a Z because it is read from the file.  A short read consumes everything.
    Not modelled: device errors (Status_IO_Error). *)
Definition file_read (len : Z) (file : list Z) : status * list Z * list Z :=
  if len <=? Z.of_nat (length file)
  then (Status_OK, firstn (Z.to_nat len) file, skipn (Z.to_nat len) file)
  else (Status_EndOfFile, file, []).

(** BinaryReader::Next, binary_reader.cc:23-65: status, destination point, remaining file.
    Line 35 returns [false], i.e. 0 = Status_OK.  [None]: the index decoder reads past the end
    of the code buffer.  Not modelled: allocation failure for an absurd code length, stderr
    output, is_good_ (which no reader of this loop consults). *)
Definition bin_next (file : list Z) : option (status * point Z * list Z) :=
  let empty := mkpt 0 [] [] in
  match file_read 4 file with
  | (Status_OK, lb, file1) =>
    let label := i32 (of_bytes lb) in
    let d1 := mkpt label [] [] in
    match file_read 8 file1 with
    | (Status_OK, fb, file2) =>
      let feat_num := of_bytes fb in
      if 0 <? feat_num then
        match file_read 8 file2 with
        | (Status_OK, cb, file3) =>
          let code_len := of_bytes cb in
          match file_read code_len file3 with
          | (Status_OK, codes, file4) =>
            do idx <- decomp_index codes;
            if negb (Z.of_nat (length idx) =? feat_num)
            then Some (Status_Invalid_Format, d1, file4)
            else
              match file_read (4 * feat_num) file4 with
              | (Status_OK, vb, file5) =>
                Some (Status_OK, mkpt label idx (vals_of_bytes (length idx) vb), file5)
              | (_, _, file5) => Some (Status_Invalid_Format, d1, file5)
              end
          | (_, _, file4) => Some (Status_Invalid_Format, d1, file4)
          end
        | (_, _, file3) => Some (Status_Invalid_Format, d1, file3)
        end
      else Some (Status_OK, d1, file2)
    | (_, _, file2) => Some (Status_OK, d1, file2)   (* line 35: return false *)
    end
  | (st, _, file1) => Some (st, empty, file1)
  end.

(** Reading until the first status other than OK, as every caller does (e.g.
    src/sol/tools.cc:118-125).  Result: the points delivered with OK, and the final status.
    Fuel: every OK consumes at least 4 bytes; exhaustion is [None], excluded by theorem. *)
Fixpoint bin_read_all (fuel : nat) (file : list Z) : option (list (point Z) * status) :=
  match fuel with
  | O => None
  | S f =>
    do (st, p, file') <- bin_next file;
    match st with
    | Status_OK => do (ps, e) <- bin_read_all f file'; Some (p :: ps, e)
    | _ => Some ([], st)
    end
  end.
Definition bin_read_file (file : list Z) : option (list (point Z) * status) :=
  bin_read_all (S (length file)) file.
