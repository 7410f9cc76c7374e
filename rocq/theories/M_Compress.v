(** Model of include/sol/pario/compress.h.  Bytes are [Z] in [0,256). *)
From Verif Require Import M_Base.

(** run_len_encode, compress.h:24-31.  The loop runs on fuel; a uint64_t needs at most 10
    rounds, running out of fuel yields [None] (excluded by theorem). *)
Fixpoint run_len_encode_go (fuel : nat) (i : Z) : option (list Z) :=
  match fuel with
  | O => None
  | S f =>
    if 128 <=? i then
      do r <- run_len_encode_go f (Z.shiftr i 7);
      Some (Z.lor (Z.land i 127) 128 :: r)
    else Some [Z.land i 127]
  end.
Definition run_len_encode (i : Z) : option (list Z) := run_len_encode_go 10 i.

(** [v << s] on type int for v >= 0, compress.h:36-37: undefined if s >= 32 or if the result
    does not fit in 32 bits; otherwise the 32-bit pattern read as int (C++11 5.8 with
    CWG1457), then converted to uint64_t by the [|] with a uint64_t. *)
Definition shl_int (v s : Z) : option Z :=
  if 32 <=? s then None
  else let x := v * 2 ^ s in
       if x <? two32 then Some (u64 (i32 x)) else None.

(** run_len_decode, compress.h:33-39.  Reading past the end of the buffer is [None]. *)
Fixpoint run_len_decode_go (bs : list Z) (count i : Z) : option (Z * list Z) :=
  match bs with
  | [] => None
  | b :: r =>
    if negb (Z.land b 128 =? 0) then
      do v <- shl_int (Z.land b 127) (7 * count);
      run_len_decode_go r (count + 1) (Z.lor i v)
    else
      do v <- shl_int b (7 * count);
      Some (Z.lor i v, r)
  end.
Definition run_len_decode (bs : list Z) : option (Z * list Z) := run_len_decode_go bs 0 0.

(** comp_index with T = index_t = uint32_t, compress.h:49-58. *)
Fixpoint comp_index_go (last : Z) (indexes : list Z) : option (list Z) :=
  match indexes with
  | [] => Some []
  | x :: r =>
    do c <- run_len_encode (u32 (x - last));
    do cs <- comp_index_go x r;
    Some (c ++ cs)
  end.
Definition comp_index (indexes : list Z) : option (list Z) := comp_index_go 0 indexes.

(** decomp_index with T = index_t = uint32_t, compress.h:66-85.  Each round consumes at least
    one byte, so the number of bytes is enough fuel (exhaustion is [None], excluded by
    theorem). *)
Fixpoint decomp_index_go (fuel : nat) (last : Z) (codes : list Z) : option (list Z) :=
  match codes with
  | [] => Some []
  | _ =>
    match fuel with
    | O => None
    | S f =>
      do (d, r) <- run_len_decode codes;
      let index := u64 (d + last) in
      do xs <- decomp_index_go f index r;
      Some (u32 index :: xs)
    end
  end.
Definition decomp_index (codes : list Z) : option (list Z) :=
  decomp_index_go (length codes) 0 codes.
