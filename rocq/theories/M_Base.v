(** Shared vocabulary of the model: machine integers, status codes, bounds-checked
    array access, data points.  Definitions only; no proofs. *)
From Coq Require Export List ZArith Bool Lia.
From Coq Require Export ZifyBool ZifyNat ZifyN.
Export ListNotations.
Open Scope Z_scope.

(** Option used as "defined behaviour": [None] is undefined behaviour of the C++ code
    (out-of-range access, invalid shift, signed overflow, ...).  Not taken from a
    particular line of /repo. *)
Definition bind {A B} (o : option A) (f : A -> option B) : option B :=
  match o with Some a => f a | None => None end.
Notation "'do' x <- e ; f" := (bind e (fun x => f))
  (at level 200, x pattern, e at level 100, f at level 200).

(** 2^32 and 2^64: ranges of index_t = uint32_t (include/sol/util/types.h:38-40,65) and of
    size_t/uint64_t on a 64-bit platform (assumed). *)
Definition two32 : Z := 4294967296.
Definition two64 : Z := 18446744073709551616.

(** Conversions to uint32_t / uint64_t (C++ unsigned wrap-around) and to int32_t (two's
    complement, as the platform defines it).  include/sol/util/types.h:38-77. *)
Definition u32 (z : Z) : Z := z mod two32.
Definition u64 (z : Z) : Z := z mod two64.
Definition i32 (z : Z) : Z :=
  let m := z mod two32 in if m <? 2147483648 then m else m - two32.

(** Range predicates of the machine types used by the API.  include/sol/util/types.h:38-77. *)
Definition is_u32 (z : Z) : Prop := 0 <= z < two32.
Definition is_i32 (z : Z) : Prop := -2147483648 <= z < 2147483648.
Definition is_byte (z : Z) : Prop := 0 <= z < 256.

(** invalid_index = static_cast<index_t>(-1).  include/sol/util/types.h:66. *)
Definition invalid_index : Z := 4294967295.

(** Status codes.  include/sol/util/error_code.h:13-18. *)
Inductive status : Set :=
| Status_OK | Status_Error | Status_IO_Error | Status_EndOfFile
| Status_Invalid_Argument | Status_Invalid_Format.

(** A data point: label_, and the two parallel arrays of data_ (indexes, values).
    include/sol/pario/data_point.h:84-87, include/sol/math/sparse_vector.h:155-158.
    Simplified: shared ownership (reference counts) is not modelled, a point is a value. *)
Record point (V : Type) : Type := mkpt {
  p_label : Z;
  p_idx : list Z;
  p_val : list V
}.
Arguments mkpt {V}. Arguments p_label {V}. Arguments p_idx {V}. Arguments p_val {V}.

(** Bounds-checked array read and write, [None] when out of range (C++: undefined).
    Array accesses such as include/sol/math/matrix.h:174-177. *)
Definition rd {A} (a : list A) (i : nat) : option A := nth_error a i.
Fixpoint wr {A} (a : list A) (i : nat) (v : A) : option (list A) :=
  match a, i with
  | [], _ => None
  | _ :: r, O => Some (v :: r)
  | x :: r, S j => do r' <- wr r j v; Some (x :: r')
  end.

(** Total list update at a position (identity when out of range); used only where the model
    has already established the bound.  Models [a[i] = v]. include/sol/math/matrix.h:174. *)
Fixpoint upd {A} (i : nat) (v : A) (a : list A) : list A :=
  match a, i with
  | [], _ => []
  | _ :: r, O => v :: r
  | x :: r, S j => x :: upd j v r
  end.
