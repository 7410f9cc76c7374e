(** String helpers (include/sol/util/str_util.h), the class registry (util/reflector) and the text
    form of in-memory matrices.  Strings are lists of bytes. *)
From Coq Require Import Ascii String.
From Verif Require Import M_Base M_Text.

(** A literal as bytes; not code of /repo. *)
Definition bytes (s : string) : list Z := map (fun a => Z.of_N (N_of_ascii a)) (list_ascii_of_string s).

(** std::find_if(i, e, f) as (what lies before the position, the rest), used at str_util.h:25, 27,
    35, 38. *)
Fixpoint find_if (f : Z -> bool) (l : list Z) : list Z * list Z :=
  match l with
  | [] => ([], [])
  | c :: r => if f c then ([], l) else let '(a, b) := find_if f r in (c :: a, b)
  end.
Definition find_if_not (f : Z -> bool) : list Z -> list Z * list Z := find_if (fun c => negb (f c)).

(** split, str_util.h:19-32.  [None]: the loop did not end (excluded by a theorem). *)
Fixpoint split_loop (fuel : nat) (delim : Z) (i : list Z) : option (list (list Z)) :=
  match fuel with
  | O => None
  | S f =>
    match i with
    | [] => Some []
    | _ =>
      match snd (find_if_not (fun c => c =? delim) i) with
      | [] => Some []
      | i' => let '(w, j) := find_if (fun c => c =? delim) i' in
              do r <- split_loop f delim j; Some (w :: r)
      end
    end
  end.
Definition str_split (delim : Z) (s : list Z) : option (list (list Z)) := split_loop (S (length s)) delim s.

(** strip, str_util.h:34-40. *)
Definition is_blank (c : Z) : bool := (c =? 32) || (c =? 9).
Definition strip (s : list Z) : list Z := fst (find_if is_blank (snd (find_if_not is_blank s))).

(** lower, str_util.h:42-48: tolower of the "C" locale.  Bytes above 127 are negative chars; glibc's
    tolower leaves them alone, which is what is modelled. *)
Definition to_lower (c : Z) : Z := if (65 <=? c) && (c <=? 90) then c + 32 else c.
Definition lower (s : list Z) : list Z := map to_lower s.

(** Equality of std::string. *)
Fixpoint str_eqb (a b : list Z) : bool :=
  match a, b with
  | [], [] => true
  | x :: a', y :: b' => (x =? y) && str_eqb a' b'
  | _, _ => false
  end.

(* ----------------------------------------------------------------- registry *)
Section Registry.
Context {A : Type}.
(** std::map<std::string, ClassInfo*>, reflector.h:38, as an association list; [A] is the create
    function.  The map's order is not observable through find. *)
Definition registry := list (list Z * A).
Fixpoint reg_find (name : list Z) (m : registry) : option A :=
  match m with
  | [] => None
  | (k, x) :: r => if str_eqb k name then Some x else reg_find name r
  end.
(** ClassFactory::Register, reflector.cc:27-36; [None]: exit(1). *)
Definition register (m : registry) (name : list Z) (x : A) : option registry :=
  match reg_find (lower name) m with
  | None => Some ((lower name, x) :: m)
  | Some _ => None
  end.
(** The registrations of a program, one static object after the other (reflector.h:81-84,
    reflector.cc:21-25). *)
Fixpoint register_all (m : registry) (h : list (list Z * A)) : option registry :=
  match h with
  | [] => Some m
  | (n, x) :: r => do m' <- register m n x; register_all m' r
  end.
(** CreateObject, reflector.h:59-70: the create function or a null pointer. *)
Definition create_object (m : registry) (name : list Z) : option A := reg_find (lower name) m.
End Registry.

(** DataReader::Create (data_reader.cc:20-23), DataWriter::Create (data_writer.cc:20-23),
    Model::Create (model.cc:26-37), Loss::Create (loss.cc:14-17): the name looked up; and the name
    registered by RegisterDataReader (data_reader.h:101-105), RegisterDataWriter (data_writer.h:75),
    RegisterModel (model.h:201-209), RegisterLoss (loss.h:81-89). *)
Inductive family := Reader | Writer | Model | Loss.
Definition suffix (f : family) : list Z :=
  match f with
  | Reader => bytes "_reader" | Writer => bytes "_writer" | Model => bytes "_model" | Loss => bytes "_loss"
  end.
Definition full_name (f : family) (name : list Z) : list Z := name ++ suffix f.

(** All registrations in /repo: the Register* lines of src/sol/pario/{csr_matrix_reader:102,
    csv_reader:94, binary_reader:67, numpy_reader:95, svm_reader:70, binary_writer:40, svm_writer:26,
    csv_writer:50}.cc, src/sol/loss/*.cc and src/sol/model/olm/*.cc. *)
Definition builtin : list (family * list Z) :=
  map (fun n => (Reader, bytes n)) ["csr_matrix"; "csv"; "bin"; "numpy"; "svm"]%string ++
  map (fun n => (Writer, bytes n)) ["bin"; "svm"; "csv"]%string ++
  map (fun n => (Loss, bytes n))
    ["bool"; "maxscore-bool"; "uniform-bool"; "square"; "logistic"; "maxscore-logistic";
     "uniform-logistic"; "hinge"; "maxscore-hinge"; "uniform-hinge"]%string ++
  map (fun n => (Model, bytes n))
    ["ada-fobos"; "ada-fobos-l1"; "adafobos-ofs"; "ada-rda"; "ada-rda-l1"; "adarda-ofs"; "cw"; "ogd";
     "stg"; "fobos-l1"; "pet"; "arow"; "sofs"; "perceptron"; "alma2"; "rda"; "rda-l1"; "erda-l1";
     "eccw"; "sop"; "pa"; "pa1"; "pa2"; "fofs"]%string.

(* ------------------------------------------------------------ path strings *)
(** The conversion of a pointer to long long and back, numpy_reader.cc:33, 43. *)
Definition i64 (z : Z) : Z :=
  let m := z mod two64 in if m <? 9223372036854775808 then m else m - two64.

(** Result of a conversion that can also throw. *)
Inductive parsed (A : Type) :=
| Parsed (a : A)
| Rejected          (** Status_IO_Error *)
| Thrown.           (** an exception that is not caught: std::out_of_range *)
Arguments Parsed {A}. Arguments Rejected {A}. Arguments Thrown {A}.
Definition then_ {A B} (x : parsed A) (f : A -> parsed B) : parsed B :=
  match x with Parsed a => f a | Rejected => Rejected | Thrown => Thrown end.

(** isspace in the "C" locale, as strtoll skips it. *)
Definition is_space (c : Z) : bool := (c =? 32) || ((9 <=? c) && (c <=? 13)).
Fixpoint digits_value (acc : Z) (l : list Z) : Z :=
  match l with [] => acc | c :: r => digits_value (acc * 10 + (c - 48)) r end.
(** std::stoll(tmp, &sz) with base 10: value and number of characters used.  No digits:
    std::invalid_argument, caught (numpy_reader.cc:48).  Too large: std::out_of_range. *)
Definition stoll (s : list Z) : parsed (Z * nat) :=
  let '(sp, p) := find_if_not is_space s in
  let '(neg, p1, k) := if starts c_minus p then (true, tl p, 1%nat)
                       else if starts c_plus p then (false, tl p, 1%nat) else (false, p, 0%nat) in
  let '(ds, _) := find_if_not is_digit p1 in
  match ds with
  | [] => Rejected
  | _ =>
    let v := if neg then - digits_value 0 ds else digits_value 0 ds in
    if (-9223372036854775808 <=? v) && (v <=? 9223372036854775807)
    then Parsed (v, length sp + k + length ds)%nat else Thrown
  end.
(** ParseAddr, numpy_reader.cc:38-52 = csr_matrix_reader.cc:40-54; tmp[tmp.size()] is '\0'. *)
Definition parse_addr (cast : Z -> Z) (src : list Z) : parsed Z :=
  let tmp := strip src in
  then_ (stoll tmp) (fun vs =>
    if nth (snd vs) tmp 0 =? 0 then Parsed (cast (fst vs)) else Rejected).

(** NumpyReader::GeneratePath, numpy_reader.cc:30-36; x, y are addresses, rows, cols, stride ints. *)
Definition numpy_path (x y rows cols stride : Z) : option (list Z) :=
  do a <- print_d (i64 x); do b <- print_d (i64 y); do c <- print_d rows; do d <- print_d cols;
  do e <- print_d stride;
  Some (a ++ [59] ++ b ++ [59] ++ c ++ [59] ++ d ++ [59] ++ e).
(** NumpyReader::ParsePath, numpy_reader.cc:54-72.  The outer [None]: split did not end. *)
Definition numpy_parse (path : list Z) : option (parsed (Z * Z * Z * Z * Z)) :=
  do parts <- str_split 59 path;
  Some (match parts with
        | [p0; p1; p2; p3; p4] =>
          then_ (parse_addr u64 p0) (fun x => then_ (parse_addr u64 p1) (fun y =>
          then_ (parse_addr i32 p2) (fun rows => then_ (parse_addr i32 p3) (fun cols =>
          then_ (parse_addr i32 p4) (fun stride => Parsed (x, y, rows, cols, stride))))))
        | _ => Rejected
        end).
(** CsrMatrixReader::GeneratePath, csr_matrix_reader.cc:31-38. *)
Definition csr_path (indices indptr features y n : Z) : option (list Z) :=
  do a <- print_d (i64 indices); do b <- print_d (i64 indptr); do c <- print_d (i64 features);
  do d <- print_d (i64 y); do e <- print_d n;
  Some (a ++ [59] ++ b ++ [59] ++ c ++ [59] ++ d ++ [59] ++ e).
(** CsrMatrixReader::ParsePath, csr_matrix_reader.cc:56-75. *)
Definition csr_parse (path : list Z) : option (parsed (Z * Z * Z * Z * Z)) :=
  do parts <- str_split 59 path;
  Some (match parts with
        | [p0; p1; p2; p3; p4] =>
          then_ (parse_addr u64 p0) (fun indices => then_ (parse_addr u64 p1) (fun indptr =>
          then_ (parse_addr u64 p2) (fun features => then_ (parse_addr u64 p3) (fun y =>
          then_ (parse_addr i32 p4) (fun n => Parsed (indices, indptr, features, y, n))))))
        | _ => Rejected
        end).
