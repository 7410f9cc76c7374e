(** JSON texts and what they mean (RFC 8259), independent of the library: a relation between a text and the value it
    denotes; the nesting of the text is counted along. *)
From Coq Require Import String Sorted.
From Verif Require Import M_Base M_Str M_Text S_Text M_Save M_Json.

Definition blanks : list Z -> Prop := Forall (fun c => c = 32 \/ c = 9 \/ c = 10 \/ c = 13).

(** UTF-8: lead byte with the highest bits, continuation bytes with six bits each. *)
Definition cont (n : Z) : Z := 128 + n mod 64.
Inductive encodes : Z -> list Z -> Prop :=
| enc1 cp : 0 <= cp < 128 -> encodes cp [cp]
| enc2 cp : 128 <= cp < 2048 -> encodes cp [192 + cp / 64; cont cp]
| enc3 cp : 2048 <= cp < 65536 -> encodes cp [224 + cp / 4096; cont (cp / 64); cont cp]
| enc4 cp : 65536 <= cp < 1114112 -> encodes cp [240 + cp / 262144; cont (cp / 4096); cont (cp / 64); cont cp].

(** A hexadecimal digit in either case, and four of them. *)
Definition hex_value (c n : Z) : Prop := (48 <= c <= 57 /\ n = c - 48) \/ (65 <= c <= 70 /\ n = c - 55) \/ (97 <= c <= 102 /\ n = c - 87).
Inductive hex4_value : list Z -> Z -> Prop :=
| hex4_intro a b c d x y z w : hex_value a x -> hex_value b y -> hex_value c z -> hex_value d w ->
    hex4_value [a; b; c; d] (4096 * x + 256 * y + 16 * z + w).
(** The short escapes: quote, backslash, slash, b, f, n, r, t. *)
Definition escapes : list (Z * Z) := [(34, 34); (92, 92); (47, 47); (98, 8); (102, 12); (110, 10); (114, 13); (116, 9)].
(** What stands between quotes, and the bytes it denotes. *)
Inductive string_text : list Z -> list Z -> Prop :=
| st_nil : string_text [] []
| st_char c t s : 32 <= c -> c <> 34 -> c <> 92 -> string_text t s -> string_text (c :: t) (c :: s)
| st_escape e c t s : In (e, c) escapes -> string_text t s -> string_text (92 :: e :: t) (c :: s)
| st_unicode h u b t s : hex4_value h u -> u < 55296 \/ 57344 <= u -> encodes u b -> string_text t s ->
    string_text (92 :: 117 :: h ++ t) (b ++ s)
| st_pair h g hi lo b t s : hex4_value h hi -> 55296 <= hi < 56320 -> hex4_value g lo -> 56320 <= lo < 57344 ->
    encodes (65536 + 1024 * (hi - 55296) + (lo - 56320)) b -> string_text t s ->
    string_text (92 :: 117 :: h ++ 92 :: 117 :: g ++ t) (b ++ s).

(** The integer part of a number: 0, or digits that do not start with 0. *)
Definition int_text (ds : list Z) : Prop := Forall digit_char ds /\ (ds = [48] \/ match ds with d :: _ => d <> 48 | [] => False end).
Definition sign (neg : bool) : list Z := if neg then [45] else [].
(** Later members replace earlier ones of the same name; members are kept in the order of their names. *)
Fixpoint last_of {A} (k : list Z) (ms : list (list Z * A)) : option A :=
  match ms with
  | [] => None
  | (n, v) :: r => match last_of k r with Some w => Some w | None => if str_eqb n k then Some v else None end
  end.
Fixpoint name_lt (a b : list Z) : Prop :=
  match a, b with
  | _, [] => False
  | [], _ :: _ => True
  | x :: a, y :: b => x < y \/ x = y /\ name_lt a b
  end.
Definition object_of {A} (ms m : list (list Z * A)) : Prop :=
  StronglySorted (fun p q => name_lt (fst p) (fst q)) m /\ forall k, obj_get k m = last_of k ms.

Section S.
Context {D : Type}.
Variable show : D -> list Z.
Variable read_double : list Z -> option D.
Local Notation json := (json D).

(** Integers from -2^63 to 2^64-1 are integers (the type says whether they fit into an int), other numbers are
    doubles. *)
Definition integer (z : Z) : json := if z <=? 2147483647 then Int z else UInt z.
Inductive number_text : list Z -> json -> Prop :=
| nt_int neg ds z : int_text ds -> z = (if neg : bool then - dec_value ds else dec_value ds) ->
    -9223372036854775808 <= z <= 18446744073709551615 -> number_text (sign neg ++ ds) (integer z)
| nt_real neg ds fr et x d : int_text ds -> Forall digit_char fr -> exp_text et x ->
    fr <> [] \/ et <> [] \/ (if neg : bool then 9223372036854775808 else 18446744073709551615) < dec_value ds ->
    read_double (sign neg ++ ds ++ frac_text fr ++ et) = Some d -> number_text (sign neg ++ ds ++ frac_text fr ++ et) (Real d).

(** [value_text n v t]: the text [t] denotes [v] and has at most [n] levels. *)
Inductive value_text : nat -> json -> list Z -> Prop :=
| vt_null n : value_text (S n) Null (bytes "null")
| vt_true n : value_text (S n) (Bool true) (bytes "true")
| vt_false n : value_text (S n) (Bool false) (bytes "false")
| vt_number n v t : number_text t v -> value_text (S n) v t
| vt_string n t s : string_text t s -> value_text (S n) (Str s) (34 :: t ++ [34])
| vt_empty_array n w : blanks w -> value_text (S n) (Arr []) (91 :: w ++ [93])
| vt_array n l t : elements_text n l t -> value_text (S n) (Arr l) (91 :: t ++ [93])
| vt_empty_object n w : blanks w -> value_text (S n) (Obj []) (123 :: w ++ [125])
| vt_object n ms m t : members_text n ms t -> object_of ms m -> value_text (S n) (Obj m) (123 :: t ++ [125])
with elements_text : nat -> list json -> list Z -> Prop :=
| et_one n v a t b : blanks a -> blanks b -> value_text n v t -> elements_text n [v] (a ++ t ++ b)
| et_more n v a t b l u : blanks a -> blanks b -> value_text n v t -> elements_text n l u ->
    elements_text n (v :: l) (a ++ t ++ b ++ 44 :: u)
with members_text : nat -> list (list Z * json) -> list Z -> Prop :=
| mt_one n k kt v a b c t d : blanks a -> blanks b -> blanks c -> blanks d -> string_text kt k -> value_text n v t ->
    members_text n [(k, v)] (a ++ 34 :: kt ++ 34 :: b ++ 58 :: c ++ t ++ d)
| mt_more n k kt v a b c t d l u : blanks a -> blanks b -> blanks c -> blanks d -> string_text kt k -> value_text n v t ->
    members_text n l u -> members_text n ((k, v) :: l) (a ++ 34 :: kt ++ 34 :: b ++ 58 :: c ++ t ++ d ++ 44 :: u).

Definition is_number (v : json) : Prop := match v with Int _ | UInt _ | Real _ => True | _ => False end.

(** What becomes of a value that is written and read: integers and strings stay (an integer may change its type), a
    double becomes the number that its text denotes, NaN becomes null. *)
Inductive kept : json -> json -> Prop :=
| k_null : kept Null Null
| k_bool b : kept (Bool b) (Bool b)
| k_int z : kept (Int z) (integer z)
| k_uint z : kept (UInt z) (integer z)
| k_real d v : number_text (show d) v -> kept (Real d) v
| k_nan d : show d = bytes "null" -> kept (Real d) Null
| k_str s : kept (Str s) (Str s)
| k_arr l l' : kept_all l l' -> kept (Arr l) (Arr l')
| k_obj m m' : kept_members m m' -> kept (Obj m) (Obj m')
with kept_all : list json -> list json -> Prop :=
| ka_nil : kept_all [] []
| ka_cons v v' l l' : kept v v' -> kept_all l l' -> kept_all (v :: l) (v' :: l')
with kept_members : list (list Z * json) -> list (list Z * json) -> Prop :=
| km_nil : kept_members [] []
| km_cons k v v' l l' : kept v v' -> kept_members l l' -> kept_members ((k, v) :: l) ((k, v') :: l').

(** Values that can be written: at most [n] levels, integers of 64 bits, strings of bytes, names without 0 in the
    order of the map, finite doubles (or NaN). *)
Definition byte (c : Z) : Prop := 0 <= c < 256.
Inductive writable_value : nat -> json -> Prop :=
| wv_null n : writable_value (S n) Null
| wv_bool n b : writable_value (S n) (Bool b)
| wv_int n z : -9223372036854775808 <= z < 9223372036854775808 -> writable_value (S n) (Int z)
| wv_uint n z : 0 <= z < 18446744073709551616 -> writable_value (S n) (UInt z)
| wv_real n d : (exists v, number_text (show d) v) \/ show d = bytes "null" -> writable_value (S n) (Real d)
| wv_str n s : Forall byte s -> writable_value (S n) (Str s)
| wv_arr n l : writable_all n l -> writable_value (S n) (Arr l)
| wv_obj n m : writable_members n m -> StronglySorted (fun p q => name_lt (fst p) (fst q)) m -> writable_value (S n) (Obj m)
with writable_all : nat -> list json -> Prop :=
| wa_nil n : writable_all n []
| wa_cons n v l : writable_value n v -> writable_all n l -> writable_all n (v :: l)
with writable_members : nat -> list (list Z * json) -> Prop :=
| wm_nil n : writable_members n []
| wm_cons n k v m : Forall (fun c => 0 < c < 256) k -> writable_value n v -> writable_members n m -> writable_members n ((k, v) :: m).
End S.

(** Settings that can be written. *)
Definition jval_ok (v : jval) : Prop :=
  match v with
  | JInt z => -9223372036854775808 <= z <= 9223372036854775807
  | JNum d => dec6_ok d
  | JStr s => Forall byte s
  | JNull => True
  end.
Definition int32 (z : Z) : Prop := -2147483648 <= z <= 2147483647.
(** A document that can be saved: strings of bytes, names without 0 and not twice, numbers in their ranges. *)
Record info_ok (d : info) : Prop := {
  io_strings : Forall byte (i_model d) /\ Forall byte (i_loss d);
  io_ints : int32 (i_cls d) /\ int32 (i_clf d) /\ int32 (i_norm d);
  io_lambda : match i_lambda d with Some v => jval_ok v | None => True end;
  io_online : Forall (fun p => Forall (fun c => 0 < c < 256) (fst p) /\ jval_ok (snd p)) (i_online d);
  io_names : NoDup (map fst (i_online d))
}.
