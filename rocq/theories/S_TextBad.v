(** The text records that can be accepted, by shape, independent of the parsers. *)
From Verif Require Import M_Base S_Text.

(** A number, loosely: every part may be missing. *)
Definition sign_text (s : list Z) : Prop := In s [[]; [43]; [45]; [43; 45]].
Definition loose_number (s : list Z) : Prop :=
  exists b1 sg ds fr ex b2, s = b1 ++ sg ++ ds ++ fr ++ ex ++ b2 /\
    Forall blank b1 /\ sign_text sg /\ Forall digit_char ds /\
    (fr = [] \/ exists f, fr = 46 :: f /\ Forall digit_char f) /\
    (ex = [] \/ exists c g f, ex = c :: g ++ f /\ (c = 69 \/ c = 101) /\ sign_text g /\ Forall digit_char f) /\
    Forall blank b2.
Definition some_number (s : list Z) : Prop := s <> [] /\ loose_number s.

(** libsvm: a label, then cells "index:value". *)
Definition svm_shape (lab : list Z) (cells : list (list Z * list Z)) : list Z :=
  lab ++ concat (map (fun c => fst c ++ 58 :: snd c) cells).
Definition svm_record (lab : list Z) (cells : list (list Z * list Z)) : Prop :=
  some_number lab /\ Forall (fun c => some_number (fst c) /\ some_number (snd c)) cells.
(** csv: a label, then cells ",value". *)
Definition csv_shape (lab : list Z) (cells : list (list Z)) : list Z :=
  lab ++ concat (map (fun v => 44 :: v) cells).
Definition csv_record (lab : list Z) (cells : list (list Z)) : Prop :=
  some_number lab /\ Forall some_number cells.

(** The characters of a number. *)
Definition number_char (c : Z) : Prop := digit_char c \/ blank c \/ In c [43; 45; 46; 69; 101].

(** Well-formed cells as a person may write them: blanks, an index, blanks, ':', blanks, a decimal
    number with optional sign, fraction and exponent. *)
From Coq Require Import QArith.
Local Open Scope Z_scope.
Record cell := mkcell {
  cl_b1 : list Z; cl_ix : list Z; cl_b2 : list Z; cl_b3 : list Z;
  cl_neg : bool; cl_int : list Z; cl_frac : list Z; cl_exp : list Z; cl_x : Z }.
Definition value_text (c : cell) : list Z :=
  (if cl_neg c then [45] else []) ++ cl_int c ++ frac_text (cl_frac c) ++ cl_exp c.
Definition cell_text (c : cell) : list Z :=
  cl_b1 c ++ cl_ix c ++ cl_b2 c ++ 58 :: cl_b3 c ++ value_text c.
Definition cell_ok (c : cell) : Prop :=
  cl_b1 c <> [] /\ Forall blank (cl_b1 c) /\ Forall blank (cl_b2 c) /\ Forall blank (cl_b3 c) /\
  cl_ix c <> [] /\ Forall digit_char (cl_ix c) /\ dec_value (cl_ix c) < 4294967296 /\
  cl_int c <> [] /\ Forall digit_char (cl_int c) /\ Forall digit_char (cl_frac c) /\
  exp_text (cl_exp c) (cl_x c) /\ -2147483599 <= cl_x c <= 2147483599 /\
  dec_value (cl_int c ++ firstn 7 (cl_frac c)) <= 2147483599.
(** The number written, up to its sign, and a number m * 10^e that stands for it: equal if there are at
    most seven digits after the point, otherwise cut after the seventh. *)
Definition written (c : cell) : Q := dec_q (dec_value (cl_int c ++ cl_frac c)) (cl_x c - Z.of_nat (length (cl_frac c))).
Definition stands_for (c : cell) (m e : Z) : Prop :=
  ((length (cl_frac c) <= 7)%nat -> (dec_q m e == written c)%Q) /\
  (dec_q m e <= written c)%Q /\ (written c - dec_q m e < (10 # 1) ^ (cl_x c - 7))%Q.
