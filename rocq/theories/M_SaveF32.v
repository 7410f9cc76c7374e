(** The two library calls that M_Save leaves open, for single precision: printing with "%g" (what
    ostream's operator<< and printf do for a float, six significant digits, exact round to nearest,
    ties to even) and strtof (correctly rounded), as glibc specifies them.  They are not code of the
    repository; matrix.h:197, 214, jsoncpp.cpp:3995 and str_util call them. *)
From Coq Require Import SpecFloat String.
From Verif Require Import M_Base M_Num S_Text M_Str M_Save.
Local Open Scope string_scope.
Local Open Scope list_scope.
Local Open Scope Z_scope.

(** n / d to the nearest integer, ties to even. *)
Definition rne (n d : Z) : Z :=
  let q := n / d in let r := n mod d in
  if 2 * r <? d then q else if d <? 2 * r then q + 1 else if Z.even q then q else q + 1.
(** 10^ex <= n / d. *)
Definition le10 (ex n d : Z) : bool := 10 ^ (Z.max 0 ex) * d <=? n * 10 ^ (Z.max 0 (- ex)).
(** The decimal exponent of n / d, searched downwards. *)
Fixpoint dec_exp (fuel : nat) (ex n d : Z) : Z :=
  match fuel with O => ex | S f => if le10 ex n d then ex else dec_exp f (ex - 1) n d end.
Definition f32_print (x : f32) : printed :=
  match x with
  | S754_nan => PWord (bytes "nan")
  | S754_infinity s => PWord (if s then bytes "-inf" else bytes "inf")
  | S754_zero s => PNum (mkdec6 s 0 0)
  | S754_finite s m e =>
    let n := Z.pos m * 2 ^ Z.max 0 e in let d := 2 ^ Z.max 0 (- e) in
    let ex := dec_exp 83 38 n d in
    let sig := rne (n * 10 ^ Z.max 0 (5 - ex)) (d * 10 ^ Z.max 0 (ex - 5)) in
    PNum (if sig =? 1000000 then mkdec6 s 100000 (ex + 1) else mkdec6 s sig ex)
  end.
(** strtof on m * 10^e; [None] on overflow. *)
Definition f32_strtof (m e : Z) : option f32 :=
  if m =? 0 then Some (S754_zero false)
  else
    match SFdiv f32_prec f32_emax (S754_finite (m <? 0) (Z.to_pos (Z.abs m * 10 ^ Z.max 0 e)) 0)
                 (S754_finite false (Z.to_pos (10 ^ Z.max 0 (- e))) 0) with
    | S754_infinity _ => None
    | x => Some x
    end.
