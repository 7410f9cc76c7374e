(** Numbers.  The numeric code is modelled over an explicit record of arithmetic operations, so
    that one model serves exact arithmetic (the instance [Rnum]) and IEEE single precision (the
    instance [f32num]).  Theorems about rounding-independent facts hold for every instance. *)
From Verif Require Import M_Base.
From Coq Require Import Reals SpecFloat.

(** The operations used on real_t = float (include/sol/util/types.h:64) by the numeric code:
    + - * / and unary minus, the comparisons <, <=, ==, conversion from int, decimal literals
    m * 10^e, sqrtf, exp, log, powf, FLT_MAX and conversion to int.  Simplified: the places where
    the C++ code silently computes in double (e.g. sqrt(float) through <cmath>, exp, log) use the
    same operations. *)
Record num (R : Type) : Type := mknum {
  n_add : R -> R -> R;
  n_sub : R -> R -> R;
  n_mul : R -> R -> R;
  n_div : R -> R -> R;
  n_opp : R -> R;
  n_lt : R -> R -> bool;
  n_le : R -> R -> bool;
  n_eq : R -> R -> bool;
  n_int : Z -> R;
  n_lit : Z -> Z -> R;
  n_sqrt : R -> R;
  n_exp : R -> R;
  n_log : R -> R;
  n_pow : R -> R -> R;
  n_fmax : R;
  n_toint : R -> Z
}.
Arguments n_add {R}. Arguments n_sub {R}. Arguments n_mul {R}. Arguments n_div {R}.
Arguments n_opp {R}. Arguments n_lt {R}. Arguments n_le {R}. Arguments n_eq {R}.
Arguments n_int {R}. Arguments n_lit {R}. Arguments n_sqrt {R}. Arguments n_exp {R}.
Arguments n_log {R}. Arguments n_pow {R}. Arguments n_fmax {R}. Arguments n_toint {R}.

(** Exact arithmetic (not in /repo: the reference the algorithms are meant to follow).
    The rounding of literals is ignored, conversion to int truncates. *)
Definition R_of_dec (m e : Z) : R := (IZR m * powerRZ 10 e)%R.
Definition R_toint (x : R) : Z := if Rlt_dec x 0 then (1 - up (- x))%Z else (up x - 1)%Z.
Definition Rnum : num R := mknum R
  Rplus Rminus Rmult Rdiv Ropp
  (fun a b => if Rlt_dec a b then true else false)
  (fun a b => if Rle_dec a b then true else false)
  (fun a b => if Req_EM_T a b then true else false)
  IZR R_of_dec sqrt exp ln Rpower
  (IZR 340282346638528859811704183484516925440) R_toint.

(** IEEE binary32 with rounding to nearest even, by the standard library's SpecFloat
    (include/sol/util/types.h:64: real_t is float).  exp, log and pow have no executable
    definition there; they are left as NaN and no theorem about [f32num] uses them. *)
Definition f32 : Type := spec_float.
Definition f32_prec : Z := 24.
Definition f32_emax : Z := 128.
Definition f32_int (z : Z) : f32 := binary_normalize f32_prec f32_emax z 0 false.
(** Decimal literal: correctly rounded only when one division or product is exact enough; the
    literals used in the examples (1e-12, 1e-20, 0.5, 0.25) are converted by one division. *)
Definition f32_lit (m e : Z) : f32 :=
  if 0 <=? e then f32_int (m * 10 ^ e)
  else SFdiv f32_prec f32_emax (f32_int m) (f32_int (10 ^ (- e))).
Definition f32_lt (a b : f32) : bool :=
  match SFcompare a b with Some Lt => true | _ => false end.
Definition f32_le (a b : f32) : bool :=
  match SFcompare a b with Some Lt | Some Eq => true | _ => false end.
Definition f32_eq (a b : f32) : bool :=
  match SFcompare a b with Some Eq => true | _ => false end.
Definition f32_toint (x : f32) : Z :=
  match x with
  | S754_finite s m e =>
      let v := if 0 <=? e then Zpos m * 2 ^ e else Zpos m / 2 ^ (- e) in
      if s then - v else v
  | _ => 0
  end.
Definition f32num : num f32 := mknum f32
  (SFadd f32_prec f32_emax) (SFsub f32_prec f32_emax) (SFmul f32_prec f32_emax)
  (SFdiv f32_prec f32_emax) SFopp f32_lt f32_le f32_eq f32_int f32_lit
  (SFsqrt f32_prec f32_emax) (fun _ => S754_nan) (fun _ => S754_nan) (fun _ _ => S754_nan)
  (f32_int 340282346638528859811704183484516925440) f32_toint.

(** A float that is neither infinite nor NaN. *)
Definition f32_is_nan (x : f32) : bool := match x with S754_nan => true | _ => false end.
