(** Saving and loading linear models: Model::Save and Model::Load (src/sol/model/model.cc), the
    per-class GetModelInfo / SetModelInfo / GetModelParam / SetModelParam, and the stream operators of
    Matrix (include/sol/math/matrix.h).  The JSON library is a parameter (M_Json.v has it). *)
From Coq Require Import String.
From Verif Require Import M_Base M_Num M_Expr M_Loss M_Online M_Olm M_OlmSel M_Heap M_Algs M_Text M_Str
  S_Text.
Local Open Scope string_scope.
Local Open Scope list_scope.
Local Open Scope Z_scope.

(* ------------------------------------------------------------- input streams *)
(** std::istream: what is left to read, and failbit.  eofbit is set exactly by operations that reach
    the end; every later extraction then fails, as it does here on the empty rest. *)
Record istr := mkistr { i_rest : list Z; i_fail : bool }.

(** is.ignore(max, d), matrix.h:212, 214, 215: up to and including the first [d]. *)
Definition ignore (d : Z) (s : istr) : istr :=
  if i_fail s then s else mkistr (tl (snd (find_if (fun c => c =? d) (i_rest s)))) false.

(** std::ws done by the sentry of every formatted extraction. *)
Definition skip_ws (l : list Z) : list Z := snd (find_if_not M_Str.is_space l).

(** is >> line for a std::string, online_linear_model.cc:161 (the word itself is not used). *)
Definition get_word (s : istr) : istr :=
  if i_fail s then s
  else match skip_ws (i_rest s) with
       | [] => mkistr [] true
       | p => mkistr (snd (find_if M_Str.is_space p)) false
       end.

(** The characters of a decimal number taken by std::num_get (C++ standard [facet.num.get.virtuals])
    and strtof: sign, digits, point, digits, exponent; [Some (m, e)] for the number m * 10^e, [None]
    when the text taken is not a number.  Simplified: no hexadecimal floats, inf or nan; the sign of a
    zero is dropped. *)
Definition scan_float (p0 : list Z) : option (Z * Z) * list Z :=
  let '(sg, p) := if starts c_minus p0 then (-1, tl p0)
                  else if starts c_plus p0 then (1, tl p0) else (1, p0) in
  let '(ip, p) := find_if_not is_digit p in
  let '(fr, p) := if starts c_dot p then find_if_not is_digit (tl p) else ([], p) in
  let ds := (ip ++ fr)%list in
  match ds with
  | [] => (None, p)
  | _ =>
    let m := sg * digits_value 0 ds in
    let fl := Z.of_nat (length fr) in
    if starts c_e p || starts c_E p then
      let '(es, q) := if starts c_minus (tl p) then (-1, tl (tl p))
                      else if starts c_plus (tl p) then (1, tl (tl p)) else (1, tl p) in
      let '(ed, q) := find_if_not is_digit q in
      match ed with
      | [] => (None, q)
      | _ => (Some (m, es * digits_value 0 ed - fl), q)
      end
    else (Some (m, - fl), p)
  end.

(** What operator<< prints for a float: a number with six significant digits, or a word such as
    "nan" or "inf". *)
Inductive printed : Set := PNum (d : dec6) | PWord (w : list Z).
Definition text_of (t : printed) : list Z :=
  match t with PNum d => print_g6 (d_neg d) (d_sig d) (d_ex d) | PWord w => w end.

(** A scalar of the JSON document, as printed by the (patched) JSON library: reals with "%g",
    external/json/jsoncpp.cpp:3995. *)
Inductive jval : Set := JInt (z : Z) | JNum (d : dec6) | JStr (s : list Z) | JNull.

Section Save.
Context {R : Type}.
Variable N : num R.
Local Notation zero := (zero N).
Local Notation one := (one N).
(** The decimal rounding of a float done by operator<< and printf("%g"): a library call. *)
Variable pr : R -> printed.
(** strtof on the number m * 10^e; [None] when out of range. *)
Variable strtof : Z -> Z -> option R.

(* ------------------------------------------------------------- vectors as text *)
(** operator<<(ostream, Matrix) on a vector, matrix.h:191-205. *)
Definition write_vec (v : list R) : list Z :=
  match v with
  | [] => bytes "[]"
  | _ => [c_nl] ++ bytes "[ " ++ concat (map (fun x => text_of (pr x) ++ [c_sp]) v) ++ bytes "]"
  end%list.

(** is >> *pdata for a float: nothing changes once failbit is set or at the end of the input; a text
    that is not a number stores 0 and a number out of range FLT_MAX, both with failbit
    ([facet.num.get.virtuals]; the sign of the overflow is not modelled). *)
Definition get_float (old : R) (s : istr) : R * istr :=
  if i_fail s then (old, s)
  else match skip_ws (i_rest s) with
       | [] => (old, mkistr [] true)
       | p =>
         let '(v, q) := scan_float p in
         match v with
         | None => (zero, mkistr q true)
         | Some (m, e) =>
           match strtof m e with
           | Some x => (x, mkistr q false)
           | None => (n_fmax N, mkistr q true)
           end
         end
       end.
Fixpoint get_floats (old : list R) (s : istr) : list R * istr :=
  match old with
  | [] => ([], s)
  | x :: r => let '(y, s1) := get_float x s in let '(l, s2) := get_floats r s1 in (y :: l, s2)
  end.
(** is >> line >> vector, online_linear_model.cc:161, cw.cc:138; operator>>(istream, Matrix) on a
    vector, matrix.h:207-218. *)
Definition read_vec (old : list R) (s : istr) : list R * istr :=
  let '(l, s1) := get_floats old (ignore 91 (get_word s)) in (l, ignore c_nl (ignore 93 s1)).
Fixpoint read_vecs (olds : list (list R)) (s : istr) : list (list R) * istr :=
  match olds with
  | [] => ([], s)
  | v :: r => let '(l, s1) := read_vec v s in let '(ls, s2) := read_vecs r s1 in (l :: ls, s2)
  end.

(** os << "name[" << c << "]:" << vector << "\n" for c = 0, 1, ..., online_linear_model.cc:152-156 and
    the like in cw.cc:125-131, arow.cc:94-100, eccw.cc:135-141, rda.cc:86-92, ada_fobos.cc:76-82,
    ada_rda.cc:98-108, sop.cc:94-101. *)
Fixpoint write_vecs (name sep : list Z) (c : Z) (vs : list (list R)) : option (list Z) :=
  match vs with
  | [] => Some []
  | v :: r =>
    do i <- print_d c;
    do t <- write_vecs name sep (c + 1) r;
    Some (name ++ bytes "[" ++ i ++ bytes "]:" ++ sep ++ write_vec v ++ [c_nl] ++ t)%list
  end.

(** The vectors besides the weights that a class writes, in order: blocks of (name, vectors).  SOP's
    "X: " has no index. *)
Inductive block := Indexed (name : list Z) (vs : list (list R)) | Single (name : list Z) (v : list R).
Definition extra_blocks (k : kind (R:=R)) : state_of k -> list block :=
  match k return state_of k -> list block with
  | KRDA _ | KRDA_L1 _ _ _ | KERDA_L1 _ _ _ _ => fun ut => [Indexed (bytes "ut") ut]
  | KSOP _ => fun s => [Single (bytes "X") (fst s); Indexed (bytes "v") (snd s)]
  | KAROW _ | KCW _ _ _ | KECCW _ _ _ => fun Ss => [Indexed (bytes "Sigma") Ss]
  | KSOFS _ _ => fun s => [Indexed (bytes "Sigma") (s_vecs s)]
  | KAdaFOBOS _ => fun H => [Indexed (bytes "H") H]
  | KAdaFOBOS_L1 _ _ _ => fun s => [Indexed (bytes "H") (fst s)]
  | KAdaFOBOS_OFS _ _ => fun s => [Indexed (bytes "H") (s_vecs s)]
  | KAdaRDA _ | KAdaRDA_L1 _ _ _ => fun s => [Indexed (bytes "H") (map fst s); Indexed (bytes "ut") (map snd s)]
  | KAdaRDA_OFS _ _ => fun s => [Indexed (bytes "H") (s_vecs (fst s)); Indexed (bytes "ut") (snd s)]
  | _ => fun _ => []
  end.
Definition write_block (b : block) : option (list Z) :=
  match b with
  | Indexed name vs => write_vecs name [c_sp] 0 vs
  | Single name v => Some (name ++ bytes ": " ++ write_vec v ++ [c_nl])%list
  end.
Fixpoint write_blocks (bs : list block) : option (list Z) :=
  match bs with
  | [] => Some []
  | b :: r => do t <- write_block b; do u <- write_blocks r; Some (t ++ u)%list
  end.
(** GetModelParam of each class. *)
Definition get_param (k : kind (R:=R)) (c : core (R:=R)) (e : state_of k) : option (list Z) :=
  do w <- write_vecs (bytes "weight") [] 0 (c_ws c);
  do x <- write_blocks (extra_blocks k e);
  Some (w ++ x)%list.

(** SetModelParam of each class: the same vectors are read in the same order.
    online_linear_model.cc:158-164, cw.cc:133-142, arow.cc:102-111, eccw.cc:143-152, rda.cc:94-103,
    ada_fobos.cc:84-92, ada_rda.cc:110-122, sop.cc:103-113. *)
Definition block_vecs (b : block) : list (list R) :=
  match b with Indexed _ vs => vs | Single _ v => [v] end.
Definition set_extra (k : kind (R:=R)) : list (list R) -> state_of k -> state_of k :=
  match k return list (list R) -> state_of k -> state_of k with
  | KRDA _ | KRDA_L1 _ _ _ | KERDA_L1 _ _ _ _ => fun vs _ => vs
  | KSOP _ => fun vs s => (hd (fst s) vs, tl vs)
  | KAROW _ | KCW _ _ _ | KECCW _ _ _ => fun vs _ => vs
  | KSOFS _ _ | KAdaFOBOS_OFS _ _ => fun vs s => mksel2 vs (s_sum s) (s_heap s)
  | KAdaFOBOS _ => fun vs _ => vs
  | KAdaFOBOS_L1 _ _ _ => fun vs s => (vs, snd s)
  | KAdaRDA _ | KAdaRDA_L1 _ _ _ =>
    fun vs s => combine (firstn (length s) vs) (skipn (length s) vs)
  | KAdaRDA_OFS _ _ =>
    fun vs s => let n := length (s_vecs (fst s)) in
                (mksel2 (firstn n vs) (s_sum (fst s)) (s_heap (fst s)), skipn n vs)
  | _ => fun _ s => s
  end.
Definition set_param (k : kind (R:=R)) (c : core (R:=R)) (e : state_of k) (s : istr) : core (R:=R) * state_of k :=
  let '(ws, s1) := read_vecs (c_ws c) s in
  let '(xs, _) := read_vecs (concat (map block_vecs (extra_blocks k e))) s1 in
  (set_ws c ws, set_extra k xs e).

(* ---------------------------------------------------------------- model info *)
(** The saved document: Model::GetModelInfo, model.cc:236-248 (model, cls_num, clf_num, loss, norm),
    Regularizer::GetRegularizerInfo, regularizer.cc:28-30, and the object "online". *)
Record info := mkinfo {
  i_model : list Z; i_cls : Z; i_clf : Z; i_loss : list Z; i_norm : Z;
  i_lambda : option jval; i_online : list (list Z * jval)
}.

(** Names of models and losses given to RegisterModel and RegisterLoss (M_Algs.kind, M_Loss.loss_kind
    for the lines). *)
Definition model_name (k : kind (R:=R)) : list Z :=
  bytes (match k with
  | KPerceptron => "perceptron" | KPA => "pa" | KPA1 _ => "pa1" | KPA2 _ => "pa2"
  | KOGD _ _ => "ogd" | KSTG _ _ _ _ _ => "stg" | KFOBOS_L1 _ _ _ _ => "fobos-l1" | KPET _ _ _ => "pet"
  | KRDA _ => "rda" | KRDA_L1 _ _ _ => "rda-l1" | KERDA_L1 _ _ _ _ => "erda-l1" | KALMA2 _ _ _ => "alma2"
  | KSOP _ => "sop" | KAROW _ => "arow" | KSOFS _ _ => "sofs" | KCW _ _ _ => "cw" | KECCW _ _ _ => "eccw"
  | KAdaFOBOS _ => "ada-fobos" | KAdaFOBOS_L1 _ _ _ => "ada-fobos-l1" | KAdaFOBOS_OFS _ _ => "adafobos-ofs"
  | KAdaRDA _ => "ada-rda" | KAdaRDA_L1 _ _ _ => "ada-rda-l1" | KAdaRDA_OFS _ _ => "adarda-ofs"
  | KFOFS _ _ => "fofs" end)%string.
Definition loss_name (l : loss_kind) : list Z :=
  bytes (match l with
  | LBool => "bool" | LMaxBool => "maxscore-bool" | LUniBool => "uniform-bool"
  | LHinge => "hinge" | LMaxHinge => "maxscore-hinge" | LUniHinge => "uniform-hinge"
  | LLogistic => "logistic" | LMaxLogistic => "maxscore-logistic" | LUniLogistic => "uniform-logistic"
  | LSquare => "square" end)%string.

(** A float stored in a JSON value and printed; NaN becomes null, infinities are out of reach of stof
    (jsoncpp.cpp:3993-4013). *)
Definition jnum (x : R) : jval := match pr x with PNum d => JNum d | PWord _ => JNull end.

(** What each class adds to "online": pa.cc:53-56,79-82; ogd.cc:45-49,133-136; rda.cc:81-84,176-179;
    alma2.cc:90-96; sop.cc:89-92; arow.cc:89-92; cw.cc:119-123; eccw.cc:129-133; ada_fobos.cc:70-74;
    ada_rda.cc:92-96; fofs.cc:107-112.  [p] is p_ of ALMA2. *)
Definition own_info (p : Z) (c : core (R:=R)) (k : kind (R:=R)) : state_of k -> list (list Z * jval) :=
  match k return state_of k -> list (list Z * jval) with
  | KPerceptron | KPA => fun _ => []
  | KPA1 C | KPA2 C => fun _ => [(bytes "C", jnum C)]
  | KOGD e t | KFOBOS_L1 e t _ _ | KPET e t _ => fun _ => [(bytes "eta", jnum e); (bytes "power_t", jnum t)]
  | KSTG e t _ _ k => fun _ => [(bytes "eta", jnum e); (bytes "k", JInt k); (bytes "power_t", jnum t)]
  | KRDA s | KRDA_L1 s _ _ => fun _ => [(bytes "sigma", jnum s)]
  | KERDA_L1 s _ r _ => fun _ => [(bytes "rou", jnum r); (bytes "sigma", jnum s)]
  | KALMA2 a C _ => fun k => [(bytes "C", jnum C); (bytes "alpha", jnum a); (bytes "k", JInt k); (bytes "p", JInt p)]
  | KSOP a => fun _ => [(bytes "a", jnum a)]
  | KAROW r | KSOFS r _ => fun _ => [(bytes "r", jnum r)]
  | KCW a phi _ | KECCW a phi _ => fun _ => [(bytes "a", jnum a); (bytes "phi", jnum phi)]
  | KAdaFOBOS d | KAdaFOBOS_L1 d _ _ | KAdaFOBOS_OFS d _ | KAdaRDA d | KAdaRDA_L1 d _ _ | KAdaRDA_OFS d _ =>
    fun _ => [(bytes "delta", jnum d); (bytes "eta", jnum (c_eta c))]
  | KFOFS l B => fun _ => [(bytes "B", JInt (Z.of_nat B)); (bytes "eta", jnum (c_eta c)); (bytes "lambda", jnum l)]
  end%string.
(** lambda of the regularizer, if the class has one (ogd.cc:74,140,172; rda.cc:107,136; arow.cc:116;
    ada_fobos.cc:96,131; ada_rda.cc:126,157); for the l0 regularizers it is the budget. *)
Definition reg_lambda (k : kind (R:=R)) : option R :=
  match k with
  | KSTG _ _ l _ _ | KFOBOS_L1 _ _ l _ | KRDA_L1 _ l _ | KERDA_L1 _ l _ _ | KAdaFOBOS_L1 _ l _ | KAdaRDA_L1 _ l _ => Some l
  | KPET _ _ B | KSOFS _ B | KAdaFOBOS_OFS _ B | KAdaRDA_OFS _ B => Some (n_int N (Z.of_nat B))
  | _ => None
  end.
(** OnlineModel::GetModelInfo, online_model.cc:201-213. *)
Definition online_info (c : core (R:=R)) : list (list Z * jval) :=
  [(bytes "bias_eta", jnum (c_b0 c)); (bytes "t", JInt (c_iter c)); (bytes "dim", JInt (Z.of_nat (c_dim c)));
   (bytes "lazy_update", JStr (if c_lazy c then bytes "true" else bytes "false"))] ++
  (if n_le N one (c_active c) then [(bytes "active_smoothness", jnum (c_active c))] else []) ++
  (match c_cost c with Some m => [(bytes "cost_margin", jnum m)] | None => [] end).
Definition norm_code (n : norm_kind) : Z := match n with NoNorm => 0 | NormL1 => 1 | NormL2 => 2 end.
(** The whole document; model.cc:236-248.  cls_num is 2 for one classifier (model.cc:40-41).  The
    object is a sorted map in the code; M_Save.set_info says why its order does not matter. *)
Definition get_info (p : Z) (nk : norm_kind) (k : kind (R:=R)) (c : core (R:=R)) (e : state_of k) : info :=
  let n := Z.of_nat (length (c_ws c)) in
  mkinfo (model_name k) (if n =? 1 then 2 else n) n (loss_name (c_loss c)) (norm_code nk)
    (option_map jnum (reg_lambda k)) (online_info c ++ own_info p c k e).

(** asString (jsoncpp.cpp:2949-2971) followed by stof or stoi; [None]: std::invalid_argument (or
    std::out_of_range, which is not caught). *)
Definition as_real (v : jval) : option R :=
  match v with
  | JInt z => strtof z 0
  | JNum d =>
    match scan_float (text_of (PNum d)) with
    | (Some (m, e), _) => strtof m e
    | _ => None
    end
  | _ => None
  end.
Definition as_int (v : jval) : option Z :=
  match v with
  | JInt z => if (-2147483648 <=? z) && (z <=? 2147483647) then Some z else None
  | JNum d =>
    match stoll (text_of (PNum d)) with
    | Parsed (z, _) => if (-2147483648 <=? z) && (z <=? 2147483647) then Some z else None
    | _ => None
    end
  | _ => None
  end.
(** A member of a JSON object. *)
Fixpoint member (name : list Z) (l : list (list Z * jval)) : option jval :=
  match l with
  | [] => None
  | (n, v) :: r => if str_eqb n name then Some v else member name r
  end.
(** SetParameter(name, value) for a name that the document may contain: [None] when the value is
    rejected, [Some dflt] when the name is absent. *)
Definition param {A} (conv : jval -> option A) (ok : A -> bool) (name : string) (dflt : A)
  (l : list (list Z * jval)) : option A :=
  match member (bytes name) l with
  | None => Some dflt
  | Some v => do x <- conv v; if ok x then Some x else None
  end.
Definition any {A} (_ : A) : bool := true.
Definition nonneg (x : R) : bool := n_le N zero x.
Definition positive (x : R) : bool := n_lt N zero x.

(** sparse_thresh_ of a new l1 regularizer, regularizer.cc:32. *)
Definition thresh0 : R := n_lit N 1 (-6).
(** The SetParameter overrides, applied to a newly created model: the kind with the loaded
    parameters.  Checks: OGD power_t, eta >= 0 (ogd.cc:23-32,59-60), STG k > 0 (76-83), RDA sigma > 0
    (rda.cc:30-37), ERDA rou >= 0 (140-147), ALMA2 alpha in (0, 1], k > 0 (alma2.cc:35-64), AdaFOBOS and
    AdaRDA delta > 0, eta >= 0 (ada_fobos.cc:30-41, ada_rda.cc:37-48), FOFS eta, lambda >= 0, B > 0
    (fofs.cc:19-32); C, a, r, phi are not checked (pa.cc:34-40,60-66, sop.cc:35-46, arow.cc:36-47,
    cw.cc:38-59, eccw.cc:39-60).  Defaults of the constructors matter only for absent names.
    [lam] is lambda of the regularizer (not checked, regularizer.cc:17-27). *)
Definition load_kind (name : list Z) (l : list (list Z * jval)) (lam : R) (bias_on : bool)
  : option (kind (R:=R)) :=
  let is n := str_eqb name (bytes n) in
  let B := Z.to_nat (n_toint N lam) in
  let half := n_lit N 5 (-1) in
  let ogd := do e <- param as_real nonneg "eta" one l; do t <- param as_real nonneg "power_t" half l; Some (e, t) in
  let sigma := param as_real positive "sigma" one l in
  let delta := param as_real positive "delta" (n_int N 10) l in
  let conf := do a <- param as_real any "a" one l; do phi <- param as_real any "phi" (n_lit N 5244 (-4)) l;
              Some (a, phi) in
  if is "perceptron" then Some KPerceptron
  else if is "pa" then Some KPA
  else if is "pa1" then do C <- param as_real any "C" one l; Some (KPA1 C)
  else if is "pa2" then do C <- param as_real any "C" one l; Some (KPA2 C)
  else if is "ogd" then do (e, t) <- ogd; Some (KOGD e t)
  else if is "stg" then
    do (e, t) <- ogd; do k <- param as_int (fun k => 0 <? k) "k" 1 l; Some (KSTG e t lam thresh0 k)
  else if is "fobos-l1" then do (e, t) <- ogd; Some (KFOBOS_L1 e t lam thresh0)
  else if is "pet" then do (e, t) <- ogd; Some (KPET e t B)
  else if is "rda" then do s <- sigma; Some (KRDA s)
  else if is "rda-l1" then do s <- sigma; Some (KRDA_L1 s lam thresh0)
  else if is "erda-l1" then
    do s <- sigma; do r <- param as_real nonneg "rou" zero l; Some (KERDA_L1 s lam r thresh0)
  else if is "alma2" then
    do a <- param as_real (fun a => positive a && n_le N a one) "alpha" (n_lit N 9 (-1)) l;
    do C <- param as_real any "C" (n_sqrt N (n_int N 2)) l;
    do p <- param as_int any "p" 2 l;
    Some (KALMA2 a C (n_sqrt N (n_int N (p - 1))))
  else if is "sop" then do a <- param as_real any "a" one l; Some (KSOP a)
  else if is "arow" then do r <- param as_real any "r" one l; Some (KAROW r)
  else if is "sofs" then do r <- param as_real any "r" one l; Some (KSOFS r B)
  else if is "cw" then do (a, phi) <- conf; Some (KCW a phi bias_on)
  else if is "eccw" then do (a, phi) <- conf; Some (KECCW a phi bias_on)
  else if is "ada-fobos" then do d <- delta; Some (KAdaFOBOS d)
  else if is "ada-fobos-l1" then do d <- delta; Some (KAdaFOBOS_L1 d lam thresh0)
  else if is "adafobos-ofs" then do d <- delta; Some (KAdaFOBOS_OFS d B)
  else if is "ada-rda" then do d <- delta; Some (KAdaRDA d)
  else if is "ada-rda-l1" then do d <- delta; Some (KAdaRDA_L1 d lam thresh0)
  else if is "adarda-ofs" then do d <- delta; Some (KAdaRDA_OFS d B)
  else if is "fofs" then
    do lm <- param as_real nonneg "lambda" zero l;
    do b <- (match member (bytes "B") l with
             | None => Some 0
             | Some v => do b <- as_int v; if 0 <? b then Some b else None end);
    Some (KFOFS lm (Z.to_nat b))
  else None.

(** SetParameter("loss", name), model.cc:63-78, with the restrictions of the classes: hinge losses only
    for ALMA2, AROW, SOFS, CW and ECCW (alma2.cc:52-57, arow.cc:39-43, cw.cc:47-52, eccw.cc:48-53), bool
    losses only for the perceptrons (perceptron.cc:27-31, sop.cc:38-42).  It also runs when the name
    differs from the constructor's loss only, which these accept. *)
Definition all_losses : list loss_kind :=
  [LBool; LMaxBool; LUniBool; LHinge; LMaxHinge; LUniHinge; LLogistic; LMaxLogistic; LUniLogistic; LSquare].
Definition loss_allowed (k : kind (R:=R)) (l : loss_kind) : bool :=
  match k with
  | KALMA2 _ _ _ | KAROW _ | KSOFS _ _ | KCW _ _ _ | KECCW _ _ _ =>
    match l with LHinge | LMaxHinge | LUniHinge => true | _ => false end
  | KPerceptron | KSOP _ => match l with LBool | LMaxBool | LUniBool => true | _ => false end
  | _ => true
  end.
Definition load_loss (k : kind (R:=R)) (clf : nat) (name : list Z) : option loss_kind :=
  do l <- find (fun l => str_eqb (loss_name l) name) all_losses;
  if (if (clf =? 1)%nat then loss_is_binary l else loss_is_multi l) && loss_allowed k l
  then Some l else None.
(** SetParameter("norm", ...), model.cc:79-103; ALMA2 insists on L2 (alma2.cc:58-60). *)
Definition load_norm (k : kind (R:=R)) (z : Z) : option norm_kind :=
  do n <- (if z =? 0 then Some NoNorm else if z =? 1 then Some NormL1 else if z =? 2 then Some NormL2 else None);
  match k, n with
  | KALMA2 _ _ _, NormL2 => Some n
  | KALMA2 _ _ _, _ => None
  | _, _ => Some n
  end.

(** The state after the lazy regularizer was told t0, online_model.cc:91-95, regularizer.cc:56-65; and
    k_ of ALMA2, alma2.cc:48-51. *)
Definition set_time (k : kind (R:=R)) (t : Z) (l : list (list Z * jval)) : state_of k -> option (state_of k) :=
  match k return state_of k -> option (state_of k) with
  | KFOBOS_L1 _ _ _ _ => fun z => Some (mklazy (z_lambda z) (z_thresh z) (n_int N t) (map (fun _ => n_int N t) (z_last z)))
  | KAdaFOBOS_L1 _ _ _ => fun s => let z := snd s in
      Some (fst s, mklazy (z_lambda z) (z_thresh z) (n_int N t) (map (fun _ => n_int N t) (z_last z)))
  | KALMA2 _ _ _ => fun k => param as_int (fun k => 0 <? k) "k" k l
  | _ => fun e => Some e
  end.

(** A loaded model. *)
Record model := mkmodel {
  m_kind : kind (R:=R); m_norm : norm_kind; m_core : core (R:=R); m_state : state_of m_kind
}.

(** Model::Create (model.cc:26-37) and SetModelInfo: model.cc:250-280, online_model.cc:215-236.  The
    parameters of "online" are set in the order of their names; only "dim" (which grows the vectors of a
    model in its initial state) depends on others, namely "a" and "delta", and these come before it, and
    "t" comes after it.  So they can be read by name here.  The result of Model::SetModelInfo is ignored
    by OnlineModel::SetModelInfo (216); it only fails if names or numbers disagree, which Model::Load has
    used to create the model, or for an unknown option of the regularizer.  New models have bias_eta 0,
    learning rate 1 (FOFS, AdaFOBOS and AdaRDA read it), no counts (online_model.cc:60-77). *)
Definition set_info (d : info) : option model :=
  let l := i_online d in
  if i_cls d <? 2 then None
  else
    let n := if i_cls d =? 2 then 1%nat else Z.to_nat (i_cls d) in
    if negb (i_clf d =? Z.of_nat n) then None
    else
      do lam <- (match i_lambda d with None => Some zero | Some v => as_real v end);
      do b0 <- param as_real nonneg "bias_eta" zero l;
      do k <- load_kind (i_model d) l lam (n_lt N zero b0);
      do loss <- load_loss k n (i_loss d);
      do nk <- load_norm k (i_norm d);
      do eta <- (match k with
                 | KFOFS _ _ | KAdaFOBOS _ | KAdaFOBOS_L1 _ _ _ | KAdaFOBOS_OFS _ _
                 | KAdaRDA _ | KAdaRDA_L1 _ _ _ | KAdaRDA_OFS _ _ => param as_real nonneg "eta" one l
                 | _ => Some one
                 end);
      do act <- param as_real positive "active_smoothness" zero l;
      do cost <- (match member (bytes "cost_margin") l with
                  | None => Some None
                  | Some v => if negb (n =? 1)%nat then None
                              else do m <- as_real v; if positive m then Some (Some m) else None
                  end);
      do dim <- param as_int any "dim" 1 l;
      do t <- param as_int (fun t => 0 <=? t) "t" 0 l;
      let lazy := match member (bytes "lazy_update") l with Some (JStr s) => str_eqb s (bytes "true") | _ => false end in
      let c0 := mkcore (repeat [zero] n) (repeat zero n) 1 eta b0 0 0 0 0 0 lazy act cost loss one zero false in
      do (c1, e1) <- a_grow (alg_of N k) (Z.to_nat dim) c0 (init_of N k n);
      do e2 <- set_time k t l e1;
      Some (mkmodel k nk
              (mkcore (c_ws c1) (c_g c1) (c_dim c1) (c_eta c1) (c_b0 c1) t t (c_data c1) (c_err c1) (c_upd c1)
                 (c_lazy c1) (c_active c1) (c_cost c1) (c_loss c1) (c_margin c1) (c_vt c1) (c_updated c1)) e2).

(* ---------------------------------------------------------------------- files *)
(** The JSON library: StyledStreamWriter::write and Reader::parse. *)
Variable json_write : info -> list Z.
Variable json_parse : list Z -> option info.

Definition marker_info : list Z := bytes "model info:".
Definition marker_param : list Z := bytes "model parameters:".

(** Model::Save, model.cc:160-177 (a file that can be opened). *)
Definition save (p : Z) (nk : norm_kind) (k : kind (R:=R)) (c : core (R:=R)) (e : state_of k) : option (list Z) :=
  do t <- get_param k c e;
  Some (marker_info ++ [c_nl] ++ json_write (get_info p nk k c e) ++ marker_param ++ [c_nl] ++ t)%list.

(** getline(in_file, line): the text before the next newline, or the rest.  At the end of the input it
    fails and leaves an empty line or the last one; neither matters here beyond not being the marker
    (if the last line was the marker, the loop has ended). *)
Definition getline (l : list Z) : list Z * list Z :=
  let '(a, b) := find_if (fun c => c =? c_nl) l in (a, tl b).

(** The loop collecting the document, model.cc:196-199: [None] when it is still running after [fuel]
    rounds. *)
Fixpoint load_loop (fuel : nat) (doc file : list Z) : option (list Z * list Z) :=
  match fuel with
  | O => None
  | S f =>
    let '(line, rest) := getline file in
    if str_eqb line marker_param then Some (doc ++ line, rest)%list
    else load_loop f (doc ++ line)%list rest
  end.

(** The result of Model::Load: a model, or a null pointer. *)
Inductive loaded := Loaded (m : model) | LoadNull.

(** Model::Load, model.cc:179-234, on the contents of an existing file.  [None]: still looping. *)
Definition load (fuel : nat) (file : list Z) : option loaded :=
  let '(line, rest) := getline file in
  if negb (str_eqb line marker_info) then Some LoadNull
  else
    do (doc, body) <- load_loop fuel [] rest;
    match json_parse doc with
    | None => Some LoadNull
    | Some d =>
      match set_info d with
      | None => Some LoadNull
      | Some m =>
        let '(c, e) := set_param (m_kind m) (m_core m) (m_state m) (mkistr body false) in
        Some (Loaded (mkmodel (m_kind m) (m_norm m) c e))
      end
    end.
End Save.
Arguments mkmodel {R}. Arguments m_kind {R}. Arguments m_norm {R}. Arguments m_core {R}. Arguments m_state {R}.
Arguments Loaded {R}. Arguments LoadNull {R}. Arguments Indexed {R}. Arguments Single {R}.
