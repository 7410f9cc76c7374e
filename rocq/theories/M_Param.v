(** SetParameter(name, value) of all models, with the state it leaves when it throws, and BeginTrain as
    far as it depends on the settings: src/sol/model/model.cc:41-115,153-158,
    online_model.cc:60-130,235-238, regularizer.cc:17-65, and the overrides in src/sol/model/olm.

    Modelled: the members SetParameter writes, the loss object with its identity (hinge_base_ is a
    second pointer to it), and the values that BeginTrain computes from settings and stores.  Of the
    arrays: weights_, the confidences that "a" and "delta" overwrite (Sigmas_, H_) and
    last_update_time_.  Arrays that only grow with "dim" (M_Olm) and the feature heaps are left out; so
    are psi_ and xi_ of ECCW, which set_phi (eccw.cc:123-127) computes from phi. *)
From Coq Require Import String.
From Verif Require Import M_Base M_Text M_Str M_Num M_Expr M_Loss M_Online M_Filter M_Save.
Local Open Scope string_scope.
Local Open Scope list_scope.
Local Open Scope Z_scope.
Local Infix "==" := String.eqb (at level 70).

(** The registered classes, as M_Algs.kind without the parameters. *)
Inductive cls : Set :=
| TPerceptron | TPA | TPA1 | TPA2 | TOGD | TSTG | TFOBOS_L1 | TPET | TRDA | TRDA_L1 | TERDA_L1 | TALMA2
| TSOP | TAROW | TSOFS | TCW | TECCW | TAdaFOBOS | TAdaFOBOS_L1 | TAdaFOBOS_OFS
| TAdaRDA | TAdaRDA_L1 | TAdaRDA_OFS | TFOFS.

(** name(), the first argument of RegisterModel: perceptron.cc:49, pa.cc:32,58,83,
    ogd.cc:72,138,169,243, rda.cc:105,134,181, alma2.cc:98, sop.cc:115, arow.cc:113,253, cw.cc:144,
    eccw.cc:154, ada_fobos.cc:94,127,259, ada_rda.cc:124,152,312, fofs.cc:114. *)
Definition cls_name (k : cls) : string :=
  match k with
  | TPerceptron => "perceptron" | TPA => "pa" | TPA1 => "pa1" | TPA2 => "pa2" | TOGD => "ogd" | TSTG => "stg"
  | TFOBOS_L1 => "fobos-l1" | TPET => "pet" | TRDA => "rda" | TRDA_L1 => "rda-l1" | TERDA_L1 => "erda-l1"
  | TALMA2 => "alma2" | TSOP => "sop" | TAROW => "arow" | TSOFS => "sofs" | TCW => "cw" | TECCW => "eccw"
  | TAdaFOBOS => "ada-fobos" | TAdaFOBOS_L1 => "ada-fobos-l1" | TAdaFOBOS_OFS => "adafobos-ofs"
  | TAdaRDA => "ada-rda" | TAdaRDA_L1 => "ada-rda-l1" | TAdaRDA_OFS => "adarda-ofs" | TFOFS => "fofs"
  end.

(** regularizer_: none, OnlineRegularizer, OnlineL1Regularizer or LazyOnlineL1Regularizer
    (include/sol/model/olm/*.h; constructors ogd.cc:74,140,172, rda.cc:107,136, arow.cc:116,
    ada_fobos.cc:96,131, ada_rda.cc:126,157). *)
Inductive reg : Set := RegNone | RegPlain | RegL1 | RegLazy.
Definition reg_of (k : cls) : reg :=
  match k with
  | TSTG | TRDA_L1 | TERDA_L1 | TAdaRDA_L1 => RegL1
  | TFOBOS_L1 | TAdaFOBOS_L1 => RegLazy
  | TPET | TSOFS | TAdaFOBOS_OFS | TAdaRDA_OFS => RegPlain
  | _ => RegNone
  end.

(** The members of type float: bias_eta0_, active_smoothness_, cost_margin_, eta_ (online_model.h),
    eta0_ and power_t_ (ogd.h), C_ (pa.h, alma2.h), a_ (sop.h, cw.h, eccw.h), phi_, r_ (arow.h), delta_
    (ada_fobos.h, ada_rda.h), sigma_ and rou_ (rda.h), alpha_, B_ and square_p1_ (alma2.h), lambda_,
    sparse_thresh_ and initial_t_ of the regularizer (regularizer.h), lambda_ of FOFS (fofs.h). *)
Inductive rmem : Set :=
| MBias | MActive | MCost | MEta | MEta0 | MPower | MC | Ma | Mphi | Mr | Mdelta | Msigma | Mrou
| Malpha | MBinv | Msp1 | Mlambda | Mthresh | Mt0 | MFlam.
(** The members of type int: initial_t_, cur_iter_num_ (online_model.h), k_ (ogd.h, alma2.h), p_
    (alma2.h), B_ (fofs.h, index_t). *)
Inductive zmem : Set := MInit | MIter | Mk | Mp | MB.
Scheme Equality for rmem.
Scheme Equality for zmem.

Section Param.
Context {R : Type}.
Variable N : num R.
(** std::stof: the value, std::invalid_argument ([Rejected]) or std::out_of_range ([Thrown]). *)
Variable stof : list Z -> parsed R.
(** The files that exist. *)
Variable files : list Z -> option (list Z).
Local Notation zero := (zero N).
Local Notation one := (one N).

(** A model.  [f_loss]: loss_ with the number of the object, [None] for nullptr; [f_hinge]: the object
    hinge_base_ points to; [f_next]: numbers from here on are not in use; [f_show]: iter_displayer_;
    [f_filter]: the selected features, if a filter is loaded; [f_cap]: what BeginTrain stored. *)
Record cfg := mkcfg {
  f_r : rmem -> R; f_z : zmem -> Z; f_dim : Z; f_lazy : bool; f_cost : bool; f_reinit : bool;
  f_norm : norm_kind; f_filter : option (list bool); f_loss : option (nat * loss_kind);
  f_hinge : option nat; f_next : nat; f_show : option displayer;
  f_ws : list (list R); f_conf : list (list R); f_last : list R; f_cap : list R
}.

(** Assignments to the members above. *)
Definition upd_r (c : cfg) (m : rmem) (x : R) : cfg :=
  mkcfg (fun q => if rmem_beq q m then x else f_r c q) (f_z c) (f_dim c) (f_lazy c) (f_cost c) (f_reinit c)
    (f_norm c) (f_filter c) (f_loss c) (f_hinge c) (f_next c) (f_show c) (f_ws c) (f_conf c) (f_last c) (f_cap c).
Definition upd_z (c : cfg) (m : zmem) (x : Z) : cfg :=
  mkcfg (f_r c) (fun q => if zmem_beq q m then x else f_z c q) (f_dim c) (f_lazy c) (f_cost c) (f_reinit c)
    (f_norm c) (f_filter c) (f_loss c) (f_hinge c) (f_next c) (f_show c) (f_ws c) (f_conf c) (f_last c) (f_cap c).
Definition upd_lazy (c : cfg) (b : bool) : cfg :=
  mkcfg (f_r c) (f_z c) (f_dim c) b (f_cost c) (f_reinit c)
    (f_norm c) (f_filter c) (f_loss c) (f_hinge c) (f_next c) (f_show c) (f_ws c) (f_conf c) (f_last c) (f_cap c).
Definition upd_cost (c : cfg) (b : bool) : cfg :=
  mkcfg (f_r c) (f_z c) (f_dim c) (f_lazy c) b (f_reinit c)
    (f_norm c) (f_filter c) (f_loss c) (f_hinge c) (f_next c) (f_show c) (f_ws c) (f_conf c) (f_last c) (f_cap c).
Definition upd_reinit (c : cfg) (b : bool) : cfg :=
  mkcfg (f_r c) (f_z c) (f_dim c) (f_lazy c) (f_cost c) b
    (f_norm c) (f_filter c) (f_loss c) (f_hinge c) (f_next c) (f_show c) (f_ws c) (f_conf c) (f_last c) (f_cap c).
Definition upd_norm (c : cfg) (n : norm_kind) : cfg :=
  mkcfg (f_r c) (f_z c) (f_dim c) (f_lazy c) (f_cost c) (f_reinit c)
    n (f_filter c) (f_loss c) (f_hinge c) (f_next c) (f_show c) (f_ws c) (f_conf c) (f_last c) (f_cap c).
Definition upd_filter (c : cfg) (s : option (list bool)) : cfg :=
  mkcfg (f_r c) (f_z c) (f_dim c) (f_lazy c) (f_cost c) (f_reinit c)
    (f_norm c) s (f_loss c) (f_hinge c) (f_next c) (f_show c) (f_ws c) (f_conf c) (f_last c) (f_cap c).
Definition upd_loss (c : cfg) (l : option (nat * loss_kind)) (next : nat) : cfg :=
  mkcfg (f_r c) (f_z c) (f_dim c) (f_lazy c) (f_cost c) (f_reinit c)
    (f_norm c) (f_filter c) l (f_hinge c) next (f_show c) (f_ws c) (f_conf c) (f_last c) (f_cap c).
Definition upd_hinge (c : cfg) (h : option nat) : cfg :=
  mkcfg (f_r c) (f_z c) (f_dim c) (f_lazy c) (f_cost c) (f_reinit c)
    (f_norm c) (f_filter c) (f_loss c) h (f_next c) (f_show c) (f_ws c) (f_conf c) (f_last c) (f_cap c).
Definition upd_show (c : cfg) (d : option displayer) : cfg :=
  mkcfg (f_r c) (f_z c) (f_dim c) (f_lazy c) (f_cost c) (f_reinit c)
    (f_norm c) (f_filter c) (f_loss c) (f_hinge c) (f_next c) d (f_ws c) (f_conf c) (f_last c) (f_cap c).
Definition upd_conf (c : cfg) (s : list (list R)) : cfg :=
  mkcfg (f_r c) (f_z c) (f_dim c) (f_lazy c) (f_cost c) (f_reinit c)
    (f_norm c) (f_filter c) (f_loss c) (f_hinge c) (f_next c) (f_show c) (f_ws c) s (f_last c) (f_cap c).
Definition upd_last (c : cfg) (s : list R) : cfg :=
  mkcfg (f_r c) (f_z c) (f_dim c) (f_lazy c) (f_cost c) (f_reinit c)
    (f_norm c) (f_filter c) (f_loss c) (f_hinge c) (f_next c) (f_show c) (f_ws c) (f_conf c) s (f_cap c).
Definition upd_cap (c : cfg) (s : list R) : cfg :=
  mkcfg (f_r c) (f_z c) (f_dim c) (f_lazy c) (f_cost c) (f_reinit c)
    (f_norm c) (f_filter c) (f_loss c) (f_hinge c) (f_next c) (f_show c) (f_ws c) (f_conf c) (f_last c) s.
Definition upd_dims (c : cfg) (d : Z) (ws conf : list (list R)) : cfg :=
  mkcfg (f_r c) (f_z c) d (f_lazy c) (f_cost c) (f_reinit c)
    (f_norm c) (f_filter c) (f_loss c) (f_hinge c) (f_next c) (f_show c) ws conf (f_last c) (f_cap c).

(** The end of a call, with the state it leaves: return, std::invalid_argument, std::out_of_range, or
    undefined behaviour. *)
Inductive outcome : Type := Done (c : cfg) | Invalid (c : cfg) | Range (c : cfg) | Crash.

(** x = stof(value) and x = stoi(value): the exceptions leave the state as it is.  Used in all
    SetParameter functions. *)
Definition with_real (value : list Z) (c : cfg) (f : R -> outcome) : outcome :=
  match stof value with Parsed x => f x | Rejected => Invalid c | Thrown => Range c end.
Definition with_int (value : list Z) (c : cfg) (f : Z -> outcome) : outcome :=
  match stoi value with Parsed v => f (fst v) | Rejected => Invalid c | Thrown => Range c end.
(** Check(condition), include/sol/util/util.h:39. *)
Definition check (b : bool) (c : cfg) : outcome := if b then Done c else Invalid c.
(** m = stof(value); Check(ok(m)): the value is stored before it is checked. *)
Definition store_real (m : rmem) (ok : R -> bool) (value : list Z) (c : cfg) : outcome :=
  with_real value c (fun x => check (ok x) (upd_r c m x)).
Definition store_int (m : zmem) (ok : Z -> bool) (value : list Z) (c : cfg) : outcome :=
  with_int value c (fun v => check (ok v) (upd_z c m v)).
Definition ge0 (x : R) : bool := n_le N zero x.
Definition gt0 (x : R) : bool := n_lt N zero x.
Definition anyr (x : R) : bool := true.

(** Regularizer::SetParameter and its overrides, regularizer.cc:17-27,34-42,56-65; [None] is
    Status_Invalid_Argument. *)
Definition set_plain (name : string) (value : list Z) (c : cfg) : option outcome :=
  if name == "lambda" then Some (store_real Mlambda anyr value c) else None.
Definition set_l1 (name : string) (value : list Z) (c : cfg) : option outcome :=
  if name == "sparse_thresh" then Some (store_real Mthresh anyr value c) else set_plain name value c.
Definition set_lazy (name : string) (value : list Z) (c : cfg) : option outcome :=
  if name == "t0" then
    Some (with_real value c (fun x => Done (upd_last (upd_r c Mt0 x) (map (fun _ => x) (f_last c)))))
  else set_l1 name value c.
Definition set_reg (k : cls) (name : string) (value : list Z) (c : cfg) : option outcome :=
  match reg_of k with
  | RegNone => None
  | RegPlain => set_plain name value c
  | RegL1 => set_l1 name value c
  | RegLazy => set_lazy name value c
  end.

(** clf_num_, model.cc:43. *)
Definition clf_of (classes : Z) : Z := if classes =? 2 then 1 else classes.
(** Flags HINGE and BOOL of the losses, include/sol/loss/*.h (see M_Loss). *)
Definition is_hinge (l : loss_kind) : bool := match l with LHinge | LMaxHinge | LUniHinge => true | _ => false end.
Definition is_bool (l : loss_kind) : bool := match l with LBool | LMaxBool | LUniBool => true | _ => false end.
(** Loss::Create(value): the loss registered under value + "_loss" (loss.cc:14-17). *)
Definition find_loss (value : list Z) : option loss_kind :=
  find (fun l => str_eqb (loss_name l) value) all_losses.
(** The value of norm, model.cc:80-102: an integer that takes the whole string, or a word.  [Thrown]:
    std::out_of_range, which the handler there does not catch; [Rejected]: none of them. *)
Definition read_norm (value : list Z) : parsed norm_kind :=
  let go (v : Z) :=
    if str_eqb value (bytes "None") || (v =? 0) then Parsed NoNorm
    else if str_eqb value (bytes "L1") || (v =? 1) then Parsed NormL1
    else if str_eqb value (bytes "L2") || (v =? 2) then Parsed NormL2
    else Rejected in
  match stoi value with
  | Parsed (v, sz) => go (if nth sz value 0 =? 0 then v else -1)
  | Rejected => go (-1)
  | Thrown => Thrown
  end.

(** Model::SetParameter, model.cc:55-115. *)
Definition set_model (k : cls) (classes : Z) (name : string) (value : list Z) (c : cfg) : outcome :=
  if name == "model" then check (str_eqb value (bytes (cls_name k))) c
  else if name == "cls_num" then with_int value c (fun v => check (v =? classes)%Z c)
  else if name == "clf_num" then with_int value c (fun v => check (v =? clf_of classes)%Z c)
  else if name == "loss" then
    match find_loss value with
    | None => Invalid (upd_loss c None (f_next c))
    | Some l =>
      let c1 := upd_loss c (Some (f_next c, l)) (S (f_next c)) in
      if (clf_of classes =? 1)%Z && negb (loss_is_binary l) then Invalid c1
      else if negb (clf_of classes =? 1)%Z && negb (loss_is_multi l) then Invalid c1
      else Done (upd_reinit c1 true)
    end
  else if name == "norm" then
    match read_norm value with
    | Parsed n => Done (upd_norm c n)
    | Rejected => Invalid c
    | Thrown => Range c
    end
  else if name == "filter" then
    match load_presel (files value) with
    | SelOk fl => Done (upd_filter c (Some fl))
    | SelStatus _ => Invalid (upd_filter c None)
    | SelThrow false => Invalid (upd_filter c None)
    | SelThrow true => Range (upd_filter c None)
    | SelUB => Crash
    end
  else match set_reg k name value c with Some o => o | None => Invalid c end.

(** The value new entries of the confidences get in update_dim: a_ (cw.cc:106-117, eccw.cc:109-120),
    delta_ (ada_fobos.cc:58-68, ada_rda.cc:77-90), 1 (arow.cc:86-97), 0 otherwise (other arrays). *)
Definition conf_init (k : cls) (c : cfg) : R :=
  match k with
  | TCW | TECCW => f_r c Ma
  | TAdaFOBOS | TAdaFOBOS_L1 | TAdaFOBOS_OFS | TAdaRDA | TAdaRDA_L1 | TAdaRDA_OFS => f_r c Mdelta
  | TAROW | TSOFS => one
  | _ => zero
  end.
(** update_dim, online_linear_model.cc:129-138 and its overrides: grows only. *)
Definition grow_dim (k : cls) (d : Z) (c : cfg) : cfg :=
  if f_dim c <? d then
    upd_dims c d (map (fun w => w ++ repeat zero (Z.to_nat (d - f_dim c))) (f_ws c))
               (map (fun w => w ++ repeat (conf_init k c) (Z.to_nat (d - f_dim c))) (f_conf c))
  else c.

(** OnlineModel::SetParameter, online_model.cc:81-117.  For "t" the regularizer is told the string: its
    status is ignored, its exceptions are not. *)
Definition set_online (k : cls) (classes : Z) (name : string) (value : list Z) (c : cfg) : outcome :=
  if name == "bias_eta" then store_real MBias ge0 value c
  else if name == "t" then
    with_int value c (fun t =>
      if negb (0 <=? t)%Z then Invalid c
      else
        let c1 := upd_z (upd_z c MInit t) MIter t in
        match set_reg k "t0" value c1 with Some o => o | None => Done c1 end)
  else if name == "dim" then with_int value c (fun d => Done (grow_dim k (u32 d) c))
  else if name == "lazy_update" then Done (upd_lazy c (str_eqb value (bytes "true")))
  else if name == "active_smoothness" then store_real MActive gt0 value c
  else if name == "cost_margin" then
    if negb (clf_of classes =? 1)%Z then Invalid c
    else with_real value c (fun x =>
           let c1 := upd_r c MCost x in
           if gt0 x then Done (upd_reinit (upd_cost c1 true) true) else Invalid c1)
  else if name == "exp_show" then
    let c1 := upd_show c None in
    with_int value c1 (fun b => Done (upd_show c1 (Some (ExpShow (u64 b) (u64 b) 1))))
  else if name == "step_show" then
    let c1 := upd_show c None in
    with_int value c1 (fun b => Done (upd_show c1 (Some (StepShow (u64 b) (u64 b)))))
  else set_model k classes name value c.

(** What the overrides do after the base class has taken a loss: test a flag of it (it is dereferenced),
    and remember it.  alma2.cc:52-57, cw.cc:46-51, eccw.cc:48-53 with [keep]; perceptron.cc:27-31,
    sop.cc:38-42, arow.cc:39-43 without. *)
Definition restrict_loss (ok : loss_kind -> bool) (keep : bool) (o : outcome) : outcome :=
  match o with
  | Done c1 =>
    match f_loss c1 with
    | None => Crash
    | Some (i, l) => if ok l then Done (if keep then upd_hinge c1 (Some i) else c1) else Invalid c1
    end
  | _ => o
  end.
(** ... and require_reinit_ = true after the base class has returned. *)
Definition then_reinit (o : outcome) : outcome := match o with Done c1 => Done (upd_reinit c1 true) | _ => o end.
(** The confidences are overwritten (Sigmas_[i] = a_, H_[c] = delta_). *)
Definition fill_conf (c : cfg) (x : R) : cfg := upd_conf c (map (map (fun _ => x)) (f_conf c)).

(** PAI, PAII: pa.cc:34-40,60-66. *)
Definition set_pa1 k classes (name : string) value c : outcome :=
  if name == "C" then store_real MC anyr value c else set_online k classes name value c.
(** Perceptron, perceptron.cc:25-35. *)
Definition set_perceptron k classes (name : string) value c : outcome :=
  if name == "loss" then restrict_loss is_bool false (set_online k classes name value c)
  else set_online k classes name value c.
(** OGD, ogd.cc:23-32,59-60 (power_t is checked before it is stored). *)
Definition set_ogd k classes (name : string) value c : outcome :=
  if name == "power_t" then with_real value c (fun x => if ge0 x then Done (upd_r c MPower x) else Invalid c)
  else if name == "eta" then store_real MEta0 ge0 value c
  else set_online k classes name value c.
(** STG, ogd.cc:76-83. *)
Definition set_stg k classes (name : string) value c : outcome :=
  if name == "k" then store_int Mk (fun v => 0 <? v)%Z value c else set_ogd k classes name value c.
(** PET, ogd.cc:176-182; SOFS, arow.cc:129-135; AdaFOBOS_OFS, ada_fobos.cc:144-150; AdaRDA_OFS,
    ada_rda.cc:170-176: "B" is another name for "lambda". *)
Definition rename_B (name : string) : string := if name == "B" then "lambda" else name.
(** RDA, rda.cc:30-37; ERDA_L1, rda.cc:140-147. *)
Definition set_rda k classes (name : string) value c : outcome :=
  if name == "sigma" then store_real Msigma gt0 value c else set_online k classes name value c.
Definition set_erda k classes (name : string) value c : outcome :=
  if name == "rou" then store_real Mrou ge0 value c else set_rda k classes name value c.
(** ALMA2, alma2.cc:35-64. *)
Definition set_alma2 k classes (name : string) value c : outcome :=
  if name == "p" then
    with_int value c (fun v => Done (upd_reinit (upd_r (upd_z c Mp v) Msp1 (n_sqrt N (n_int N (v - 1)))) true))
  else if name == "alpha" then
    with_real value c (fun x =>
      let c1 := upd_r (upd_r c Malpha x) MBinv (n_div N one x) in
      if gt0 x && n_le N x one then Done (upd_reinit c1 true) else Invalid c1)
  else if name == "C" then store_real MC anyr value c
  else if name == "k" then then_reinit (store_int Mk (fun v => 0 <? v)%Z value c)
  else if name == "loss" then restrict_loss is_hinge true (set_online k classes name value c)
  else if name == "norm" then
    match set_online k classes name value c with
    | Done c1 => check (match f_norm c1 with NormL2 => true | _ => false end) c1
    | o => o
    end
  else set_online k classes name value c.
(** SOP, sop.cc:35-46. *)
Definition set_sop k classes (name : string) value c : outcome :=
  if name == "a" then store_real Ma anyr value c
  else if name == "loss" then restrict_loss is_bool false (set_online k classes name value c)
  else set_online k classes name value c.
(** AROW, arow.cc:36-47. *)
Definition set_arow k classes (name : string) value c : outcome :=
  if name == "r" then store_real Mr anyr value c
  else if name == "loss" then restrict_loss is_hinge false (set_online k classes name value c)
  else set_online k classes name value c.
(** CW, cw.cc:38-59; ECCW, eccw.cc:39-60. *)
Definition set_cw k classes (name : string) value c : outcome :=
  if name == "a" then with_real value c (fun x => Done (fill_conf (upd_r c Ma x) x))
  else if name == "phi" then then_reinit (store_real Mphi anyr value c)
  else if name == "loss" then restrict_loss is_hinge true (set_online k classes name value c)
  else if name == "bias_eta" then then_reinit (set_online k classes name value c)
  else set_online k classes name value c.
(** AdaFOBOS, ada_fobos.cc:30-41; AdaRDA, ada_rda.cc:37-48. *)
Definition set_ada k classes (name : string) value c : outcome :=
  if name == "delta" then
    with_real value c (fun x => let c1 := upd_r c Mdelta x in if gt0 x then Done (fill_conf c1 x) else Invalid c1)
  else if name == "eta" then store_real MEta ge0 value c
  else set_online k classes name value c.
(** FOFS, fofs.cc:19-32 (B_ is unsigned). *)
Definition set_fofs k classes (name : string) value c : outcome :=
  if name == "eta" then store_real MEta ge0 value c
  else if name == "lambda" then store_real MFlam ge0 value c
  else if name == "B" then
    with_int value c (fun v => check (0 <? u32 v)%Z (upd_z c MB (u32 v)))
  else set_online k classes name value c.

(** The virtual function: PA, FOBOS_L1, RDA_L1, AdaFOBOS_L1, AdaRDA_L1 do not override it
    (include/sol/model/olm/*.h). *)
Definition set_parameter (k : cls) (classes : Z) (name : string) (value : list Z) (c : cfg) : outcome :=
  match k with
  | TPerceptron => set_perceptron k classes name value c
  | TPA => set_online k classes name value c
  | TPA1 | TPA2 => set_pa1 k classes name value c
  | TOGD | TFOBOS_L1 => set_ogd k classes name value c
  | TPET => set_ogd k classes (rename_B name) value c
  | TSTG => set_stg k classes name value c
  | TRDA | TRDA_L1 => set_rda k classes name value c
  | TERDA_L1 => set_erda k classes name value c
  | TALMA2 => set_alma2 k classes name value c
  | TSOP => set_sop k classes name value c
  | TAROW => set_arow k classes name value c
  | TSOFS => set_arow k classes (rename_B name) value c
  | TCW | TECCW => set_cw k classes name value c
  | TAdaFOBOS | TAdaFOBOS_L1 | TAdaRDA | TAdaRDA_L1 => set_ada k classes name value c
  | TAdaFOBOS_OFS | TAdaRDA_OFS => set_ada k classes (rename_B name) value c
  | TFOFS => set_fofs k classes name value c
  end.

(* ------------------------------------------------------------------ creation and training *)
(** The loss the constructors choose: online_linear_model.cc:39-43, and bool losses for the perceptrons
    (perceptron.cc:18-22, sop.cc:27-31). *)
Definition first_loss (k : cls) (classes : Z) : loss_kind :=
  match k with
  | TPerceptron | TSOP => if classes =? 2 then LBool else LMaxBool
  | _ => if classes =? 2 then LHinge else LMaxHinge
  end.
(** The constructors (parameters as in M_Save.load_kind; cost_margin_ is not initialised, any value will
    do): model.cc:39-52, online_model.cc:60-77, online_linear_model.cc:25-44 and those of the classes.
    The classes that keep hinge_base_ set it through their own SetParameter. *)
Definition create (k : cls) (classes : Z) : cfg :=
  mkcfg (fun m => match m with
                  | MEta | MEta0 | Ma | Mr | Msigma | Msp1 => one
                  | MPower => n_lit N 5 (-1)
                  | MC => match k with TALMA2 => n_sqrt N (n_int N 2) | _ => one end
                  | Mphi => n_lit N 5244 (-4)
                  | Mdelta => n_int N 10
                  | Malpha => n_lit N 9 (-1)
                  | MBinv => n_div N one (n_lit N 9 (-1))
                  | Mthresh => n_lit N 1 (-6)
                  | _ => zero
                  end)
        (fun m => match m with Mk => 1 | Mp => 2 | _ => 0 end)
        1 false false true
        (match k with TALMA2 => NormL2 | _ => NoNorm end) None
        (Some (0%nat, first_loss k classes))
        (match k with TALMA2 | TCW | TECCW => Some 0%nat | _ => None end) 1
        (Some (ExpShow 2 2 1))
        (repeat [zero] (Z.to_nat (clf_of classes)))
        (repeat [match k with
                 | TCW | TECCW | TAROW | TSOFS => one
                 | TAdaFOBOS | TAdaFOBOS_L1 | TAdaFOBOS_OFS | TAdaRDA | TAdaRDA_L1 | TAdaRDA_OFS => n_int N 10
                 | _ => zero
                 end] (Z.to_nat (clf_of classes)))
        (match reg_of k with RegLazy => [zero] | _ => [] end) [].

(** hinge_base_->set_margin(...): the object must exist. *)
Definition hinge_valid (c : cfg) : bool :=
  match f_hinge c, f_loss c with Some h, Some (i, _) => Nat.eqb h i | _, _ => false end.
(** What BeginTrain of the classes stores: the margin of ALMA2 (alma2.cc:66-70), bias_eta and phi in the
    closure of CW and ECCW (cw.cc:61-68, eccw.cc:62-69; bias_eta() is bias_eta0_ * eta_,
    online_model.h:79), norm_coeff_ and momentum_ of FOFS (fofs.cc:34-37). *)
Definition captured (k : cls) (c : cfg) : list R :=
  match k with
  | TALMA2 => [n_div N (n_mul N (n_mul N (n_sub N one (f_r c Malpha)) (f_r c MBinv)) (f_r c Msp1)) (n_sqrt N (n_int N (f_z c Mk)))]
  | TCW | TECCW => [n_mul N (f_r c MBias) (f_r c MEta); f_r c Mphi]
  | TFOFS => [n_div N one (n_sqrt N (f_r c MFlam)); n_sub N one (n_mul N (f_r c MFlam) (f_r c MEta))]
  | _ => []
  end.
(** BeginTrain: the cost-sensitive check (online_model.cc:119-130), the missing loss (model.cc:153-158,
    std::runtime_error), and what the classes store.  The dimension and heaps are left out. *)
Inductive begun : Type := Began (c : cfg) | BeginInvalid (c : cfg) | BeginError (c : cfg) | BeginCrash.
Definition begin_train (k : cls) (c : cfg) : begun :=
  let base :=
    match f_loss c with
    | None => if f_cost c then BeginCrash else BeginError c
    | Some (_, l) =>
      if f_cost c && negb (is_hinge l && loss_is_binary l) then BeginInvalid c
      else Began (upd_reinit c false)
    end in
  match base with
  | Began c1 =>
    match k with
    | TALMA2 | TCW | TECCW => if hinge_valid c1 then Began (upd_cap c1 (captured k c1)) else BeginCrash
    | TFOFS => Began (upd_cap c1 (captured k c1))
    | _ => Began c1
    end
  | b => b
  end.

(** sol_SetModelParameter, c_api.cc:62-73: std::invalid_argument becomes a status, std::out_of_range
    leaves the C function; and Train, online_model.cc:131-141, up to its loop, which needs the loss. *)
Inductive op : Type := OSet (name : string) (value : list Z) | OTrain.
Inductive reply : Type := ROk | RInvalid | REscapes.
Definition step (k : cls) (classes : Z) (o : op) (c : cfg) : option (reply * cfg) :=
  match o with
  | OSet name value =>
    match set_parameter k classes name value c with
    | Done c1 => Some (ROk, c1) | Invalid c1 => Some (RInvalid, c1) | Range c1 => Some (REscapes, c1) | Crash => None
    end
  | OTrain =>
    if f_reinit c then
      match begin_train k c with
      | Began c1 => Some (ROk, c1) | BeginInvalid c1 => Some (RInvalid, c1)
      | BeginError c1 => Some (REscapes, c1) | BeginCrash => None
      end
    else match f_loss c with Some _ => Some (ROk, c) | None => None end
  end.
Fixpoint steps (k : cls) (classes : Z) (os : list op) (c : cfg) : option (list reply * cfg) :=
  match os with
  | [] => Some ([], c)
  | o :: r => do (a, c1) <- step k classes o c; do (l, c2) <- steps k classes r c1; Some (a :: l, c2)
  end.
End Param.
