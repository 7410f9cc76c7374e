(** sol_GetModelParameters: GetModelInfo of all classes and the walk over the JSON value.  src/sol/c_api.cc. *)
From Coq Require Import String.
From Verif Require Import M_Base M_Text M_Str M_Num M_Expr M_Loss M_Online M_Filter M_Save M_Param.
Local Open Scope string_scope.
Local Open Scope list_scope.
Local Open Scope Z_scope.

Section Info.
Context {R : Type}.
(** valueToString(double), jsoncpp.cpp:3986-4022: "%g", and words for what is not finite. *)
Variable show : R -> list Z.

(** A Json::Value as GetModelInfo builds it: intValue and uintValue, realValue, stringValue ... *)
Inductive leaf : Type := LInt (z : Z) | LReal (x : R) | LStr (s : list Z).
(** ... and objectValue, a std::map from names (jsoncpp.cpp:2573-2585 for the order: bytes, then length). *)
Inductive json : Type := JLeaf (v : leaf) | JObject (ms : list (string * json)).
(** value[key] = v, jsoncpp.cpp:3301-3315 (resolveReference): replaces the member or inserts it. *)
Fixpoint assign (key : string) (v : json) (ms : list (string * json)) : list (string * json) :=
  match ms with
  | [] => [(key, v)]
  | (k, w) :: r => if String.eqb k key then (k, v) :: r else if String.ltb key k then (key, v) :: ms else (k, w) :: assign key v r
  end.
(** value[group][key] = v: the group is created if there is none. *)
Fixpoint member (key : string) (ms : list (string * json)) : list (string * json) :=
  match ms with
  | [] => []
  | (k, w) :: r => if String.eqb k key then match w with JObject l => l | JLeaf _ => [] end else member key r
  end.
Definition assign2 (group key : string) (v : leaf) (ms : list (string * json)) : list (string * json) :=
  assign group (JObject (assign key (JLeaf v) (member group ms))) ms.
Definition online (key : string) (v : leaf) := assign2 "online" key v.

(** Model::GetModelInfo, model.cc:236-247, with Regularizer::GetRegularizerInfo, regularizer.cc:28-30 (no class overrides it,
    include/sol/model/regularizer.h). *)
Definition info_model (k : cls) (classes : Z) (c : cfg (R:=R)) : list (string * json) :=
  let ms := assign "model" (JLeaf (LStr (bytes (cls_name k)))) [] in
  let ms := assign "cls_num" (JLeaf (LInt classes)) ms in
  let ms := assign "clf_num" (JLeaf (LInt (clf_of classes))) ms in
  let ms := assign "loss" (JLeaf (LStr (match f_loss c with None => [] | Some (_, l) => loss_name l end))) ms in
  let ms := assign "norm" (JLeaf (LInt (norm_code (f_norm c)))) ms in
  match reg_of k with
  | RegNone => ms
  | _ => assign2 "regularizer" "lambda" (LReal (f_r c Mlambda)) ms
  end.
Variable N : num R.
(** OnlineModel::GetModelInfo, online_model.cc:201-213. *)
Definition info_online (k : cls) (classes : Z) (c : cfg (R:=R)) : list (string * json) :=
  let ms := info_model k classes c in
  let ms := online "bias_eta" (LReal (f_r c MBias)) ms in
  let ms := online "t" (LInt (f_z c MIter)) ms in
  let ms := online "dim" (LInt (f_dim c)) ms in
  let ms := online "lazy_update" (LStr (if f_lazy c then bytes "true" else bytes "false")) ms in
  let ms := if n_le N (one N) (f_r c MActive) then online "active_smoothness" (LReal (f_r c MActive)) ms else ms in
  if f_cost c then online "cost_margin" (LReal (f_r c MCost)) ms else ms.
(** The overrides: pa.cc:53-56,79-82; ogd.cc:45-49,133-136; rda.cc:81-84,176-179; alma2.cc:90-96; sop.cc:89-92; arow.cc:89-92;
    cw.cc:119-123; eccw.cc:129-133; ada_fobos.cc:70-74; ada_rda.cc:92-96; fofs.cc:107-112. *)
Definition model_info (k : cls) (classes : Z) (c : cfg (R:=R)) : list (string * json) :=
  let ms := info_online k classes c in
  match k with
  | TPerceptron | TPA => ms
  | TPA1 | TPA2 => online "C" (LReal (f_r c MC)) ms
  | TOGD | TFOBOS_L1 | TPET => online "eta" (LReal (f_r c MEta0)) (online "power_t" (LReal (f_r c MPower)) ms)
  | TSTG => online "k" (LInt (f_z c Mk)) (online "eta" (LReal (f_r c MEta0)) (online "power_t" (LReal (f_r c MPower)) ms))
  | TRDA | TRDA_L1 => online "sigma" (LReal (f_r c Msigma)) ms
  | TERDA_L1 => online "rou" (LReal (f_r c Mrou)) (online "sigma" (LReal (f_r c Msigma)) ms)
  | TALMA2 =>
    online "k" (LInt (f_z c Mk)) (online "C" (LReal (f_r c MC)) (online "alpha" (LReal (f_r c Malpha)) (online "p" (LInt (f_z c Mp)) ms)))
  | TSOP => online "a" (LReal (f_r c Ma)) ms
  | TAROW | TSOFS => online "r" (LReal (f_r c Mr)) ms
  | TCW | TECCW => online "phi" (LReal (f_r c Mphi)) (online "a" (LReal (f_r c Ma)) ms)
  | TAdaFOBOS | TAdaFOBOS_L1 | TAdaFOBOS_OFS | TAdaRDA | TAdaRDA_L1 | TAdaRDA_OFS =>
    online "eta" (LReal (f_r c MEta)) (online "delta" (LReal (f_r c Mdelta)) ms)
  | TFOFS => online "B" (LInt (f_z c MB)) (online "lambda" (LReal (f_r c MFlam)) (online "eta" (LReal (f_r c MEta)) ms))
  end.
(** GetModelParameters, c_api.cc:75-86: objects are entered, anything else is passed to the callback. *)
Fixpoint walk (name : string) (j : json) : list (string * leaf) :=
  match j with
  | JLeaf v => [(name, v)]
  | JObject ms => (fix go ms := match ms with [] => [] | (n, w) :: r => walk n w ++ go r end) ms
  end.
(** asString, jsoncpp.cpp:2949-2971. *)
Definition as_string (v : leaf) : option (list Z) :=
  match v with LInt z => print_d z | LReal x => Some (show x) | LStr s => Some s end.
Fixpoint strings (l : list (string * leaf)) : option (list (string * list Z)) :=
  match l with [] => Some [] | (n, v) :: r => do s <- as_string v; do t <- strings r; Some ((n, s) :: t) end.
(** sol_GetModelParameters, c_api.cc:87-96: the calls of the callback. *)
Definition get_parameters (k : cls) (classes : Z) (c : cfg (R:=R)) : option (list (string * list Z)) :=
  strings (walk "" (JObject (model_info k classes c))).
End Info.
Arguments leaf : clear implicits.
