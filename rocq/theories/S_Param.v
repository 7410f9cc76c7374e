(** What SetParameter should do, told by member: which names set it, which values it may have, and
    nothing else changes.  Independent of the chain of overrides in M_Param. *)
From Coq Require Import String.
From Verif Require Import M_Base M_Text M_Str M_Num M_Expr M_Loss M_Online M_Filter M_Save M_Param.
Local Open Scope string_scope.
Local Open Scope list_scope.
Local Open Scope Z_scope.

(** Families of classes. *)
Definition is_ogd (k : cls) : bool := match k with TOGD | TSTG | TFOBOS_L1 | TPET => true | _ => false end.
Definition is_rda (k : cls) : bool := match k with TRDA | TRDA_L1 | TERDA_L1 => true | _ => false end.
Definition is_ada (k : cls) : bool :=
  match k with TAdaFOBOS | TAdaFOBOS_L1 | TAdaFOBOS_OFS | TAdaRDA | TAdaRDA_L1 | TAdaRDA_OFS => true | _ => false end.
Definition is_cw (k : cls) : bool := match k with TCW | TECCW => true | _ => false end.
Definition is_alma (k : cls) : bool := match k with TALMA2 => true | _ => false end.
Definition is_fofs (k : cls) : bool := match k with TFOFS => true | _ => false end.
Definition has_reg (k : cls) (r : reg) : bool :=
  match k with
  | TSTG | TRDA_L1 | TERDA_L1 | TAdaRDA_L1 => match r with RegL1 => true | _ => false end
  | TFOBOS_L1 | TAdaFOBOS_L1 => match r with RegLazy => true | _ => false end
  | TPET | TSOFS | TAdaFOBOS_OFS | TAdaRDA_OFS => match r with RegPlain => true | _ => false end
  | _ => match r with RegNone => true | _ => false end
  end.
Definition when (b : bool) (l : list string) : list string := if b then l else [].

(** The names that set a member of type float ... *)
Definition real_names (k : cls) (m : rmem) : list string :=
  match m with
  | MBias => ["bias_eta"]
  | MActive => ["active_smoothness"]
  | MCost => ["cost_margin"]
  | MEta => when (is_ada k || is_fofs k) ["eta"]
  | MEta0 => when (is_ogd k) ["eta"]
  | MPower => when (is_ogd k) ["power_t"]
  | MC => match k with TPA1 | TPA2 | TALMA2 => ["C"] | _ => [] end
  | Ma => match k with TSOP | TCW | TECCW => ["a"] | _ => [] end
  | Mphi => when (is_cw k) ["phi"]
  | Mr => match k with TAROW | TSOFS => ["r"] | _ => [] end
  | Mdelta => when (is_ada k) ["delta"]
  | Msigma => when (is_rda k) ["sigma"]
  | Mrou => match k with TERDA_L1 => ["rou"] | _ => [] end
  | Malpha => when (is_alma k) ["alpha"]
  | Mlambda => when (has_reg k RegPlain) ["B"] ++ when (negb (has_reg k RegNone)) ["lambda"]
  | Mthresh => when (has_reg k RegL1 || has_reg k RegLazy) ["sparse_thresh"]
  | Mt0 => when (has_reg k RegLazy) ["t0"]
  | MFlam => when (is_fofs k) ["lambda"]
  | MBinv | Msp1 => []
  end.
(** ... and of type int. *)
Definition int_names (k : cls) (m : zmem) : list string :=
  match m with
  | Mk => match k with TSTG | TALMA2 => ["k"] | _ => [] end
  | Mp => when (is_alma k) ["p"]
  | MB => when (is_fofs k) ["B"]
  | MInit | MIter => ["t"]
  end.
Definition names (name : string) (l : list string) : bool := existsb (String.eqb name) l.
(** All names a class understands besides those. *)
Definition other_names : list string :=
  ["dim"; "lazy_update"; "exp_show"; "step_show"; "model"; "cls_num"; "clf_num"; "loss"; "norm"; "filter"].

Definition loss_dec (a b : loss_kind) : {a = b} + {a <> b}.
Proof. decide equality. Defined.
Definition among (l : loss_kind) (ls : list loss_kind) : bool := existsb (fun m => if loss_dec l m then true else false) ls.
(** The losses a class works with: binary or multiclass ones, hinge for the second-order and margin
    methods, bool for the perceptrons. *)
Definition suits (k : cls) (classes : Z) (l : loss_kind) : bool :=
  match k with
  | TALMA2 | TAROW | TSOFS | TCW | TECCW => among l (if classes =? 2 then [LHinge] else [LMaxHinge; LUniHinge])
  | TPerceptron | TSOP => among l (if classes =? 2 then [LBool] else [LMaxBool; LUniBool])
  | _ => among l (if classes =? 2 then [LBool; LHinge; LLogistic] else [LMaxBool; LUniBool; LMaxHinge; LUniHinge; LMaxLogistic; LUniLogistic])
  end.
(** The classes that keep a second pointer to the loss. *)
Definition keeps (k : cls) : bool := is_alma k || is_cw k.

Section S.
Context {R : Type}.
Variable N : num R.
Variable stof : list Z -> parsed R.
Variable files : list Z -> option (list Z).

Definition to_int (value : list Z) : option Z := match stoi value with Parsed v => Some (fst v) | _ => None end.
Definition to_real (value : list Z) : option R := match stof value with Parsed x => Some x | _ => None end.
(** What a norm is written as. *)
Definition norm_word (value : list Z) (n : norm_kind) : Prop :=
  value = bytes (match n with NoNorm => "None" | NormL1 => "L1" | NormL2 => "L2" end) \/
  exists sz, stoi value = Parsed (match n with NoNorm => 0 | NormL1 => 1 | NormL2 => 2 end, sz) /\ nth sz value 0 = 0.

(** The values the parameters may have. *)
Definition real_ok (m : rmem) (x : R) : Prop :=
  match m with
  | MBias | MEta | MEta0 | MPower | Mrou | MFlam => n_le N (zero N) x = true
  | MActive | MCost | Mdelta | Msigma => n_lt N (zero N) x = true
  | Malpha => n_lt N (zero N) x = true /\ n_le N x (one N) = true
  | _ => True
  end.
Definition int_ok (m : zmem) (v : Z) : Prop :=
  match m with Mk => 0 < v | MB => u32 v <> 0 | MInit | MIter => 0 <= v | Mp => True end.

(** The settings a model accepts. *)
Inductive valid (k : cls) (classes : Z) : string -> list Z -> Prop :=
| V_real m x name value : names name (real_names k m) = true -> to_real value = Some x -> real_ok m x ->
    (m = MCost -> classes = 2) -> valid k classes name value
| V_int m v name value : names name (int_names k m) = true -> to_int value = Some v -> int_ok m v ->
    (m = MInit \/ m = MIter -> has_reg k RegLazy = true -> to_real value <> None) -> valid k classes name value
| V_dim v value : to_int value = Some v -> valid k classes "dim" value
| V_lazy value : valid k classes "lazy_update" value
| V_exp v value : to_int value = Some v -> valid k classes "exp_show" value
| V_step v value : to_int value = Some v -> valid k classes "step_show" value
| V_model : valid k classes "model" (bytes (cls_name k))
| V_cls value : to_int value = Some classes -> valid k classes "cls_num" value
| V_clf value : to_int value = Some (if classes =? 2 then 1 else classes) -> valid k classes "clf_num" value
| V_loss l : suits k classes l = true -> valid k classes "loss" (loss_name l)
| V_norm n value : norm_word value n -> (k = TALMA2 -> n = NormL2) -> valid k classes "norm" value
| V_filter fl value : load_presel (files value) = SelOk fl -> valid k classes "filter" value.

(** The parameter [name] belongs to the member. *)
Definition sets_r (k : cls) (name : string) (m : rmem) : bool :=
  names name (real_names k m) ||
  match m with
  | MBinv => is_alma k && (name =? "alpha")%string
  | Msp1 => is_alma k && (name =? "p")%string
  | Mt0 => has_reg k RegLazy && (name =? "t")%string
  | _ => false
  end.
Definition sets_z (k : cls) (name : string) (m : zmem) : bool := names name (int_names k m).
(** Parameters that overwrite the confidences. *)
Definition fills (k : cls) (name : string) : bool :=
  (is_cw k && (name =? "a")%string) || (is_ada k && (name =? "delta")%string).
(** Parameters that take effect through BeginTrain. *)
Definition restarts (k : cls) (name : string) : bool :=
  names name ["loss"; "cost_margin"] || (is_cw k && names name ["phi"; "bias_eta"]) ||
  (is_alma k && names name ["p"; "alpha"; "k"]).

(** No member that does not belong to the parameter changes. *)
Record frame (k : cls) (name : string) (c c' : cfg (R:=R)) : Prop := {
  fr_r : forall m, sets_r k name m = false -> f_r c' m = f_r c m;
  fr_z : forall m, sets_z k name m = false -> f_z c' m = f_z c m;
  fr_dim : name <> "dim" -> f_dim c' = f_dim c /\ f_ws c' = f_ws c;
  fr_lazy : name <> "lazy_update" -> f_lazy c' = f_lazy c;
  fr_cost : name <> "cost_margin" -> f_cost c' = f_cost c;
  fr_reinit : restarts k name = false -> f_reinit c' = f_reinit c;
  fr_norm : name <> "norm" -> f_norm c' = f_norm c;
  fr_filter : name <> "filter" -> f_filter c' = f_filter c;
  fr_loss : name <> "loss" -> f_loss c' = f_loss c /\ f_hinge c' = f_hinge c /\ f_next c' = f_next c;
  fr_show : name <> "exp_show" -> name <> "step_show" -> f_show c' = f_show c;
  fr_conf : name <> "dim" -> fills k name = false -> f_conf c' = f_conf c;
  fr_last : sets_r k name Mt0 = false -> f_last c' = f_last c;
  fr_cap : f_cap c' = f_cap c
}.
(** The members of an accepted parameter have the new value. *)
Record news (k : cls) (classes : Z) (name : string) (value : list Z) (c c' : cfg (R:=R)) : Prop := {
  nw_r : forall m, sets_r k name m = true -> m <> MBinv -> m <> Msp1 -> Some (f_r c' m) = to_real value;
  nw_binv : sets_r k name MBinv = true -> f_r c' MBinv = n_div N (one N) (f_r c' Malpha);
  nw_sp1 : sets_r k name Msp1 = true -> f_r c' Msp1 = n_sqrt N (n_int N (f_z c' Mp - 1));
  nw_z : forall m, sets_z k name m = true -> Some (f_z c' m) = option_map (fun v => match m with MB => u32 v | _ => v end) (to_int value);
  nw_dim : name = "dim" -> Some (f_dim c') = option_map (fun v => Z.max (f_dim c) (u32 v)) (to_int value) /\
    f_ws c' = map (fun w => w ++ repeat (zero N) (Z.to_nat (f_dim c' - f_dim c))) (f_ws c) /\
    f_conf c' = map (fun w => w ++ repeat (conf_init N k c) (Z.to_nat (f_dim c' - f_dim c))) (f_conf c);
  nw_lazy : name = "lazy_update" -> (f_lazy c' = true <-> value = bytes "true");
  nw_cost : name = "cost_margin" -> f_cost c' = true;
  nw_reinit : restarts k name = true -> f_reinit c' = true;
  nw_norm : name = "norm" -> norm_word value (f_norm c');
  nw_filter : name = "filter" -> exists fl, f_filter c' = Some fl /\ load_presel (files value) = SelOk fl;
  nw_loss : name = "loss" -> exists l, f_loss c' = Some (f_next c, l) /\ value = loss_name l /\ suits k classes l = true /\
    f_next c' = S (f_next c) /\ f_hinge c' = (if keeps k then Some (f_next c) else f_hinge c);
  nw_exp : name = "exp_show" -> exists v, to_int value = Some v /\ f_show c' = Some (ExpShow (u64 v) (u64 v) 1);
  nw_step : name = "step_show" -> exists v, to_int value = Some v /\ f_show c' = Some (StepShow (u64 v) (u64 v));
  nw_conf : fills k name = true -> exists x, to_real value = Some x /\ f_conf c' = map (map (fun _ => x)) (f_conf c);
  nw_last : sets_r k name Mt0 = true -> exists x, to_real value = Some x /\ f_last c' = map (fun _ => x) (f_last c)
}.

(** Equal member by member. *)
Record same (a b : cfg (R:=R)) : Prop := {
  sm_r : forall m, f_r a m = f_r b m; sm_z : forall m, f_z a m = f_z b m; sm_dim : f_dim a = f_dim b;
  sm_lazy : f_lazy a = f_lazy b; sm_cost : f_cost a = f_cost b; sm_reinit : f_reinit a = f_reinit b;
  sm_norm : f_norm a = f_norm b; sm_filter : f_filter a = f_filter b; sm_loss : f_loss a = f_loss b;
  sm_hinge : f_hinge a = f_hinge b; sm_next : f_next a = f_next b; sm_show : f_show a = f_show b;
  sm_ws : f_ws a = f_ws b; sm_conf : f_conf a = f_conf b; sm_last : f_last a = f_last b; sm_cap : f_cap a = f_cap b
}.
(** Two names for the same member. *)
Definition clash (k : cls) (a b : string) : bool :=
  (a =? b)%string || (names a ["exp_show"; "step_show"] && names b ["exp_show"; "step_show"]) ||
  (has_reg k RegPlain && names a ["B"; "lambda"] && names b ["B"; "lambda"]) ||
  (has_reg k RegLazy && names a ["t"; "t0"] && names b ["t"; "t0"]).
End S.
