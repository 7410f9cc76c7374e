(** What sol_GetModelParameters should tell: every parameter, under the name that sets it, with the value in force. *)
From Coq Require Import String.
From Verif Require Import M_Base M_Text M_Str M_Num M_Expr M_Loss M_Online M_Filter M_Save M_Param S_Param M_Info.
Local Open Scope string_scope.
Local Open Scope list_scope.
Local Open Scope Z_scope.

Section S.
Context {R : Type}.
Variable N : num R.
Variable stof : list Z -> parsed R.
Variable show : R -> list Z.

(** The name a float is reported under, if it is: not sparse_thresh and t0; active_smoothness from 1 on; cost_margin if it is used;
    a budget ("B") as lambda. *)
Definition shown (k : cls) (c : cfg (R:=R)) (m : rmem) : option string :=
  match m with
  | Mthresh | Mt0 => None
  | MActive => if n_le N (one N) (f_r c MActive) then Some "active_smoothness" else None
  | MCost => if f_cost c then Some "cost_margin" else None
  | Mlambda => if has_reg k RegNone then None else Some "lambda"
  | _ => hd_error (real_names k m)
  end.
(** All that is reported. *)
Inductive reports (k : cls) (classes : Z) (c : cfg (R:=R)) : string -> leaf R -> Prop :=
| R_real m n : shown k c m = Some n -> reports k classes c n (LReal (f_r c m))
| R_int m n : In n (int_names k m) -> m <> MInit -> reports k classes c n (LInt (f_z c m))
| R_dim : reports k classes c "dim" (LInt (f_dim c))
| R_lazy : reports k classes c "lazy_update" (LStr (bytes (if f_lazy c then "true" else "false")))
| R_model : reports k classes c "model" (LStr (bytes (cls_name k)))
| R_cls : reports k classes c "cls_num" (LInt classes)
| R_clf : reports k classes c "clf_num" (LInt (if classes =? 2 then 1 else classes))
| R_loss : reports k classes c "loss" (LStr (match f_loss c with Some (_, l) => loss_name l | None => [] end))
| R_norm : reports k classes c "norm" (LInt (match f_norm c with NoNorm => 0 | NormL1 => 1 | NormL2 => 2 end)).
(** The text of a value. *)
Definition writes (v : leaf R) (t : list Z) : Prop :=
  match v with LInt z => print_d z = Some t | LReal x => t = show x | LStr s => t = s end.

(** The settings are ones that could have been made, and their texts can be read again. *)
Record proper (k : cls) (classes : Z) (c : cfg (R:=R)) : Prop := {
  pr_real : forall m n, shown k c m = Some n -> real_ok N m (f_r c m) /\ stof (show (f_r c m)) = Parsed (f_r c m);
  pr_cost : f_cost c = true -> classes = 2;
  pr_int : forall m n, In n (int_names k m) -> m <> MInit -> int_ok m (f_z c m) /\ - 2 ^ 31 <= f_z c m < 2 ^ 31 /\ (m = MB -> 0 <= f_z c m);
  pr_time : has_reg k RegLazy = true -> forall t, print_d (f_z c MIter) = Some t -> to_real stof t <> None;
  pr_dim : 1 <= f_dim c < 2 ^ 31;
  pr_loss : exists i l, f_loss c = Some (i, l) /\ suits k classes l = true;
  pr_norm : k = TALMA2 -> f_norm c = NormL2
}.
(** The second model has the settings of the first, apart from what is not reported: sparse_thresh, active_smoothness below 1,
    the feature list and the displayer, which are as in a new model. *)
Record restored (k : cls) (classes : Z) (c c2 : cfg (R:=R)) : Prop := {
  rs_real : forall m n, shown k c m = Some n -> f_r c2 m = f_r c m;
  rs_int : forall m n, In n (int_names k m) -> m <> MInit -> f_z c2 m = f_z c m;
  rs_init : f_z c2 MInit = f_z c MIter;
  rs_alma : k = TALMA2 -> f_r c2 MBinv = n_div N (one N) (f_r c Malpha) /\ f_r c2 Msp1 = n_sqrt N (n_int N (f_z c Mp - 1));
  rs_dim : f_dim c2 = f_dim c;
  rs_lazy : f_lazy c2 = f_lazy c;
  rs_cost : f_cost c2 = f_cost c;
  rs_norm : f_norm c2 = f_norm c;
  rs_loss : option_map snd (f_loss c2) = option_map snd (f_loss c);
  rs_thresh : f_r c2 Mthresh = f_r (create N k classes) Mthresh;
  rs_active : shown k c MActive = None -> f_r c2 MActive = zero N;
  rs_filter : f_filter c2 = None;
  rs_show : f_show c2 = f_show (create N k classes)
}.
End S.

(** What is reported under the name of a setting just made, depending on the text it was made with. *)
Inductive echoed {R : Type} (stof : list Z -> parsed R) (old : Z) (value : list Z) : string -> leaf R -> Prop :=
| E_real n x : to_real stof value = Some x -> echoed stof old value n (LReal x)
| E_int n z : n <> "B" -> n <> "dim" -> n <> "norm" -> to_int value = Some z -> echoed stof old value n (LInt z)
| E_B z : to_int value = Some z -> echoed stof old value "B" (LInt (z mod 2 ^ 32))
| E_dim z : to_int value = Some z -> echoed stof old value "dim" (LInt (Z.max old (z mod 2 ^ 32)))
| E_norm n : norm_word value n -> echoed stof old value "norm" (LInt (match n with NoNorm => 0 | NormL1 => 1 | NormL2 => 2 end))
| E_lazy : value <> bytes "true" -> echoed stof old value "lazy_update" (LStr (bytes "false"))
| E_text n : n <> "lazy_update" \/ value = bytes "true" -> echoed stof old value n (LStr value).
(** Settings that are not reported: the threshold and start of the regularizers, displayers and feature lists, a budget under
    its own name; a smoothness below 1. *)
Definition silent {R : Type} (N : num R) (stof : list Z -> parsed R) (k : cls) (name : string) (value : list Z) : Prop :=
  names name ["sparse_thresh"; "t0"; "exp_show"; "step_show"; "filter"] = true \/ (has_reg k RegPlain = true /\ name = "B") \/
  (name = "active_smoothness" /\ exists x, to_real stof value = Some x /\ n_le N (one N) x = false).
