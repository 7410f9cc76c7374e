(** What saving and loading is meant to preserve. *)
From Coq Require Import String QArith.
From Verif Require Import M_Base M_Num M_Expr M_Loss M_Online M_Olm M_OlmSel M_Heap M_Algs M_Text S_Text S_Online M_Str M_Save.
Local Open Scope string_scope.
Local Open Scope list_scope.
Local Open Scope Z_scope.

Section S.
Context {R : Type}.
Variable N : num R.
Variable pr : R -> printed.
Variable strtof : Z -> Z -> option R.

(** The number w is printed with six significant digits, and reading a decimal of the printed value
    gives w'. *)
Definition reads_back (w w' : R) : Prop :=
  exists d, pr w = PNum d /\ dec6_ok d /\ forall m e, (dec_q m e == dec6_q d)%Q -> strtof m e = Some w'.
Definition exact (w : R) : Prop := reads_back w w.

(** The real parameters of a model. *)
Definition reals_of (k : kind (R:=R)) : list R :=
  match k with
  | KPerceptron | KPA => []
  | KPA1 C | KPA2 C => [C]
  | KOGD e t => [e; t]
  | KSTG e t l _ _ | KFOBOS_L1 e t l _ => [e; t; l]
  | KPET e t B => [e; t; n_int N (Z.of_nat B)]
  | KRDA s => [s]
  | KRDA_L1 s l _ => [s; l]
  | KERDA_L1 s l r _ => [s; l; r]
  | KALMA2 a C _ => [a; C]
  | KSOP a => [a]
  | KAROW r => [r]
  | KSOFS r B => [r; n_int N (Z.of_nat B)]
  | KCW a p _ | KECCW a p _ => [a; p]
  | KAdaFOBOS d | KAdaRDA d => [d]
  | KAdaFOBOS_L1 d l _ | KAdaRDA_L1 d l _ => [d; l]
  | KAdaFOBOS_OFS d B | KAdaRDA_OFS d B => [d; n_int N (Z.of_nat B)]
  | KFOFS l _ => [l]
  end.
(** Parameters that SetParameter accepts.  (FOFS keeps B = 0 from its constructor, which it does not
    accept.) *)
Definition params_ok (k : kind (R:=R)) : Prop :=
  let nonneg x := n_le N (zero N) x = true in
  let pos x := n_lt N (zero N) x = true in
  let count B := Z.to_nat (n_toint N (n_int N (Z.of_nat B))) = B in
  match k with
  | KOGD e t | KFOBOS_L1 e t _ _ => nonneg e /\ nonneg t
  | KSTG e t _ _ k => nonneg e /\ nonneg t /\ 0 < k <= 2147483647
  | KPET e t B => nonneg e /\ nonneg t /\ count B
  | KRDA s | KRDA_L1 s _ _ => pos s
  | KERDA_L1 s _ r _ => pos s /\ nonneg r
  | KALMA2 a _ _ => pos a /\ n_le N a (one N) = true
  | KSOFS _ B => count B
  | KAdaFOBOS d | KAdaRDA d | KAdaFOBOS_L1 d _ _ | KAdaRDA_L1 d _ _ => pos d
  | KAdaFOBOS_OFS d B | KAdaRDA_OFS d B => pos d /\ count B
  | KFOFS l B => nonneg l /\ 0 < Z.of_nat B <= 2147483647
  | _ => True
  end.
(** The models whose learning rate is a saved parameter; the others compute it when they need it. *)
Definition keeps_eta (k : kind (R:=R)) : bool :=
  match k with
  | KFOFS _ _ | KAdaFOBOS _ | KAdaFOBOS_L1 _ _ _ | KAdaFOBOS_OFS _ _ | KAdaRDA _ | KAdaRDA_L1 _ _ _ | KAdaRDA_OFS _ _ => true
  | _ => false
  end.
(** The same model with the sparsity threshold of a new one. *)
Definition reset_thresh (k : kind (R:=R)) : kind (R:=R) :=
  let t := thresh0 N in
  match k with
  | KSTG e p l _ k => KSTG e p l t k
  | KFOBOS_L1 e p l _ => KFOBOS_L1 e p l t
  | KRDA_L1 s l _ => KRDA_L1 s l t
  | KERDA_L1 s l r _ => KERDA_L1 s l r t
  | KAdaFOBOS_L1 d l _ => KAdaFOBOS_L1 d l t
  | KAdaRDA_L1 d l _ => KAdaRDA_L1 d l t
  | k => k
  end.

(** The confidence or gradient vectors of a model besides the weights, class by class. *)
Definition extras (k : kind (R:=R)) (e : state_of k) : list (list R) := concat (map block_vecs (extra_blocks k e)).
(** One vector of the model's dimension per class and kind of vector. *)
Definition extras_shape (k : kind (R:=R)) (e : state_of k) (n d : nat) : Prop :=
  Forall (fun v => length v = d) (extras k e) /\
  Forall (fun b => match b with Indexed _ vs => length vs = n | Single _ _ => True end) (extra_blocks k e).

(** A model that can be saved and loaded. *)
Record savable (p : Z) (nk : norm_kind) (k : kind (R:=R)) (c : core (R:=R)) (e : state_of k) : Prop := {
  sv_core : wf_core c;
  sv_extras : extras_shape k e (length (c_ws c)) (c_dim c);
  sv_dim : Z.of_nat (c_dim c) <= 2147483647;
  sv_iter : 0 <= c_iter c <= 2147483647;
  sv_classes : Z.of_nat (length (c_ws c)) <> 2 /\ Z.of_nat (length (c_ws c)) <= 2147483647;
  sv_loss : loss_ok (length (c_ws c)) (c_loss c) /\ loss_allowed k (c_loss c) = true;
  sv_params : params_ok k;
  sv_reals : Forall exact (reals_of k);
  sv_b0 : exact (c_b0 c) /\ n_le N (zero N) (c_b0 c) = true;
  sv_eta : keeps_eta k = true -> exact (c_eta c) /\ n_le N (zero N) (c_eta c) = true;
  sv_active : n_le N (one N) (c_active c) = true -> exact (c_active c) /\ n_lt N (zero N) (c_active c) = true;
  sv_cost : forall m, c_cost c = Some m -> exact m /\ n_lt N (zero N) m = true /\ length (c_ws c) = 1%nat;
  sv_bias : match k with KCW _ _ b | KECCW _ _ b => b = n_lt N (zero N) (c_b0 c) | _ => True end;
  sv_alma : match k return state_of k -> Prop with
            | KALMA2 _ _ s => fun i => nk = NormL2 /\ s = n_sqrt N (n_int N (p - 1)) /\ 0 < i <= 2147483647 /\ is_i32 p
            | _ => fun _ => True end e
}.

(** A setting that was written and read: the same, or the integer with the same text if it was a real number
    without fraction and exponent (the sign of zero is lost). *)
Definition same_setting (v v' : jval) : Prop :=
  v' = v \/ exists d z, v = JNum d /\ v' = JInt z /\ -999999 <= z <= 999999 /\
    (print_d z = Some (text_of (PNum d)) \/ text_of (PNum d) = bytes "-0" /\ z = 0).
Definition same_option (v v' : option jval) : Prop :=
  match v, v' with None, None => True | Some x, Some y => same_setting x y | _, _ => False end.
Definition same_settings (d d' : info) : Prop :=
  i_model d' = i_model d /\ i_cls d' = i_cls d /\ i_clf d' = i_clf d /\ i_loss d' = i_loss d /\ i_norm d' = i_norm d /\
  same_option (i_lambda d) (i_lambda d') /\ forall name, same_option (member name (i_online d)) (member name (i_online d')).
(** The JSON library reads the document it wrote: the text consists of lines other than the marker, and
    parsing their concatenation, followed by the marker, gives the settings of the document. *)
Definition json_ok (json_write : info -> list Z) (json_parse : list Z -> option info) (d : info) : Prop :=
  exists ls d', json_write d = concat (map (fun l => l ++ [10]) ls) /\
    Forall (fun l => ~ In 10 l /\ l <> bytes "model parameters:") ls /\
    json_parse (concat ls ++ bytes "model parameters:") = Some d' /\ same_settings d d'.

(** The state a loaded model has besides kind and vectors: settings and iteration number as saved,
    counters as new. *)
Definition reloaded_core (k : kind (R:=R)) (c : core (R:=R)) (ws : list (list R)) : core (R:=R) :=
  mkcore ws (repeat (zero N) (length (c_ws c))) (c_dim c) (if keeps_eta k then c_eta c else one N) (c_b0 c)
    (c_iter c) (c_iter c) 0 0 0 (c_lazy c) (if n_le N (one N) (c_active c) then c_active c else zero N) (c_cost c)
    (c_loss c) (one N) (zero N) false.
(** The rest of the state: ALMA2's counter as saved, the lazy regularizers as if every feature was
    regularised at the saved time, no features selected.  (The selections of the budgeted models and
    STG's times are set up by BeginTrain.) *)
Definition restored_rest (k : kind (R:=R)) (t : Z) : state_of k -> state_of (reset_thresh k) -> Prop :=
  match k return state_of k -> state_of (reset_thresh k) -> Prop with
  | KALMA2 _ _ _ => fun i i' => i' = i
  | KFOBOS_L1 _ _ l _ => fun _ z => z = mklazy l (thresh0 N) (n_int N t) [n_int N t]
  | KAdaFOBOS_L1 _ l _ => fun _ s => snd s = mklazy l (thresh0 N) (n_int N t) [n_int N t]
  | KPET _ _ _ | KFOFS _ _ => fun _ s => snd s = heap_empty
  | KSOFS _ _ | KAdaFOBOS_OFS _ _ => fun _ s => s_heap s = heap_empty
  | KAdaRDA_OFS _ _ => fun _ s => s_heap (fst s) = heap_empty
  | _ => fun _ _ => True
  end.
End S.
