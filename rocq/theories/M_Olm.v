(** The online linear learning algorithms, src/sol/model/olm/*.cc, except the feature-selection
    models (M_OlmSel).  Every algorithm is a value of type [alg]: its overrides of update_dim,
    BeginTrain, TrainPredict, Update and EndTrain. *)
From Verif Require Import M_Base M_Num M_Expr M_Loss M_Online.

Section Olm.
Context {R : Type}.
Variable N : num R.
Local Notation zero := (zero N).
Local Notation one := (one N).
Local Notation "a +! b" := (n_add N a b) (at level 50, left associativity).
Local Notation "a -! b" := (n_sub N a b) (at level 50, left associativity).
Local Notation "a *! b" := (n_mul N a b) (at level 40, left associativity).
Local Notation "a /! b" := (n_div N a b) (at level 40, left associativity).

(** Operators of the expression templates on expressions, expression.h:284-287; L2, Sqrt
    (expression.h:414-430), truncate (290-327) and slice (335-341, vector.h:125-132). *)
Definition eadd := EBin (n_add N).
Definition esub := EBin (n_sub N).
Definition emul := EBin (n_mul N).
Definition ediv := EBin (n_div N).
Definition etrunc := EBin (op_trunc N).
Definition eslice (l : list R) (x : list (Z * R)) : exp R := EBin op_left (EDense l) (ESparse x).
Definition eL2 := EUn (op_square N).
Definition eL1 := EUn (op_abs N).
Definition esqrt := EUn (n_sqrt N).

(** op::assign, operator.h:64-69. *)
Definition assign (old v : R) : R := v.

(** Update of the bias element w(c)[0], e.g. perceptron.cc:45. *)
Definition upd0 (f : R -> R) (l : list R) : option (list R) :=
  do v <- rd l 0; wr l 0 (f v).

(** for (c < clf_num_) { if (g(c) == 0) continue; ... }, e.g. perceptron.cc:41-46. *)
Fixpoint each_class (f : R -> list R -> option (list R)) (gs : list R) (ws : list (list R))
  : option (list (list R)) :=
  match ws, gs with
  | [], _ => Some []
  | _ :: _, [] => None
  | w :: ws', g :: gs' =>
    do w' <- (if n_eq N g zero then Some w else f g w);
    do r <- each_class f gs' ws';
    Some (w' :: r)
  end.
(** The same loop when each class has further state of its own, e.g. arow.cc:63-74. *)
Fixpoint each_class2 {A} (f : R -> list R -> A -> option (list R * A)) (gs : list R)
  (ws : list (list R)) (es : list A) : option (list (list R) * list A) :=
  match ws, gs, es with
  | [], _, _ => Some ([], [])
  | w :: ws', g :: gs', e :: es' =>
    do (w', e') <- (if n_eq N g zero then Some (w, e) else f g w e);
    do (r, s) <- each_class2 f gs' ws' es';
    Some (w' :: r, e' :: s)
  | _, _, _ => None
  end.
(** for (c < clf_num_) over the weights and a second vector per class, e.g. rda.cc:43-46. *)
Fixpoint zip_class {A} (f : list R -> A -> option (list R)) (ws : list (list R)) (es : list A)
  : option (list (list R)) :=
  match ws, es with
  | [], _ => Some []
  | w :: ws', e :: es' => do w' <- f w e; do r <- zip_class f ws' es'; Some (w' :: r)
  | _ :: _, [] => None
  end.

(** The gradient step w(c) -= eta * g(c) * x; w(c)[0] -= bias_eta() * g(c),
    pa.cc:26-28, ogd.cc:39-41, alma2.cc:78-80. *)
Definition grad_step (eta bias : R) (x : list (Z * R)) (g : R) (w : list R) : option (list R) :=
  do w1 <- calc (n_sub N) w (emul (EScalar (eta *! g)) (ESparse x));
  upd0 (fun b => b -! bias *! g) w1.
Definition grad_steps (x : list (Z * R)) (c : core) : option core :=
  do ws <- each_class (grad_step (c_eta c) (bias_eta N c) x) (c_g c) (c_ws c);
  Some (set_ws c ws).

(** Defaults of the virtual functions: OnlineLinearModel (online_linear_model.cc) and
    OnlineModel::BeginTrain (online_model.cc:119-130; its cost-sensitivity check is not
    modelled). *)
Definition grow_none {E} (d : nat) (c : core (R:=R)) (e : E) : option (core * E) :=
  Some (linear_update_dim N d c, e).
Definition begin_none {E} (c : core (R:=R)) (e : E) : option (core * E) := Some (c, e).
Definition reg_begin_none {E} (p : point R) (e : E) : option E := Some e.
Definition prep_none {E} (p : point R) (c : core (R:=R)) (e : E) : option (core * E) := Some (c, e).
Definition margin_none {E} (c : core (R:=R)) (e : E) (p : point R) : handler (R:=R) := None.
Definition reg_end_none {E} (p : point R) (it : Z) (e : E) : option E := Some e.
Definition end_none {E} (c : core (R:=R)) (e : E) : option (core * E) :=
  Some (set_updated c false, e).

(** An algorithm that only overrides Update and has no state of its own. *)
Definition plain (upd : point R -> R -> core (R:=R) -> option core) : alg unit :=
  mkalg grow_none begin_none reg_begin_none prep_none margin_none
    (fun p loss c e => do c' <- upd p loss c; Some (c', e)) reg_end_none end_none.

(** Perceptron::Update, perceptron.cc:37-47: eta_ = 1; w(c) -= g(c) * x. *)
Definition perceptron_step (bias : R) (x : list (Z * R)) (g : R) (w : list R) : option (list R) :=
  do w1 <- calc (n_sub N) w (emul (EScalar g) (ESparse x));
  upd0 (fun b => b -! bias *! g) w1.
Definition perceptron_update (p : point R) (loss : R) (c : core) : option core :=
  let c1 := set_eta c one in
  do ws <- each_class (perceptron_step (bias_eta N c1) (feats p)) (c_g c1) (c_ws c1);
  Some (set_ws c1 ws).
Definition perceptron : alg unit := plain perceptron_update.

(** PA: eta_coeff_ pa.cc:17-19, Update 20-30. *)
Definition eta_coeff (c : core (R:=R)) : R := if (clf_num c =? 1)%nat then one else n_int N 2.
Definition pa_eta (c : core) (x : list (Z * R)) (loss : R) : option R :=
  do n <- norm2 N (ESparse x); Some (loss /! (eta_coeff c *! n)).
Definition pa_update (p : point R) (loss : R) (c : core) : option core :=
  do eta <- pa_eta c (feats p) loss;
  grad_steps (feats p) (set_eta c eta).
Definition pa : alg unit := plain pa_update.

(** PAI::Update, pa.cc:42-52. *)
Definition pa1_update (C : R) (p : point R) (loss : R) (c : core) : option core :=
  do eta <- pa_eta c (feats p) loss;
  grad_steps (feats p) (set_eta c (std_min N C eta)).
Definition pa1 (C : R) : alg unit := plain (pa1_update C).

(** PAII::Update, pa.cc:68-77. *)
Definition pa2_update (C : R) (p : point R) (loss : R) (c : core) : option core :=
  do n <- norm2 N (ESparse (feats p));
  grad_steps (feats p)
    (set_eta c (loss /! (eta_coeff c *! n +! n_lit N 5 (-1) /! C))).
Definition pa2 (C : R) : alg unit := plain (pa2_update C).

(** pow_ and set_power_t, ogd.cc:52-70. *)
Definition ogd_pow (power_t : R) (iter : Z) : R :=
  if n_eq N power_t zero then one
  else if n_eq N power_t (n_lit N 5 (-1)) then n_sqrt N (n_int N iter)
  else if n_eq N power_t one then n_int N iter
  else n_pow N (n_int N iter) power_t.
(** OGD::Update, ogd.cc:33-43. *)
Definition ogd_update (eta0 power_t : R) (p : point R) (loss : R) (c : core) : option core :=
  grad_steps (feats p) (set_eta c (eta0 /! ogd_pow power_t (c_iter c))).
Definition ogd (eta0 power_t : R) : alg unit := plain (ogd_update eta0 power_t).

(** STG (truncated gradient): last_trunc_time_, ogd.h:60. *)
(** One feature of STG::TrainPredict, ogd.cc:99-106. *)
Fixpoint stg_trunc (k : Z) (alpha : R) (t : Z) (idx : list Z) (w last : list R)
  : option (list R * list R) :=
  match idx with
  | [] => Some (w, last)
  | i :: r =>
    do li <- rd last (Z.to_nat i);
    let step := n_toint N (n_int N t -! li) in
    if step <? k then stg_trunc k alpha t r w last
    else
      let step' := step - Z.rem step k in
      do wi <- rd w (Z.to_nat i);
      do w' <- wr w (Z.to_nat i) (op_trunc N wi (n_int N step' *! alpha));
      do last' <- wr last (Z.to_nat i) (li +! n_int N step');
      stg_trunc k alpha t r w' last'
  end.
(** The loop over the classes, ogd.cc:96-110; last_trunc_time_ is shared by all classes. *)
Fixpoint stg_classes (k : Z) (alpha lam bias : R) (t : Z) (idx : list Z) (ws : list (list R))
  (last : list R) : option (list (list R) * list R) :=
  match ws with
  | [] => Some ([], last)
  | w :: ws' =>
    do (w1, last1) <- stg_trunc k alpha t idx w last;
    do w2 <- upd0 (fun b => op_trunc N b (lam *! bias)) w1;
    do last2 <- wr last1 0 (n_int N t);
    do (r, last3) <- stg_classes k alpha lam bias t idx ws' last2;
    Some (w2 :: r, last3)
  end.
(** STG::TrainPredict, ogd.cc:91-112. *)
Definition stg_prep (k : Z) (lam : R) (p : point R) (c : core) (last : list R)
  : option (core * list R) :=
  do (ws, last') <- stg_classes k (c_eta c *! lam) lam (bias_eta N c) (c_iter c - 1) (p_idx p)
                      (c_ws c) last;
  Some (set_ws c ws, last').
(** STG::EndTrain, ogd.cc:114-121. *)
Definition stg_end (lam thresh : R) (c : core) (last : list R) : option (core * list R) :=
  do ws <- mapM (fun w => calc assign w
             (etrunc (EDense w)
                (emul (EScalar (c_eta c *! lam)) (esub (EScalar (n_int N (c_iter c))) (EDense last)))))
             (c_ws c);
  Some (linear_end (finalize_l1 N thresh) (set_ws c ws), last).
(** STG::update_dim, ogd.cc:123-131. *)
Definition stg_grow (d : nat) (c : core) (last : list R) : option (core * list R) :=
  if (c_dim c <? d)%nat
  then Some (linear_update_dim N d c, grow (c_dim c) d (n_int N (c_t0 c)) last)
  else Some (c, last).
(** STG, ogd.cc:74-131: BeginTrain sets last_trunc_time_ to initial_t_ everywhere (85-89). *)
Definition stg (eta0 power_t lam thresh : R) (k : Z) : alg (list R) :=
  mkalg stg_grow
    (fun c _ => Some (c, repeat (n_int N (c_t0 c)) (c_dim c)))
    reg_begin_none (stg_prep k lam) margin_none
    (fun p loss c e => do c' <- ogd_update eta0 power_t p loss c; Some (c', e))
    reg_end_none (stg_end lam thresh).

(** FOBOS_L1::TrainPredict, ogd.cc:144-156. *)
Definition fobos_trunc (eta lam : R) (t : R) (x : list (Z * R)) (last w : list R)
  : option (list R) :=
  calc assign w (etrunc (eslice w x)
    (emul (EScalar (eta *! lam)) (esub (EScalar t) (EDense last)))).
Definition fobos_prep (p : point R) (c : core) (z : lazy_l1 (R:=R)) : option (core * lazy_l1) :=
  do ws <- mapM (fun w =>
      do w1 <- fobos_trunc (c_eta c) (z_lambda z) (n_int N (c_iter c - 1)) (feats p) (z_last z) w;
      upd0 (fun b => op_trunc N b (bias_eta N c *! z_lambda z)) w1) (c_ws c);
  Some (set_ws c ws, z).
(** FOBOS_L1::EndTrain, ogd.cc:158-167. *)
Definition fobos_end (c : core) (z : lazy_l1 (R:=R)) : option (core * lazy_l1) :=
  do ws <- mapM (fun w =>
      do w1 <- calc assign w (etrunc (EDense w)
        (emul (EScalar (c_eta c *! z_lambda z))
              (esub (EScalar (n_int N (c_iter c))) (EDense (z_last z)))));
      upd0 (fun b => op_trunc N b (bias_eta N c *! z_lambda z)) w1) (c_ws c);
  Some (linear_end (finalize_l1 N (z_thresh z)) (set_ws c ws), z).
(** FOBOS_L1, ogd.cc:140-167, with LazyOnlineL1Regularizer (ogd.h:74). *)
Definition fobos_l1 (eta0 power_t : R) : alg lazy_l1 :=
  mkalg grow_none begin_none (fun p z => Some (lazy_begin p z)) fobos_prep margin_none
    (fun p loss c e => do c' <- ogd_update eta0 power_t p loss c; Some (c', e))
    (lazy_end N) fobos_end.

(** RDA family.  State ut_ (rda.h), the gradient sums. *)
(** RDA::Update, rda.cc:50-58. *)
Definition ut_step (x : list (Z * R)) (g : R) (u : list R) : option (list R) :=
  do u1 <- calc (n_add N) u (emul (EScalar g) (ESparse x));
  upd0 (fun b => b +! g) u1.
Definition rda_update (p : point R) (loss : R) (c : core (R:=R)) (ut : list (list R))
  : option (core * list (list R)) :=
  do ut' <- each_class (ut_step (feats p)) (c_g c) ut;
  Some (c, ut').
(** RDA::update_dim, rda.cc:70-79. *)
Definition rda_grow (d : nat) (c : core) (ut : list (list R)) : option (core * list (list R)) :=
  if (c_dim c <? d)%nat
  then Some (linear_update_dim N d c, map (grow (c_dim c) d zero) ut)
  else Some (c, ut).
(** w(c) = -eta_ * e(c); w(c)[0] = -bias_eta() * e(c)[0], rda.cc:43-46, 63-66 and, with
    truncation, 114-119, 127-130, 155-160, 169-172. *)
Definition rda_assign (c : core) (e : list R -> exp R) (f : R -> R) (ut : list (list R))
  : option core :=
  do ws <- zip_class (fun w u =>
      do w1 <- calc assign w (emul (EScalar (n_opp N (c_eta c))) (e u));
      do u0 <- rd u 0;
      wr w1 0 (n_opp N (bias_eta N c) *! f u0)) (c_ws c) ut;
  Some (set_ws c ws).
(** RDA::TrainPredict, rda.cc:39-48. *)
Definition rda_prep (sigma : R) (p : point R) (c : core) (ut : list (list R))
  : option (core * list (list R)) :=
  let t := n_int N (c_iter c - 1) +! n_lit N 1 (-20) in
  let c1 := set_eta c (one /! (t *! sigma)) in
  do c2 <- rda_assign c1 (fun u => eslice u (feats p)) (fun v => v) ut;
  Some (c2, ut).
(** RDA::EndTrain, rda.cc:60-68. *)
Definition rda_end (sigma : R) (c : core) (ut : list (list R)) : option (core * list (list R)) :=
  let t := n_int N (c_iter c) +! n_lit N 1 (-20) in
  let c1 := set_eta c (one /! (t *! sigma)) in
  do c2 <- rda_assign c1 (fun u => EDense u) (fun v => v) ut;
  Some (set_updated c2 false, ut).
(** RDA, rda.cc:20-79. *)
Definition rda (sigma : R) : alg (list (list R)) :=
  mkalg rda_grow begin_none reg_begin_none (rda_prep sigma) margin_none rda_update reg_end_none
    (rda_end sigma).

(** RDA_L1::TrainPredict, rda.cc:109-121 (no 1e-20 here). *)
Definition rda_l1_prep (sigma lam : R) (p : point R) (c : core) (ut : list (list R))
  : option (core * list (list R)) :=
  let t := n_int N (c_iter c) -! one in
  let th := lam *! t in
  let c1 := set_eta c (one /! (t *! sigma)) in
  do c2 <- rda_assign c1 (fun u => etrunc (eslice u (feats p)) (EScalar th))
                         (fun v => op_trunc N v th) ut;
  Some (c2, ut).
(** RDA_L1::EndTrain, rda.cc:123-132. *)
Definition rda_l1_end (sigma lam thresh : R) (c : core) (ut : list (list R))
  : option (core * list (list R)) :=
  let t := n_int N (c_iter c) +! n_lit N 1 (-20) in
  let th := lam *! t in
  let c1 := set_eta c (one /! (t *! sigma)) in
  do c2 <- rda_assign c1 (fun u => etrunc (EDense u) (EScalar th)) (fun v => op_trunc N v th) ut;
  Some (linear_end (finalize_l1 N thresh) c2, ut).
(** RDA_L1, rda.cc:107-132. *)
Definition rda_l1 (sigma lam thresh : R) : alg (list (list R)) :=
  mkalg rda_grow begin_none reg_begin_none (rda_l1_prep sigma lam) margin_none rda_update
    reg_end_none (rda_l1_end sigma lam thresh).

(** ERDA_L1::TrainPredict, rda.cc:149-163. *)
Definition erda_l1_prep (sigma lam rou : R) (p : point R) (c : core) (ut : list (list R))
  : option (core * list (list R)) :=
  let t := n_int N (c_iter c - 1) +! n_lit N 1 (-20) in
  let c1 := set_eta c (one /! (n_sqrt N t *! sigma)) in
  let th := lam *! t +! sigma *! rou *! n_sqrt N t in
  do c2 <- rda_assign c1 (fun u => etrunc (eslice u (feats p)) (EScalar th))
                         (fun v => op_trunc N v th) ut;
  Some (c2, ut).
(** ERDA_L1::EndTrain, rda.cc:165-174. *)
Definition erda_l1_end (sigma lam rou thresh : R) (c : core) (ut : list (list R))
  : option (core * list (list R)) :=
  let t := n_int N (c_iter c) +! n_lit N 1 (-20) in
  let c1 := set_eta c (one /! (n_sqrt N t *! sigma)) in
  let th := lam *! t +! sigma *! rou *! n_sqrt N t in
  do c2 <- rda_assign c1 (fun u => etrunc (EDense u) (EScalar th)) (fun v => op_trunc N v th) ut;
  Some (linear_end (finalize_l1 N thresh) c2, ut).
(** ERDA_L1, rda.cc:136-174. *)
Definition erda_l1 (sigma lam rou thresh : R) : alg (list (list R)) :=
  mkalg rda_grow begin_none reg_begin_none (erda_l1_prep sigma lam rou) margin_none rda_update
    reg_end_none (erda_l1_end sigma lam rou thresh).

(** ALMA2, alma2.cc.  State k_; parameters alpha_, C_, square_p1_. *)
(** The margin, alma2.cc:68 and 86. *)
Definition alma_margin (alpha sp1 : R) (k : Z) : R :=
  (one -! alpha) *! (one /! alpha) *! sp1 /! n_sqrt N (n_int N k).
(** One class of ALMA2::Update, alma2.cc:77-83. *)
Definition alma_step (eta bias : R) (x : list (Z * R)) (g : R) (w : list R) : option (list R) :=
  do w1 <- grad_step eta bias x g w;
  do n <- norm2 N (EDense w1);
  let w_norm := n_sqrt N n in
  if n_lt N one w_norm then calc (n_div N) w1 (EScalar w_norm) else Some w1.
(** ALMA2::Update, alma2.cc:72-88. *)
Definition alma_update (alpha C sp1 : R) (p : point R) (loss : R) (c : core) (k : Z)
  : option (core * Z) :=
  let c1 := set_eta c (C /! (sp1 *! n_sqrt N (n_int N k))) in
  do ws <- each_class (alma_step (c_eta c1) (bias_eta N c1) (feats p)) (c_g c1) (c_ws c1);
  Some (set_margin (set_ws c1 ws) (alma_margin alpha sp1 (k + 1)), k + 1).
(** ALMA2, alma2.cc:66-88: BeginTrain sets the margin from k_ (66-70). *)
Definition alma2 (alpha C sp1 : R) : alg Z :=
  mkalg grow_none (fun c k => Some (set_margin c (alma_margin alpha sp1 k), k)) reg_begin_none
    prep_none margin_none (alma_update alpha C sp1) reg_end_none end_none.

(** SOP.  State X_ and v (sop.cc). *)
Definition sop_state : Type := list R * list (list R).
(** SOP::TrainPredict, sop.cc:55-61. *)
Definition sop_prep (a : R) (p : point R) (c : core) (s : sop_state) : option (core * sop_state) :=
  let '(X, v) := s in
  do ws <- zip_class (fun w vc =>
      calc assign w (ediv (EDense vc) (eadd (eadd (EScalar a) (EDense X)) (eL2 (ESparse (feats p))))))
      (c_ws c) v;
  Some (set_ws c ws, s).
(** SOP::Update, sop.cc:63-74. *)
Definition sop_update (p : point R) (loss : R) (c : core) (s : sop_state)
  : option (core * sop_state) :=
  let '(X, v) := s in
  let c1 := set_eta c one in
  do v' <- each_class (perceptron_step (bias_eta N c1) (feats p)) (c_g c1) v;
  do X' <- calc (n_add N) X (eL2 (ESparse (feats p)));
  Some (c1, (X', v')).
(** SOP::EndTrain, sop.cc:48-53. *)
Definition sop_end (a : R) (c : core) (s : sop_state) : option (core * sop_state) :=
  let '(X, v) := s in
  do ws <- zip_class (fun w vc => calc assign w (ediv (EDense vc) (eadd (EScalar a) (EDense X))))
             (c_ws c) v;
  Some (set_updated (set_ws c ws) false, s).
(** SOP::update_dim, sop.cc:76-87. *)
Definition sop_grow (d : nat) (c : core) (s : sop_state) : option (core * sop_state) :=
  let '(X, v) := s in
  if (c_dim c <? d)%nat
  then Some (linear_update_dim N d c, (grow (c_dim c) d zero X, map (grow (c_dim c) d zero) v))
  else Some (c, s).
(** SOP, sop.cc:15-87. *)
Definition sop (a : R) : alg sop_state :=
  mkalg sop_grow begin_none reg_begin_none (sop_prep a) margin_none sop_update reg_end_none
    (sop_end a).

(** Confidence-weighted family: state Sigmas_, one vector per class. *)
(** The sum over the classes of g^2 (Sigma . x^2 [+ Sigma[0]]), arow.cc:53-58, cw.cc:72-79,
    eccw.cc:73-80. *)
Fixpoint variance (x : list (Z * R)) (with_bias : bool) (gs : list R) (Ss : list (list R)) (acc : R)
  : option R :=
  match gs, Ss with
  | [], _ => Some acc
  | g :: gs', Sg :: Ss' =>
    if n_eq N g zero then variance x with_bias gs' Ss' acc
    else
      let gc2 := g *! g in
      do d <- dotmul N Sg (eL2 (ESparse x));
      let acc1 := acc +! d *! gc2 in
      do acc2 <- (if with_bias then do s0 <- rd Sg 0; Some (acc1 +! s0 *! gc2) else Some acc1);
      variance x with_bias gs' Ss' acc2
  | _ :: _, [] => None
  end.
(** w(c) -= eta_ * g(c) * Sigma * x; w(c)[0] -= bias_eta() * g(c) * Sigma[0],
    arow.cc:66-68, cw.cc:96-98, eccw.cc:102-104. *)
Definition sigma_w_step (eta bias : R) (x : list (Z * R)) (g : R) (w S : list R)
  : option (list R) :=
  do w1 <- calc (n_sub N) w (emul (emul (EScalar (eta *! g)) (EDense S)) (ESparse x));
  do s0 <- rd S 0;
  upd0 (fun b => b -! bias *! g *! s0) w1.
(** Filling update_dim, arow.cc:77-87, cw.cc:106-117, eccw.cc:111-122. *)
Definition sigma_grow (a : R) (d : nat) (c : core) (Ss : list (list R))
  : option (core * list (list R)) :=
  if (c_dim c <? d)%nat
  then Some (linear_update_dim N d c, map (grow (c_dim c) d a) Ss)
  else Some (c, Ss).

(** One class of AROW::Update, arow.cc:66-73. *)
Definition arow_sigma (r : R) (x : list (Z * R)) (g : R) (S : list R) : option (list R) :=
  let r1 := g *! g /! r in
  do S1 <- calc (n_div N) S
    (eadd (EScalar one) (emul (emul (EDense S) (eL2 (ESparse x))) (EScalar r1)));
  upd0 (fun s => s /! (one +! s *! r1)) S1.
Definition arow_step (r eta bias : R) (x : list (Z * R)) (g : R) (w S : list R)
  : option (list R * list R) :=
  do w' <- sigma_w_step eta bias x g w S;
  do S' <- arow_sigma r x g S;
  Some (w', S').
(** The step size of AROW and SOFS, arow.cc:51-61, 164-174. *)
Definition arow_eta (r : R) (x : list (Z * R)) (loss : R) (c : core) (Ss : list (list R))
  : option R :=
  do v <- variance x (negb (n_eq N (c_b0 c) zero)) (c_g c) Ss zero;
  let beta := one /! (v +! r) in
  Some (loss *! beta).
(** AROW::Update, arow.cc:49-75. *)
Definition arow_update (r : R) (p : point R) (loss : R) (c : core) (Ss : list (list R))
  : option (core * list (list R)) :=
  do eta <- arow_eta r (feats p) loss c Ss;
  let c1 := set_eta c eta in
  do (ws, Ss') <- each_class2 (arow_step r (c_eta c1) (bias_eta N c1) (feats p)) (c_g c1) (c_ws c1)
                    Ss;
  Some (set_ws c1 ws, Ss').
(** AROW, arow.cc:17-87. *)
Definition arow (r : R) : alg (list (list R)) :=
  mkalg (sigma_grow one) begin_none reg_begin_none prep_none margin_none (arow_update r)
    reg_end_none end_none.

(** The margin handler of CW and ECCW, cw.cc:61-82, eccw.cc:62-83.  [bias_on] is whether the
    bias_eta captured by BeginTrain is non-zero.  Simplified: the capture is evaluated when the
    handler runs; bias_eta0_ does not change during training and eta_ is 1 when BeginTrain first
    runs. *)
Definition cw_handler (phi : R) (bias_on : bool) (c : core (R:=R)) (Ss : list (list R))
  (p : point R) : handler (R:=R) :=
  Some (fun g => do v <- variance (feats p) bias_on g Ss zero; Some (phi *! v, v)).
(** One class of the update loop, cw.cc:96-102, eccw.cc:102-107. *)
Definition cw_sigma (tmp : R) (x : list (Z * R)) (S : list R) : option (list R) :=
  do S1 <- calc (n_div N) S
    (eadd (EScalar one) (emul (emul (EScalar tmp) (EDense S)) (eL2 (ESparse x))));
  upd0 (fun s => s /! (one +! tmp *! s)) S1.
Definition cw_step (tmp eta bias : R) (x : list (Z * R)) (g : R) (w S : list R)
  : option (list R * list R) :=
  do w' <- sigma_w_step eta bias x g w S;
  do S' <- cw_sigma tmp x S;
  Some (w', S').
(** alpha_i of CW, cw.cc:86-90. *)
Definition cw_alpha (phi v loss : R) : R :=
  let two := n_int N 2 in
  let mi := phi *! v -! loss in
  let tmp := one +! two *! phi *! mi in
  (n_opp N (one +! two *! phi *! mi) +!
     n_sqrt N (tmp *! tmp -! n_int N 8 *! phi *! (mi -! phi *! v)))
  /! (n_int N 4 *! phi *! v).
(** CW::Update, cw.cc:84-104. *)
Definition cw_update (phi : R) (p : point R) (loss : R) (c : core) (Ss : list (list R))
  : option (core * list (list R)) :=
  let alpha := cw_alpha phi (c_vt c) loss in
  let c1 := set_eta c alpha in
  let tmp := n_int N 2 *! alpha *! phi in
  do (ws, Ss') <- each_class2 (cw_step tmp (c_eta c1) (bias_eta N c1) (feats p)) (c_g c1) (c_ws c1)
                    Ss;
  Some (set_ws c1 ws, Ss').
(** CW, cw.cc:17-117. *)
Definition cw (a phi : R) (bias_on : bool) : alg (list (list R)) :=
  mkalg (sigma_grow a) begin_none reg_begin_none prep_none (cw_handler phi bias_on) (cw_update phi)
    reg_end_none end_none.

(** psi_, xi_ and alpha_i, u_i of ECCW, eccw.cc:85-99 and 123-127. *)
Definition eccw_alpha (phi v loss : R) : R :=
  let psi := one +! phi *! phi /! n_int N 2 in
  let xi := one +! phi *! phi in
  let mi := phi *! v -! loss in
  let tmp := mi *! phi *! phi in
  (n_opp N mi *! psi +!
     n_sqrt N (tmp *! tmp *! n_lit N 25 (-2) +! v *! phi *! phi *! xi))
  /! (v *! xi).
Definition eccw_tmp (phi v alpha : R) : R :=
  let ui := n_lit N 5 (-1) *!
    (n_opp N alpha *! v *! phi +!
     n_sqrt N (alpha *! alpha *! v *! v *! phi *! phi +! n_int N 4 *! v)) in
  alpha *! phi *! n_sqrt N (ui *! ui).
(** ECCW::Update, eccw.cc:85-109. *)
Definition eccw_update (phi : R) (p : point R) (loss : R) (c : core) (Ss : list (list R))
  : option (core * list (list R)) :=
  let alpha := eccw_alpha phi (c_vt c) loss in
  let c1 := set_eta c alpha in
  let tmp := eccw_tmp phi (c_vt c) alpha in
  do (ws, Ss') <- each_class2 (cw_step tmp (c_eta c1) (bias_eta N c1) (feats p)) (c_g c1) (c_ws c1)
                    Ss;
  Some (set_ws c1 ws, Ss').
(** ECCW, eccw.cc:17-122. *)
Definition eccw (a phi : R) (bias_on : bool) : alg (list (list R)) :=
  mkalg (sigma_grow a) begin_none reg_begin_none prep_none (cw_handler phi bias_on)
    (eccw_update phi) reg_end_none end_none.

(** Adaptive subgradient family: state H_. *)
(** H_[c] = Sqrt(L2(H_[c] - delta_) + L2(g(c) * x)) + delta_ and H_[c][0], ada_fobos.cc:48-50,
    203-205, ada_rda.cc:55-57, 229-231. *)
Definition ada_H (delta : R) (x : list (Z * R)) (g : R) (H : list R) : option (list R) :=
  do H1 <- calc assign H
    (eadd (esqrt (eadd (eL2 (esub (EDense H) (EScalar delta)))
                       (eL2 (emul (EScalar g) (ESparse x))))) (EScalar delta));
  upd0 (fun h => n_sqrt N ((h -! delta) *! (h -! delta) +! g *! g) +! delta) H1.
(** w(c) -= eta_ * g(c) * x / H_[c]; w(c)[0] -= bias_eta() * g(c) / H_[c][0],
    ada_fobos.cc:52-54, 226-228. *)
Definition ada_w_step (eta bias : R) (x : list (Z * R)) (g : R) (w H : list R) : option (list R) :=
  do w1 <- calc (n_sub N) w (ediv (emul (EScalar (eta *! g)) (ESparse x)) (EDense H));
  do h0 <- rd H 0;
  upd0 (fun b => b -! bias *! g /! h0) w1.
(** AdaFOBOS::Update, ada_fobos.cc:43-56. *)
Definition ada_fobos_step (delta eta bias : R) (x : list (Z * R)) (g : R) (w H : list R)
  : option (list R * list R) :=
  do H' <- ada_H delta x g H;
  do w' <- ada_w_step eta bias x g w H';
  Some (w', H').
Definition ada_fobos_update (delta : R) (p : point R) (loss : R) (c : core) (Hs : list (list R))
  : option (core * list (list R)) :=
  do (ws, Hs') <- each_class2 (ada_fobos_step delta (c_eta c) (bias_eta N c) (feats p)) (c_g c)
                    (c_ws c) Hs;
  Some (set_ws c ws, Hs').
(** AdaFOBOS, ada_fobos.cc:20-68 (update_dim fills with delta_). *)
Definition ada_fobos (delta : R) : alg (list (list R)) :=
  mkalg (sigma_grow delta) begin_none reg_begin_none prep_none margin_none (ada_fobos_update delta)
    reg_end_none end_none.

(** AdaFOBOS_L1, ada_fobos.cc:96-125: TrainPredict and EndTrain. *)
Definition ada_fobos_l1_prep (p : point R) (c : core) (s : list (list R) * lazy_l1 (R:=R))
  : option (core * (list (list R) * lazy_l1)) :=
  let '(Hs, z) := s in
  do ws <- zip_class (fun w H =>
      do w1 <- calc assign w (etrunc (eslice w (feats p))
        (ediv (emul (EScalar (c_eta c *! z_lambda z))
                    (esub (EScalar (n_int N (c_iter c - 1))) (EDense (z_last z)))) (EDense H)));
      do h0 <- rd H 0;
      upd0 (fun b => op_trunc N b (bias_eta N c *! z_lambda z /! h0)) w1) (c_ws c) Hs;
  Some (set_ws c ws, s).
Definition ada_fobos_l1_end (c : core) (s : list (list R) * lazy_l1 (R:=R))
  : option (core * (list (list R) * lazy_l1)) :=
  let '(Hs, z) := s in
  do ws <- zip_class (fun w H =>
      do w1 <- calc assign w (etrunc (EDense w)
        (ediv (emul (EScalar (c_eta c *! z_lambda z))
                    (esub (EScalar (n_int N (c_iter c))) (EDense (z_last z)))) (EDense H)));
      do h0 <- rd H 0;
      upd0 (fun b => op_trunc N b (bias_eta N c *! z_lambda z /! h0)) w1) (c_ws c) Hs;
  Some (linear_end (finalize_l1 N (z_thresh z)) (set_ws c ws), s).
Definition ada_fobos_l1 (delta : R) : alg (list (list R) * lazy_l1) :=
  mkalg (fun d c s => do (c', H') <- sigma_grow delta d c (fst s); Some (c', (H', snd s)))
    begin_none (fun p s => Some (fst s, lazy_begin p (snd s))) ada_fobos_l1_prep margin_none
    (fun p loss c s => do (c', H') <- ada_fobos_update delta p loss c (fst s); Some (c', (H', snd s)))
    (fun p it s => do z' <- lazy_end N p it (snd s); Some (fst s, z')) ada_fobos_l1_end.

(** AdaRDA.  State H_ and ut_ per class, ada_rda.h:34-37. *)
Definition ada_rda_state : Type := list (list R * list R).
(** w(c) = -eta_ * e / H_[c]; w(c)[0] *= bias_eta0_, ada_rda.cc:62-64, 70-72, 146-147. *)
Definition ada_rda_assign (eta b0 : R) (e : exp R) (w H : list R) : option (list R) :=
  do w1 <- calc assign w (ediv (emul (EScalar (n_opp N eta)) e) (EDense H));
  upd0 (fun b => b *! b0) w1.
(** AdaRDA::Update, ada_rda.cc:50-66. *)
Definition ada_rda_step (delta eta b0 : R) (x : list (Z * R)) (g : R) (w : list R)
  (s : list R * list R) : option (list R * (list R * list R)) :=
  let '(H, u) := s in
  do H' <- ada_H delta x g H;
  do u' <- ut_step x g u;
  do w' <- ada_rda_assign eta b0 (eslice u' x) w H';
  Some (w', (H', u')).
Definition ada_rda_update (delta : R) (p : point R) (loss : R) (c : core) (s : ada_rda_state)
  : option (core * ada_rda_state) :=
  do (ws, s') <- each_class2 (ada_rda_step delta (c_eta c) (c_b0 c) (feats p)) (c_g c) (c_ws c) s;
  Some (set_ws c ws, s').
(** AdaRDA::EndTrain, ada_rda.cc:68-75. *)
Definition ada_rda_end (c : core) (s : ada_rda_state) : option (core * ada_rda_state) :=
  do ws <- zip_class (fun w Hu => ada_rda_assign (c_eta c) (c_b0 c) (EDense (snd Hu)) w (fst Hu))
             (c_ws c) s;
  Some (set_updated (set_ws c ws) false, s).
(** AdaRDA::update_dim, ada_rda.cc:77-90. *)
Definition ada_rda_grow (delta : R) (d : nat) (c : core) (s : ada_rda_state)
  : option (core * ada_rda_state) :=
  if (c_dim c <? d)%nat
  then Some (linear_update_dim N d c,
             map (fun Hu => (grow (c_dim c) d delta (fst Hu), grow (c_dim c) d zero (snd Hu))) s)
  else Some (c, s).
(** AdaRDA, ada_rda.cc:20-90. *)
Definition ada_rda (delta : R) : alg ada_rda_state :=
  mkalg (ada_rda_grow delta) begin_none reg_begin_none prep_none margin_none (ada_rda_update delta)
    reg_end_none ada_rda_end.

(** AdaRDA_L1::TrainPredict, ada_rda.cc:130-141. *)
Definition ada_rda_l1_prep (lam : R) (p : point R) (c : core) (s : ada_rda_state)
  : option (core * ada_rda_state) :=
  let th := lam *! n_int N (c_iter c) in
  do ws <- zip_class (fun w Hu =>
      do w1 <- calc assign w
        (ediv (emul (EScalar (n_opp N (c_eta c)))
                    (etrunc (eslice (snd Hu) (feats p)) (EScalar th))) (EDense (fst Hu)));
      do u0 <- rd (snd Hu) 0;
      do h0 <- rd (fst Hu) 0;
      wr w1 0 (n_opp N (bias_eta N c) *! op_trunc N u0 th /! h0)) (c_ws c) s;
  Some (set_ws c ws, s).
(** AdaRDA_L1::EndTrain, ada_rda.cc:143-150. *)
Definition ada_rda_l1_end (lam thresh : R) (c : core) (s : ada_rda_state)
  : option (core * ada_rda_state) :=
  let th := lam *! n_int N (c_iter c) in
  do ws <- zip_class (fun w Hu =>
      ada_rda_assign (c_eta c) (c_b0 c) (etrunc (EDense (snd Hu)) (EScalar th)) w (fst Hu))
      (c_ws c) s;
  Some (linear_end (finalize_l1 N thresh) (set_ws c ws), s).
(** AdaRDA_L1, ada_rda.cc:126-150. *)
Definition ada_rda_l1 (delta lam thresh : R) : alg ada_rda_state :=
  mkalg (ada_rda_grow delta) begin_none reg_begin_none (ada_rda_l1_prep lam) margin_none
    (ada_rda_update delta) reg_end_none (ada_rda_l1_end lam thresh).
End Olm.
