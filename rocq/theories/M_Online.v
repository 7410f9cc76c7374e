(** The online learning framework: Model, OnlineModel and OnlineLinearModel.
    src/sol/model/model.cc, online_model.cc, online_linear_model.cc, regularizer.cc. *)
From Verif Require Import M_Base M_Num M_Expr M_Loss.

Section Online.
Context {R : Type}.
Variable N : num R.
Local Notation zero := (zero N).
Local Notation one := (one N).

(** An example during training: the zipped features and the label.  x.data() pairs index(i) with
    value(i), sparse_vector.h:129-137. *)
Definition feats (p : point R) : list (Z * R) := combine (p_idx p) (p_val p).

(** SVector::dim: 0 when empty, else last index + 1 in 32-bit arithmetic,
    sparse_vector.h:124-127. *)
Definition x_dim (p : point R) : Z :=
  match rev (p_idx p) with [] => 0 | i :: _ => u32 (i + 1) end.

(** State shared by all linear models.  model.h:171-198 (update_num_, loss_, model_updated_,
    require_reinit_), online_model.h:88-113 (bias_eta0_, initial_t_, cur_iter_num_, cur_data_num_,
    cur_err_num_, dim_, eta_, lazy_update_, active_smoothness_, cost_margin_),
    online_linear_model.h:67-71 (weights_, gradients_), hinge_loss.h:28 (margin_), and the value a
    margin handler stores (cw.h:41 Vi_, eccw.h:44 vi_).  Simplified: counters do not overflow. *)
Record core := mkcore {
  c_ws : list (list R);
  c_g : list R;
  c_dim : nat;
  c_eta : R;
  c_b0 : R;
  c_t0 : Z;
  c_iter : Z;
  c_data : Z;
  c_err : Z;
  c_upd : Z;
  c_lazy : bool;
  c_active : R;
  c_cost : option R;
  c_loss : loss_kind;
  c_margin : R;
  c_vt : R;
  c_updated : bool
}.

(** Field updates of the state (assignments to the members listed above, online_model.h:88-113). *)
Definition set_ws (c : core) (ws : list (list R)) : core :=
  mkcore ws (c_g c) (c_dim c) (c_eta c) (c_b0 c) (c_t0 c) (c_iter c) (c_data c) (c_err c) (c_upd c)
    (c_lazy c) (c_active c) (c_cost c) (c_loss c) (c_margin c) (c_vt c) (c_updated c).
Definition set_dim (c : core) (d : nat) : core :=
  mkcore (c_ws c) (c_g c) d (c_eta c) (c_b0 c) (c_t0 c) (c_iter c) (c_data c) (c_err c) (c_upd c)
    (c_lazy c) (c_active c) (c_cost c) (c_loss c) (c_margin c) (c_vt c) (c_updated c).
Definition set_eta (c : core) (e : R) : core :=
  mkcore (c_ws c) (c_g c) (c_dim c) e (c_b0 c) (c_t0 c) (c_iter c) (c_data c) (c_err c) (c_upd c)
    (c_lazy c) (c_active c) (c_cost c) (c_loss c) (c_margin c) (c_vt c) (c_updated c).
Definition set_iter (c : core) (z : Z) : core :=
  mkcore (c_ws c) (c_g c) (c_dim c) (c_eta c) (c_b0 c) (c_t0 c) z (c_data c) (c_err c) (c_upd c)
    (c_lazy c) (c_active c) (c_cost c) (c_loss c) (c_margin c) (c_vt c) (c_updated c).
Definition set_data (c : core) (z : Z) : core :=
  mkcore (c_ws c) (c_g c) (c_dim c) (c_eta c) (c_b0 c) (c_t0 c) (c_iter c) z (c_err c) (c_upd c)
    (c_lazy c) (c_active c) (c_cost c) (c_loss c) (c_margin c) (c_vt c) (c_updated c).
Definition set_err (c : core) (z : Z) : core :=
  mkcore (c_ws c) (c_g c) (c_dim c) (c_eta c) (c_b0 c) (c_t0 c) (c_iter c) (c_data c) z (c_upd c)
    (c_lazy c) (c_active c) (c_cost c) (c_loss c) (c_margin c) (c_vt c) (c_updated c).
Definition set_upd (c : core) (z : Z) : core :=
  mkcore (c_ws c) (c_g c) (c_dim c) (c_eta c) (c_b0 c) (c_t0 c) (c_iter c) (c_data c) (c_err c) z
    (c_lazy c) (c_active c) (c_cost c) (c_loss c) (c_margin c) (c_vt c) (c_updated c).
Definition set_margin (c : core) (m : R) : core :=
  mkcore (c_ws c) (c_g c) (c_dim c) (c_eta c) (c_b0 c) (c_t0 c) (c_iter c) (c_data c) (c_err c)
    (c_upd c) (c_lazy c) (c_active c) (c_cost c) (c_loss c) m (c_vt c) (c_updated c).
Definition set_updated (c : core) (b : bool) : core :=
  mkcore (c_ws c) (c_g c) (c_dim c) (c_eta c) (c_b0 c) (c_t0 c) (c_iter c) (c_data c) (c_err c)
    (c_upd c) (c_lazy c) (c_active c) (c_cost c) (c_loss c) (c_margin c) (c_vt c) b.
(** Effect of Loss::gradient on the model: gradients_, margin_ and the stored value. *)
Definition set_lres (c : core) (r : lres) : core :=
  mkcore (c_ws c) (l_grad r) (c_dim c) (c_eta c) (c_b0 c) (c_t0 c) (c_iter c) (c_data c) (c_err c)
    (c_upd c) (c_lazy c) (c_active c) (c_cost c) (c_loss c) (l_margin r)
    (match l_vt r with Some v => v | None => c_vt c end) (c_updated c).

(** clf_num_, model.cc:41. *)
Definition clf_num (c : core) : nat := length (c_ws c).

(** bias_eta(), online_model.h:79. *)
Definition bias_eta (c : core) : R := n_mul N (c_b0 c) (c_eta c).

(** Vector resize to a larger size followed by slice_op filling the new part,
    e.g. online_linear_model.cc:132-134 (resize itself: M_Vector). *)
Definition grow (old_dim new_dim : nat) (v : R) (l : list R) : list R :=
  firstn old_dim l ++ repeat v (new_dim - old_dim).

(** OnlineLinearModel::update_dim, online_linear_model.cc:129-138, online_model.h:76. *)
Definition linear_update_dim (d : nat) (c : core) : core :=
  if (c_dim c <? d)%nat
  then set_dim (set_ws c (map (grow (c_dim c) d zero) (c_ws c))) d
  else c.

(** predicts[c] = dotmul(w(c), x) + w(c)[0], online_linear_model.cc:106-108,119-121. *)
Definition score (x : list (Z * R)) (w : list R) : option R :=
  do s <- dotmul N w (ESparse x);
  do b <- rd w 0;
  Some (n_add N s b).

(** Sequencing a computation over all classifiers. *)
Fixpoint mapM {A B} (f : A -> option B) (l : list A) : option (list B) :=
  match l with
  | [] => Some []
  | a :: r => do b <- f a; do r' <- mapM f r; Some (b :: r')
  end.

(** The returned label: Sign for one classifier, else the position of the first maximum,
    online_linear_model.cc:109-113,122-126. *)
Definition label_of (predicts : list R) : option Z :=
  match predicts with
  | [p] => Some (sign N p)
  | [] => None
  | _ => Some (Z.of_nat (max_element N predicts))
  end.

(** OnlineLinearModel::Predict and TrainPredict, online_linear_model.cc:103-127. *)
Definition predict (c : core) (p : point R) : option (Z * list R) :=
  do ps <- mapM (score (feats p)) (c_ws c);
  do lab <- label_of ps;
  Some (lab, ps).

(** A learning algorithm: the virtual functions a class overrides, with its own state [E].
    [a_reg_begin], [a_reg_end]: OnlineRegularizer::BeginIterate / EndIterate (regularizer.h:47-51);
    [a_prep]: what an override of TrainPredict does before calling the base version;
    [a_margin]: the margin handler installed by BeginTrain. *)
Record alg (E : Type) : Type := mkalg {
  a_grow : nat -> core -> E -> option (core * E);
  a_begin : core -> E -> option (core * E);
  a_reg_begin : point R -> E -> option E;
  a_prep : point R -> core -> E -> option (core * E);
  a_margin : core -> E -> point R -> handler (R := R);
  a_update : point R -> R -> core -> E -> option (core * E);
  a_reg_end : point R -> Z -> E -> option E;
  a_end : core -> E -> option (core * E)
}.
Arguments a_grow {E}. Arguments a_begin {E}. Arguments a_reg_begin {E}. Arguments a_prep {E}.
Arguments a_margin {E}. Arguments a_update {E}. Arguments a_reg_end {E}. Arguments a_end {E}.

(** The confidence used by active learning, online_linear_model.cc:61-69. *)
Definition al_margin (predicts : list R) (label : Z) : option R :=
  match predicts with
  | [p] => Some (op_abs N p)
  | _ =>
    do tmp <- rdz predicts label;
    do p' <- wrz predicts label (n_opp N (n_fmax N));
    do m <- rd p' (max_element N p');
    Some (n_sub N tmp m)
  end.

(** Whether the label is queried, online_linear_model.cc:57,70-71: always unless active learning is
    on and the probability is below the random draw [rnd]. *)
Definition queried (c : core) (predicts : list R) (label : Z) (rnd : R) : option bool :=
  if n_lt N zero (c_active c) then
    do m <- al_margin predicts label;
    let prob := n_div N (c_active c) (n_add N (c_active c) m) in
    Some (negb (n_lt N prob rnd))
  else Some true.

(** Cost-sensitive margin, online_linear_model.cc:77-84. *)
Definition cost_margin_step (c : core) (label : Z) : core :=
  match c_cost c with
  | None => c
  | Some m => set_margin c (if label =? 1 then m else one)
  end.

(** Whether Update is called, online_linear_model.cc:87-95. *)
Definition wants_update (c : core) (label true_label : Z) (loss : R) : bool :=
  if c_lazy c then negb (label =? true_label) else n_lt N zero loss.

(** OnlineLinearModel::Iterate after TrainPredict and the active-learning test,
    online_linear_model.cc:76-100. *)
Definition learn {E} (a : alg E) (p : point R) (label : Z) (predicts : list R) (c : core) (e : E)
  : option (core * E) :=
  let c1 := cost_margin_step c (p_label p) in
  do r <- gradient N (c_loss c1) (a_margin a c1 e p) (p_label p) predicts label (c_g c1)
            (c_margin c1);
  let c2 := set_lres c1 r in
  do (c3, e3) <-
    (if wants_update c2 label (p_label p) (l_loss r)
     then a_update a p (l_loss r) (set_upd c2 (c_upd c2 + 1)) e
     else Some (c2, e));
  do e4 <- a_reg_end a p (c_iter c3) e3;
  Some (c3, e4).

(** OnlineLinearModel::Iterate, online_linear_model.cc:49-101, with OnlineModel::Iterate
    (online_model.cc:194-199).  [rnd] is the draw dis(gen) of this call. *)
Definition iterate {E} (a : alg E) (p : point R) (rnd : R) (c : core) (e : E)
  : option (Z * list R * core * E) :=
  do (c1, e1) <- a_grow a (Z.to_nat (x_dim p)) c e;
  let c2 := set_data (set_iter c1 (c_iter c1 + 1)) (c_data c1 + 1) in
  do e2 <- a_reg_begin a p e1;
  do (c3, e3) <- a_prep a p c2 e2;
  do (label, predicts) <- predict c3 p;
  do q <- queried c3 predicts label rnd;
  if q then
    do (c4, e4) <- learn a p label predicts c3 e3;
    Some (label, predicts, c4, e4)
  else Some (label, predicts, set_iter c3 (c_iter c3 - 1), e3).

(** One element of the loop of OnlineModel::Train, online_model.cc:161-165; [pre] is PreProcess. *)
Definition train_point {E} (a : alg E) (pre : point R -> option (point R)) (d : point R * R)
  (c : core) (e : E) : option (core * E) :=
  let '(p, rnd) := d in
  do x <- pre p;
  do (label, _, c1, e1) <- iterate a x rnd c e;
  Some (if label =? p_label x then c1 else set_err c1 (c_err c1 + 1), e1).

(** Progress displayers, online_model.cc:24-51: next_show_time and next().  The exponential one
    computes size_t(pow(double(base), step)), modelled as the exact power. *)
Inductive displayer : Set :=
| ExpShow (next base step : Z)
| StepShow (next step : Z).
Definition next_show (d : displayer) : Z :=
  match d with ExpShow n _ _ => n | StepShow n _ => n end.
Definition show_next (d : displayer) : displayer :=
  match d with
  | ExpShow _ b s => ExpShow (b ^ (s + 1)) b (s + 1)
  | StepShow n s => StepShow (n + s) s
  end.

(** Arguments of one call of the iteration callback, online_model.cc:170-172. *)
Record event := mkevent { ev_data : Z; ev_iter : Z; ev_upd : Z; ev_err : Z }.
Definition event_of (c : core) : event := mkevent (c_data c) (c_iter c) (c_upd c) (c_err c).

(** Loop body of OnlineModel::Train with the progress callback, online_model.cc:161-177. *)
Definition train_step {E} (a : alg E) pre (d : point R * R)
  (s : core * E * displayer * list event) : option (core * E * displayer * list event) :=
  let '(c, e, dp, evs) := s in
  do (c1, e1) <- train_point a pre d c e;
  if next_show dp <=? c_data c1 then Some (c1, e1, show_next dp, event_of c1 :: evs)
  else Some (c1, e1, dp, evs).

Fixpoint foldM {A S} (f : A -> S -> option S) (l : list A) (s : S) : option S :=
  match l with
  | [] => Some s
  | x :: r => do s' <- f x s; foldM f r s'
  end.

(** The loops of OnlineModel::Train over the batches delivered by DataIter::Next,
    online_model.cc:155-189; the final callback 180-187 and model_updated_ = true.
    [require_reinit] is the member of that name: BeginTrain runs first if set (133-142). *)
Definition train_batches {E} (a : alg E) pre (batches : list (list (point R * R)))
  (require_reinit : bool) (s : core * E * displayer) : option (core * E * displayer * list event) :=
  let '(c, e, dp) := s in
  do (c0, e0) <- (if require_reinit then a_begin a c e else Some (c, e));
  do (c1, e1, dp1, evs) <- foldM (fun b st => foldM (train_step a pre) b st) batches (c0, e0, dp, []);
  Some (set_updated c1 true, e1, dp1, event_of c1 :: evs).

(** The training loop on a plain list of examples (the same loop, callbacks left out). *)
Definition train {E} (a : alg E) pre (data : list (point R * R)) (c : core) (e : E)
  : option (core * E) :=
  foldM (fun d s => train_point a pre d (fst s) (snd s)) data (c, e).

(** Model::Test, model.cc:117-151: EndTrain if the model was trained, then PreProcess and Predict
    of every example; the labels, scores and the number of errors. *)
Definition test_point (pre : point R -> option (point R)) (c : core) (p : point R)
  : option (Z * Z * list R) :=
  do x <- pre p;
  do (lab, ps) <- predict c x;
  Some (p_label x, lab, ps).
Definition test {E} (a : alg E) pre (data : list (point R)) (c : core) (e : E)
  : option (list (Z * Z * list R) * Z * core * E) :=
  do (c1, e1) <- (if c_updated c then a_end a c e else Some (c, e));
  do rows <- mapM (test_point pre c1) data;
  Some (rows, Z.of_nat (length (filter (fun '(y, l, _) => negb (l =? y)) rows)), c1, e1).

(** OnlineLinearModel::EndTrain, online_linear_model.h:26-33: finalise each weight vector, then
    model_updated_ = false (model.h EndTrain). *)
Definition linear_end (finalize : list R -> list R) (c : core) : core :=
  set_updated (set_ws c (map finalize (c_ws c))) false.

(** OnlineL1Regularizer::FinalizeRegularization, regularizer.cc:44-49. *)
Definition finalize_l1 (thresh : R) (w : list R) : list R :=
  map (fun v => if n_lt N v thresh && n_lt N (n_opp N thresh) v then zero else v) w.

(** LazyOnlineL1Regularizer, regularizer.h:65-84: lambda_, sparse_thresh_, initial_t_,
    last_update_time_. *)
Record lazy_l1 := mklazy { z_lambda : R; z_thresh : R; z_t0 : R; z_last : list R }.

(** BeginIterate, regularizer.cc:67-75. *)
Definition lazy_begin (p : point R) (z : lazy_l1) : lazy_l1 :=
  let d := length (z_last z) in
  if Z.of_nat d <? x_dim p
  then mklazy (z_lambda z) (z_thresh z) (z_t0 z) (grow d (Z.to_nat (x_dim p)) (z_t0 z) (z_last z))
  else z.

(** EndIterate, regularizer.cc:77-87. *)
Fixpoint set_all (idx : list Z) (v : R) (l : list R) : option (list R) :=
  match idx with
  | [] => Some l
  | i :: r => do l' <- wr l (Z.to_nat i) v; set_all r v l'
  end.
Definition lazy_end (p : point R) (iter : Z) (z : lazy_l1) : option lazy_l1 :=
  let ts := n_int N (iter - 1) in
  do l1 <- set_all (p_idx p) ts (z_last z);
  do l2 <- wr l1 0 ts;
  Some (mklazy (z_lambda z) (z_thresh z) (z_t0 z) l2).

(** Model::CalibrateLabel, model.h:140-142. *)
Definition calibrate (n : nat) (label : Z) : Z :=
  if (n =? 1)%nat then (if label =? 1 then 1 else -1) else label.

(** Model::FilterFeatures, model.cc:316-325; [flags] is sel_feat_flags_ and has max_index_ + 1
    elements, [None] when no selection is loaded (max_index_ = 0). *)
Definition filter_value (flags : list bool) (iv : Z * R) : R :=
  let '(i, v) := iv in
  if (Z.of_nat (length flags) - 1 <? i) || negb (nth (Z.to_nat i) flags false) then zero else v.
Definition filter_features (flags : option (list bool)) (p : point R) : point R :=
  match flags with
  | None => p
  | Some fl => mkpt (p_label p) (p_idx p) (map (filter_value fl) (feats p))
  end.

(** Norm kinds, operator.h OpType; Model::PreProcess, model.cc:293-314. *)
Inductive norm_kind : Set := NoNorm | NormL1 | NormL2.
Definition preprocess (n : nat) (flags : option (list bool)) (k : norm_kind) (p : point R)
  : option (point R) :=
  let p1 := mkpt (calibrate n (p_label p)) (p_idx p) (p_val p) in
  let p2 := filter_features flags p1 in
  match k with
  | NoNorm => Some p2
  | NormL1 =>
    do s <- norm1 N (ESparse (feats p2));
    Some (mkpt (p_label p2) (p_idx p2) (calc_sparse_value (n_div N) (p_val p2) s))
  | NormL2 =>
    do s <- norm2 N (ESparse (feats p2));
    Some (mkpt (p_label p2) (p_idx p2) (calc_sparse_value (n_div N) (p_val p2) (n_sqrt N s)))
  end.

(** Initial state of a linear model: Model(class_num), OnlineModel and OnlineLinearModel
    constructors, model.cc:39-51, online_model.cc:60-77, online_linear_model.cc:24-42; [None] when
    class_num < 2 (Check, model.cc:47). *)
Definition new_core (class_num : nat) (k : loss_kind) : option core :=
  if (class_num <? 2)%nat then None
  else
    let n := if (class_num =? 2)%nat then 1%nat else class_num in
    Some (mkcore (repeat [zero] n) (repeat zero n) 1 one zero 0 0 0 0 0 false zero None k one zero
            false).

(** model_sparsity, online_linear_model.cc:140-150: number of non-zero weights besides the bias
    (the code then returns 1 - count / (clf_num * (dim - 1))). *)
Definition nonzero_count (c : core) : nat :=
  length (filter (fun v => negb (n_eq N v zero)) (concat (map (skipn 1) (c_ws c)))).
End Online.
Arguments mkcore {R}. Arguments c_ws {R}. Arguments c_g {R}. Arguments c_dim {R}. Arguments c_eta {R}.
Arguments c_b0 {R}. Arguments c_t0 {R}. Arguments c_iter {R}. Arguments c_data {R}. Arguments c_err {R}.
Arguments c_upd {R}. Arguments c_lazy {R}. Arguments c_active {R}. Arguments c_cost {R}.
Arguments c_loss {R}. Arguments c_margin {R}. Arguments c_vt {R}. Arguments c_updated {R}.
Arguments set_ws {R}. Arguments set_dim {R}. Arguments set_eta {R}. Arguments set_iter {R}.
Arguments set_data {R}. Arguments set_err {R}. Arguments set_upd {R}. Arguments set_margin {R}.
Arguments set_updated {R}. Arguments set_lres {R}.
Arguments mkalg {R E}. Arguments a_grow {R E}. Arguments a_begin {R E}. Arguments a_reg_begin {R E}.
Arguments a_prep {R E}. Arguments a_margin {R E}. Arguments a_update {R E}. Arguments a_reg_end {R E}.
Arguments a_end {R E}.
Arguments mklazy {R}. Arguments z_lambda {R}. Arguments z_thresh {R}. Arguments z_t0 {R}. Arguments z_last {R}.
