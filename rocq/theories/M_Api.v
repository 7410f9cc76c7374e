(** The C interface: sol_Predict.  src/sol/c_api.cc. *)
From Verif Require Import M_Base M_Num M_Expr M_Loss M_Online.

Section Api.
Context {R : Type}.
Variable N : num R.

(** The loop of OnlineLinearModel::Predict, which writes predicts[c] for every classifier c into a
    buffer of the caller, online_linear_model.cc:119-121; [None] past the end of the buffer. *)
Fixpoint write_scores (x : list (Z * R)) (ws : list (list R)) (i : nat) (buf : list R)
  : option (list R) :=
  match ws with
  | [] => Some buf
  | w :: r => do s <- score N x w; do b <- wr buf i s; write_scores x r (S i) b
  end.

(** OnlineLinearModel::Predict on a buffer, online_linear_model.cc:117-127: Sign(predicts[0]) for one
    classifier, else the first maximum among the first clf_num_ entries. *)
Definition predict_into (c : core (R:=R)) (p : point R) (buf : list R) : option (Z * list R) :=
  do b <- write_scores (feats p) (c_ws c) 0 buf;
  do lab <- label_of N (firstn (clf_num c) b);
  Some (lab, b).

(** The arguments of one callback: x.label(), label, clf_num() and what is in score_buf during the
    call, c_api.cc:132. *)
Record call := mkcall { k_true : Z; k_label : Z; k_clf : nat; k_scores : list R }.

(** Loop body of sol_Predict, c_api.cc:127-133: the calls made so far (latest first) and score_buf. *)
Definition predict_step pre (c : core (R:=R)) (p : point R) (s : list call * list R)
  : option (list call * list R) :=
  let '(calls, buf) := s in
  do x <- pre p;
  do (lab, b) <- predict_into c x buf;
  Some (mkcall (p_label x) lab (clf_num c) b :: calls, b).

(** The loop over the batches, c_api.cc:124-135; data_num is an int ([None]: it overflows). *)
Fixpoint predict_batches pre (c : core (R:=R)) (bs : list (list (point R)))
  (s : list call * list R) (data_num : Z) : option (list call * Z) :=
  match bs with
  | [] => Some (rev (fst s), data_num)
  | b :: r =>
    do s' <- foldM (predict_step pre c) b s;
    let n := data_num + Z.of_nat (length b) in
    if 2147483647 <? n then None else predict_batches pre c r s' n
  end.

(** sol_Predict, c_api.cc:114-138: EndTrain if the model was trained, then the loop with a new
    score_buf, whose contents [junk 0], [junk 1], ... are whatever new float[] leaves there.  Result: the callbacks in
    order, the returned number, the model afterwards. *)
Definition sol_predict {E} (a : alg E) pre (junk : nat -> R) (bs : list (list (point R)))
  (c : core (R:=R)) (e : E) : option (list call * Z * core * E) :=
  do (c1, e1) <- (if c_updated c then a_end a c e else Some (c, e));
  do (calls, n) <- predict_batches pre c1 bs ([], map junk (seq 0 (clf_num c1))) 0;
  Some (calls, n, c1, e1).
End Api.
Arguments mkcall {R}. Arguments k_true {R}. Arguments k_label {R}. Arguments k_clf {R}. Arguments k_scores {R}.
