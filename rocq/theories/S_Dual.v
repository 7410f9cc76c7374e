(** Dual averaging as it is meant: the learner remembers nothing but the list of its past gradients and
    recomputes the whole weight vector from their sum before every example.
    What rda.cc and ada_rda.cc stand for. *)
From Verif Require Import M_Base M_Num M_Expr M_Loss M_Online M_Olm M_Algs S_Expr S_Online S_Session.

Section S.
Context {R : Type}.
Variable N : num R.
Local Notation zero := (zero N).
Local Notation one := (one N).
Local Notation "a +! b" := (n_add N a b) (at level 50, left associativity).
Local Notation "a -! b" := (n_sub N a b) (at level 50, left associativity).
Local Notation "a *! b" := (n_mul N a b) (at level 40, left associativity).
Local Notation "a /! b" := (n_div N a b) (at level 40, left associativity).

(** One entry per example that caused an update, the latest first: its features and the derivative of
    the loss by the score of each class. *)
Definition history : Type := list (list (Z * R) * list R).

(** Sum over the past of the gradient of class k at coordinate i.  Coordinate 0 is the bias.  Examples
    with zero derivative and examples without the feature do not count. *)
Fixpoint gsum (h : history) (k i : nat) : R :=
  match h with
  | [] => zero
  | (x, gs) :: h' =>
    let g := nth k gs zero in
    if n_eq N g zero then gsum h' k i else
    let u := match lookup x i with Some v => gsum h' k i +! g *! v | None => gsum h' k i end in
    if (i =? 0)%nat then u +! g else u
  end.
(** Scale of coordinate i: delta plus the root of the sum of the squared gradients. *)
Fixpoint scale (delta : R) (h : history) (k i : nat) : R :=
  match h with
  | [] => delta
  | (x, gs) :: h' =>
    let g := nth k gs zero in
    let s := scale delta h' k i in
    let more s d := n_sqrt N ((s -! delta) *! (s -! delta) +! d *! d) +! delta in
    if n_eq N g zero then s else
    let u := match lookup x i with Some v => more s (g *! v) | None => s end in
    if (i =? 0)%nat then more u g else u
  end.

(** The learner: before each example it sets the step size to eta1 and all weights to wt1; when
    training ends, to eta2 and wt2, followed by fin. *)
Definition table (n d : nat) (f : nat -> nat -> R) : list (list R) :=
  map (fun k => map (f k) (seq 0 d)) (seq 0 n).
Definition dual (eta1 eta2 : core (R:=R) -> R) (wt1 wt2 : core (R:=R) -> history -> nat -> nat -> R)
  (fin : list R -> list R) : alg history :=
  mkalg (fun d c h => Some (linear_update_dim N d c, h)) begin_none reg_begin_none
    (fun p c h =>
       let c1 := set_eta c (eta1 c) in
       Some (set_ws c1 (table (clf_num c) (c_dim c) (wt1 c1 h)), h))
    margin_none
    (fun p loss c h => Some (c, (feats p, c_g c) :: h))
    reg_end_none
    (fun c h =>
       let c1 := set_eta c (eta2 c) in
       Some (set_updated (set_ws c1 (map fin (table (clf_num c) (c_dim c) (wt2 c1 h)))) false, h)).

(** Minus step size times the (truncated) sum; the bias has the step size b0 eta. *)
Definition step_to (f : R -> R) (c : core (R:=R)) (h : history) (k i : nat) : R :=
  n_opp N (if (i =? 0)%nat then c_b0 c *! c_eta c else c_eta c) *! f (gsum h k i).
(** The same divided by the scale. *)
Definition scaled_step_to (delta : R) (f : R -> R) (c : core (R:=R)) (h : history) (k i : nat) : R :=
  step_to f c h k i /! scale delta h k i.

(** Whatever a user does (within [can]) with two models, a and a' with the initial states e0 and e0', they
    differ at most in the weights; they answer each further training example with the same label and
    scores, whether or not its label is then asked for; and a test gives the same answers and leaves equal
    models.  Examples have feature indexes from [lo] on. *)
Definition indistinguishable {E E'} (a : alg (R:=R) E) (a' : alg (R:=R) E') (n : nat) (c0 : core (R:=R))
  (e0 : E) (e0' : E') (lo : Z) (can : use (R:=R) -> Prop) : Prop :=
  forall pre us, Forall (use_ok lo n pre) us -> Forall can us ->
  exists c e c' e' r,
    session N a pre us (c0, e0, true) = Some (c, e, r) /\
    session N a' pre us (c0, e0', true) = Some (c', e', r) /\
    c' = set_ws c (c_ws c') /\
    (forall p rnd, wf_point lo p -> label_ok n (p_label p) ->
       exists lab ps c1 e1 c1' e1',
         iterate N a p rnd c e = Some (lab, ps, c1, e1) /\
         iterate N a' p rnd c' e' = Some (lab, ps, c1', e1')) /\
    (forall data, Forall (accepts lo n pre) data ->
       exists rows errs c1 e1 e1',
         test N a pre data c e = Some (rows, errs, c1, e1) /\
         test N a' pre data c' e' = Some (rows, errs, c1, e1')).

Definition all_uses (u : use (R:=R)) : Prop := True.
(** Training only: no test that would finish the model. *)
Definition no_test (u : use (R:=R)) : Prop := match u with UTest _ => False | _ => True end.

(** The weights are a cache: after any session, replacing them by arbitrary ones (of the right number and
    dimension) changes no answer to a further training example, and finishing gives the same model. *)
Definition weights_are_cache {E} (a : alg (R:=R) E) (n : nat) (c0 : core (R:=R)) (e0 : E) (lo : Z) : Prop :=
  forall pre us c e r, Forall (use_ok lo n pre) us -> session N a pre us (c0, e0, true) = Some (c, e, r) ->
  forall ws, length ws = n -> Forall (fun w => length w = c_dim c) ws ->
    (forall p rnd, wf_point lo p -> label_ok n (p_label p) ->
       exists lab ps c1 e1 c1' e1',
         iterate N a p rnd c e = Some (lab, ps, c1, e1) /\
         iterate N a p rnd (set_ws c ws) e = Some (lab, ps, c1', e1') /\ c1' = set_ws c1 (c_ws c1')) /\
    (forall c1 e1, a_end a c e = Some (c1, e1) -> exists e1', a_end a (set_ws c ws) e = Some (c1, e1')).

(** The number of examples seen, plus 1e-20: t examples before the example t + 1, or t in all. *)
Definition before (c : core (R:=R)) : R := n_int N (c_iter c - 1) +! n_lit N 1 (-20).
Definition upto (c : core (R:=R)) : R := n_int N (c_iter c) +! n_lit N 1 (-20).
Definition cut_small (thresh : R) (w : list R) : list R :=
  map (fun v => if n_lt N v thresh && n_lt N (n_opp N thresh) v then zero else v) w.

(** RDA: step size 1/(t sigma). *)
Definition dual_rda (sigma : R) : alg history :=
  dual (fun c => one /! (before c *! sigma)) (fun c => one /! (upto c *! sigma))
    (step_to (fun u => u)) (step_to (fun u => u)) (fun w => w).
(** RDA_L1: the sum is truncated by lam t; before an example t is not offset by 1e-20. *)
Definition dual_rda_l1 (sigma lam thresh : R) : alg history :=
  let now (c : core) := n_int N (c_iter c) -! one in
  dual (fun c => one /! (now c *! sigma)) (fun c => one /! (upto c *! sigma))
    (fun c => step_to (fun u => op_trunc N u (lam *! now c)) c)
    (fun c => step_to (fun u => op_trunc N u (lam *! upto c)) c) (cut_small thresh).
(** ERDA_L1: step size 1/(sqrt t sigma), truncation by lam t + sigma rou sqrt t. *)
Definition dual_erda_l1 (sigma lam rou thresh : R) : alg history :=
  let th t := lam *! t +! sigma *! rou *! n_sqrt N t in
  dual (fun c => one /! (n_sqrt N (before c) *! sigma)) (fun c => one /! (n_sqrt N (upto c) *! sigma))
    (fun c => step_to (fun u => op_trunc N u (th (before c))) c)
    (fun c => step_to (fun u => op_trunc N u (th (upto c))) c) (cut_small thresh).
(** AdaRDA_L1: fixed step size, scaled, truncated by lam (t + 1) before and lam t at the end, where the
    bias is multiplied by b0 last. *)
Definition dual_ada_rda_l1 (delta lam thresh : R) : alg history :=
  let f (c : core) u := op_trunc N u (lam *! n_int N (c_iter c)) in
  dual c_eta c_eta (fun c => scaled_step_to delta (f c) c)
    (fun c h k i =>
       let w := n_opp N (c_eta c) *! f c (gsum h k i) /! scale delta h k i in
       if (i =? 0)%nat then w *! c_b0 c else w) (cut_small thresh).
(** Some example of the past changed coordinate i of class k. *)
Fixpoint touched (h : history) (k i : nat) : bool :=
  match h with
  | [] => false
  | (x, gs) :: h' =>
    negb (n_eq N (nth k gs zero) zero) && (match lookup x i with Some _ => true | None => false end) || touched h' k i
  end.
(** AdaRDA: fixed step size, scaled, no truncation; no bias while training. *)
Definition dual_ada_rda (delta : R) : alg history :=
  let w (c : core (R:=R)) h k i := n_opp N (c_eta c) *! gsum h k i /! scale delta h k i in
  dual c_eta c_eta (fun c h k i => if (i =? 0)%nat then zero else if touched h k i then w c h k i else zero)
    (fun c h k i => if (i =? 0)%nat then w c h k i *! c_b0 c else w c h k i) (fun w => w).
End S.
