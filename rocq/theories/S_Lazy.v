(** The eager algorithms that FOBOS_L1, AdaFOBOS_L1 and STG (ogd.cc, ada_fobos.cc:96-125) stand
    for: no times of last use are kept, every weight is truncated on every example. *)
From Verif Require Import M_Base M_Num M_Expr M_Loss M_Online M_Olm S_Expr.

Section S.
Context {R : Type}.
Variable N : num R.
Local Notation "a +! b" := (n_add N a b) (at level 50, left associativity).
Local Notation "a *! b" := (n_mul N a b) (at level 40, left associativity).
Local Notation "a /! b" := (n_div N a b) (at level 40, left associativity).

(** The bias moves towards zero by tb, the weight of feature i by th i; none crosses zero. *)
Definition shrink (tb : R) (th : nat -> R) (w : list R) : list R :=
  imap 0 (fun i v => op_trunc N v (if (i =? 0)%nat then tb else th i)) w.
(** Weights below the threshold become zero. *)
Definition cut (thresh : R) (w : list R) : list R :=
  map (fun v => if n_lt N v thresh && n_lt N (n_opp N thresh) v then zero N else v) w.

(** Constant step size eta.  Before each example all weights are truncated by eta lam and the bias
    by b0 eta lam; if there is a loss a gradient step follows.  When training ends the weights are
    truncated once more.  The code truncates the bias twice at that point, first as a weight. *)
Definition eager_fobos (eta lam thresh : R) : alg unit :=
  mkalg (grow_none N) begin_none reg_begin_none
    (fun p c e =>
       Some (set_ws c (map (shrink (c_b0 c *! eta *! lam) (fun _ => eta *! lam)) (c_ws c)), e))
    margin_none
    (fun p loss c e => do c' <- grad_steps N (feats p) (set_eta c eta); Some (c', e))
    reg_end_none
    (fun c e =>
       Some (set_updated (set_ws c (map (fun w => cut thresh
               (shrink (c_b0 c *! eta *! lam) (fun _ => zero N)
                  (shrink (eta *! lam) (fun _ => eta *! lam) w))) (c_ws c))) false, e)).

(** The same with the step size divided by the per-feature scale H. *)
Fixpoint shrink_all (f : list R -> list R -> list R) (ws Hs : list (list R)) : list (list R) :=
  match ws, Hs with
  | w :: ws', H :: Hs' => f w H :: shrink_all f ws' Hs'
  | _, _ => []
  end.
Definition eager_ada_fobos (delta lam thresh : R) : alg (list (list R)) :=
  mkalg (sigma_grow N delta) begin_none reg_begin_none
    (fun p c Hs =>
       Some (set_ws c (shrink_all (fun w H =>
               shrink (c_b0 c *! c_eta c *! lam /! nth 0 H (zero N))
                      (fun i => c_eta c *! lam /! nth i H (zero N)) w) (c_ws c) Hs), Hs))
    margin_none (ada_fobos_update N delta) reg_end_none
    (fun c Hs =>
       Some (set_updated (set_ws c (shrink_all (fun w H => cut thresh
               (shrink (c_b0 c *! c_eta c *! lam /! nth 0 H (zero N)) (fun _ => zero N)
                  (shrink (c_eta c *! lam /! nth 0 H (zero N))
                          (fun i => c_eta c *! lam /! nth i H (zero N)) w))) (c_ws c) Hs)) false, Hs)).

(** Truncation every k examples (STG, ogd.cc:74-131): after every k-th example, counted from the first
    iteration number t0, all weights are truncated by k eta lam; the bias is truncated by lam b0 eta
    before each example.  When training ends the weights are truncated for the examples since the last
    full period, and the bias by eta lam. *)
Definition eager_stg (eta lam thresh : R) (k : Z) : alg unit :=
  mkalg (grow_none N) begin_none reg_begin_none
    (fun p c e =>
       let done := c_iter c - 1 - c_t0 c in
       let th := if (0 <? done) && (done mod k =? 0) then n_int N k *! (eta *! lam) else zero N in
       Some (set_ws c (map (shrink (lam *! (c_b0 c *! eta)) (fun _ => th)) (c_ws c)), e))
    margin_none
    (fun p loss c e => do c' <- grad_steps N (feats p) (set_eta c eta); Some (c', e))
    reg_end_none
    (fun c e =>
       let rest := c_iter c - c_t0 c - k * Z.max 0 ((c_iter c - 1 - c_t0 c) / k) in
       Some (set_updated (set_ws c (map (fun w => cut thresh
               (shrink (eta *! lam) (fun _ => n_int N rest *! (eta *! lam)) w)) (c_ws c))) false, e)).

(** Two states of a model that differ at most in the weights. *)
Definition same_but_weights (c c' : core (R:=R)) : Prop := c' = set_ws c (c_ws c').
End S.
