(** All registered linear models: their algorithm, the state their constructor sets up, and a
    session with the library (training, testing). *)
From Verif Require Import M_Base M_Num M_Expr M_Loss M_Online M_Olm M_OlmSel M_Heap.

Section Algs.
Context {R : Type}.
Variable N : num R.
Local Notation zero := (zero N).
Local Notation one := (one N).

(** The registered models with their parameters: RegisterModel in perceptron.cc:49, pa.cc:32,58,83,
    ogd.cc:72,138,169,243, rda.cc:105,134,181, alma2.cc:98, sop.cc:115, arow.cc:113,253, cw.cc:144,
    eccw.cc:154, ada_fobos.cc:94,127,259, ada_rda.cc:124,152,312, fofs.cc:114. *)
Inductive kind : Type :=
| KPerceptron
| KPA
| KPA1 (C : R)
| KPA2 (C : R)
| KOGD (eta0 power_t : R)
| KSTG (eta0 power_t lam thresh : R) (k : Z)
| KFOBOS_L1 (eta0 power_t lam thresh : R)
| KPET (eta0 power_t : R) (B : nat)
| KRDA (sigma : R)
| KRDA_L1 (sigma lam thresh : R)
| KERDA_L1 (sigma lam rou thresh : R)
| KALMA2 (alpha C sp1 : R)
| KSOP (a : R)
| KAROW (r : R)
| KSOFS (r : R) (B : nat)
| KCW (a phi : R) (bias_on : bool)
| KECCW (a phi : R) (bias_on : bool)
| KAdaFOBOS (delta : R)
| KAdaFOBOS_L1 (delta lam thresh : R)
| KAdaFOBOS_OFS (delta : R) (B : nat)
| KAdaRDA (delta : R)
| KAdaRDA_L1 (delta lam thresh : R)
| KAdaRDA_OFS (delta : R) (B : nat)
| KFOFS (lam : R) (B : nat).

(** The state of each model besides the weights (members declared in include/sol/model/olm/*.h). *)
Definition state_of (k : kind) : Type :=
  match k with
  | KPerceptron | KPA | KPA1 _ | KPA2 _ | KOGD _ _ => unit
  | KSTG _ _ _ _ _ => list R
  | KFOBOS_L1 _ _ _ _ => lazy_l1 (R:=R)
  | KPET _ _ _ | KFOFS _ _ => sel1 (R:=R)
  | KRDA _ | KRDA_L1 _ _ _ | KERDA_L1 _ _ _ _ => list (list R)
  | KALMA2 _ _ _ => Z
  | KSOP _ => sop_state (R:=R)
  | KAROW _ | KCW _ _ _ | KECCW _ _ _ | KAdaFOBOS _ => list (list R)
  | KSOFS _ _ | KAdaFOBOS_OFS _ _ => sel2 (R:=R)
  | KAdaFOBOS_L1 _ _ _ => (list (list R) * lazy_l1 (R:=R))%type
  | KAdaRDA _ | KAdaRDA_L1 _ _ _ => ada_rda_state (R:=R)
  | KAdaRDA_OFS _ _ => sel2u (R:=R)
  end.

(** The overrides of each model; see M_Olm and M_OlmSel for the lines of the code. *)
Definition alg_of (k : kind) : alg (R:=R) (state_of k) :=
  match k with
  | KPerceptron => perceptron N
  | KPA => pa N
  | KPA1 C => pa1 N C
  | KPA2 C => pa2 N C
  | KOGD e p => ogd N e p
  | KSTG e p l t k => stg N e p l t k
  | KFOBOS_L1 e p _ _ => fobos_l1 N e p
  | KPET e p B => pet N e p B
  | KRDA s => rda N s
  | KRDA_L1 s l t => rda_l1 N s l t
  | KERDA_L1 s l r t => erda_l1 N s l r t
  | KALMA2 a C s => alma2 N a C s
  | KSOP a => sop N a
  | KAROW r => arow N r
  | KSOFS r B => sofs N r B
  | KCW a p b => cw N a p b
  | KECCW a p b => eccw N a p b
  | KAdaFOBOS d => ada_fobos N d
  | KAdaFOBOS_L1 d _ _ => ada_fobos_l1 N d
  | KAdaFOBOS_OFS d B => ada_fobos_ofs N d B
  | KAdaRDA d => ada_rda N d
  | KAdaRDA_L1 d l t => ada_rda_l1 N d l t
  | KAdaRDA_OFS d B => ada_rda_ofs N d B
  | KFOFS l B => fofs N l B
  end.

(** The state set up by the constructors for n classifiers of dimension 1 (perceptron.cc, pa.cc,
    ogd.cc have none; STG: last_trunc_time_ is an empty vector until BeginTrain; regularizer.cc:51-54;
    rda.cc:20-27; alma2.cc:31; sop.cc:15-24; arow.cc:17-24,115-122; cw.cc:17-26; eccw.cc:18-27;
    ada_fobos.cc:20-26,130-138; ada_rda.cc:20-30,156-164; ogd.h:92-94; fofs.h:40-44), after the
    parameters of the kind have been set. *)
Definition init_of (k : kind) (n : nat) : state_of k :=
  match k with
  | KPerceptron | KPA | KPA1 _ | KPA2 _ | KOGD _ _ => tt
  | KSTG _ _ _ _ _ => []
  | KFOBOS_L1 _ _ l t => mklazy l t zero [zero]
  | KPET _ _ _ | KFOFS _ _ => ([], heap_empty)
  | KRDA _ | KRDA_L1 _ _ _ | KERDA_L1 _ _ _ _ => repeat [zero] n
  | KALMA2 _ _ _ => 1
  | KSOP _ => ([zero], repeat [zero] n)
  | KAROW _ => repeat [one] n
  | KCW a _ _ | KECCW a _ _ => repeat [a] n
  | KAdaFOBOS d => repeat [d] n
  | KSOFS _ _ => mksel2 (repeat [one] n) [] heap_empty
  | KAdaFOBOS_OFS d _ => mksel2 (repeat [d] n) [] heap_empty
  | KAdaFOBOS_L1 d l t => (repeat [d] n, mklazy l t zero [zero])
  | KAdaRDA d | KAdaRDA_L1 d _ _ => repeat ([d], [zero]) n
  | KAdaRDA_OFS d _ => (mksel2 (repeat [d] n) [] heap_empty, repeat [zero] n)
  end.

(** What a user of the library does with a model: train on batches, test (Model::Train /
    Model::Test through sol_tools and the C interface, c_api.cc:70-112), or SetParameter, of which
    only the effect require_reinit_ = true is modelled here (model.cc:77, online_model.cc:107; parameters keep their
    value). *)
Inductive use : Type :=
| UTrain (batches : list (list (point R * R)))
| UTest (data : list (point R))
| UReset.

(** A session: the model, and whether BeginTrain must still run (require_reinit_, model.h:197; set
    by the constructor, model.cc:49, cleared by BeginTrain, model.cc:157). *)
Definition use_step {E} (a : alg E) pre (u : use) (s : core * E * bool) : option (core * E * bool) :=
  let '(c, e, reinit) := s in
  match u with
  | UTrain batches =>
    do (c1, e1, _, _) <- train_batches N a pre batches reinit (c, e, ExpShow 2 2 1);
    Some (c1, e1, false)
  | UTest data =>
    do (_, _, c1, e1) <- test N a pre data c e;
    Some (c1, e1, reinit)
  | UReset => Some (c, e, true)
  end.
Definition session {E} (a : alg E) pre (us : list use) (s : core * E * bool) : option (core * E * bool) :=
  foldM (use_step a pre) us s.
End Algs.
Arguments KPerceptron {R}. Arguments KPA {R}.
Arguments UTrain {R}. Arguments UTest {R}. Arguments UReset {R}.
