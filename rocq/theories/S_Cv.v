(** What cross validation should do; only the types of M_Cv are used, not its functions. *)
From Coq Require Import Reals Permutation.
From Verif Require Import M_Base M_Num M_DataPoint M_Cv.
Local Open Scope list_scope.
Local Open Scope nat_scope.

(** [chosen ps is a]: the setting [a] takes the value at position i of each range. *)
Inductive chosen {K V : Type} : list (K * list V) -> list nat -> list (K * V) -> Prop :=
| C_nil : chosen [] [] []
| C_cons k vs i v ps is a : nth_error vs i = Some v -> chosen ps is a -> chosen ((k, vs) :: ps) (i :: is) ((k, v) :: a).

(** All slices except [val], in order. *)
Definition others (fold val : nat) : list nat := seq 0 val ++ seq (S val) (fold - S val).

Section Task.
Context {P M D A : Type}.
Variables (create : P -> option M) (fit : D -> M -> option (A * M)) (score : D -> M -> option A).
(** The model is trained on these data in this order; the accuracy reported last. *)
Inductive trained : list D -> M -> A -> M -> Prop :=
| T_one d m a m' : fit d m = Some (a, m') -> trained [d] m a m'
| T_more d ds m a m1 a' m' : fit d m = Some (a, m1) -> trained ds m1 a' m' -> trained (d :: ds) m a' m'.
(** The data of some slices. *)
Definition data_of (slices : nat -> option D) (is : list nat) (ds : list D) : Prop := Forall2 (fun i d => slices i = Some d) is ds.
(** What a task has to find out. *)
Definition validated (slices : nat -> option D) (pass fold val : nat) (p : P) (ta va : A) : Prop :=
  exists m0 ds m dv, create p = Some m0 /\ data_of slices (others fold val) ds /\ trained (concat (repeat ds pass)) m0 ta m /\
    slices val = Some dv /\ score dv m = Some va.
End Task.

(** A run of [n] steps. *)
Inductive runs {A} (step : sys A -> sys A -> Prop) : nat -> sys A -> sys A -> Prop :=
| R_none s : runs step 0 s s
| R_step n s s1 s2 : step s s1 -> runs step n s1 s2 -> runs step (S n) s s2.
Definition finished {A} (s : sys A) (tr va : list A) : Prop := par s = Finished tr va.

(** The mean of real numbers. *)
Definition mean (l : list R) : R := (fold_right Rplus 0 l / INR (length l))%R.

(** The slices of one type in a directory are slices of one and the same split into [n]; [one_split n g] says that [g]
    gives them. *)
Definition one_set {F} (one_split : nat -> (nat -> F) -> Prop) (d : dir F) (t : list Z) (n : nat) : Prop :=
  exists g, one_split n g /\ forall i, i < n -> d i t = Some (g i).
(** The split tool: if it reports success it has written these files and no other; otherwise anything to these. *)
Definition splits {F} (one_split : nat -> (nat -> F) -> Prop) (split_data : nat -> list Z -> dir F -> Z * dir F) : Prop :=
  forall n t d d', split_data n t d = (0%Z, d') ->
    exists g, one_split n g /\ (forall i, i < n -> d' i t = Some (g i)) /\ (forall i u, ~ (i < n /\ u = t) -> d' i u = d i u).
(** Calls of split_file one after the other, none of which ends the program. *)
Inductive calls {F} (split_file : nat -> option (list Z) -> dir F -> bool * dir F) : list (nat * option (list Z)) -> dir F -> dir F -> Prop :=
| K_nil d : calls split_file [] d d
| K_cons n t d d1 l d2 : split_file n t d = (true, d1) -> calls split_file l d1 d2 -> calls split_file ((n, t) :: l) d d2.
