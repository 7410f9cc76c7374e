(** What the string helpers and the registry should do. *)
From Verif Require Import M_Base.

(** ps are the maximal non-empty pieces of l without the separator d, in order. *)
Inductive pieces (d : Z) : list Z -> list (list Z) -> Prop :=
| pieces_none l : Forall (fun c => c = d) l -> pieces d l []
| pieces_some pre w rest ps :
    Forall (fun c => c = d) pre -> w <> [] -> Forall (fun c => c <> d) w ->
    (rest = [] \/ exists r, rest = d :: r) -> pieces d rest ps ->
    pieces d (pre ++ w ++ rest) (w :: ps).

(** Writing pieces with a separator between them. *)
Fixpoint join (d : Z) (ps : list (list Z)) : list Z :=
  match ps with
  | [] => []
  | [p] => p
  | p :: r => p ++ [d] ++ join d r
  end.

(** Equal but for the case of letters A-Z. *)
Definition same_letter (x y : Z) : Prop :=
  x = y \/ (65 <= x <= 90 /\ y = x + 32) \/ (65 <= y <= 90 /\ x = y + 32).
Definition same_name (a b : list Z) : Prop := Forall2 same_letter a b.
