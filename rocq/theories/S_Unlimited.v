(** Which model a feature-selection model without a limit (budget 0) should be. *)
From Verif Require Import M_Base M_Algs.
Definition extends {R} (k : kind (R:=R)) : option kind :=
  match k with
  | KPET e p O => Some (KOGD e p)
  | KSOFS r O => Some (KAROW r)
  | KAdaFOBOS_OFS d O => Some (KAdaFOBOS d)
  | KAdaRDA_OFS d O => Some (KAdaRDA d)
  | _ => None
  end.
