(** Words for the properties about finishing training. *)
From Verif Require Import M_Base M_Num M_Online M_Algs.

(** The models whose EndTrain does not depend on the weights it finds: all but the three that
    truncate lazily and dual averaging with feature selection. *)
Definition settles {R} (k : kind (R:=R)) : bool :=
  match k with
  | KSTG _ _ _ _ _ | KFOBOS_L1 _ _ _ _ | KAdaFOBOS_L1 _ _ _ => false
  | KAdaRDA_OFS _ B => (B =? 0)%nat
  | _ => true
  end.
