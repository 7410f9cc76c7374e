(** What the Python scripts promise; only the types of M_Script are used. *)
From Coq Require Import String.
From Verif Require Import M_Base M_Text M_Str M_Cmd M_Capi M_Cv M_Py M_Script.
Local Open Scope list_scope.
Local Open Scope Z_scope.

(** [d] has the value [v] for [k]. *)
Definition has (d : dict) (k : list Z) (v : pyval) : Prop := In (k, v) d.
Definition has_key (d : dict) (k : list Z) : Prop := In k (map fst d).
(** A dictionary has one value for a key. *)
Definition proper (d : dict) : Prop := NoDup (map fst d).
(** The same dictionary. *)
Definition same_dict (d d' : dict) : Prop := forall k v, has d k v <-> has d' k v.
(** [d] overridden by [e]. *)
Definition overridden (d e r : dict) : Prop := forall k v, has r k v <-> has e k v \/ (~ has_key e k /\ has d k v).
