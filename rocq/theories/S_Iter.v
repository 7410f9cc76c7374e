(** What a data iterator should deliver. *)
From Verif Require Import M_Base M_Queue M_Iter.

Section S.
Context {P : Type}.
Notation iact := (iact (P:=P)).

(** A source: the examples of one pass, whether a pass ends with an error, how many passes are wanted. *)
Definition source : Type := list P * bool * Z.
(** The examples it should deliver: those of every pass; with an error those before it, once. *)
Definition examples (x : source) : list P :=
  let '(pts, bad, pass) := x in
  if pass <=? 0 then [] else if bad then pts else concat (repeat pts (Z.to_nat pass)).
(** One pass in mini-batches of [bs]: full ones, and what remains, possibly nothing, in a last one. [c]: what the
    current one already contains. *)
Fixpoint cut (bs : nat) (c l : list P) : list (list P) :=
  match l with
  | [] => [c]
  | x :: r => if (length (c ++ [x]) <? bs)%nat then cut bs (c ++ [x]) r else (c ++ [x]) :: cut bs [] r
  end.
Definition parts (bs : nat) (x : source) : list (list P) :=
  let '(pts, bad, pass) := x in
  if pass <=? 0 then [] else if bad then cut bs [] pts else concat (repeat (cut bs [] pts) (Z.to_nat pass)).
(** The sources added in a sequence of actions. *)
Definition added (a : iact) : list source := match a with AAdd pts bad pass => [(pts, bad, pass)] | _ => [] end.
Definition sources (l : list iact) : list source := concat (map added l).
Definition wanted (l : list iact) : list P := concat (map examples (sources l)).
Definition portions (bs : nat) (l : list iact) : list (list P) := concat (map (parts bs) (sources l)).
(** The returned mini-batches; what they contain. *)
Definition batches (o : list (output (P:=P))) : list (list P) := concat (map (fun b => match b with Some c => [c] | None => [] end) o).
Definition delivered (o : list (output (P:=P))) : list P := concat (map (fun b => match b with Some c => c | None => [] end) o).

(** Actions that threads do by themselves; those of the caller's program; wake-ups without a reason. *)
Definition internal (a : iact) : bool := match a with AMain _ | ARead _ _ => true | _ => false end.
Definition spurious (a : iact) : bool := match a with ASpurF _ | ASpurB _ => true | _ => false end.
Definition callers (a : iact) : bool := match a with ANext | AAdd _ _ _ | ADestroy => true | _ => false end.
End S.
