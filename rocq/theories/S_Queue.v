(** What a bounded first-in first-out queue is. *)
From Verif Require Import M_Base M_Queue.

Section S.
Context {A : Type}.

(** The stored sequence after some effects: putting needs room and appends, taking removes the first
    item, which is the item taken. *)
Inductive fifo (cap : nat) : list (effect (A:=A)) -> list A -> Prop :=
| fifo_nil : fifo cap [] []
| fifo_put fs c x : fifo cap fs c -> (length c < cap)%nat -> fifo cap (fs ++ [Put x]) (c ++ [x])
| fifo_take fs c x : fifo cap fs (x :: c) -> fifo cap (fs ++ [Take x]) c.

(** The effects, puts and takes within a sequence of events. *)
Definition effects (l : list (event (A:=A))) : list (effect (A:=A)) :=
  concat (map (fun v => match v with EvEffect _ f => [f] | _ => [] end) l).
Definition puts (l : list (effect (A:=A))) : list A := concat (map (fun f => match f with Put x => [x] | _ => [] end) l).
Definition takes (l : list (effect (A:=A))) : list A := concat (map (fun f => match f with Take x => [x] | _ => [] end) l).

(** What a completed call has done: exactly the effects of the operation, in order, and the items taken
    are those returned. *)
Definition done (o : qop (A:=A)) (fs : list (effect (A:=A))) (r : list A) : Prop :=
  match o with
  | OEnqueue x => fs = [Put x] /\ r = []
  | OEnqueues xs => fs = map Put xs /\ r = []
  | ODequeue => exists x, fs = [Take x] /\ r = [x]
  | ODequeues n _ => fs = map Take r /\ (length r <= n)%nat /\ (n <> O -> r <> [])
  end.
(** The events of one thread alternate: a call, its effects, its return.  [idle t l]: t is between two
    calls; [inside t o fs l]: it has called o and had the effects fs. *)
Definition other (t : nat) (v : event (A:=A)) : Prop :=
  match v with EvCall u _ | EvEffect u _ | EvReturn u _ => u <> t end.
Inductive idle (t : nat) : list (event (A:=A)) -> Prop :=
| idle_nil : idle t []
| idle_other l v : idle t l -> other t v -> idle t (l ++ [v])
| idle_return l o fs r : inside t o fs l -> done o fs r -> idle t (l ++ [EvReturn t r])
with inside (t : nat) : qop -> list effect -> list (event (A:=A)) -> Prop :=
| inside_call l o : idle t l -> inside t o [] (l ++ [EvCall t o])
| inside_other l v o fs : inside t o fs l -> other t v -> inside t o fs (l ++ [v])
| inside_effect l o fs f : inside t o fs l -> inside t o (fs ++ [f]) (l ++ [EvEffect t f]).

(** Calls other than the forced batch Dequeue. *)
Definition unforced (a : action (A:=A)) : Prop := match a with Call _ (ODequeues _ true) => False | _ => True end.
(** Calls other than a batch Dequeue of no item at all. *)
Definition useful (a : action (A:=A)) : Prop := match a with Call _ (ODequeues O _) => False | _ => True end.
(** Calls that add and calls that take. *)
Definition adds (o : qop (A:=A)) : Prop := match o with OEnqueue _ | OEnqueues _ => True | _ => False end.
Definition removes (o : qop (A:=A)) : Prop := match o with ODequeue | ODequeues _ _ => True | _ => False end.
End S.
