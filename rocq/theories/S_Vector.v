(** Specification of a growable sequence, independent of the model's storage: what each
    operation may do to the visible elements. *)
From Coq Require Import List ZArith.
From Verif Require Import M_Vector.
Import ListNotations. Local Open Scope nat_scope.

Section S.
Context {A : Type}.

(** [seq_step l o l']: from the sequence [l], operation [o] leads to [l'].  Elements exposed by
    growing are left unspecified. *)
Inductive seq_step : list A -> vop A -> list A -> Prop :=
| ss_grow l n ext : length l + length ext = n -> seq_step l (VResize n) (l ++ ext)
| ss_shrink l n : n <= length l -> seq_step l (VResize n) (firstn n l)
| ss_push l x : seq_step l (VPush x) (l ++ [x])
| ss_pop l x : seq_step (l ++ [x]) VPop l
| ss_pop_empty : seq_step [] VPop []
| ss_clear l : seq_step l VClear []
| ss_reserve l n : seq_step l (VReserve n) l
| ss_set l1 y l2 x : seq_step (l1 ++ y :: l2) (VSet (length l1) x) (l1 ++ x :: l2)
| ss_slice l1 l2 f : seq_step (l1 ++ l2) (VSlice f (length l1)) (l1 ++ map f l2).

Inductive seq_run : list (vop A) -> list A -> list A -> Prop :=
| sr_nil l : seq_run [] l l
| sr_cons o r l l1 l2 : seq_step l o l1 -> seq_run r l1 l2 -> seq_run (o :: r) l l2.

(** Precondition of an operation on a sequence of length n: element writes and slices in range;
    sizes below 2^62. *)
Definition op_ok (n : nat) (o : vop A) : Prop :=
  match o with
  | VSet i _ => i < n
  | VSlice _ st => st <= n
  | VResize m => (Z.of_nat m < Z.pow 2 62)%Z
  | VPush _ => (Z.of_nat n + 1 < Z.pow 2 62)%Z
  | _ => True
  end.
(** Size after an operation. *)
Definition op_size (n : nat) (o : vop A) : nat :=
  match o with
  | VResize m => m | VPush _ => S n | VPop => pred n | VClear => 0 | _ => n
  end.
Fixpoint ops_ok (n : nat) (os : list (vop A)) : Prop :=
  match os with [] => True | o :: r => op_ok n o /\ ops_ok (op_size n o) r end.
End S.
