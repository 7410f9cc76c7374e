(** What a feature list file means, without reference to the reader. *)
From Verif Require Import M_Base.

(** A line of the file: a comment, or a number possibly preceded by white space and a plus sign and
    followed by anything that does not continue the number. *)
Inductive entry : Type :=
| Comment (blanks text : list Z)
| Index (space : list Z) (plus : bool) (digits rest : list Z).

Definition entry_text (e : entry) : list Z :=
  match e with
  | Comment b t => b ++ [35] ++ t
  | Index sp p ds r => sp ++ (if p then [43] else []) ++ ds ++ r
  end.
(** Decimal value. *)
Definition dec_val (ds : list Z) : Z := fold_left (fun a c => 10 * a + (c - 48)) ds 0.

Definition no_newline (l : list Z) : Prop := Forall (fun c => c <> 10) l.
Definition entry_ok (e : entry) : Prop :=
  match e with
  | Comment b t => Forall (fun c => c = 32 \/ c = 9) b /\ no_newline t
  | Index sp _ ds r =>
    Forall (fun c => c = 32 \/ c = 9 \/ c = 11 \/ c = 12 \/ c = 13) sp /\
    Forall (fun c => 48 <= c <= 57) ds /\ 1 <= dec_val ds <= 2147483647 /\ no_newline r /\
    (forall c r', r = c :: r' -> ~ 48 <= c <= 57)
  end.
(** The selected indexes. *)
Definition chosen (es : list entry) : list Z :=
  concat (map (fun e => match e with Comment _ _ => [] | Index _ _ ds _ => [dec_val ds] end) es).

(** The file: every line ends with a newline, except possibly the last. *)
Definition lines_text (es : list entry) : list Z := concat (map (fun e => entry_text e ++ [10]) es).
Definition file_of (es : list entry) (last_newline : bool) : list Z :=
  if last_newline then lines_text es else removelast (lines_text es).

(** A line that is no comment and does not start with a number. *)
Definition no_number (l : list Z) : Prop :=
  exists sp sg t, l = sp ++ sg ++ t /\ no_newline l /\
    Forall (fun c => c = 32 \/ c = 9 \/ c = 11 \/ c = 12 \/ c = 13) sp /\ (sg = [] \/ sg = [43] \/ sg = [45]) /\
    (forall c r, t = c :: r -> ~ 48 <= c <= 57 /\
       (sg = [] -> c <> 35 /\ c <> 43 /\ c <> 45 /\ ~ (c = 32 \/ c = 9 \/ c = 11 \/ c = 12 \/ c = 13))).
