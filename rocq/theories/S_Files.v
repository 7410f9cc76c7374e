(** What a data tool does to the files, independent of how it does it. *)
From Coq Require Import String.
From Verif Require Import M_Base M_Str M_Text M_Binary S_Text P_Binary S_Tools M_Files.
From Coq Require Import Sorted Permutation.

Section S.
Context {V : Type}.
Variable print_g : V -> option (list Z).
Variable mkval : Z -> Z -> V.
Variable pow10i : Z -> Z.
Variable is_zero : V -> bool.
Variable bits : V -> Z.
Variable unbits : Z -> V.
(** The six-digit decimal printed for a value. *)
Variable dec : V -> dec6.

(** The format a type name stands for; upper and lower case make no difference. *)
Definition format (k : kind) : list Z := match k with KSvm => bytes "svm" | KCsv => bytes "csv" | KBin => bytes "bin" end.
Definition named (t : list Z) (k : kind) : Prop := lower t = format k.
(** All files but these are as before. *)
Definition only (paths : list (list Z)) (fs fs' : files) : Prop := forall q, ~ In q paths -> fs' q = fs q.
(** The file [path] is there, is not empty if it is a csv file, and read in this format it has these examples. *)
Definition holds (fs : files) (path : list Z) (k : kind) (ps : list (point V)) : Prop :=
  exists c, fs path = Some c /\ (k = KCsv -> c <> []) /\ read mkval pow10i is_zero unbits k c = Some ps.

(** Examples which a format can represent: bounds on labels, indexes and values; for the binary format the values
    are determined by their four bytes; for text "%g" prints the decimal [dec]. *)
Definition printable (p : point V) : Prop :=
  Forall (fun v => print_g v = Some (print_g6 (d_neg (dec v)) (d_sig (dec v)) (d_ex (dec v)))) (p_val p).
Definition storable (k : kind) (p : point V) : Prop :=
  match k with
  | KBin => wf_point (recode bits p) /\ Forall (fun v => unbits (bits v) = v) (p_val p)
  | KSvm => writable (recode dec p) /\ printable p
  | KCsv => csv_writable 16777216 (recode dec p) /\ printable p
  end.
(** The example after writing and reading: binary, the same; svm, the features in the order of their indexes, the
    values as printed; csv, also without the features whose value is printed as 0. *)
Definition as_printed (v w : V) : Prop := exists m e, w = mkval m e /\ agrees (dec v) m e.
Definition kept (k : kind) (p q : point V) : Prop :=
  match k with
  | KBin => q = p
  | KSvm =>
    p_label q = p_label p /\ length (p_idx q) = length (p_val q) /\ StronglySorted Z.le (p_idx q) /\
    exists vs, Forall2 as_printed (p_val p) vs /\
      Permutation (combine (p_idx q) (p_val q)) (combine (p_idx p) vs) /\
      (StronglySorted Z.lt (p_idx p) -> p_idx q = p_idx p /\ p_val q = vs)
  | KCsv =>
    let some := filter (fun x => negb (d_sig (dec (snd x)) =? 0)) (combine (p_idx p) (p_val p)) in
    p_label q = p_label p /\ p_idx q = map fst some /\ Forall2 as_printed (map snd some) (p_val q)
  end.
(** The files of a split: n different names, number i is prefix i "." type. *)
Definition fold_files (prefix t : list Z) (n : nat) (paths : list (list Z)) : Prop :=
  length paths = n /\ NoDup paths /\
  forall i p, nth_error paths i = Some p -> exists d, print_d (Z.of_nat i) = Some d /\ p = prefix ++ d ++ bytes "." ++ t.
(** What convert makes of the values: nothing, or one of two values. *)
Definition changed (bin : option ((V -> bool) * V * V)) (ps out : list (point V)) : Prop :=
  match bin with
  | None => out = ps
  | Some (above, one, minus_one) => Forall2 (binarized above one minus_one) ps out
  end.
End S.
