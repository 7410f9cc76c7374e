(** C65: what the data tools do to files. *)
From Coq Require Import String.
From Verif Require Import M_Base M_Str M_DataPoint M_Text M_Binary M_Iter S_Iter M_Tools M_Files S_Text S_Str S_Tools S_Files P_Binary P_TextFiles P_Str P_Tools Props_Tools P_Files P_Files2.
From Coq Require Import Sorted Permutation.

Section T.
Context {V : Type}.
(** Printing and parsing of values, their bytes, and which paths can be opened for writing: see M_Files. *)
Variable print_g : V -> option (list Z).
Variable mkval : Z -> Z -> V.
Variable pow10i : Z -> Z.
Variable is_zero : V -> bool.
Variable bits : V -> Z.
Variable unbits : Z -> V.
Variable can_write : list Z -> bool.
Variable dec : V -> dec6.
Notation storable := (storable print_g bits unbits dec).
Notation kept := (kept mkval dec).
Notation holds := (holds mkval pow10i is_zero unbits).
Notation run_convert := (run_convert print_g mkval pow10i is_zero bits unbits can_write).
Notation run_shuffle := (run_shuffle print_g mkval pow10i is_zero bits unbits can_write).
Notation run_split := (run_split print_g mkval pow10i is_zero bits unbits can_write).
Notation run_concat := (run_concat print_g mkval pow10i is_zero bits unbits can_write).

(** C65: converting a file that is read as [ps] gives, under the other path and in the other format, a file that is
    read as the same examples (up to what the format cannot keep), binarised if asked; no other file changes. *)
Theorem C65_convert : (forall m e, is_zero (mkval m e) = (m =? 0)) ->
  forall fs src st k1 dst dt k2 bin ps out,
  named st k1 -> named dt k2 -> (k2 = KCsv -> dt = bytes "csv" /\ all_idx ps <> []) ->
  src <> bytes "-" -> dst <> bytes "-" -> src <> dst -> can_write dst = true ->
  holds fs src k1 ps -> changed bin ps out -> Forall (storable k2) out ->
  exists fs' qs, run_convert src st dst dt bin fs = Some (Status_OK, fs') /\ only [dst] fs fs' /\
    holds fs' dst k2 qs /\ Forall2 (kept k2) out qs.
Proof.
  intros Z0 fs src st k1 dst dt k2 bin ps out N1 N2 Hc D1 D2 Ne W H Ch St.
  destruct (convert_ok print_g mkval pow10i is_zero bits unbits dec can_write Z0 fs src st k1 dst dt k2 bin ps out N1 N2 Hc D1 D2 Ne W H Ch St) as (c & qs & E & _ & R & Cn & F).
  exists (put fs dst c), qs. split; [exact E|]. split; [apply put_only|]. split; [|exact F]. exists c. rewrite put_same. auto.
Qed.
(** C65: shuffling gives a file with the examples in some order. *)
Theorem C65_shuffle : (forall m e, is_zero (mkval m e) = (m =? 0)) ->
  forall fs src st k1 dst dt k2 perm ps,
  named st k1 -> named (match dt with [] => st | _ => dt end) k2 ->
  src <> bytes "-" -> dst <> bytes "-" -> src <> dst -> can_write dst = true ->
  holds fs src k1 ps -> Permutation perm (seq 0 (length ps)) -> Forall (storable k2) ps ->
  exists fs' l qs, run_shuffle src st dst dt perm fs = Some (Status_OK, fs') /\ only [dst] fs fs' /\
    Permutation l ps /\ holds fs' dst k2 qs /\ Forall2 (kept k2) l qs.
Proof.
  intros Z0 fs src st k1 dst dt k2 perm ps N1 N2 D1 D2 Ne W H Pe St.
  destruct (shuffle_ok print_g mkval pow10i is_zero bits unbits dec can_write Z0 fs src st k1 dst dt k2 perm ps N1 N2 D1 D2 Ne W H Pe St) as (c & l & qs & E & P & R & Cn & F).
  exists (put fs dst c), l, qs. split; [exact E|]. split; [apply put_only|]. split; [exact P|]. split; [|exact F]. exists c. rewrite put_same. auto.
Qed.
(** C65: splitting gives n files with n pieces of equal size (the last ones may be shorter) which make up the data. *)
Theorem C65_split : (forall m e, is_zero (mkval m e) = (m =? 0)) ->
  forall fs src st k1 n prefix dt k2 perm ps,
  named st k1 -> named dt k2 -> src <> bytes "-" -> holds fs src k1 ps ->
  1 <= n < 2147483648 -> 1 <= Z.of_nat (length ps) <= 16777216 -> shuffled perm ps ->
  (forall i d, 0 <= i < n -> print_d i = Some d -> can_write (prefix ++ d ++ bytes "." ++ dt) = true) ->
  Forall (storable k2) ps ->
  exists fs' paths l outs, run_split src st n prefix dt perm fs = Some (Status_OK, fs') /\
    fold_files prefix dt (Z.to_nat n) paths /\ only paths fs fs' /\
    Permutation l ps /\ (perm = None -> l = ps) /\ concat outs = l /\
    S_Tools.cut (Z.to_nat ((Z.of_nat (length ps) + n - 1) / n)) (Z.to_nat n) l outs /\
    Forall2 (fun p out => exists qs, holds fs' p k2 qs /\ Forall2 (kept k2) out qs) paths outs.
Proof.
  intros Z0 fs src st k1 n prefix dt k2 perm ps N1 N2 D1 H Hn Hl Hp W St.
  assert (W' : forall j p, 0 <= j < n -> fold_path prefix dt j = Some p -> can_write p = true).
  { intros j p Hj E. unfold fold_path in E. destruct (print_d j) as [d|] eqn:Ed; cbn [bind] in E; [|discriminate]. injection E as <-. now apply (W j). }
  destruct (split_ok print_g mkval pow10i is_zero bits unbits can_write dec Z0 fs src st k1 n prefix dt k2 perm ps N1 N2 D1 H Hn Hl Hp W' St) as (fs' & d & l & outs & E & O & P1 & P2 & P3 & P4 & F).
  exists fs', (fold_names prefix dt 0 (Z.to_nat n)), l, outs. split; [exact E|]. split; [apply fold_names_files; lia|]. split; [exact O|]. split; [exact P1|]. split; [exact P2|]. split; [exact P4|]. split; [exact P3|].
  eapply Forall2_impl; [|exact F]. intros p out (c & qs & X1 & _ & X2 & X3 & X4). exists qs. split; [|exact X4]. exists c. auto.
Qed.
(** C65: concatenating gives a file with the examples of all inputs, in the order of the inputs. *)
Theorem C65_concat : (forall m e, is_zero (mkval m e) = (m =? 0)) ->
  forall fs paths st k1 dst dt k2 pss,
  named st k1 -> named dt k2 -> (k2 = KCsv -> dt = bytes "csv") ->
  Forall (fun p => p <> bytes "-" /\ p <> [] /\ ~ In 59 p) paths -> ~ In dst paths -> dst <> bytes "-" -> can_write dst = true ->
  Forall2 (fun p ps => holds fs p k1 ps) paths pss -> Forall (storable k2) (concat pss) ->
  exists fs' qs, run_concat (join 59 paths) st dst dt fs = Some (Status_OK, fs') /\ only [dst] fs fs' /\
    holds fs' dst k2 qs /\ Forall2 (kept k2) (concat pss) qs.
Proof.
  intros Z0 fs paths st k1 dst dt k2 pss N1 N2 Hc Hp Nd D2 W H St.
  destruct (concat_ok print_g mkval pow10i is_zero bits unbits dec can_write Z0 fs paths st k1 dst dt k2 pss N1 N2 Hc Hp Nd D2 W H St) as (c & qs & E & _ & R & Cn & F).
  exists (put fs dst c), qs. split; [exact E|]. split; [apply put_only|]. split; [|exact F]. exists c. rewrite put_same. auto.
Qed.

(** C65: splitting (without shuffling) into binary files and concatenating them gives the data back, in any format. *)
Theorem C65_split_concat : (forall m e, is_zero (mkval m e) = (m =? 0)) ->
  forall fs src st k1 n prefix dst dt k2 ps,
  named st k1 -> named dt k2 -> (k2 = KCsv -> dt = bytes "csv") -> src <> bytes "-" -> holds fs src k1 ps ->
  1 <= n < 2147483648 -> 1 <= Z.of_nat (length ps) <= 16777216 -> ~ In 59 prefix ->
  dst <> bytes "-" -> (forall i d, print_d i = Some d -> dst <> prefix ++ d ++ bytes ".bin") -> (forall p, can_write p = true) ->
  Forall (storable KBin) ps -> Forall (storable k2) ps ->
  exists fs1 paths fs2 qs, run_split src st n prefix (bytes "bin") None fs = Some (Status_OK, fs1) /\
    fold_files prefix (bytes "bin") (Z.to_nat n) paths /\
    run_concat (join 59 paths) (bytes "bin") dst dt fs1 = Some (Status_OK, fs2) /\ only (dst :: paths) fs fs2 /\
    holds fs2 dst k2 qs /\ Forall2 (kept k2) ps qs.
Proof.
  intros Z0 fs src st k1 n prefix dst dt k2 ps N1 N2 Hc D1 H Hn Hl Np D2 Nd W St1 St2.
  assert (Nb : named (bytes "bin") KBin) by reflexivity.
  destruct (C65_split Z0 fs src st k1 n prefix (bytes "bin") KBin None ps N1 Nb D1 H Hn Hl I (fun i d _ _ => W _) St1) as (fs1 & paths & l & outs & E1 & Ff & O1 & P1 & P2 & P4 & P3 & F).
  rewrite (P2 eq_refl) in *. destruct Ff as (L & Nn & Fn).
  assert (Hp : Forall (fun p => p <> bytes "-" /\ p <> [] /\ ~ In 59 p) paths).
  { rewrite Forall_forall. intros p Hi. apply In_nth_error in Hi. destruct Hi as (i & Hi). pose proof (nth_error_Some paths i) as X. rewrite Hi, L in X.
    assert (i < Z.to_nat n)%nat by (apply X; discriminate). destruct (Fn i p Hi) as (d & Ed & Ep).
    destruct (fold_path_some prefix (bytes "bin") (Z.of_nat i) ltac:(lia)) as (q & d' & _ & Ed' & Eq & Q1 & Q2 & Q3). rewrite Ed in Ed'. injection Ed' as <-. rewrite <- Eq in Ep. rewrite Ep. split; [exact Q1|]. split; [exact Q2|].
    apply Q3; [exact Np|]. vm_compute. intuition discriminate. }
  assert (Nin : ~ In dst paths).
  { intros Hi. apply In_nth_error in Hi. destruct Hi as (i & Hi). destruct (Fn i dst Hi) as (d & Ed & Ep). apply (Nd _ _ Ed). exact Ep. }
  assert (H1 : Forall2 (fun p out => holds fs1 p KBin out) paths outs).
  { eapply Forall2_impl; [|exact F]. intros p out (qs & Hq & K). assert (qs = out) as <-; [|exact Hq]. clear - K. induction K as [|a b la lb K Ks IH]; [reflexivity|]. cbn [S_Files.kept] in K. now rewrite K, IH. }
  rewrite <- P4 in St2.
  destruct (C65_concat Z0 fs1 paths (bytes "bin") KBin dst dt k2 outs Nb N2 Hc Hp Nin D2 (W _) H1 St2) as (fs2 & qs & E2 & O2 & Hd & K). rewrite P4 in K.
  exists fs1, paths, fs2, qs. split; [exact E1|]. split; [split; auto|]. split; [exact E2|]. split; [|auto].
  intros q Hq. cbn [In] in Hq. rewrite O2 by (cbn [In]; intros [X|[]]; apply Hq; now left). apply O1. intros X. apply Hq. now right.
Qed.

(** C65: all that matters of the input is the examples that are read from it: not the format, not how they are spread
    over files.  This covers the runs that fail. *)
Theorem C65_depends_on_examples : forall ps dst dt,
  (forall bin, exists o, forall fs src st k, named st k -> src <> bytes "-" -> src <> dst -> holds fs src k ps ->
     run_convert src st dst dt bin fs = effect o dst fs) /\
  (forall perm, dt <> [] -> exists o, forall fs src st k, named st k -> src <> bytes "-" -> src <> dst -> holds fs src k ps ->
     run_shuffle src st dst dt perm fs = effect o dst fs) /\
  (forall n prefix perm, exists d outs, forall fs src st k, named st k -> src <> bytes "-" -> holds fs src k ps ->
     run_split src st n prefix dt perm fs = do o <- outs; run_folds print_g bits can_write prefix dt d 0 o fs) /\
  (exists o, forall fs paths pss st k, named st k -> Forall (fun p => p <> bytes "-" /\ p <> [] /\ ~ In 59 p) paths -> ~ In dst paths ->
     Forall2 (fun p ps => holds fs p k ps) paths pss -> concat pss = ps -> run_concat (join 59 paths) st dst dt fs = effect o dst fs).
Proof.
  intros ps dst dt. split; [intros bin; apply convert_depends|]. split; [intros perm Hd; now apply shuffle_depends|]. split; [intros n prefix perm; apply split_depends|apply concat_depends].
Qed.
(** C65: so a binary copy can stand in for the original. *)
Theorem C65_binary_copy : (forall m e, is_zero (mkval m e) = (m =? 0)) ->
  forall fs src st k mid ps, named st k -> src <> bytes "-" -> mid <> bytes "-" -> src <> mid -> can_write mid = true -> holds fs src k ps -> Forall (storable KBin) ps ->
  exists fs1, run_convert src st mid (bytes "bin") None fs = Some (Status_OK, fs1) /\
    forall dst dt bin, dst <> src -> dst <> mid ->
      match run_convert src st dst dt bin fs, run_convert mid (bytes "bin") dst dt bin fs1 with
      | Some (s, f), Some (s', f') => s = s' /\ f dst = f' dst
      | None, None => True
      | _, _ => False
      end.
Proof.
  intros Z0 fs src st k mid ps N D1 D2 Ne W H St. assert (Nb : named (bytes "bin") KBin) by reflexivity.
  destruct (C65_convert Z0 fs src st k mid (bytes "bin") KBin None ps ps N Nb ltac:(discriminate) D1 D2 Ne W H eq_refl St) as (fs1 & qs & E & O & Hm & K).
  assert (qs = ps) as -> by (clear - K; induction K as [|a b la lb K Ks IH]; [reflexivity|]; cbn [S_Files.kept] in K; now rewrite K, IH).
  exists fs1. split; [exact E|]. intros dst dt bin Nd1 Nd2. destruct (C65_depends_on_examples ps dst dt) as (Cd & _). destruct (Cd bin) as (o & Ho).
  rewrite (Ho fs src st k N D1 (not_eq_sym Nd1) H), (Ho fs1 mid _ KBin Nb D2 (not_eq_sym Nd2) Hm). unfold effect. destruct o as [[s c]|]; cbn [bind]; [|trivial]. split; [reflexivity|].
  destruct c; [now rewrite !put_same|]. symmetry. apply O. cbn [In]. intros [X|[]]. now apply Nd2.
Qed.

(** C65: however a run ends, only its output files can change. *)
Theorem C65_only : forall fs s fs',
  (forall src st dst dt bin, run_convert src st dst dt bin fs = Some (s, fs') -> only [dst] fs fs') /\
  (forall src st dst dt perm, run_shuffle src st dst dt perm fs = Some (s, fs') -> only [dst] fs fs') /\
  (forall src st dst dt, run_concat src st dst dt fs = Some (s, fs') -> only [dst] fs fs') /\
  (forall src st n prefix dt perm, run_split src st n prefix dt perm fs = Some (s, fs') ->
     forall q, (forall i d, 0 <= i < n -> print_d i = Some d -> q <> prefix ++ d ++ bytes "." ++ dt) -> fs' q = fs q).
Proof.
  intros fs s fs'. split; [intros *; apply convert_only|]. split; [intros *; apply shuffle_only|]. split; [intros *; apply concat_only|].
  intros src st n prefix dt perm H q Hq. apply (split_only _ _ _ _ _ _ _ _ _ _ _ _ _ _ _ _ H). intros j Hj E. unfold fold_path in E. destruct (print_d j) as [d|] eqn:Ed; cbn [bind] in E; [|discriminate].
  injection E as <-. now apply (Hq j d).
Qed.
(** C65: a missing input is an error, and convert, shuffle and split then change nothing; concat has already emptied
    its output. *)
Theorem C65_missing : forall fs src st k, named st k -> src <> bytes "-" -> fs src = None \/ k = KCsv /\ fs src = Some [] ->
  (forall dst dt bin, run_convert src st dst dt bin fs = Some (Status_Invalid_Argument, fs)) /\
  (forall dst dt perm, run_shuffle src st dst dt perm fs = Some (Status_Invalid_Argument, fs)) /\
  (forall n prefix dt perm, run_split src st n prefix dt perm fs = Some (Status_Invalid_Argument, fs)) /\
  (forall before after dst dt k2 pss, named dt k2 -> dst <> bytes "-" -> can_write dst = true ->
     Forall (fun p => p <> bytes "-" /\ p <> [] /\ ~ In 59 p) (before ++ src :: after) -> ~ In dst (before ++ src :: after) ->
     Forall2 (fun p ps => holds fs p k ps) before pss ->
     run_concat (join 59 (before ++ src :: after)) st dst dt fs = Some (Status_Invalid_Argument, put fs dst [])).
Proof.
  intros fs src st k N D F. assert (G : forall fs, fs src = None \/ k = KCsv /\ fs src = Some [] -> add_reader fs src st = Some (Status_Invalid_Argument, [])).
  { intros f E. unfold add_reader. rewrite (lookup_named _ _ _ (or_introl eq_refl) N). cbn [bind]. rewrite kind_format. cbn [bind]. unfold is_dash. rewrite (str_eqb_ne _ _ D). destruct E as [->|(-> & ->)]; reflexivity. }
  split; [intros; unfold M_Files.run_convert; now rewrite (G _ F)|]. split; [intros; unfold M_Files.run_shuffle; now rewrite (G _ F)|]. split; [intros; unfold M_Files.run_split; now rewrite (G _ F)|].
  intros before after dst dt k2 pss N2 D2 W Hp Nd H. unfold M_Files.run_concat. rewrite (writer_ok can_write _ _ _ N2 D2 W). cbn [bind]. rewrite (split_join _ Hp). cbn [bind].
  assert (A : exists l, add_readers (put fs dst []) (before ++ src :: after) st = Some (Status_Invalid_Argument, l)).
  { assert (X : add_reader (put fs dst []) src st = Some (Status_Invalid_Argument, [])) by (apply G; rewrite put_other; [exact F|]; intros ->; apply Nd; rewrite in_app_iff; right; now left). clear - X H Hp Nd N.
    revert pss H. induction before as [|p b IH]; intros pss H; cbn [app add_readers]; [rewrite X; cbn [bind]; eauto|]. inversion H as [|? ps ? pss' H1 H2]; subst. cbn [app] in Hp, Nd. inversion Hp as [|? ? (P1 & _) Hp']; subst.
    destruct (add_ok mkval pow10i is_zero unbits (put fs dst []) p st k ps N P1) as (c & _ & Ea & _); [apply holds_put; [intros ->; apply Nd; now left|exact H1]|]. rewrite Ea. cbn [bind].
    destruct (IH Hp' (fun Y => Nd (or_intror Y)) pss' H2) as (l & ->). cbn [bind]. eauto. }
  destruct A as (l & ->). cbn [bind]. destruct (csv_name dt); reflexivity.
Qed.

(** An output that cannot be written is an error, and nothing is changed.  (A split has written the folds before
    it.)  A split that reports success has written all its files. *)
Theorem C65_unwritable : forall fs dst dt k, named dt k -> dst <> bytes "-" -> can_write dst = false ->
  (forall src st ks ps bin, named st ks -> src <> bytes "-" -> holds fs src ks ps -> run_convert src st dst dt bin fs = Some (Status_IO_Error, fs)) /\
  (forall src st ks ps perm, named st ks -> src <> bytes "-" -> holds fs src ks ps -> run_shuffle src st dst dt perm fs = Some (Status_IO_Error, fs)) /\
  (forall src st, run_concat src st dst dt fs = Some (Status_IO_Error, fs)).
Proof.
  intros fs dst dt k N D W. assert (O : open_writer can_write dst dt = Some (inl Status_IO_Error)).
  { unfold open_writer. rewrite (lookup_named _ _ _ (or_intror eq_refl) N). cbn [bind]. rewrite kind_format. cbn [bind]. unfold is_dash. now rewrite (str_eqb_ne _ _ D), W. }
  split; [|split].
  - intros src st ks ps bin Ns Ds H. unfold M_Files.run_convert. destruct (add_ok _ _ _ _ _ _ _ _ _ Ns Ds H) as (c1 & F & A & R). rewrite A. cbn [bind]. now rewrite O.
  - intros src st ks ps perm Ns Ds H. unfold M_Files.run_shuffle. destruct (add_ok _ _ _ _ _ _ _ _ _ Ns Ds H) as (c1 & F & A & R). rewrite A. cbn [bind].
    replace (match dt with [] => st | _ => dt end) with dt by (destruct dt; [destruct k; discriminate N|reflexivity]). now rewrite O.
  - intros src st. unfold M_Files.run_concat. now rewrite O.
Qed.
Theorem C65_all_folds_written : forall fs src st ks ps n prefix dt perm fs', named st ks -> src <> bytes "-" -> src <> [] -> holds fs src ks ps -> ps <> [] ->
  run_split src st n prefix dt perm fs = Some (Status_OK, fs') ->
  forall j, 0 <= j < n -> exists p, fold_path prefix dt j = Some p /\ can_write p = true /\ fs' p <> None.
Proof.
  intros fs src st ks ps n prefix dt perm fs' Ns Ds Dn Hh Hps H j Hj. unfold M_Files.run_split in H. destruct (add_ok _ _ _ _ _ _ _ _ _ Ns Ds Hh) as (c1 & F & A & R). rewrite A in H. cbn [bind] in H.
  rewrite (gather_other _ _ _ _ _ _ _ _ _ _ _ Dn F R) in H. cbn [bind] in H. destruct (split n perm _) as [[d outs]|] eqn:E; cbn [bind] in H; [|discriminate].
  assert (L : 0 <= j < 0 + Z.of_nat (length outs)).
  { unfold split in E. rewrite concat_batches in E. destruct ps as [|p0 ps]; [congruence|]. destruct (match perm with Some pm => _ | None => _ end) as [l|]; cbn [bind] in E; [|discriminate].
    destruct (fold_size _ _) as [sz|]; cbn [bind] in E; [|discriminate]. injection E as _ <-. clear H; replace (length _) with (Z.to_nat n); [lia|]. generalize 0 at 1, sz at 2, l. induction (Z.to_nat n) as [|m IH]; intros z e x; cbn [write_folds length]; [reflexivity|].
    destruct (write_fold e z x) as [[w i] r]. cbn [length]. now rewrite <- (IH i (u64 (e + sz)) r). }
  clear E Hj Hh A R F Dn. revert H L. generalize 0 as i. generalize fs as f. induction outs as [|out r IH]; intros f i H L; cbn [length] in L; [lia|].
  cbn [M_Files.run_folds] in H. destruct (fold_path prefix dt i) as [p|] eqn:P; cbn [bind] in H; [|discriminate]. destruct (open_writer can_write p dt) as [[e|k]|] eqn:O; cbn [bind] in H; [injection H as -> _| |discriminate].
  - unfold open_writer in O. exfalso. destruct (lookup Writer dt) as [[nm|]|]; cbn [bind] in O; try discriminate. destruct (kind_of nm); cbn [bind] in O; [|discriminate]. destruct (is_dash p); [discriminate|]. destruct (can_write p); discriminate.
  - destruct (contents _ _ k (Some d) out) as [c|]; cbn [bind] in H; [|discriminate]. destruct (Z.eq_dec j i) as [->|Hne]; [|apply (IH _ _ H); lia].
    exists p. split; [exact P|]. split.
    + unfold open_writer in O. destruct (lookup Writer dt) as [[nm|]|]; cbn [bind] in O; try discriminate. destruct (kind_of nm); cbn [bind] in O; [|discriminate]. destruct (is_dash p); [discriminate|]. destruct (can_write p); [reflexivity|discriminate].
    + assert (X : forall rest i f, f p <> None -> M_Files.run_folds print_g bits can_write prefix dt d i rest f = Some (Status_OK, fs') -> fs' p <> None); [|eapply X; [|exact H]; rewrite put_same; discriminate].
      clear. induction rest as [|o r IH]; intros i f Hf H; cbn [M_Files.run_folds] in H; [now injection H as <-|].
      destruct (fold_path prefix dt i) as [q|]; cbn [bind] in H; [|discriminate]. destruct (open_writer can_write q dt) as [[e|k]|]; cbn [bind] in H; [injection H as _ <-; exact Hf| |discriminate].
      destruct (contents _ _ k (Some d) o) as [c|]; cbn [bind] in H; [|discriminate]. eapply IH; [|exact H]. unfold put. destruct (str_eqb p q); [discriminate|exact Hf].
Qed.
(** C65: a csv file cannot be made of data without features: convert fails, and leaves a file with a header. *)
Theorem C65_no_features : forall fs src st k dst ps, named st k -> src <> bytes "-" -> dst <> bytes "-" -> src <> dst -> can_write dst = true ->
  holds fs src k ps -> Forall sorted_point ps -> all_idx ps = [] ->
  forall bin, run_convert src st dst (bytes "csv") bin fs = Some (Status_Invalid_Format, put fs dst (bytes "class" ++ [10])).
Proof.
  intros fs src st k dst ps N D1 D2 Ne W H So E bin. unfold M_Files.run_convert. destruct (add_ok _ _ _ _ _ _ _ _ _ N D1 H) as (c1 & F & A & R). rewrite A. cbn [bind].
  rewrite (writer_ok can_write dst (bytes "csv") KCsv eq_refl D2 W). cbn [bind]. assert (F1 : put fs dst [] src = Some c1) by now rewrite put_other. rewrite (gather_other _ _ _ _ _ _ _ _ _ _ _ Ne F1 R). cbn [bind].
  change (csv_name (bytes "csv")) with true. unfold convert. assert (M : max_dim (S_Iter.cut 256 [] ps ++ []) = 0).
  { destruct (max_dim_spec (S_Iter.cut 256 [] ps ++ [])) as (_ & _ & X); [now rewrite concat_batches|]. rewrite concat_batches in X. auto. }
  rewrite M. cbn [Z.eqb]. reflexivity.
Qed.

(** C65, finding: a data file that is its own output is emptied, and the tools report success. *)
Theorem C65_in_place_destroys : forall fs src st k c, named st k -> k <> KCsv -> src <> bytes "-" -> src <> [] -> ~ In 59 src -> can_write src = true -> fs src = Some c ->
  (forall bin, run_convert src st src st bin fs = Some (Status_OK, put fs src [])) /\
  run_shuffle src st src [] [] fs = Some (Status_OK, put fs src []) /\
  run_concat src st src st fs = Some (Status_OK, put fs src []).
Proof.
  intros fs src st k c N K D Ns Sc W F.
  assert (A : forall fs c, fs src = Some c -> add_reader fs src st = Some (Status_OK, [mkinput src k c])).
  { intros f x E. unfold add_reader. rewrite (lookup_named _ _ _ (or_introl eq_refl) N). cbn [bind]. rewrite kind_format. cbn [bind]. unfold is_dash. rewrite (str_eqb_ne _ _ D), E. destruct k; auto. now elim K. }
  assert (R : forall x, gather mkval pow10i is_zero unbits (put fs src []) src false [mkinput src k x] = Some [[]]).
  { intros x. cbn [gather in_path]. rewrite Bool.andb_false_r. unfold reads. cbn [in_path in_kind in_was]. rewrite put_same. cbn [bind]. destruct k; [reflexivity|now elim K|reflexivity]. }
  assert (Cn : forall d, contents print_g bits k d [] = Some []) by (intros d; destruct k; [reflexivity|now elim K|reflexivity]).
  assert (Cs : csv_name st = false) by (apply str_eqb_ne; intros ->; destruct k; try discriminate N; now elim K).
  split; [|split].
  - intros bin. unfold M_Files.run_convert. rewrite (A _ _ F). cbn [bind]. rewrite (writer_ok can_write _ _ _ N D W). cbn [bind]. rewrite R, Cs. cbn [bind]. unfold convert. destruct bin as [[[ab o] m]|]; cbn [concat app map]; rewrite Cn; reflexivity.
  - unfold M_Files.run_shuffle. rewrite (A _ _ F). cbn [bind]. rewrite (writer_ok can_write _ _ _ N D W). cbn [bind]. rewrite R. cbn [bind]. unfold shuffle. cbn [reorder bind]. rewrite Cn. reflexivity.
  - unfold M_Files.run_concat. rewrite (writer_ok can_write _ _ _ N D W). cbn [bind].
    assert (Sp : str_split 59 src = Some [src]) by (apply (split_join [src]); constructor; [auto|constructor]). rewrite Sp. cbn [bind]. rewrite Cs. cbn [add_readers]. rewrite (A _ [] (put_same _ _ _)). cbn [bind app]. rewrite R. cbn [bind concat app]. rewrite Cn. reflexivity.
Qed.
End T.
Print Assumptions C65_convert.
Print Assumptions C65_shuffle.
Print Assumptions C65_split.
Print Assumptions C65_concat.
Print Assumptions C65_split_concat.
Print Assumptions C65_depends_on_examples.
Print Assumptions C65_binary_copy.
Print Assumptions C65_only.
Print Assumptions C65_missing.
Print Assumptions C65_unwritable.
Print Assumptions C65_all_folds_written.
Print Assumptions C65_no_features.
Print Assumptions C65_in_place_destroys.

(* ------------------------------------------------------------------------------------------- *)
(** A concrete setting for the examples and counterexamples: values are digits and exponent as parsed; 0.25, -1.5e10
    and 1 (and 0 for all others) are printed and have bytes. *)
Definition wdec (v : Z * Z) : dec6 :=
  if fst v =? 25 then mkdec6 false 250000 (-1) else if fst v =? -15 then mkdec6 true 150000 10
  else if fst v =? 1 then mkdec6 false 100000 0 else mkdec6 false 0 0.
Definition wprint (v : Z * Z) : option (list Z) := Some (print_g6 (d_neg (wdec v)) (d_sig (wdec v)) (d_ex (wdec v))).
Definition wzero (v : Z * Z) : bool := fst v =? 0.
Definition wbits (v : Z * Z) : Z := if fst v =? 25 then 1048576000 else if fst v =? -15 then 3495915472 else if fst v =? 1 then 1065353216 else 0.
Definition wunbits (b : Z) : Z * Z := if b =? 1048576000 then (25, -2) else if b =? 3495915472 then (-15, 9) else if b =? 1065353216 then (1, 0) else (0, 0).
Notation w_convert := (run_convert wprint pair (fun _ => 0) wzero wbits wunbits (fun _ => true)).
Notation w_shuffle := (run_shuffle wprint pair (fun _ => 0) wzero wbits wunbits (fun _ => true)).
Notation w_split := (run_split wprint pair (fun _ => 0) wzero wbits wunbits (fun _ => true)).
Notation w_concat := (run_concat wprint pair (fun _ => 0) wzero wbits wunbits (fun _ => true)).
Notation w_holds := (holds pair (fun _ => 0) wzero wunbits).
Definition wline (s : string) : list Z := bytes s ++ [10].
Definition wa : list (point (Z * Z)) := [mkpt 1 [1; 3] [(25, -2); (1, 0)]; mkpt (-1) [2] [(-15, 9)]; mkpt 7 [] []].
Definition wb : list (point (Z * Z)) := [mkpt 2 [1] [(1, 0)]].
Definition wfs : files := put (put (fun _ => None) (bytes "a") (wline "1 1:0.25 3:1" ++ wline "-1 2:-1.5e+10" ++ wline "7")) (bytes "b") (wline "2 1:1").
Definition shows (r : option (status * files)) (path : list Z) : option (status * option (list Z)) := do (s, fs) <- r; Some (s, fs path).

Lemma wa_holds : w_holds wfs (bytes "a") KSvm wa.
Proof. eexists. split; [reflexivity|]. split; [discriminate|]. vm_compute. reflexivity. Qed.
Lemma wb_holds : w_holds wfs (bytes "b") KSvm wb.
Proof. eexists. split; [reflexivity|]. split; [discriminate|]. vm_compute. reflexivity. Qed.
Lemma w_storable k : Forall (storable wprint wbits wunbits wdec k) (wa ++ wb).
Proof.
  unfold wa, wb. cbn [app]. destruct k; repeat apply Forall_cons; try apply Forall_nil; unfold storable, writable, csv_writable, printable, wf_point, recode; cbn [p_label p_idx p_val map length];
    repeat split; try (repeat constructor; vm_compute; intuition (try discriminate; lia)); try (vm_compute; intuition discriminate); repeat constructor; unfold dec6_ok; cbn; try lia.
Qed.
Example C65_convert_witness : (forall m e : Z, wzero (m, e) = (m =? 0)) /\
  named (bytes "SVM") KSvm /\ named (bytes "csv") KCsv /\ all_idx wa <> [] /\ w_holds wfs (bytes "a") KSvm wa /\ Forall (storable wprint wbits wunbits wdec KCsv) wa /\
  shows (w_convert (bytes "a") (bytes "SVM") (bytes "c") (bytes "csv") None wfs) (bytes "c") =
    Some (Status_OK, Some (wline "class,v1,v2,v3" ++ wline "1,0.25,0,1" ++ wline "-1,0,-1.5e+10,0" ++ wline "7,0,0,0")).
Proof.
  split; [reflexivity|]. split; [reflexivity|]. split; [reflexivity|]. split; [discriminate|]. split; [exact wa_holds|].
  split; [exact (proj1 (proj1 (Forall_app _ _ _) (w_storable KCsv)))|]. vm_compute. reflexivity.
Qed.
Example C65_shuffle_witness : Permutation [2; 0; 1]%nat (seq 0 (length wa)) /\
  shows (w_shuffle (bytes "a") (bytes "svm") (bytes "c") [] [2; 0; 1]%nat wfs) (bytes "c") =
    Some (Status_OK, Some (wline "7" ++ wline "1 1:0.25 3:1" ++ wline "-1 2:-1.5e+10")).
Proof.
  split; [|vm_compute; reflexivity]. apply NoDup_Permutation; [repeat constructor; cbn; intuition lia|apply seq_NoDup|]. intros x. cbn. intuition lia.
Qed.
(** Three examples in two folds; then the folds again as one file. *)
Example C65_split_witness : let r := w_split (bytes "a") (bytes "svm") 2 (bytes "f") (bytes "svm") None wfs in
  shows r (bytes "f0.svm") = Some (Status_OK, Some (wline "1 1:0.25 3:1" ++ wline "-1 2:-1.5e+10")) /\
  shows r (bytes "f1.svm") = Some (Status_OK, Some (wline "7")).
Proof. cbn zeta. split; vm_compute; reflexivity. Qed.
Example C65_split_concat_witness :
  ~ In 59 (bytes "f") /\ (forall i d, print_d i = Some d -> bytes "c" <> bytes "f" ++ d ++ bytes ".bin") /\ Forall (storable wprint wbits wunbits wdec KBin) wa /\
  shows (do (_, fs1) <- w_split (bytes "a") (bytes "svm") 2 (bytes "f") (bytes "bin") None wfs;
         w_concat (join 59 [bytes "f0.bin"; bytes "f1.bin"]) (bytes "bin") (bytes "c") (bytes "svm") fs1) (bytes "c") =
    Some (Status_OK, wfs (bytes "a")).
Proof.
  split; [vm_compute; intuition discriminate|]. split; [intros i d _; vm_compute; discriminate|]. split; [exact (proj1 (proj1 (Forall_app _ _ _) (w_storable KBin)))|]. vm_compute. reflexivity.
Qed.
Example C65_concat_witness :
  Forall (fun p => p <> bytes "-" /\ p <> [] /\ ~ In 59 p) [bytes "a"; bytes "b"] /\ ~ In (bytes "c") [bytes "a"; bytes "b"] /\
  Forall2 (fun p ps => w_holds wfs p KSvm ps) [bytes "a"; bytes "b"] [wa; wb] /\ Forall (storable wprint wbits wunbits wdec KCsv) (concat [wa; wb]) /\
  join 59 [bytes "a"; bytes "b"] = bytes "a;b" /\
  shows (w_concat (bytes "a;b") (bytes "svm") (bytes "c") (bytes "csv") wfs) (bytes "c") =
    Some (Status_OK, Some (wline "class,v1,v2,v3" ++ wline "1,0.25,0,1" ++ wline "-1,0,-1.5e+10,0" ++ wline "7,0,0,0" ++ wline "2,1,0,0")).
Proof.
  split; [repeat constructor; vm_compute; intuition discriminate|]. split; [vm_compute; intuition discriminate|]. split; [constructor; [exact wa_holds|constructor; [exact wb_holds|constructor]]|].
  split; [exact (w_storable KCsv)|]. split; vm_compute; reflexivity.
Qed.
Example C65_binary_copy_witness : match w_convert (bytes "a") (bytes "svm") (bytes "m") (bytes "bin") None wfs with
  | Some (s, fs1) => s = Status_OK /\
      shows (w_convert (bytes "m") (bytes "bin") (bytes "c") (bytes "csv") None fs1) (bytes "c") = shows (w_convert (bytes "a") (bytes "svm") (bytes "c") (bytes "csv") None wfs) (bytes "c") /\
      shows (w_convert (bytes "m") (bytes "bin") (bytes "c") (bytes "csv") None fs1) (bytes "c") <> None
  | None => False
  end.
Proof. vm_compute. split; [reflexivity|]. split; [reflexivity|discriminate]. Qed.
Example C65_no_features_witness : let fs := put (fun _ => None) (bytes "a") (wline "7") in
  w_holds fs (bytes "a") KSvm [mkpt 7 [] []] /\ Forall sorted_point [mkpt 7 [] ([] : list (Z * Z))] /\
  shows (w_convert (bytes "a") (bytes "svm") (bytes "c") (bytes "csv") None fs) (bytes "c") = Some (Status_Invalid_Format, Some (wline "class")).
Proof.
  cbn zeta. split; [eexists; split; [reflexivity|]; split; [discriminate|]; vm_compute; reflexivity|]. split; [|vm_compute; reflexivity].
  constructor; [|constructor]. split; [constructor|]. split; [constructor|reflexivity].
Qed.

(** C65, findings.  (a) shuffling or converting a file in place loses the data, with status OK. *)
Theorem C65_in_place_refuted : exists fs path fs', w_holds fs path KSvm wa /\
  w_shuffle path (bytes "svm") path (bytes "svm") [] fs = Some (Status_OK, fs') /\ fs' path = Some [].
Proof.
  exists wfs, (bytes "a"), (put wfs (bytes "a") []). split; [exact wa_holds|]. split; [vm_compute; reflexivity|]. vm_compute. reflexivity.
Qed.
Print Assumptions C65_in_place_refuted.
(** (b) a concatenation that fails because an input is missing has destroyed the previous output. *)
Theorem C65_failed_concat_refuted : exists fs src dst c fs', fs dst = Some c /\ c <> [] /\
  w_concat src (bytes "svm") dst (bytes "svm") fs = Some (Status_Invalid_Argument, fs') /\ fs' dst = Some [].
Proof.
  exists wfs, (bytes "a;x"), (bytes "b"). eexists. exists (put wfs (bytes "b") []). split; [reflexivity|]. split; [vm_compute; discriminate|]. split; [vm_compute; reflexivity|]. vm_compute. reflexivity.
Qed.
Print Assumptions C65_failed_concat_refuted.
(** (c) the type name "CSV" is accepted, but the column count of the output is then uninitialised. *)
Theorem C65_csv_case_refuted : exists fs src dst, named (bytes "CSV") KCsv /\ w_holds fs src KSvm wa /\
  w_convert src (bytes "svm") dst (bytes "CSV") None fs = None /\ w_concat src (bytes "svm") dst (bytes "CSV") fs = None.
Proof.
  exists wfs, (bytes "a"), (bytes "c"). split; [reflexivity|]. split; [exact wa_holds|]. split; vm_compute; reflexivity.
Qed.
Print Assumptions C65_csv_case_refuted.
(** Only the path "0.svm" can be written: the conversion changes nothing, the split stops at the second fold; an empty
    csv file is no input. *)
Example C65_unwritable_witness : let cw := fun p => str_eqb p (bytes "0.svm") in
  let fs := put wfs (bytes "e") [] in
  shows (run_convert wprint pair (fun _ => 0) wzero wbits wunbits cw (bytes "a") (bytes "svm") (bytes "c") (bytes "bin") None fs) (bytes "c") = Some (Status_IO_Error, None) /\
  shows (run_split wprint pair (fun _ => 0) wzero wbits wunbits cw (bytes "a") (bytes "svm") 2 [] (bytes "svm") None fs) (bytes "0.svm") = Some (Status_IO_Error, Some (wline "1 1:0.25 3:1" ++ wline "-1 2:-1.5e+10")) /\
  shows (w_split (bytes "a") (bytes "svm") 2 [] (bytes "svm") None fs) (bytes "1.svm") = Some (Status_OK, Some (wline "7")) /\
  shows (w_convert (bytes "e") (bytes "csv") (bytes "c") (bytes "bin") None fs) (bytes "c") = Some (Status_Invalid_Argument, None).
Proof. vm_compute. repeat split. Qed.
