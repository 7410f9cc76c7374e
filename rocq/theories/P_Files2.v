(** Splitting on files; what the results depend on; what is left alone. *)
From Coq Require Import String.
From Verif Require Import M_Base M_Str M_DataPoint M_Text M_Binary M_Iter S_Iter M_Tools M_Files S_Text S_Str S_Tools S_Files P_Binary P_TextFiles P_Str P_Tools Props_Tools P_Files.
From Coq Require Import Sorted Permutation.

Lemma print_d_inj i j s : -9223372036854775808 <= i <= 9223372036854775807 -> -9223372036854775808 <= j <= 9223372036854775807 ->
  print_d i = Some s -> print_d j = Some s -> i = j.
Proof. intros Hi Hj Ei Ej. pose proof (stoll_ok _ _ Ei Hi) as A. rewrite (stoll_ok _ _ Ej Hj) in A. now inversion A. Qed.
Lemma fold_path_inj prefix t i j p : 0 <= i < 4294967296 -> 0 <= j < 4294967296 -> fold_path prefix t i = Some p -> fold_path prefix t j = Some p -> i = j.
Proof.
  intros Hi Hj. unfold fold_path. destruct (print_d i) as [a|] eqn:A; cbn [bind]; [|discriminate]. destruct (print_d j) as [b|] eqn:B; cbn [bind]; [|discriminate].
  intros E1 E2. injection E1 as E1. injection E2 as E2. rewrite <- E1 in E2. apply app_inv_head in E2. apply app_inv_tail in E2. subst b.
  apply (print_d_inj i j a); auto; lia.
Qed.
Lemma fold_path_some prefix t i : 0 <= i < 4294967296 -> exists p d, fold_path prefix t i = Some p /\ print_d i = Some d /\ p = prefix ++ d ++ bytes "." ++ t /\ p <> bytes "-" /\ p <> [] /\
  (~ In 59 prefix -> ~ In 59 t -> ~ In 59 p).
Proof.
  intros Hi. destruct (print_d64_ok i ltac:(lia)) as (d & E & _ & Ne & F). exists (prefix ++ d ++ bytes "." ++ t), d. unfold fold_path. rewrite E. cbn [bind].
  split; [reflexivity|]. split; [reflexivity|]. split; [reflexivity|]. assert (L : (2 <= length (prefix ++ d ++ bytes "." ++ t))%nat).
  { rewrite !app_length. destruct d; [now elim Ne|]. change (length (bytes ".")) with 1%nat. cbn [length]. lia. }
  split; [intros X; rewrite X in L; cbn in L; lia|]. split; [intros X; rewrite X in L; cbn in L; lia|].
  intros N1 N2. rewrite !in_app_iff. intros [X|[X|[X|X]]]; auto.
  - rewrite Forall_forall in F. apply F in X. unfold digit_char in X. lia.
  - cbn in X. destruct X as [X|[]]. discriminate.
Qed.

(** The names of the folds from number [i] on. *)
Fixpoint fold_names (prefix t : list Z) (i : Z) (n : nat) : list (list Z) :=
  match n with
  | O => []
  | S n => match fold_path prefix t i with Some p => p | None => [] end :: fold_names prefix t (i + 1) n
  end.
Lemma fold_names_in prefix t n : forall i p, 0 <= i -> i + Z.of_nat n <= 4294967296 -> In p (fold_names prefix t i n) ->
  exists j, i <= j < i + Z.of_nat n /\ fold_path prefix t j = Some p.
Proof.
  induction n as [|n IH]; intros i p Hi Hn H; cbn [fold_names In] in H; [destruct H|]. destruct H as [H|H].
  - destruct (fold_path_some prefix t i ltac:(lia)) as (q & _ & E & _). rewrite E in H. subst q. exists i. split; [lia|exact E].
  - destruct (IH (i + 1) p ltac:(lia) ltac:(lia) H) as (j & Hj & E). exists j. split; [lia|exact E].
Qed.
Lemma fold_names_files prefix t n : Z.of_nat n <= 2147483648 -> fold_files prefix t n (fold_names prefix t 0 n).
Proof.
  intros Hn. assert (G : forall n i, 0 <= i -> i + Z.of_nat n <= 4294967296 -> length (fold_names prefix t i n) = n /\ NoDup (fold_names prefix t i n) /\
    forall j p, nth_error (fold_names prefix t i n) j = Some p -> exists d, print_d (i + Z.of_nat j) = Some d /\ p = prefix ++ d ++ bytes "." ++ t).
  { clear n Hn. induction n as [|n IH]; intros i Hi Hn; cbn [fold_names length].
    - split; [reflexivity|]. split; [constructor|]. intros [|j] p H; discriminate.
    - destruct (IH (i + 1) ltac:(lia) ltac:(lia)) as (A & B & C). destruct (fold_path_some prefix t i ltac:(lia)) as (p & d & E & Ed & Ep & _). rewrite E. split; [now rewrite A|]. split.
      + constructor; [|exact B]. intros X. apply fold_names_in in X; [|lia|lia]. destruct X as (j & Hj & Ej). pose proof (fold_path_inj prefix t i j p ltac:(lia) ltac:(lia) E Ej). lia.
      + intros [|j] q H; cbn [nth_error] in H.
        * injection H as <-. exists d. rewrite Z.add_0_r. auto.
        * destruct (C j q H) as (d' & E1 & E2). exists d'. split; [|exact E2]. rewrite <- E1. f_equal. lia. }
  destruct (G n 0 ltac:(lia) ltac:(lia)) as (A & B & C). split; [exact A|]. split; [exact B|]. exact C.
Qed.

Section Q.
Context {V : Type}.
Variable print_g : V -> option (list Z).
Variable mkval : Z -> Z -> V.
Variable pow10i : Z -> Z.
Variable is_zero : V -> bool.
Variable bits : V -> Z.
Variable unbits : Z -> V.
Variable can_write : list Z -> bool.
Notation contents := (contents print_g bits).
Notation read := (read mkval pow10i is_zero unbits).
Notation reads := (reads mkval pow10i is_zero unbits).
Notation gather := (gather mkval pow10i is_zero unbits).
Notation holds := (holds mkval pow10i is_zero unbits).
Notation run_folds := (run_folds print_g bits can_write).

Lemma gather_one fs out src k c ps : fs src = Some c -> read k c = Some ps -> gather fs out false [mkinput src k c] = Some (S_Iter.cut 256 [] ps ++ []).
Proof. intros F R. cbn [M_Files.gather]. rewrite Bool.andb_false_r. rewrite (reads_ok _ _ _ _ _ _ _ _ _ F R). reflexivity. Qed.
Lemma gather_other fs out w src k c ps : src <> out -> fs src = Some c -> read k c = Some ps -> gather fs out w [mkinput src k c] = Some (S_Iter.cut 256 [] ps ++ []).
Proof. intros N F R. cbn [M_Files.gather in_path]. rewrite str_eqb_ne by exact N. cbn [andb]. rewrite (reads_ok _ _ _ _ _ _ _ _ _ F R). reflexivity. Qed.
Lemma concat_batches (ps : list (point V)) : concat (S_Iter.cut 256 [] ps ++ []) = ps.
Proof. now rewrite app_nil_r, concat_cut. Qed.

(* ------------------------------------------------- the result depends on the examples only *)
(** What a run of a tool does to its output file: the status and, if it was opened, its contents. *)
Definition effect (o : option (status * option (list Z))) (dst : list Z) (fs : files) : option (status * files) :=
  do (s, c) <- o; Some (s, match c with None => fs | Some c => put fs dst c end).
Lemma convert_depends dst dt bin ps : exists o, forall fs src st k, named st k -> src <> bytes "-" -> src <> dst -> holds fs src k ps ->
  run_convert print_g mkval pow10i is_zero bits unbits can_write src st dst dt bin fs = effect o dst fs.
Proof.
  exists (do w <- open_writer can_write dst dt;
    match w with
    | inl e => Some (e, None)
    | inr k =>
      let bs := S_Iter.cut 256 [] ps ++ [] in
      let '(s1, dim, out) := convert (csv_name dt) bin bs in
      match s1 with
      | Status_OK =>
        if csv_name dt then let '(_, _, out2) := convert false bin bs in do c <- contents k dim out2; Some (Status_OK, Some c)
        else do c <- contents k dim out; Some (Status_OK, Some c)
      | _ => do c <- contents k dim []; Some (s1, Some c)
      end
    end).
  intros fs src st k N D Ne H. unfold run_convert, effect. destruct (add_ok _ _ _ _ _ _ _ _ _ N D H) as (c1 & F & A & R). rewrite A. cbn [bind].
  destruct (open_writer can_write dst dt) as [[e|k2]|]; cbn [bind]; try reflexivity.
  assert (F1 : put fs dst [] src = Some c1) by now rewrite put_other.
  rewrite (gather_other _ _ _ _ _ _ _ Ne F1 R). cbn [bind]. destruct (convert (csv_name dt) bin _) as [[s1 dim] out]. rewrite (str_eqb_ne _ _ Ne).
  assert (A1 : add_reader (put fs dst []) src st = Some (Status_OK, [mkinput src k c1])).
  { destruct (add_ok mkval pow10i is_zero unbits (put fs dst []) _ _ _ ps N D) as (c2 & F2 & A2 & _); [now apply holds_put|]. rewrite F1 in F2. injection F2 as <-. exact A2. }
  rewrite A1. cbn [bind]. rewrite (gather_other _ _ true _ _ _ _ Ne F1 R). cbn [bind].
  destruct s1; try (destruct (contents k2 dim []); reflexivity). destruct (csv_name dt).
  - destruct (convert false bin _) as [[s2 dim2] out2]. destruct (contents k2 dim out2); reflexivity.
  - destruct (contents k2 dim out); reflexivity.
Qed.
Lemma shuffle_depends dst dt perm ps : dt <> [] -> exists o, forall fs src st k, named st k -> src <> bytes "-" -> src <> dst -> holds fs src k ps ->
  run_shuffle print_g mkval pow10i is_zero bits unbits can_write src st dst dt perm fs = effect o dst fs.
Proof.
  intros Nn. exists (do w <- open_writer can_write dst dt;
    match w with
    | inl e => Some (e, None)
    | inr k => do (d, out) <- shuffle perm (S_Iter.cut 256 [] ps ++ []); do c <- contents k (Some d) out; Some (Status_OK, Some c)
    end).
  intros fs src st k N D Ne H. unfold run_shuffle, effect. destruct (add_ok _ _ _ _ _ _ _ _ _ N D H) as (c1 & F & A & R). rewrite A. cbn [bind].
  replace (match dt with [] => st | _ => dt end) with dt by (destruct dt; [now elim Nn|reflexivity]).
  destruct (open_writer can_write dst dt) as [[e|k2]|]; cbn [bind]; try reflexivity.
  assert (F1 : put fs dst [] src = Some c1) by now rewrite put_other.
  rewrite (gather_other _ _ _ _ _ _ _ Ne F1 R). cbn [bind]. destruct (shuffle perm _) as [[d out]|]; cbn [bind]; [|reflexivity]. destruct (contents k2 (Some d) out); reflexivity.
Qed.
Lemma split_depends n prefix dt perm ps : exists d outs, forall fs src st k, named st k -> src <> bytes "-" -> holds fs src k ps ->
  run_split print_g mkval pow10i is_zero bits unbits can_write src st n prefix dt perm fs = do o <- outs; run_folds prefix dt d 0 o fs.
Proof.
  exists (match split n perm (S_Iter.cut 256 [] ps ++ []) with Some (d, _) => d | None => 0 end), (do (_, o) <- split n perm (S_Iter.cut 256 [] ps ++ []); Some o).
  intros fs src st k N D H. unfold run_split. destruct (add_ok _ _ _ _ _ _ _ _ _ N D H) as (c1 & F & A & R). rewrite A. cbn [bind].
  rewrite (gather_one _ _ _ _ _ _ F R). cbn [bind]. destruct (split n perm _) as [[d o]|]; reflexivity.
Qed.
Lemma max_dim_concat (a b : list (list (point V))) : concat a = concat b -> max_dim a = max_dim b.
Proof. unfold max_dim. now intros ->. Qed.
Lemma split_join paths : Forall (fun p => p <> bytes "-" /\ p <> [] /\ ~ In 59 p) paths -> str_split 59 (join 59 paths) = Some paths.
Proof.
  intros Hp. destruct (str_split_spec 59 (join 59 paths)) as (qs & -> & Pq). f_equal. apply (pieces_fun _ _ _ Pq). apply pieces_join. eapply Forall_impl; [|exact Hp]. intros p (_ & X & Y). split; [exact X|].
  rewrite Forall_forall. intros c Hi ->. contradiction.
Qed.
Lemma concat_depends dst dt ps : exists o, forall fs paths pss st k, named st k -> Forall (fun p => p <> bytes "-" /\ p <> [] /\ ~ In 59 p) paths -> ~ In dst paths ->
  Forall2 (fun p ps => holds fs p k ps) paths pss -> concat pss = ps ->
  run_concat print_g mkval pow10i is_zero bits unbits can_write (join 59 paths) st dst dt fs = effect o dst fs.
Proof.
  exists (do w <- open_writer can_write dst dt;
    match w with
    | inl e => Some (e, None)
    | inr k => do c <- contents k (if csv_name dt then Some (max_dim [ps]) else None) ps; Some (Status_OK, Some c)
    end).
  intros fs paths pss st k N Hp Nd H C. unfold run_concat, effect. destruct (open_writer can_write dst dt) as [[e|k2]|]; cbn [bind]; try reflexivity.
  rewrite (split_join _ Hp). cbn [bind]. set (fs1 := put fs dst []).
  assert (Dp : Forall (fun p => p <> bytes "-") paths) by (eapply Forall_impl; [|exact Hp]; intros p X; apply X).
  assert (H1 : Forall2 (fun p ps => holds fs1 p k ps) paths pss).
  { clear - H Nd. induction H as [|p ps paths pss Hp H IH]; constructor; [|apply IH; intros X; apply Nd; now right]. apply holds_put; [|exact Hp]. intros ->. apply Nd. now left. }
  destruct (adds_ok _ _ _ _ _ _ _ _ _ N Dp H1) as (l & A & M & O). rewrite A. cbn [bind].
  assert (Nl : ~ In dst (map in_path l)) by now rewrite M.
  destruct (gather_ok _ _ _ _ _ _ _ false _ O Nl) as (bs & -> & C1). destruct (gather_ok _ _ _ _ _ _ _ true _ O Nl) as (bs2 & -> & C2). cbn [bind]. rewrite C1, C2, C.
  replace (max_dim [ps]) with (max_dim bs) by (apply max_dim_concat; cbn [concat]; rewrite app_nil_r; congruence).
  destruct (existsb (fun p => str_eqb p dst) paths) eqn:E.
  { apply existsb_exists in E. destruct E as (p & Hi & E). apply str_eqb_eq in E. now subst. }
  destruct (csv_name dt); [destruct (contents k2 (Some _) ps)|destruct (contents k2 None ps)]; reflexivity.
Qed.

(* ------------------------------------------------------------------ what is left alone *)
Ltac cases := repeat (cbn [bind] in *; match goal with
  | H : None = Some _ |- _ => discriminate H
  | H : Some _ = Some _ |- _ => injection H as <- <-
  | H : context [match ?x with _ => _ end] |- _ => destruct x eqn:?
  end).
Lemma convert_only src st dst dt bin fs s fs' : run_convert print_g mkval pow10i is_zero bits unbits can_write src st dst dt bin fs = Some (s, fs') -> only [dst] fs fs'.
Proof. intros H q Hq. unfold run_convert, bind in H. cases; try reflexivity; apply put_other; intros ->; apply Hq; now left. Qed.
Lemma shuffle_only src st dst dt perm fs s fs' : run_shuffle print_g mkval pow10i is_zero bits unbits can_write src st dst dt perm fs = Some (s, fs') -> only [dst] fs fs'.
Proof. intros H q Hq. unfold run_shuffle, bind in H. cases; try reflexivity; apply put_other; intros ->; apply Hq; now left. Qed.
Lemma concat_only src st dst dt fs s fs' : run_concat print_g mkval pow10i is_zero bits unbits can_write src st dst dt fs = Some (s, fs') -> only [dst] fs fs'.
Proof. intros H q Hq. unfold run_concat, bind in H. cases; try reflexivity; apply put_other; intros ->; apply Hq; now left. Qed.
Lemma folds_only prefix dt d outs : forall i fs s fs', run_folds prefix dt d i outs fs = Some (s, fs') ->
  forall q, (forall j, fold_path prefix dt j = Some q -> ~ i <= j < i + Z.of_nat (length outs)) -> fs' q = fs q.
Proof.
  induction outs as [|out r IH]; intros i fs s fs' H q Hq; cbn [M_Files.run_folds] in H.
  - now injection H as <- <-.
  - cbn [length] in Hq. destruct (fold_path prefix dt i) as [p|] eqn:E; cbn [bind] in H; [|discriminate]. destruct (open_writer _ _ _) as [[e|k]|]; cbn [bind] in H; [now injection H as <- <-| |discriminate].
    destruct (contents k (Some d) out); cbn [bind] in H; [|discriminate]. rewrite (IH _ _ _ _ H) by (intros j Ej Hj; apply (Hq j Ej); lia). apply put_other. intros ->. apply (Hq i E). lia.
Qed.
Lemma split_length n perm (bs : list (list (point V))) d outs : split n perm bs = Some (d, outs) -> (length outs <= Z.to_nat n)%nat.
Proof.
  unfold split. destruct (concat bs); [intros H; injection H as <- <-; cbn; lia|]. destruct (match perm with Some pm => reorder pm _ | None => _ end); cbn [bind]; [|discriminate].
  destruct (fold_size _ _) as [sz|]; cbn [bind]; [|discriminate]. intros H. injection H as _ <-. generalize 0 at 1, sz at 2, l0. induction (Z.to_nat n) as [|m IH]; intros z e x; cbn [write_folds length]; [lia|].
  destruct (write_fold e z x) as [[w i] r]. cbn [length]. specialize (IH i (u64 (e + sz)) r). lia.
Qed.
Lemma split_only src st n prefix dt perm fs s fs' : run_split print_g mkval pow10i is_zero bits unbits can_write src st n prefix dt perm fs = Some (s, fs') ->
  forall q, (forall j, 0 <= j < n -> fold_path prefix dt j <> Some q) -> fs' q = fs q.
Proof.
  intros H q Hq. unfold run_split in H. destruct (add_reader fs src st) as [[s0 l]|]; cbn [bind] in H; [|discriminate]. destruct s0; try (injection H as <- <-; reflexivity).
  destruct (gather fs [] false l) as [bs|]; cbn [bind] in H; [|discriminate]. destruct (split n perm bs) as [[d outs]|] eqn:E; cbn [bind] in H; [|discriminate].
  apply (folds_only _ _ _ _ _ _ _ _ H). intros j Ej Hj. apply (Hq j); [|exact Ej]. apply split_length in E. lia.
Qed.
End Q.

(* ------------------------------------------------------------------ split *)
Section P.
Context {V : Type}.
Variable print_g : V -> option (list Z).
Variable mkval : Z -> Z -> V.
Variable pow10i : Z -> Z.
Variable is_zero : V -> bool.
Variable bits : V -> Z.
Variable unbits : Z -> V.
Variable can_write : list Z -> bool.
Variable dec : V -> dec6.
Hypothesis zero_ok : forall m e, is_zero (mkval m e) = (m =? 0).
Notation storable := (storable print_g bits unbits dec).
Notation kept := (kept mkval dec).
Notation contents := (contents print_g bits).
Notation read := (read mkval pow10i is_zero unbits).
Notation reads := (reads mkval pow10i is_zero unbits).
Notation gather := (gather mkval pow10i is_zero unbits).
Notation holds := (holds mkval pow10i is_zero unbits).
Notation run_folds := (run_folds print_g bits can_write).

Lemma run_folds_ok prefix dt k d outs : named dt k -> forall i fs, 0 <= i -> i + Z.of_nat (length outs) <= 2147483648 ->
  (forall j p, i <= j < i + Z.of_nat (length outs) -> fold_path prefix dt j = Some p -> can_write p = true) ->
  Forall (fun out => Forall (storable k) out /\ (k = KCsv -> covers d out)) outs ->
  exists fs', run_folds prefix dt d i outs fs = Some (Status_OK, fs') /\ only (fold_names prefix dt i (length outs)) fs fs' /\
    Forall2 (fun p out => exists c qs, fs' p = Some c /\ contents k (Some d) out = Some c /\ read k c = Some qs /\ (k = KCsv -> c <> []) /\ Forall2 (kept k) out qs)
      (fold_names prefix dt i (length outs)) outs.
Proof.
  intros N. induction outs as [|out r IH]; intros i fs Hi Hn W St; cbn [M_Files.run_folds length fold_names].
  - exists fs. split; [reflexivity|]. split; [intros q _; reflexivity|constructor].
  - cbn [length] in Hn, W. inversion St as [|? ? [S1 S2] St']; subst. destruct (fold_path_some prefix dt i ltac:(lia)) as (p & dg & E & _ & _ & Nd & _). rewrite E. cbn [bind].
    rewrite (writer_ok can_write _ _ _ N Nd) by (apply (W i); [lia|exact E]). cbn [bind].
    destruct (store print_g mkval pow10i is_zero bits unbits dec zero_ok k (Some d) out S1) as (c & qs & X1 & X2 & X3 & X4); [intros K; exists d; auto|]. rewrite X1. cbn [bind].
    destruct (IH (i + 1) (put fs p c) ltac:(lia) ltac:(lia)) as (fs' & R & O & F); [intros j q Hj Eq; apply (W j); [lia|exact Eq]|exact St'|].
    assert (Pn : ~ In p (fold_names prefix dt (i + 1) (length r))).
    { intros Hin. apply fold_names_in in Hin; [|lia|lia]. destruct Hin as (j & Hj & Ej). pose proof (fold_path_inj prefix dt i j p ltac:(lia) ltac:(lia) E Ej). lia. }
    exists fs'. split; [exact R|]. split.
    + intros q Hq. cbn [In] in Hq. rewrite O by (intros X; apply Hq; now right). apply put_other. intros ->. apply Hq. now left.
    + constructor; [|exact F]. exists c, qs. rewrite O by exact Pn. rewrite put_same. auto.
Qed.
Lemma split_ok fs src st k1 n prefix dt k2 perm ps :
  named st k1 -> named dt k2 -> src <> bytes "-" -> holds fs src k1 ps -> 1 <= n < 2147483648 -> 1 <= Z.of_nat (length ps) <= 16777216 -> shuffled perm ps ->
  (forall j p, 0 <= j < n -> fold_path prefix dt j = Some p -> can_write p = true) -> Forall (storable k2) ps ->
  exists fs' d l outs, run_split print_g mkval pow10i is_zero bits unbits can_write src st n prefix dt perm fs = Some (Status_OK, fs') /\
    only (fold_names prefix dt 0 (Z.to_nat n)) fs fs' /\
    Permutation l ps /\ (perm = None -> l = ps) /\ S_Tools.cut (Z.to_nat ((Z.of_nat (length ps) + n - 1) / n)) (Z.to_nat n) l outs /\ concat outs = l /\
    Forall2 (fun p out => exists c qs, fs' p = Some c /\ contents k2 (Some d) out = Some c /\ read k2 c = Some qs /\ (k2 = KCsv -> c <> []) /\ Forall2 (kept k2) out qs)
      (fold_names prefix dt 0 (Z.to_nat n)) outs.
Proof.
  intros N1 N2 D1 H Hn Hl Hp W St. unfold run_split. destruct (add_ok _ _ _ _ _ _ _ _ _ N1 D1 H) as (c1 & F & A & R). rewrite A. cbn [bind].
  rewrite (gather_one _ _ _ _ _ _ _ _ _ _ F R). cbn [bind]. set (bs := S_Iter.cut 256 [] ps ++ []). assert (C : concat bs = ps) by apply concat_batches.
  destruct (C40_split V n perm bs Hn) as (d & l & outs & E & P1 & P2 & P3 & P4); [now rewrite C|now rewrite C|]. rewrite E. cbn [bind]. rewrite C in *.
  assert (Ln : length outs = Z.to_nat n) by apply P3.
  assert (Sl : Forall (storable k2) l) by (rewrite Forall_forall in St |- *; intros p Hi; apply St; now apply (Permutation_in _ P1)).
  assert (Dd : d = max_dim bs).
  { clear - E Hl C. unfold split in E. rewrite C in E. destruct ps as [|p0 ps]; [cbn in Hl; lia|].
    destruct (match perm with Some pm => reorder pm _ | None => _ end) in E; cbn [bind] in E; [|discriminate]. destruct (fold_size _ _) in E; cbn [bind] in E; [|discriminate]. now injection E. }
  assert (Cv : k2 = KCsv -> covers d ps).
  { intros ->. subst d. apply (dim_covers print_g mkval pow10i is_zero bits unbits dec _ _ St). enough (X : dimension_of (max_dim bs) (concat bs)) by (now rewrite C in X). apply max_dim_spec. rewrite C. apply (csv_sorted print_g mkval pow10i is_zero bits unbits dec _ St). }
  destruct (run_folds_ok prefix dt k2 d outs N2 0 fs) as (fs' & R1 & O1 & F1); [lia|lia| | |].
  - intros j p Hj. apply W. lia.
  - rewrite Forall_forall. intros out Ho. assert (In_l : forall p, In p out -> In p l) by (intros p Hi; rewrite <- P4, in_concat; eauto). split.
    + rewrite Forall_forall in Sl |- *. intros p Hi. apply Sl, In_l, Hi.
    + intros K. destruct (Cv K) as (B & I). split; [exact B|]. intros i Hi. apply I. unfold all_idx in *. rewrite in_concat in *. destruct Hi as (x & Hx & Hi).
      apply in_map_iff in Hx. destruct Hx as (p & <- & Hx). exists (p_idx p). split; [|exact Hi]. apply in_map. apply (Permutation_in _ P1). now apply In_l.
  - rewrite Ln in *. exists fs', d, l, outs. rewrite (Permutation_length P1) in P3. auto 10.
Qed.

End P.
