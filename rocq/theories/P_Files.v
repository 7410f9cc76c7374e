(** Proofs about the tools on files. *)
From Coq Require Import String.
From Verif Require Import M_Base M_Str M_DataPoint M_Text M_Binary M_Iter S_Iter M_Tools M_Files S_Text S_Str S_Tools S_Files P_Binary P_TextFiles P_Str P_Tools.
From Coq Require Import Sorted Permutation.

Section P.
Context {V : Type}.
Variable print_g : V -> option (list Z).
Variable mkval : Z -> Z -> V.
Variable pow10i : Z -> Z.
Variable is_zero : V -> bool.
Variable bits : V -> Z.
Variable unbits : Z -> V.
Variable dec : V -> dec6.
Notation storable := (storable print_g bits unbits dec).
Notation kept := (kept mkval dec).
Notation printable := (printable print_g dec).
Notation contents := (contents print_g bits).
Notation read := (read mkval pow10i is_zero unbits).
Notation reads := (reads mkval pow10i is_zero unbits).
Notation gather := (gather mkval pow10i is_zero unbits).
Notation holds := (holds mkval pow10i is_zero unbits).
Notation g6 := (fun d => Some (print_g6 (d_neg d) (d_sig d) (d_ex d))).

(* ---------------------------------------------------------------- the writers *)
Lemma svm_feats_dec idx : forall val, Forall (fun v => print_g v = g6 (dec v)) val ->
  svm_write_feats print_g idx val = svm_write_feats g6 idx (map dec val).
Proof.
  induction idx as [|i r IH]; intros [|v val] H; cbn [svm_write_feats map]; try reflexivity.
  inversion H as [|? ? E H']; subst. rewrite E, (IH val H'). reflexivity.
Qed.
Lemma svm_dec ps : Forall printable ps -> svm_write_all print_g ps = svm_write_all g6 (map (recode dec) ps).
Proof.
  induction ps as [|p r IH]; intros H; cbn [svm_write_all map]; [reflexivity|]. inversion H as [|? ? E H']; subst.
  rewrite (IH H'). unfold svm_write. cbn [recode p_label p_idx p_val]. rewrite (svm_feats_dec _ _ E). reflexivity.
Qed.
Lemma csv_cols_dec n : forall j idx val, Forall (fun v => print_g v = g6 (dec v)) val ->
  csv_cols print_g n j idx val = csv_cols g6 n j idx (map dec val).
Proof.
  induction n as [|n IH]; intros j idx val H; cbn [csv_cols]; [reflexivity|]. destruct idx as [|i r].
  - rewrite (IH _ [] []) by constructor. reflexivity.
  - destruct (i =? j).
    + destruct val as [|v val]; cbn [map]; [reflexivity|]. inversion H as [|? ? E H']; subst. rewrite E, (IH _ r val H'). reflexivity.
    + rewrite (IH _ (i :: r) val H). reflexivity.
Qed.
Lemma csv_dec d ps : Forall printable ps -> csv_write_file print_g d ps = csv_write_file g6 d (map (recode dec) ps).
Proof.
  intros H. unfold csv_write_file. replace (csv_write_points g6 d (map (recode dec) ps)) with (csv_write_points print_g d ps); [reflexivity|].
  induction ps as [|p r IH]; cbn [csv_write_points map]; [reflexivity|]. inversion H as [|? ? E H']; subst.
  rewrite (IH H'). unfold csv_write. cbn [recode p_label p_idx p_val]. rewrite (csv_cols_dec _ _ _ _ E). reflexivity.
Qed.
Lemma csv_zero {A} (pg : A -> option (list Z)) ps : csv_write_file pg 0 ps = csv_write_file pg 1 ps.
Proof.
  unfold csv_write_file. replace (csv_write_points pg 0 ps) with (csv_write_points pg 1 ps); [reflexivity|].
  induction ps as [|p r IH]; cbn [csv_write_points]; [reflexivity|]. rewrite IH. reflexivity.
Qed.
Lemma csv_nonempty {A} (pg : A -> option (list Z)) d ps c : csv_write_file pg d ps = Some c -> c <> [].
Proof.
  unfold csv_write_file, csv_header. destruct (csv_header_cols _ _); cbn [bind]; [|discriminate].
  destruct (csv_write_points _ _ _); cbn [bind]; [|discriminate]. intros E ->. discriminate.
Qed.
(** A csv file with this dimension has a column for each feature. *)
Definition covers (d : Z) (ps : list (point V)) : Prop := 0 <= d <= 16777216 /\ forall i, In i (all_idx ps) -> i < d.
Lemma dim_covers d ps : Forall (storable KCsv) ps -> dimension_of d ps -> covers d ps.
Proof.
  intros W (D1 & D2 & D3). split; [|exact D1]. destruct (all_idx ps) eqn:E; [rewrite D3 by reflexivity; lia|].
  assert (I : In (d - 1) (all_idx ps)) by (rewrite E; apply D2; discriminate). unfold all_idx in I. rewrite in_concat in I. destruct I as (x & Hx & Hi).
  apply in_map_iff in Hx. destruct Hx as (p & <- & Hp). rewrite Forall_forall in W. destruct (W p Hp) as ((_ & _ & _ & _ & F) & _). cbn [recode p_idx] in F. rewrite Forall_forall in F.
  apply F in Hi. lia.
Qed.
Lemma csv_dim d ps : Forall (csv_writable 16777216) (map (recode dec) ps) -> covers d ps -> Forall (csv_writable (Z.max 1 d)) (map (recode dec) ps).
Proof.
  intros W (B & D1). rewrite Forall_map, Forall_forall in W |- *. intros p Hp. destruct (W p Hp) as (W1 & W2 & W3 & W4 & W5).
  repeat split; auto; try apply W1. cbn [recode p_idx] in *. rewrite Forall_forall in W5 |- *. intros i Hi. split; [apply W5; auto|].
  assert (i < d); [|lia]. apply D1. unfold all_idx. rewrite in_concat. exists (p_idx p). split; [now apply in_map|assumption].
Qed.
Lemma csv_sorted ps : Forall (storable KCsv) ps -> Forall sorted_point ps.
Proof.
  intros H. rewrite Forall_forall in H |- *. intros p Hp. destruct (H p Hp) as ((_ & L & _ & S & F) & _). cbn [recode p_idx p_val] in *.
  rewrite map_length in L. split; [exact S|]. split; [|exact L]. rewrite Forall_forall in F |- *. intros i Hi. apply F in Hi. lia.
Qed.
Lemma Forall2_map_l {A B C} (f : A -> B) (R : B -> C -> Prop) l : forall r, Forall2 R (map f l) r -> Forall2 (fun a c => R (f a) c) l r.
Proof. induction l as [|a l IH]; intros r H; inversion H; subst; constructor; auto. Qed.
Lemma Forall2_impl {A B} (R S : A -> B -> Prop) l r : (forall a b, R a b -> S a b) -> Forall2 R l r -> Forall2 S l r.
Proof. intros H F. induction F; constructor; auto. Qed.
Lemma filter_dec idx : forall val, filter (fun x : Z * dec6 => negb (d_sig (snd x) =? 0)) (combine idx (map dec val)) =
  map (fun x => (fst x, dec (snd x))) (filter (fun x => negb (d_sig (dec (snd x)) =? 0)) (combine idx val)).
Proof.
  induction idx as [|i r IH]; intros [|v val]; cbn [combine filter map]; try reflexivity. cbn [snd]. rewrite IH.
  destruct (negb _); reflexivity.
Qed.
Variable can_write : list Z -> bool.
Hypothesis zero_ok : forall m e, is_zero (mkval m e) = (m =? 0).
(** What is written can be read again. *)
Lemma store k d ps : Forall (storable k) ps -> (k = KCsv -> exists x, d = Some x /\ covers x ps) ->
  exists c qs, contents k d ps = Some c /\ read k c = Some qs /\ (k = KCsv -> c <> []) /\ Forall2 (kept k) ps qs.
Proof.
  destruct k; intros H D; cbn [M_Files.contents M_Files.read].
  - assert (W : Forall writable (map (recode dec) ps)) by (rewrite Forall_map; eapply Forall_impl; [|exact H]; intros p X; apply X).
    assert (Pr : Forall printable ps) by (eapply Forall_impl; [|exact H]; intros p X; apply X).
    rewrite (svm_dec _ Pr). destruct (svm_roundtrip_l pow10i mkval _ W) as (c & qs & C & R & F). exists c, qs. unfold show6, P_PrintG.pg in C. rewrite C, R. split; [reflexivity|]. split; [reflexivity|]. split; [discriminate|].
    apply Forall2_map_l in F. eapply Forall2_impl; [|exact F]. intros p q (A1 & A2 & A3 & vs & A4 & A5). cbn [recode p_label p_idx p_val] in *.
    cbn [S_Files.kept]. split; [exact A1|]. split; [exact A2|]. split; [exact A3|]. exists vs. split; [|exact A5]. now apply Forall2_map_l in A4.
  - destruct (D eq_refl) as (x & -> & Dx).
    assert (W : Forall (csv_writable 16777216) (map (recode dec) ps)) by (rewrite Forall_map; eapply Forall_impl; [|exact H]; intros p X; apply X).
    assert (Pr : Forall printable ps) by (eapply Forall_impl; [|exact H]; intros p X; apply X).
    pose proof (csv_dim _ _ W Dx) as W'. destruct Dx as (B & _). rewrite (csv_dec _ _ Pr).
    assert (E : forall l, csv_write_file g6 x l = csv_write_file g6 (Z.max 1 x) l).
    { intros l. destruct (Z.eq_dec x 0) as [->|]; [apply csv_zero|f_equal; lia]. }
    rewrite E. destruct (csv_roundtrip_l pow10i mkval is_zero zero_ok (Z.max 1 x) _ ltac:(lia) W') as (c & qs & C & R & F). exists c, qs.
    unfold show6, P_PrintG.pg in C. rewrite C, R. split; [reflexivity|]. split; [reflexivity|]. split; [intros _; exact (csv_nonempty _ _ _ _ C)|].
    apply Forall2_map_l in F. eapply Forall2_impl; [|exact F]. intros p q A. unfold csv_read_as, kept in A. cbn zeta in A. cbn [recode p_label p_idx p_val] in A. rewrite filter_dec in A. destruct A as (A1 & A2 & A3).
    cbn [S_Files.kept]. cbn zeta. split; [exact A1|]. rewrite !map_map in *. cbn [fst snd] in *. split; [exact A2|].
    rewrite <- map_map in A3. now apply Forall2_map_l in A3.
  - assert (W : Forall wf_point (map (recode bits) ps)) by (rewrite Forall_map; eapply Forall_impl; [|exact H]; intros p X; apply X).
    destruct (binary_roundtrip_l _ W) as (c & C & R). exists c, ps. rewrite C, R. split; [reflexivity|]. split.
    + cbn [bind]. f_equal. rewrite map_map. rewrite <- (map_id ps) at 2. apply map_ext_in. intros p Hp. rewrite Forall_forall in H. destruct (H p Hp) as (_ & U).
      destruct p as [y ix vs]. unfold recode. cbn [p_label p_idx p_val] in *. f_equal. rewrite map_map. rewrite <- (map_id vs) at 2. apply map_ext_in.
      rewrite Forall_forall in U. exact U.
    + split; [discriminate|]. clear. induction ps; constructor; auto. reflexivity.
Qed.

(* ---------------------------------------------------------------- the readers *)
Definition table : list (list Z * (family * list Z)) :=
  match register_all [] (map (fun e => (full_name (fst e) (snd e), e)) builtin) with Some m => m | None => [] end.
Lemma lower_app a b : lower (a ++ b) = lower a ++ lower b.
Proof. apply map_app. Qed.
Lemma lookup_named f t k : (f = Reader \/ f = Writer) -> named t k -> lookup f t = Some (Some (format k)).
Proof.
  intros Hf N. unfold lookup, create_object, full_name. rewrite lower_app. unfold named in N. rewrite N.
  destruct Hf; subst f; destruct k; vm_compute; reflexivity.
Qed.
Lemma kind_format k : kind_of (format k) = Some k.
Proof. destruct k; vm_compute; reflexivity. Qed.
Lemma str_eqb_refl a : str_eqb a a = true.
Proof. now apply str_eqb_eq. Qed.
Lemma str_eqb_ne a b : a <> b -> str_eqb a b = false.
Proof. intros H. destruct (str_eqb a b) eqn:E; [|reflexivity]. apply str_eqb_eq in E. now elim H. Qed.
Lemma put_same fs p c : put fs p c p = Some c.
Proof. unfold put. now rewrite str_eqb_refl. Qed.
Lemma put_other fs p c q : q <> p -> put fs p c q = fs q.
Proof. intros H. unfold put. now rewrite str_eqb_ne. Qed.
Lemma put_only fs p c : only [p] fs (put fs p c).
Proof. intros q H. apply put_other. intros ->. apply H. now left. Qed.
Lemma first_line c n st l k r : c <> [] -> read_line n c = Some (st, l, k, r) -> st = Status_OK.
Proof.
  intros H. unfold read_line, fgets. destruct c as [|b c]; [now elim H|]. destruct (take_line _ _) as [a f].
  destruct (read_line_loop _ _ _ _) as [[[u v] w]|]; cbn [bind]; [|discriminate]. intros E. now inversion E.
Qed.
Lemma add_ok fs path t k ps : named t k -> path <> bytes "-" -> holds fs path k ps ->
  exists c, fs path = Some c /\ add_reader fs path t = Some (Status_OK, [mkinput path k c]) /\ read k c = Some ps.
Proof.
  intros N D (c & F & Hc & R). exists c. split; [exact F|]. split; [|exact R]. unfold add_reader.
  rewrite (lookup_named _ _ _ (or_introl eq_refl) N). cbn [bind]. rewrite kind_format. cbn [bind]. unfold is_dash. rewrite (str_eqb_ne _ _ D), F.
  destruct k; [reflexivity| |reflexivity]. cbn [M_Files.read] in R. unfold csv_read_file in R.
  destruct (read_line 4096 c) as [[[[st l] n] r]|] eqn:E; cbn [bind] in R; [|discriminate]. rewrite (first_line _ _ _ _ _ _ (Hc eq_refl) E). reflexivity.
Qed.
Lemma concat_cut {A} (l : list A) : concat (S_Iter.cut 256 [] l) = l.
Proof.
  assert (G : forall (l c : list A), (length c < 256)%nat -> concat (S_Iter.cut 256 c l) = c ++ l).
  { clear l. induction l as [|x l IH]; intros c L; cbn [S_Iter.cut]; [cbn [concat]; now rewrite !app_nil_r|].
    destruct (Nat.ltb_spec (length (c ++ [x])) 256) as [H|H].
    - rewrite IH by exact H. now rewrite <- app_assoc.
    - cbn [concat]. rewrite IH by (cbn [length]; lia). cbn [app]. now rewrite <- app_assoc. }
  apply (G l []). cbn [length]. lia.
Qed.
Lemma reads_ok fs path k c ps : fs path = Some c -> read k c = Some ps -> reads fs (mkinput path k c) = Some (S_Iter.cut 256 [] ps).
Proof.
  intros F R. unfold M_Files.reads. cbn [in_path in_kind in_was]. rewrite F. cbn [bind]. destruct k; rewrite ?R; cbn [bind]; try reflexivity.
  rewrite str_eqb_refl. reflexivity.
Qed.
(** The batches of several readers whose files are not written. *)
Definition opened (fs : files) (i : input) (ps : list (point V)) : Prop := fs (in_path i) = Some (in_was i) /\ read (in_kind i) (in_was i) = Some ps.
Lemma gather_ok fs out l : forall w pss, Forall2 (opened fs) l pss -> ~ In out (map in_path l) ->
  exists bs, gather fs out w l = Some bs /\ concat bs = concat pss.
Proof.
  induction l as [|[pa k c] l IH]; intros w pss H N; inversion H as [|? ps ? pss' [F R] H']; subst; cbn [M_Files.gather].
  - exists []. auto.
  - cbn [in_path in_kind in_was map In] in *. rewrite str_eqb_ne by (intros ->; apply N; now left). cbn [andb]. rewrite (reads_ok _ _ _ _ _ F R). cbn [bind].
    destruct (IH (w || negb (length (concat (S_Iter.cut 256 [] ps)) =? 0)%nat) pss' H') as (bs & E & C); [intros X; apply N; now right|]. rewrite E. cbn [bind].
    exists (S_Iter.cut 256 [] ps ++ bs). split; [reflexivity|]. rewrite concat_app, concat_cut, C. reflexivity.
Qed.
Lemma adds_ok fs t k paths : forall pss, named t k -> Forall (fun p => p <> bytes "-") paths -> Forall2 (fun p ps => holds fs p k ps) paths pss ->
  exists l, add_readers fs paths t = Some (Status_OK, l) /\ map in_path l = paths /\ Forall2 (opened fs) l pss.
Proof.
  induction paths as [|p r IH]; intros pss N D H; inversion H as [|? ps ? pss' Hp H']; subst; cbn [add_readers].
  - exists []. auto.
  - inversion D as [|? ? Dp Dr]; subst. destruct (add_ok _ _ _ _ _ N Dp Hp) as (c & F & A & R). rewrite A. cbn [bind].
    destruct (IH _ N Dr H') as (l & E & M & O). rewrite E. cbn [bind app]. exists (mkinput p k c :: l). split; [reflexivity|]. cbn [map in_path]. rewrite M. split; [reflexivity|].
    constructor; [split; assumption|exact O].
Qed.
Lemma holds_put fs out c p k ps : p <> out -> holds fs p k ps -> holds (put fs out c) p k ps.
Proof. intros N (x & F & H). exists x. rewrite put_other by exact N. auto. Qed.
Lemma writer_ok path t k : named t k -> path <> bytes "-" -> can_write path = true -> open_writer can_write path t = Some (inr k).
Proof.
  intros N D W. unfold open_writer. rewrite (lookup_named _ _ _ (or_intror eq_refl) N). cbn [bind]. rewrite kind_format. cbn [bind]. unfold is_dash. now rewrite (str_eqb_ne _ _ D), W.
Qed.
Lemma csv_name_ok t k : named t k -> (k = KCsv -> t = bytes "csv") -> csv_name t = match k with KCsv => true | _ => false end.
Proof.
  intros N E. unfold csv_name. destruct k.
  - apply str_eqb_ne. intros ->. discriminate N.
  - rewrite E by reflexivity. apply str_eqb_refl.
  - apply str_eqb_ne. intros ->. discriminate N.
Qed.

(* ---------------------------------------------------------------- the tools *)
Lemma changed_out bin (ps out : list (point V)) : changed bin ps out -> out = match bin with None => ps | Some (above, o, m) => map (binarize above o m) ps end.
Proof.
  destruct bin as [[[ab o] m]|]; cbn [changed]; [|auto]. intros H. induction H as [|p q ps qs (A & B & C) H IH]; cbn [map]; [reflexivity|]. rewrite IH. f_equal.
  destruct p as [y ix vs], q as [y' ix' vs']. cbn [p_label p_idx p_val] in *. subst. unfold binarize. cbn [p_label p_idx p_val]. f_equal. clear - C.
  induction C as [|v w vs ws [[E ->]|[E ->]] C IH]; cbn [map]; rewrite ?IH, ?E; reflexivity.
Qed.
Lemma changed_idx bin (ps out : list (point V)) : changed bin ps out -> map p_idx out = map p_idx ps.
Proof.
  intros H. rewrite (changed_out _ _ _ H). destruct bin as [[[ab o] m]|]; [|reflexivity]. rewrite map_map. apply map_ext. reflexivity.
Qed.
Lemma dim_idx d (a b : list (point V)) : map p_idx a = map p_idx b -> dimension_of d a -> dimension_of d b.
Proof. unfold dimension_of, all_idx. intros ->. auto. Qed.
Lemma max_dim_idx (a b : list (list (point V))) : map p_idx (concat a) = map p_idx (concat b) -> max_dim a = max_dim b.
Proof.
  unfold max_dim. generalize 0. generalize (concat b). induction (concat a) as [|p l IH]; intros [|q r] z E; cbn [map] in E; try discriminate; [reflexivity|].
  injection E as E1 E2. cbn [fold_left]. unfold dp_dim at 2 4. rewrite E1. now apply IH.
Qed.
Lemma convert_ok fs src st k1 dst dt k2 bin ps out :
  named st k1 -> named dt k2 -> (k2 = KCsv -> dt = bytes "csv" /\ all_idx ps <> []) ->
  src <> bytes "-" -> dst <> bytes "-" -> src <> dst -> can_write dst = true -> holds fs src k1 ps -> changed bin ps out -> Forall (storable k2) out ->
  exists c qs, run_convert print_g mkval pow10i is_zero bits unbits can_write src st dst dt bin fs = Some (Status_OK, put fs dst c) /\
    (exists d, contents k2 d out = Some c /\ (k2 = KCsv -> exists x, d = Some x /\ dimension_of x out)) /\ read k2 c = Some qs /\ (k2 = KCsv -> c <> []) /\ Forall2 (kept k2) out qs.
Proof.
  intros N1 N2 Hc D1 D2 Ne W H Ch St. unfold run_convert.
  destruct (add_ok _ _ _ _ _ N1 D1 H) as (c1 & F & A & R). rewrite A. cbn [bind]. rewrite (writer_ok _ _ _ N2 D2 W). cbn [bind].
  set (fs1 := put fs dst []). assert (F1 : fs1 src = Some c1) by (unfold fs1; now rewrite put_other).
  assert (G : forall w, exists bs, gather fs1 dst w [mkinput src k1 c1] = Some bs /\ concat bs = ps).
  { intros w. destruct (gather_ok fs1 dst [mkinput src k1 c1] w [ps]) as (bs & E & C); [constructor; [split; assumption|constructor]| |].
    - cbn. intros [X|[]]. now apply Ne.
    - exists bs. split; [exact E|]. rewrite C. cbn. apply app_nil_r. }
  destruct (G false) as (bs & -> & C). cbn [bind]. rewrite (csv_name_ok _ _ N2 (fun X => proj1 (Hc X))).
  assert (O : out = match bin with None => concat bs | Some (above, o, m) => map (binarize above o m) (concat bs) end) by (rewrite C; now apply changed_out).
  assert (Plain : k2 <> KCsv -> exists c qs, (do c0 <- contents k2 None out; Some (Status_OK, put fs dst c0)) = Some (Status_OK, put fs dst c) /\
    (exists d, contents k2 d out = Some c /\ (k2 = KCsv -> exists x, d = Some x /\ dimension_of x out)) /\ read k2 c = Some qs /\ (k2 = KCsv -> c <> []) /\ Forall2 (kept k2) out qs).
  { intros K. destruct (store k2 None out St) as (c & qs & X1 & X2 & X3 & X4); [intros X; now elim K|]. exists c, qs. rewrite X1. split; [reflexivity|]. split; [|auto].
    exists None. split; [exact X1|]. intros X. now elim K. }
  destruct k2.
  - unfold convert. rewrite <- O. apply Plain. discriminate.
  - clear Plain. destruct (Hc eq_refl) as (_ & Fe). pose proof (csv_sorted _ St) as So. pose proof (changed_idx _ _ _ Ch) as Ix.
    assert (Dm : dimension_of (max_dim bs) out).
    { assert (Eo : concat [out] = out) by (cbn [concat]; apply app_nil_r). rewrite (max_dim_idx bs [out]) by (rewrite Eo, C; now symmetry). rewrite <- Eo at 2. apply max_dim_spec. now rewrite Eo. }
    unfold convert at 1. destruct (max_dim bs =? 0) eqn:Z0.
    { exfalso. apply Z.eqb_eq in Z0. rewrite Z0 in Dm. destruct Dm as (D3 & D4 & _). assert (Fo : all_idx out <> []) by (unfold all_idx in *; now rewrite Ix).
      apply D4 in Fo. unfold all_idx in Fo. rewrite in_concat in Fo. destruct Fo as (x & Hx & Hi). apply in_map_iff in Hx. destruct Hx as (p & <- & Hp).
      rewrite Forall_forall in So. destruct (So p Hp) as (_ & B & _). rewrite Forall_forall in B. apply B in Hi. lia. }
    rewrite (str_eqb_ne _ _ Ne). assert (A1 : add_reader fs1 src st = Some (Status_OK, [mkinput src k1 c1])).
    { destruct (add_ok fs1 _ _ _ ps N1 D1) as (c2 & F2 & A2 & _); [now apply holds_put|]. rewrite F1 in F2. injection F2 as <-. exact A2. }
    rewrite A1. cbn [bind]. destruct (G true) as (bs2 & -> & C2). cbn [bind]. unfold convert. rewrite C2, <- (changed_out _ _ _ Ch).
    destruct (store KCsv (Some (max_dim bs)) out St) as (c & qs & X1 & X2 & X3 & X4); [intros _; exists (max_dim bs); split; [reflexivity|now apply dim_covers]|]. rewrite X1. cbn [bind]. exists c, qs. split; [reflexivity|].
    split; [|auto]. exists (Some (max_dim bs)). split; [exact X1|]. intros _. eauto.
  - unfold convert. rewrite <- O. apply Plain. discriminate.
Qed.
Lemma shuffle_ok fs src st k1 dst dt0 k2 perm ps :
  named st k1 -> named (match dt0 with [] => st | _ => dt0 end) k2 ->
  src <> bytes "-" -> dst <> bytes "-" -> src <> dst -> can_write dst = true -> holds fs src k1 ps -> Permutation perm (seq 0 (length ps)) -> Forall (storable k2) ps ->
  exists c l qs, run_shuffle print_g mkval pow10i is_zero bits unbits can_write src st dst dt0 perm fs = Some (Status_OK, put fs dst c) /\
    Permutation l ps /\ read k2 c = Some qs /\ (k2 = KCsv -> c <> []) /\ Forall2 (kept k2) l qs.
Proof.
  intros N1 N2 D1 D2 Ne W H Pe St. unfold run_shuffle. destruct (add_ok _ _ _ _ _ N1 D1 H) as (c1 & F & A & R). rewrite A. cbn [bind]. rewrite (writer_ok _ _ _ N2 D2 W). cbn [bind].
  set (fs1 := put fs dst []). assert (F1 : fs1 src = Some c1) by (unfold fs1; now rewrite put_other).
  destruct (gather_ok fs1 dst [mkinput src k1 c1] false [ps]) as (bs & -> & C); [constructor; [split; assumption|constructor]|cbn; intros [X|[]]; now apply Ne|].
  cbn [concat] in C. rewrite app_nil_r in C. cbn [bind]. unfold shuffle. rewrite C. destruct (reorder_total _ _ Pe) as (l & -> & Pl). cbn [bind].
  assert (Sl : Forall (storable k2) l) by (rewrite Forall_forall in St |- *; intros p Hp; apply St; now apply (Permutation_in _ Pl)).
  destruct (store k2 (Some (max_dim bs)) l Sl) as (c & qs & X1 & X2 & X3 & X4).
  - intros ->. exists (max_dim bs). split; [reflexivity|]. apply dim_covers; [exact Sl|]. pose proof (csv_sorted _ St) as So. rewrite <- C in So. destruct (max_dim_spec bs So) as (A1 & A2 & A3). rewrite C in *.
    assert (Pi : Permutation (all_idx l) (all_idx ps)) by (unfold all_idx; rewrite <- !flat_map_concat_map; now apply Permutation_flat_map). split; [|split].
    + intros i Hi. apply A1. now apply (Permutation_in _ Pi).
    + intros Hn. apply (Permutation_in _ (Permutation_sym Pi)). apply A2. intros E. rewrite E in Pi. apply Permutation_sym, Permutation_nil in Pi. contradiction.
    + intros E. apply A3. rewrite E in Pi. now apply Permutation_nil.
  - rewrite X1. cbn [bind]. exists c, l, qs. auto.
Qed.
Lemma concat_ok fs paths st k1 dst dt k2 pss :
  named st k1 -> named dt k2 -> (k2 = KCsv -> dt = bytes "csv") ->
  Forall (fun p => p <> bytes "-" /\ p <> [] /\ ~ In 59 p) paths -> ~ In dst paths -> dst <> bytes "-" -> can_write dst = true ->
  Forall2 (fun p ps => holds fs p k1 ps) paths pss -> Forall (storable k2) (concat pss) ->
  exists c qs, run_concat print_g mkval pow10i is_zero bits unbits can_write (join 59 paths) st dst dt fs = Some (Status_OK, put fs dst c) /\
    (exists d, contents k2 d (concat pss) = Some c /\ (k2 = KCsv -> exists x, d = Some x /\ dimension_of x (concat pss))) /\ read k2 c = Some qs /\ (k2 = KCsv -> c <> []) /\ Forall2 (kept k2) (concat pss) qs.
Proof.
  intros N1 N2 Hc Hp Nd D2 W H St. unfold run_concat. rewrite (writer_ok _ _ _ N2 D2 W). cbn [bind].
  assert (Sp : str_split 59 (join 59 paths) = Some paths).
  { destruct (str_split_spec 59 (join 59 paths)) as (qs & -> & Pq). f_equal. apply (pieces_fun _ _ _ Pq). apply pieces_join. eapply Forall_impl; [|exact Hp]. intros p (_ & X & Y). split; [exact X|].
    rewrite Forall_forall. intros c Hi ->. contradiction. }
  rewrite Sp. cbn [bind]. set (fs1 := put fs dst []).
  assert (Dp : Forall (fun p => p <> bytes "-") paths) by (eapply Forall_impl; [|exact Hp]; intros p X; apply X).
  assert (H1 : Forall2 (fun p ps => holds fs1 p k1 ps) paths pss).
  { clear - H Nd. induction H as [|p ps paths pss Hp H IH]; constructor; [|apply IH; intros X; apply Nd; now right]. apply holds_put; [|exact Hp]. intros ->. apply Nd. now left. }
  destruct (adds_ok _ _ _ _ _ N1 Dp H1) as (l & A & M & O). rewrite A. cbn [bind].
  assert (Nl : ~ In dst (map in_path l)) by now rewrite M.
  destruct (gather_ok _ _ _ false _ O Nl) as (bs & G & C). rewrite (csv_name_ok _ _ N2 Hc).
  assert (Plain : k2 <> KCsv -> exists c qs, (do bs <- gather fs1 dst false l; do c0 <- contents k2 None (concat bs); Some (Status_OK, put fs dst c0)) = Some (Status_OK, put fs dst c) /\
    (exists d, contents k2 d (concat pss) = Some c /\ (k2 = KCsv -> exists x, d = Some x /\ dimension_of x (concat pss))) /\ read k2 c = Some qs /\ (k2 = KCsv -> c <> []) /\ Forall2 (kept k2) (concat pss) qs).
  { intros K. destruct (store k2 None _ St) as (c & qs & X1 & X2 & X3 & X4); [intros X; now elim K|]. rewrite G. cbn [bind]. rewrite C, X1. exists c, qs. split; [reflexivity|]. split; [|auto].
    exists None. split; [exact X1|]. intros X. now elim K. }
  destruct k2; [apply Plain; discriminate| |apply Plain; discriminate]. clear Plain. rewrite G. cbn [bind].
  destruct (existsb (fun p => str_eqb p dst) paths) eqn:E.
  { apply existsb_exists in E. destruct E as (p & Hi & E). apply str_eqb_eq in E. now subst. }
  destruct (gather_ok _ _ _ true _ O Nl) as (bs2 & -> & C2). cbn [bind]. rewrite C2.
  assert (Dm : dimension_of (max_dim bs) (concat pss)) by (rewrite <- C; apply max_dim_spec; rewrite C; now apply csv_sorted).
  destruct (store KCsv (Some (max_dim bs)) _ St) as (c & qs & X1 & X2 & X3 & X4); [intros _; exists (max_dim bs); split; [reflexivity|now apply dim_covers]|]. rewrite X1. cbn [bind]. exists c, qs. split; [reflexivity|].
  split; [|auto]. exists (Some (max_dim bs)). split; [exact X1|]. intros _. eauto.
Qed.
End P.
