(** Property C66: the JSON library, and with it the files of models. *)
From Coq Require Import Reals SpecFloat String Sorted.
From Flocq Require Import Core BinarySingleNaN.
From Verif Require Import M_Base M_Num M_Expr M_Loss M_Online M_Olm M_OlmSel M_Heap M_Algs M_Text S_Text M_Str S_Online M_Save S_Save P_Save4 P_Save5
  M_SaveF32 P_SaveF32 P_SaveF32b M_Json S_Json P_Json2 P_Json3 P_Json4 P_Json6 P_Json7 Props_Online Props_Save.
Local Open Scope string_scope.
Local Open Scope list_scope.
Local Open Scope Z_scope.

(** ** Reading *)
(** A JSON text of at most 1000 levels is read as the value that it denotes, whatever follows it; only behind a number
    there must not be anything that continues it. *)
Theorem C66_reads : forall (D : Type) (read_double : list Z -> option D) n v t a b slack,
  (n <= 1000)%nat -> value_text read_double n v t -> blanks a -> (is_number v -> num_end (b ++ slack)) ->
  parse read_double (a ++ t ++ b) slack = Some (Ok v (b ++ slack)).
Proof. intros. now apply parse_ok with n. Qed.
(** A text denotes one value. *)
Theorem C66_unique : forall (D : Type) (read_double : list Z -> option D) n v n' v' t,
  (n <= 1000)%nat -> (n' <= 1000)%nat -> value_text read_double n v t -> value_text read_double n' v' t -> v = v'.
Proof.
  intros D rd n v n' v' t Hn Hn' H H'. pose proof (C66_reads D rd n v t [] [] [] Hn H (Forall_nil _) (fun _ => I)) as E.
  pose proof (C66_reads D rd n' v' t [] [] [] Hn' H' (Forall_nil _) (fun _ => I)) as E'. rewrite E in E'. congruence.
Qed.
(** The reader comes to an end on every sequence of bytes. *)
Theorem C66_ends : forall (D : Type) (read_double : list Z -> option D) doc slack, exists o, parse read_double doc slack = Some o.
Proof. intros. apply parse_ends. Qed.
(** For the examples: read with doubles as six digits. *)
Definition read_text (s : string) : option (outcome (json dec6)) := parse read6 (bytes s) [].
Definition q (l : list Z) : list Z := 34 :: l ++ [34].
Definition key_text : list Z := [97; 92; 110; 92; 117; 48; 48; 101; 57]. (** a, backslash n, backslash u00e9 *)
Definition sample : list Z := (** [{"b": [true, -2.5e1, []], "a\n#00e9": 7, "b": null}] with # for backslash u *)
  bytes "{" ++ q (bytes "b") ++ bytes ": [true, -2.5e1, []], " ++ q (key_text) ++ bytes ": 7, " ++ q (bytes "b") ++ bytes ": null}".
Definition sample_value : json dec6 := Obj [(97 :: 10 :: [195; 169], Int 7); (bytes "b", Null)].
Ltac blank := (apply Forall_nil || (apply Forall_cons; [cbn; lia|blank])).
Lemma sample_text : value_text read6 3 sample_value sample.
Proof.
  assert (A : string_text (key_text) (97 :: 10 :: [195; 169])).
  { apply (st_char 97); try lia. apply (st_escape 110 10); [cbn; tauto|]. apply (st_unicode [48; 48; 101; 57] 233 [195; 169] [] []).
    - apply (hex4_intro 48 48 101 57 0 0 14 9); unfold hex_value; lia.
    - lia.
    - apply enc2. lia.
    - constructor. }
  assert (B : string_text (bytes "b") (bytes "b")) by (apply (st_char 98); try lia; constructor).
  set (bv := Arr [Bool true; Real (mkdec6 true 250000 1); Arr []] : json dec6).
  apply (vt_object read6 2 [(bytes "b", bv); (97 :: 10 :: [195; 169], Int 7); (bytes "b", Null)] _ (q (bytes "b") ++ bytes ": [true, -2.5e1, []], " ++ q (key_text) ++ bytes ": 7, " ++ q (bytes "b") ++ bytes ": null")).
  - apply (mt_more read6 2 _ (bytes "b") bv [] [] [32] (bytes "[true, -2.5e1, []]") [] _ (32 :: q (key_text) ++ bytes ": 7, " ++ q (bytes "b") ++ bytes ": null")); try blank; auto.
    + apply (vt_array read6 1 _ (bytes "true, -2.5e1, []")). apply (et_more read6 1 _ [] (bytes "true") [] _ (bytes " -2.5e1, []")); try blank; [constructor|].
      apply (et_more read6 1 _ [32] (bytes "-2.5e1") [] _ (bytes " []")); try blank; [|apply (et_one read6 1 _ [32] (bytes "[]") []); try blank; apply (vt_empty_array read6 0 []); blank].
      apply vt_number. apply (nt_real read6 true [50] [53] (bytes "e1") 1); [split; [repeat constructor; unfold digit_char; lia|right; lia]|repeat constructor; unfold digit_char; lia| |left; discriminate|reflexivity].
      apply (ex_plain 101 [49]); [lia|discriminate|repeat constructor; unfold digit_char; lia].
    + apply (mt_more read6 2 _ (key_text) (Int 7) [32] [] [32] (bytes "7") [] _ (32 :: q (bytes "b") ++ bytes ": null")); try blank; auto.
      * apply vt_number. apply (nt_int read6 false [55] 7); [split; [repeat constructor; unfold digit_char; lia|right; lia]|reflexivity|lia].
      * apply (mt_one read6 2 _ (bytes "b") Null [32] [] [32] (bytes "null") []); try blank; auto. constructor.
  - split; [repeat constructor; cbn; lia|]. intros k. cbn [sample_value obj_get last_of]. destruct (str_eqb (bytes "b") k) eqn:E; [|now destruct (str_eqb [97; 10; 195; 169] k)].
    apply P_Str.str_eqb_eq in E as <-. reflexivity.
Qed.
Example C66_reads_witness : parse read6 (bytes " " ++ sample ++ bytes " , 1") [0; 93] = Some (Ok sample_value (bytes " , 1" ++ [0; 93])).
Proof. apply (C66_reads _ read6 3); [lia|apply sample_text|repeat constructor; lia|intros []]. Qed.
Example C66_number_witness : read_text "-0" = Some (Ok (Int 0) []) /\ read_text " 2147483648" = Some (Ok (UInt 2147483648) []) /\
  read_text "-9223372036854775808" = Some (Ok (Int (-9223372036854775808)) []) /\ read_text "18446744073709551615" = Some (Ok (UInt 18446744073709551615) []) /\
  read_text "0.001" = Some (Ok (Real (mkdec6 false 100000 (-3))) []) /\ read_text "[1,2" = Some Fail /\ read_text "1e5" = Some (Ok (Real (mkdec6 false 100000 5)) []).
Proof. vm_compute. repeat split. Qed.

(** What the reader does beyond that is surprising at places. *)
(** The result depends on bytes behind the document (the capacity of the string): *)
Theorem C66_only_the_document_read_refuted : exists doc s1 s2,
  parse read6 doc s1 = Some (Ok (Str (bytes "ab")) []) /\ parse read6 doc s2 = Some Fail /\
  parse read6 (bytes "12") (bytes "3") = Some (Ok (Int 123) []).
Proof. exists [34; 97], [98; 34], []. vm_compute. repeat split. Qed.
Ltac crack := repeat (cbn [app S_Json.sign] in *; subst; try discriminate; try contradiction;
  match goal with
  | H : blanks (_ :: ?t) |- _ => let H0 := fresh in pose proof (Forall_inv H) as H0; apply Forall_inv_tail in H; change (blanks t) in H; cbn in H0; try lia
  | H : Forall digit_char (_ :: _) |- _ => let H0 := fresh in pose proof (Forall_inv H) as H0; apply Forall_inv_tail in H; unfold digit_char in H0; try lia
  | H : _ :: _ = _ :: _ |- _ => injection H; clear H; intros
  | H : ?a ++ _ = _ :: _ |- _ => is_var a; destruct a
  | H : ?a ++ _ = [] |- _ => is_var a; destruct a
  | H : frac_text ?a ++ _ = _ |- _ => is_var a; destruct a; cbn [frac_text] in H
  | H : exp_text (_ :: _) _ |- _ => inversion H; clear H; subst; try lia
  | H : In (_, _) escapes |- _ => cbn in H; exfalso; intuition discriminate
  | H : hex4_value _ _ |- _ => inversion H; clear H; subst
  | H : S_Json.sign ?b ++ _ = _ |- _ => is_var b; destruct b
  | H : int_text _ |- _ => destruct H as (? & [?|?])
  | H : string_text _ _ |- _ => inversion H; clear H; subst
  | H : value_text _ _ _ _ |- _ => inversion H; clear H; subst
  | H : number_text _ _ _ |- _ => inversion H; clear H; subst
  | H : elements_text _ _ _ _ |- _ => inversion H; clear H; subst
  | H : members_text _ _ _ _ |- _ => inversion H; clear H; subst
  end).
Ltac reject := let H := fresh in intros H; crack; unfold hex_value in *; lia.
(** Texts that are no JSON are accepted: a sign without digits, leading zeros, a comma before the end of an object after an
    empty name, a colon for a comma behind a comment, the first half of a surrogate pair with any second half. *)
Theorem C66_only_json_accepted_refuted : exists ts : list (list Z * json dec6),
  ts = [(bytes "-", Int 0); (bytes "00", Int 0); (bytes "{" ++ q [] ++ bytes ":1,}", Obj [([], Int 1)]);
        (bytes "{" ++ q (bytes "a") ++ bytes ":1/**/:" ++ q (bytes "b") ++ bytes ":2}", Obj [(bytes "a", Int 1); (bytes "b", Int 2)]);
        (q (92 :: bytes "ud800" ++ 92 :: bytes "u0041"), Str [240; 144; 129; 129])] /\
  Forall (fun '(t, v) => parse read6 t [] = Some (Ok v []) /\ forall n w, ~ value_text read6 n w t) ts.
Proof.
  eexists. split; [reflexivity|]. repeat (apply Forall_cons; [split; [vm_compute; reflexivity|intros n w]|]); [..|apply Forall_nil].
  - change (bytes "-") with [45]. reject.
  - change (bytes "00") with [48; 48]. reject.
  - match goal with |- ~ value_text _ _ _ ?t => let t' := eval vm_compute in t in change t with t' end. reject.
  - match goal with |- ~ value_text _ _ _ ?t => let t' := eval vm_compute in t in change t with t' end. reject.
  - match goal with |- ~ value_text _ _ _ ?t => let t' := eval vm_compute in t in change t with t' end. reject.
Qed.
(** A text with more than 1000 levels makes the reader throw; Model::Load does not catch that. *)
Theorem C66_deep_texts_read_refuted : exists t v, (forall D rd, value_text (D:=D) rd 1001 (v D) t) /\ parse read6 t [] = Some Throw.
Proof.
  exists (repeat 91 1001 ++ repeat 93 1001), (fun D => Nat.iter 1000 (fun x => Arr [x]) (Arr [])). split; [|vm_compute; reflexivity].
  intros D rd.
  assert (X : forall k, value_text rd (S k) (Nat.iter k (fun x => Arr [x]) (Arr []) : json D) (repeat 91 (S k) ++ repeat 93 (S k))).
  { induction k as [|k IH]; [apply (vt_empty_array rd 0 []); constructor|].
    replace (repeat 91 (S (S k)) ++ repeat 93 (S (S k))) with (91 :: (repeat 91 (S k) ++ repeat 93 (S k)) ++ [93]).
    - apply vt_array. cbn [Nat.iter]. replace (repeat 91 (S k) ++ repeat 93 (S k)) with ([] ++ (repeat 91 (S k) ++ repeat 93 (S k)) ++ []) by (cbn [app]; now rewrite app_nil_r).
      apply et_one; [constructor|constructor|exact IH].
    - rewrite <- app_assoc. change [93] with (repeat 93 1). rewrite <- repeat_app. replace (S k + 1)%nat with (S (S k)) by lia. reflexivity. }
  apply (X 1000%nat).
Qed.

(** ** Writing *)
(** What is written for a value is a JSON text; it denotes the value (as far as [kept] says), and reading it gives that. *)
Theorem C66_round_trip : forall (D : Type) (show : D -> list Z) read_double n v slack,
  (n <= 1000)%nat -> writable_value show read_double n v ->
  exists a t v', write show v = Some (a ++ t ++ [10]) /\ blanks a /\ value_text read_double n v' t /\ kept show read_double v v' /\
    parse read_double (a ++ t ++ [10]) slack = Some (Ok v' (10 :: slack)).
Proof. intros. now apply round_trip. Qed.
Definition tree : json dec6 :=
  Obj [([], Arr [Int (-3); Real (mkdec6 true 125000 0); Str [0; 34; 92; 10; 200]]); (bytes "k", Arr [Arr [Null]; Obj []]); (bytes "z", Real (mkdec6 false 500000 2))].
Lemma tree_writable : writable_value show6 read6 4 tree.
Proof.
  assert (R : forall d, dec6_ok d -> (exists v, number_text read6 (show6 d) v) \/ show6 d = bytes "null").
  { intros d Hd. left. destruct (number_pg d Hd) as (v & _ & H & _). now exists v. }
  repeat (match goal with |- writable_value _ _ _ (Real _) => apply wv_real, R; right; cbn; lia | |- _ => constructor end; try (unfold byte; lia)); cbn; auto.
Qed.
Example C66_round_trip_witness :
  write show6 tree = Some (bytes "{" ++ 10 :: 9 :: q [] ++ bytes " : [ -3, -1.25, " ++ q (92 :: bytes "u0000" ++ 92 :: 34 :: 92 :: 92 :: 92 :: 110 :: [200]) ++ bytes " ]," ++
    10 :: 9 :: q (bytes "k") ++ bytes " : " ++ 10 :: 9 :: bytes "[" ++ 10 :: 9 :: 9 :: bytes "[ null ]," ++ 10 :: 9 :: 9 :: bytes "{}" ++ 10 :: 9 :: bytes "]," ++
    10 :: 9 :: q (bytes "z") ++ bytes " : 500" ++ 10 :: bytes "}" ++ [10]) /\
  match write show6 tree with
  | Some t => parse read6 t [7] = Some (Ok (Obj [([], Arr [Int (-3); Real (mkdec6 true 125000 0); Str [0; 34; 92; 10; 200]]); (bytes "k", Arr [Arr [Null]; Obj []]); (bytes "z", Int 500)]) [10; 7])
  | None => False
  end.
Proof. vm_compute. repeat split. Qed.
(** A name is cut at the byte 0; two members can become one.  An integer-valued double becomes an integer, minus zero
    becomes 0. *)
Theorem C66_values_kept_refuted : exists t1 t2 t3,
  write show6 (Obj [([97; 0; 98], Int 1); ([97; 0; 99], Int 2)]) = Some t1 /\ parse read6 t1 [] = Some (Ok (Obj [([97], Int 2)]) [10]) /\
  write show6 (Real (mkdec6 false 500000 2)) = Some t2 /\ parse read6 t2 [] = Some (Ok (Int 500) [10]) /\
  write show6 (Real (mkdec6 true 0 0)) = Some t3 /\ t3 = bytes "-0" ++ [10] /\ parse read6 t3 [] = Some (Ok (Int 0) [10]).
Proof.
  exists (bytes "{" ++ 10 :: 9 :: q [97] ++ bytes " : 1," ++ 10 :: 9 :: q [97] ++ bytes " : 2" ++ 10 :: bytes "}" ++ [10]), (bytes "500" ++ [10]), (bytes "-0" ++ [10]).
  vm_compute. repeat split.
Qed.

(** ** Files of models *)
(** The document of a model, written, cut into lines, joined without the line ends and with the marker behind it, and read
    with any bytes behind that, has the same settings. *)
Theorem C66_documents : forall d slack, info_ok d -> json_ok write_info (parse_info slack) d.
Proof. intros. now apply info_json_ok. Qed.
(** Every model that can be saved, saved and loaded with this library: as C48_reload, without an assumption about JSON. *)
Theorem C66_reload : forall (R : Type) (N : num R) pr strtof p nk k c e ws' xs' slack fuel,
  savable N pr strtof p nk k c e ->
  Forall2 (Forall2 (reads_back pr strtof)) (c_ws c) ws' -> Forall2 (Forall2 (reads_back pr strtof)) (extras k e) xs' ->
  (length (write_info (get_info N pr p nk k c e)) < fuel)%nat ->
  exists text e', save N pr write_info p nk k c e = Some text /\
    load N strtof (parse_info slack) fuel text = Some (Loaded (mkmodel (reset_thresh N k) nk (reloaded_core N k c ws') e')) /\
    extras (reset_thresh N k) e' = xs' /\ restored_rest N k (c_iter c) e e' /\ extras_shape (reset_thresh N k) e' (length (c_ws c)) (c_dim c).
Proof. intros. apply reload; auto. apply info_json_ok. eapply info_ok_get; eassumption. Qed.
(** Saving the loaded model writes the same file, if every number prints after reading as before. *)
Theorem C66_resave : forall (R : Type) (N : num R) pr strtof p nk k c e ws' xs' slack fuel,
  savable N pr strtof p nk k c e -> n_le N (one N) (zero N) = false ->
  Forall2 (Forall2 (fun w w' => reads_back pr strtof w w' /\ pr w' = pr w)) (c_ws c) ws' ->
  Forall2 (Forall2 (fun w w' => reads_back pr strtof w w' /\ pr w' = pr w)) (extras k e) xs' ->
  (length (write_info (get_info N pr p nk k c e)) < fuel)%nat ->
  exists text m, save N pr write_info p nk k c e = Some text /\ load N strtof (parse_info slack) fuel text = Some (Loaded m) /\
    c_ws (m_core m) = ws' /\ save N pr write_info p (m_norm m) (m_kind m) (m_core m) (m_state m) = Some text.
Proof.
  intros R N pr strtof p nk k c e ws' xs' slack fuel Sv Z1 W X Hf.
  assert (Sp : forall (A B : R -> R -> Prop) vs us, Forall2 (Forall2 (fun w w' => A w w' /\ B w w')) vs us -> Forall2 (Forall2 A) vs us /\ Forall2 (Forall2 B) vs us).
  { intros A B vs us H. induction H as [|v u vs us Hv _ (I1 & I2)]; [split; constructor|].
    assert (Forall2 A v u /\ Forall2 B v u) as (V1 & V2) by (clear -Hv; induction Hv as [|x y v u (P & Q) _ (I1 & I2)]; split; constructor; auto). split; constructor; auto. }
  apply Sp in W as (W1 & W2). apply Sp in X as (X1 & X2).
  destruct (C66_reload R N pr strtof p nk k c e ws' xs' slack fuel Sv W1 X1 Hf) as (text & e' & S & L & Ex & Rr & Sh).
  exists text. eexists. split; [exact S|]. split; [exact L|]. split; [reflexivity|]. cbn [m_norm m_kind m_core m_state]. rewrite <- S.
  apply resave; auto; [apply Sv|now rewrite Ex].
Qed.
(** In single precision: numbers that are zero or not smaller than 2^-125.  Then the loaded model is reproduced exactly from
    then on. *)
Theorem C66_resave_f32 : forall p nk k c e slack fuel,
  savable f32num f32_print f32_strtof p nk k c e -> Forall (Forall settled) (c_ws c) -> Forall (Forall settled) (extras k e) ->
  (length (write_info (get_info f32num f32_print p nk k c e)) < fuel)%nat ->
  exists text m, save f32num f32_print write_info p nk k c e = Some text /\ load f32num f32_strtof (parse_info slack) fuel text = Some (Loaded m) /\
    Forall2 (Forall2 (reads_back f32_print f32_strtof)) (c_ws c) (c_ws (m_core m)) /\
    save f32num f32_print write_info p (m_norm m) (m_kind m) (m_core m) (m_state m) = Some text.
Proof.
  intros p nk k c e slack fuel Sv W X Hf.
  assert (D : forall vs, Forall (Forall settled) vs -> exists vs', Forall2 (Forall2 (fun w w' => reads_back f32_print f32_strtof w w' /\ f32_print w' = f32_print w)) vs vs').
  { induction 1 as [|v r Hv _ (r' & I)]; [exists []; auto|].
    assert (exists v', Forall2 (fun w w' => reads_back f32_print f32_strtof w w' /\ f32_print w' = f32_print w) v v') as (v' & V).
    { clear -Hv. induction Hv as [|x r Hx _ (r' & I)]; [exists []; auto|]. destruct (f32_settled x Hx) as (x' & A & B & _). exists (x' :: r'). auto. }
    exists (v' :: r'). auto. }
  destruct (D _ W) as (ws' & W'). destruct (D _ X) as (xs' & X').
  destruct (C66_resave f32 f32num f32_print f32_strtof p nk k c e ws' xs' slack fuel Sv eq_refl W' X' Hf) as (text & m & S & L & E & S2).
  exists text, m. rewrite E. repeat split; auto. clear -W'. induction W' as [|v u vs us Hv _ IH]; constructor; auto. clear -Hv. induction Hv; constructor; tauto.
Qed.
(** A weight that is minus zero does not print as before. *)
Theorem C66_every_file_reproduced_refuted : exists c text m text',
  save f32num f32_print write_info 2 NoNorm KPerceptron c tt = Some text /\ load f32num f32_strtof (parse_info []) 400 text = Some (Loaded m) /\
  save f32num f32_print write_info 2 (m_norm m) (m_kind m) (m_core m) (m_state m) = Some text' /\ text <> text'.
Proof.
  exists (wide [[S754_zero true; F 0; F 0; F 0]]).
  destruct (save f32num f32_print write_info 2 NoNorm KPerceptron (wide [[S754_zero true; F 0; F 0; F 0]]) tt) as [text|] eqn:E; [|vm_compute in E; discriminate].
  assert (X : match load f32num f32_strtof (parse_info []) 400 text with
              | Some (Loaded m) => match save f32num f32_print write_info 2 (m_norm m) (m_kind m) (m_core m) (m_state m) with Some t => str_eqb text t = false | None => False end
              | _ => False end).
  { vm_compute in E. injection E as <-. vm_compute. reflexivity. }
  destruct (load f32num f32_strtof (parse_info []) 400 text) as [[m|]|] eqn:L; try contradiction.
  destruct (save f32num f32_print write_info 2 (m_norm m) (m_kind m) (m_core m) (m_state m)) as [t|] eqn:S; [|contradiction].
  exists text, m, t. repeat split; auto. intros ->. rewrite (proj2 (P_Str.str_eqb_eq t t) eq_refl) in X. discriminate.
Qed.
(** The file of the AROW model of C48, and what is read from it whatever is behind the document in memory. *)
Definition nl (l : list (list Z)) : list Z := concat (map (fun t => t ++ [10]) l).
Definition arow_lines : list (list Z) :=
  [9 :: q (bytes "clf_num") ++ bytes " : 1,"; 9 :: q (bytes "cls_num") ++ bytes " : 2,";
   9 :: q (bytes "loss") ++ bytes " : " ++ q (bytes "hinge") ++ bytes ","; 9 :: q (bytes "model") ++ bytes " : " ++ q (bytes "arow") ++ bytes ",";
   9 :: q (bytes "norm") ++ bytes " : 2,"; 9 :: q (bytes "online") ++ bytes " : "; 9 :: bytes "{"; 9 :: 9 :: q (bytes "bias_eta") ++ bytes " : 1,";
   9 :: 9 :: q (bytes "dim") ++ bytes " : 3,"; 9 :: 9 :: q (bytes "lazy_update") ++ bytes " : " ++ q (bytes "false") ++ bytes ",";
   9 :: 9 :: q (bytes "r") ++ bytes " : 2,"; 9 :: 9 :: q (bytes "t") ++ bytes " : 7"; 9 :: bytes "}"; bytes "}"].
Definition arow_params : list (list Z) := [bytes "model parameters:"; bytes "weight[0]:"; bytes "[ 5 -12 300 ]"; bytes "Sigma[0]: "; bytes "[ 1 4 9 ]"].
Definition arow_file : list Z := nl ([bytes "model info:"; bytes "{"] ++ arow_lines ++ arow_params).
Example C66_file_witness : save f32num f32_print write_info 2 NormL2 (KAROW (F 2)) arow_core arow_sigma = Some arow_file /\
  match load f32num f32_strtof (parse_info [34; 0; 47]) 400 arow_file with
  | Some (Loaded m) => c_ws (m_core m) = [[F 5; F (-12); F 300]] /\ m_kind m = KAROW (F 2) /\ m_norm m = NormL2 /\
      save f32num f32_print write_info 2 (m_norm m) (m_kind m) (m_core m) (m_state m) = Some arow_file
  | _ => False
  end.
Proof. vm_compute. repeat split. Qed.
Example C66_documents_witness : info_ok (get_info f32num f32_print 2 NormL2 (KAROW (F 2)) arow_core arow_sigma).
Proof. apply (info_ok_get f32num f32_print f32_strtof), arow_savable. Qed.
(** A line comment is legal for the reader, but makes a model file unreadable, as Load drops the ends of lines. *)
Theorem C66_line_comments_in_files_refuted : exists doc v, parse read6 (nl doc) [] = Some (Ok v [10]) /\ of_document v <> None /\
  load f32num f32_strtof (parse_info []) 400 (nl ([bytes "model info:"] ++ doc ++ arow_params)) = Some LoadNull.
Proof.
  exists ([bytes "{"; bytes "// by hand"] ++ arow_lines). eexists. split; [vm_compute; reflexivity|]. split; [vm_compute; discriminate|vm_compute; reflexivity].
Qed.
Example C66_resave_witness : savable f32num f32_print f32_strtof 2 NormL2 (KAROW (F 2)) arow_core arow_sigma /\
  Forall (Forall settled) (c_ws arow_core) /\ Forall (Forall settled) (extras (KAROW (F 2)) arow_sigma).
Proof.
  split; [apply arow_savable|]. split; [cbn [c_ws arow_core]|unfold extras; cbn [extra_blocks map block_vecs concat app arow_sigma]];
    repeat first [apply Forall_nil | apply Forall_cons | (apply settled_int; lia)].
Qed.

Print Assumptions C66_reads.
Print Assumptions C66_unique.
Print Assumptions C66_ends.
Print Assumptions C66_only_the_document_read_refuted.
Print Assumptions C66_only_json_accepted_refuted.
Print Assumptions C66_deep_texts_read_refuted.
Print Assumptions C66_round_trip.
Print Assumptions C66_values_kept_refuted.
Print Assumptions C66_documents.
Print Assumptions C66_reload.
Print Assumptions C66_resave.
Print Assumptions C66_resave_f32.
Print Assumptions C66_every_file_reproduced_refuted.
Print Assumptions C66_line_comments_in_files_refuted.
