(** Proofs about M_Cv: the report of analyze as DataSet reads it. *)
From Coq Require Import String.
From Verif Require Import M_Base M_DataPoint M_Text M_Str M_Tools S_Text P_Parse P_Str M_Cv.
Local Open Scope list_scope.
Local Open Scope Z_scope.

Definition low (c : Z) : Prop := c < 99.
(** The patterns start with c or d. *)
Definition lits : list string := ["data number"; "dimension"; "class num"]%string.
Lemma findall_low n s : In n lits -> Forall low s -> forall t, findall (bytes n) 0 (s ++ t) = findall (bytes n) 0 t.
Proof.
  intros I F t. induction F as [|c s Hc F IH]; [reflexivity|]. cbn [app findall].
  assert (M : match_at (bytes n) (c :: s ++ t) = None); [|now rewrite M].
  unfold low in Hc. unfold match_at.
  assert (L : literal (bytes n) (c :: s ++ t) = None); [|now rewrite L].
  destruct I as [<-|[<-|[<-|[]]]];
    match goal with |- literal (bytes ?x) _ = _ => let y := eval vm_compute in (bytes x) in change (bytes x) with y end; cbn [literal];
    match goal with |- (if ?a =? c then _ else _) = _ => destruct (Z.eqb_spec a c); [lia|reflexivity] end.
Qed.
Lemma findall_skip l p : forall t, findall l (length p) (p ++ t) = findall l 0 t.
Proof. induction p as [|c p IH]; intros t; [reflexivity|]. cbn [length app findall]. apply IH. Qed.
Lemma digits_end ds t : Forall digit_char ds -> find_if_not is_digit (ds ++ 10 :: t) = (ds, 10 :: t).
Proof.
  unfold find_if_not. induction 1 as [|d ds Hd F IH]; [reflexivity|]. cbn [app find_if].
  assert (E : is_digit d = true) by (unfold is_digit, c_0, c_9; unfold digit_char in Hd; lia). rewrite E. cbn [negb]. now rewrite IH.
Qed.
(** A line with another name ... *)
Lemma other_line n h ds t : In n lits -> Forall low ds -> (forall u, findall (bytes n) 0 (bytes h ++ u) = findall (bytes n) 0 u) ->
  findall (bytes n) 0 (line h ds ++ t) = findall (bytes n) 0 t.
Proof.
  intros I F H. unfold line. rewrite <- !app_assoc, H, findall_low by assumption. apply (findall_low n [10]); [exact I|repeat constructor].
Qed.
(** ... and the line with this name. *)
Lemma this_line n gap ds t : In n lits -> ds <> [] -> Forall digit_char ds -> Forall (fun c => c = 32) gap ->
  findall (bytes n) 0 ((bytes n ++ gap ++ [58; 32]) ++ ds ++ 10 :: t) = ds :: findall (bytes n) 0 t.
Proof.
  intros I N0 F G.
  assert (M : match_at (bytes n) ((bytes n ++ gap ++ [58; 32]) ++ ds ++ 10 :: t) = Some (ds, 10 :: t)).
  { unfold match_at. assert (L : forall l u, literal l (l ++ u) = Some u) by (induction l as [|c l IH]; intros u; [reflexivity|]; cbn; now rewrite Z.eqb_refl).
    rewrite <- !app_assoc, L. cbn [bind].
    assert (G1 : snd (find_if_not M_Str.is_space (gap ++ [58; 32] ++ ds ++ 10 :: t)) = 58 :: 32 :: ds ++ 10 :: t).
    { unfold find_if_not. induction G as [|c gap -> G IH]; [reflexivity|]. cbn [app find_if]. cbn [negb M_Str.is_space Z.eqb orb Pos.eqb].
      cbn [app] in IH. destruct (find_if _ _) as [x y]. exact IH. }
    rewrite G1. cbn [Z.eqb Pos.eqb negb].
    assert (G2 : snd (find_if_not M_Str.is_space (32 :: ds ++ 10 :: t)) = ds ++ 10 :: t).
    { destruct ds as [|d ds]; [contradiction|]. inversion F as [|? ? Hd _]; subst. unfold find_if_not. cbn [app find_if].
      assert (E : M_Str.is_space d = false) by (unfold M_Str.is_space; unfold digit_char in Hd; lia). rewrite E. cbn. reflexivity. }
    rewrite G2, digits_end by exact F. destruct ds; [contradiction|reflexivity]. }
  set (p := bytes n ++ gap ++ [58; 32]) in *.
  assert (P : exists c q, p = c :: q). { unfold p. destruct I as [<-|[<-|[<-|[]]]]; eexists; eexists; reflexivity. }
  destruct P as (c & q & P). rewrite P in *. cbn [app] in *. cbn [findall]. rewrite M. f_equal.
  rewrite app_assoc. replace (length ((q ++ ds) ++ 10%Z :: t) - length (10%Z :: t))%nat with (length (q ++ ds)) by (rewrite (app_length (q ++ ds)); lia).
  rewrite findall_skip. apply (findall_low n [10]); [exact I|repeat constructor].
Qed.
Lemma digit_low ds : Forall digit_char ds -> Forall low ds.
Proof. intros F. eapply Forall_impl; [|exact F]. unfold digit_char, low. intros; lia. Qed.
Lemma class_lines_ok : forall l, Forall (fun c => is_i32 (fst c) /\ 0 <= snd c < two64) l ->
  exists s, class_lines l = Some s /\ forall n, In n lits -> findall (bytes n) 0 s = [].
Proof.
  induction l as [|[c k] l IH]; intros F; cbn [class_lines]; [exists []; split; [reflexivity|intros n I; reflexivity]|].
  inversion F as [|? ? (H1 & H2) F']; subst. cbn [fst snd] in *. destruct (IH F') as (s & Es & Hs).
  destruct (print_d64_ok c) as (cs & Ec & _ & Nc & Cc); [unfold is_i32 in H1; lia|].
  destruct (dec_digits_ok 20 k) as (ks & Ek & _ & Kc & _); [unfold two64 in H2; change (10 ^ Z.of_nat 20) with 100000000000000000000; lia|lia|].
  unfold lu. rewrite Ec. cbn [bind]. rewrite Ek. cbn [bind]. rewrite Es. cbn [bind]. eexists. split; [reflexivity|]. intros n I.
  assert (Lc : Forall low cs) by (eapply Forall_impl; [|exact Cc]; unfold digit_char, low; intros; lia).
  assert (Hh : forall c0 u, low c0 -> findall (bytes n) 0 (bytes "data number of class " ++ c0 :: u) = findall (bytes n) 0 (c0 :: u)).
  { intros c0 u H0. change (bytes "data number of class ") with (bytes "data number of " ++ bytes "class "). rewrite <- app_assoc.
    transitivity (findall (bytes n) 0 (bytes "class " ++ c0 :: u)); [destruct I as [<-|[<-|[<-|[]]]]; reflexivity|].
    destruct I as [<-|[<-|[<-|[]]]]; [reflexivity..|].
    assert (L : literal (bytes "class num") (bytes "class " ++ c0 :: u) = None).
    { change (literal (bytes "class num") (bytes "class " ++ c0 :: u)) with (if 110 =? c0 then literal (bytes "um") u else None).
      unfold low in H0. destruct (Z.eqb_spec 110 c0); [lia|reflexivity]. }
    change (bytes "class " ++ c0 :: u) with (99 :: bytes "lass " ++ c0 :: u) in *.
    cbn [findall]. unfold match_at. rewrite L. cbn [bind]. reflexivity. }
  destruct cs as [|c0 cs]; [contradiction|]. cbn [app]. rewrite Hh by (now inversion Lc).
  change (c0 :: cs ++ ?x) with ((c0 :: cs) ++ x). rewrite findall_low by assumption. rewrite (findall_low n (bytes " : ")); [|exact I|vm_compute; repeat constructor].
  rewrite findall_low by (auto; now apply digit_low). etransitivity; [apply (findall_low n [10]); [exact I|repeat constructor]|]. now apply Hs.
Qed.
Lemma lu_ok n : 0 <= n < two64 -> exists ds, lu n = Some ds /\ ds <> [] /\ Forall digit_char ds /\ digits_value 0 ds = n.
Proof.
  intros H. destruct (dec_digits_ok 20 n) as (ds & E & N0 & F & V); [unfold two64 in H; change (10 ^ Z.of_nat 20) with 100000000000000000000; lia|lia|].
  exists ds. split; [exact E|]. split; [exact N0|]. split; [exact F|].
  assert (G : forall l a, digits_value a l = a * 10 ^ Z.of_nat (length l) + dec_value l).
  { induction l as [|d l IH]; intros a; cbn [digits_value dec_value length]; [change (10 ^ Z.of_nat 0) with 1; lia|].
    rewrite IH, Nat2Z.inj_succ, Z.pow_succ_r by lia. ring. }
  rewrite G, V. lia.
Qed.
Lemma info_ok r sp : 0 <= r_data r < two64 -> 0 <= r_feats r < two64 -> 0 <= r_dim r < two64 -> 0 <= r_used r < two64 -> 0 <= r_class_num r < two64 ->
  Forall (fun c => is_i32 (fst c) /\ 0 <= snd c < two64) (r_classes r) ->
  match sp with None => True | Some s => Forall (fun c => digit_char c \/ c = 45 \/ c = 46) s end ->
  exists text, report_text r sp = Some text /\ dataset_info text = Some (r_data r, r_dim r, r_class_num r).
Proof.
  intros H1 H2 H3 H4 H5 F Hs. unfold report_text.
  destruct (lu_ok _ H1) as (a & Ea & Na & Fa & Va). destruct (lu_ok _ H2) as (b & Eb & Nb & Fb & Vb). destruct (lu_ok _ H3) as (c & Ec & Nc & Fc & Vc).
  destruct (lu_ok _ H4) as (d & Ed & Nd & Fd & Vd). destruct (lu_ok _ H5) as (e & Ee & Ne & Fe & Ve). destruct (class_lines_ok _ F) as (cl & El & Hl).
  rewrite Ea. cbn [bind]. rewrite Eb. cbn [bind]. rewrite Ec. cbn [bind]. rewrite Ed. cbn [bind]. rewrite Ee. cbn [bind]. rewrite El. cbn [bind].
  eexists. split; [reflexivity|].
  set (sl := match sp with None => [] | Some s => _ end).
  assert (S : forall n, In n lits -> forall t, findall (bytes n) 0 (sl ++ t) = findall (bytes n) 0 t).
  { intros n I t. unfold sl. destruct sp as [s|]; [|reflexivity]. apply other_line; [exact I| |intros u; destruct I as [<-|[<-|[<-|[]]]]; reflexivity].
    apply Forall_app. split; [eapply Forall_impl; [|exact Hs]; unfold digit_char, low; intros; lia|vm_compute; repeat constructor]. }
  clearbody sl. apply digit_low in Fa as La. apply digit_low in Fb as Lb. apply digit_low in Fc as Lc. apply digit_low in Fd as Ld. apply digit_low in Fe as Le.
  assert (I1 : In "data number"%string lits) by (cbn; tauto). assert (I2 : In "dimension"%string lits) by (cbn; tauto). assert (I3 : In "class num"%string lits) by (cbn; tauto).
  assert (A1 : findall (bytes "data number") 0 (line "data number  : " a ++ line "feat number  : " b ++ line "dimension    : " c ++ line "nonzero feat : " d ++ line "class num    : " e ++ sl ++ cl) = [a]).
  { unfold line at 1. rewrite <- !app_assoc. change (bytes "data number  : ") with (bytes "data number" ++ [32; 32] ++ [58; 32]).
    change ([10%Z] ++ ?x) with (10%Z :: x). cbn [app]. rewrite (this_line "data number" [32; 32]) by (auto; repeat constructor). f_equal.
    do 4 (rewrite other_line; [|exact I1|assumption|reflexivity]). rewrite S by exact I1. now apply Hl. }
  assert (A2 : findall (bytes "dimension") 0 (line "data number  : " a ++ line "feat number  : " b ++ line "dimension    : " c ++ line "nonzero feat : " d ++ line "class num    : " e ++ sl ++ cl) = [c]).
  { do 2 (rewrite other_line; [|exact I2|assumption|reflexivity]).
    unfold line at 1. rewrite <- !app_assoc. change (bytes "dimension    : ") with (bytes "dimension" ++ [32; 32; 32; 32] ++ [58; 32]).
    change ([10%Z] ++ ?x) with (10%Z :: x). cbn [app]. rewrite (this_line "dimension" [32; 32; 32; 32]) by (auto; repeat constructor). f_equal.
    do 2 (rewrite other_line; [|exact I2|assumption|reflexivity]). rewrite S by exact I2. now apply Hl. }
  assert (A3 : findall (bytes "class num") 0 (line "data number  : " a ++ line "feat number  : " b ++ line "dimension    : " c ++ line "nonzero feat : " d ++ line "class num    : " e ++ sl ++ cl) = [e]).
  { do 4 (rewrite other_line; [|exact I3|assumption|reflexivity]).
    unfold line at 1. rewrite <- !app_assoc. change (bytes "class num    : ") with (bytes "class num" ++ [32; 32; 32; 32] ++ [58; 32]).
    change ([10%Z] ++ ?x) with (10%Z :: x). cbn [app]. rewrite (this_line "class num" [32; 32; 32; 32]) by (auto; repeat constructor). f_equal.
    rewrite S by exact I3. now apply Hl. }
  unfold dataset_info, info. rewrite A1. cbn [bind]. rewrite A2. cbn [bind]. rewrite A3. cbn [bind]. now rewrite Va, Vc, Ve.
Qed.
