(** Proofs about saving and loading, part 1: the text. *)
From Coq Require Import String QArith.
From Verif Require Import M_Base M_Num M_Expr M_Loss M_Online M_Olm M_OlmSel M_Heap M_Algs M_Text S_Text P_Parse P_PrintG
  M_Str P_Str S_Online M_Save S_Save.
Local Open Scope string_scope.
Local Open Scope list_scope.
Local Open Scope Z_scope.

(* ------------------------------------------------------------- reading a number *)
Lemma digits_forall ds : Forall digit_char ds -> Forall (fun c => is_digit c = true) ds.
Proof. apply Forall_impl. intros c H. now apply is_digit_spec. Qed.
Lemma fin_digits ds p : Forall digit_char ds -> no_digit p -> find_if_not is_digit (ds ++ p) = (ds, p).
Proof.
  intros H Hp. apply find_if_not_app; [now apply digits_forall|]. destruct p as [|c r]; [now left|]. right.
  exists c, r. split; [reflexivity|]. now apply is_digit_no.
Qed.
Lemma digits_value_0 ds : digits_value 0 ds = dec_value ds.
Proof. now rewrite digits_value_horner, horner_0. Qed.

Lemma scan_text neg ip fr et x rest :
  ip <> [] -> Forall digit_char ip -> Forall digit_char fr -> exp_text et x -> num_end rest ->
  scan_float ((if neg : bool then [45] else []) ++ ip ++ frac_text fr ++ et ++ rest) =
    (Some ((if neg then -1 else 1) * dec_value (ip ++ fr), x - Z.of_nat (length fr)), rest).
Proof.
  intros Hne Hip Hfr Het Hrest. pose proof (num_end_no_digit _ Hrest) as Hnd.
  destruct (num_end_starts rest Hrest) as (E1 & E2 & E3).
  destruct ip as [|d ip']; [congruence|]. set (ip := d :: ip') in *.
  assert (Hd : digit_char d) by (inversion Hip; auto).
  assert (HetD : no_digit (et ++ rest)) by (destruct Het; cbn; auto; unfold digit_char; lia).
  assert (HfD : no_digit (frac_text fr ++ et ++ rest)) by (destruct fr; cbn [frac_text app]; [assumption|]; cbn; unfold digit_char; lia).
  unfold scan_float.
  assert (S0 : (let p0 := (if neg then [45] else []) ++ ip ++ frac_text fr ++ et ++ rest in
     if starts c_minus p0 then (-1, tl p0) else if starts c_plus p0 then (1, tl p0) else (1, p0))
     = (if neg then -1 else 1, ip ++ frac_text fr ++ et ++ rest)).
  { destruct neg; cbn [app]; cbv zeta; [reflexivity|].
    assert (Ep : starts c_plus (ip ++ frac_text fr ++ et ++ rest) = false)
      by (apply starts_digit; [assumption|unfold digit_char, c_plus; lia]).
    assert (Em : starts c_minus (ip ++ frac_text fr ++ et ++ rest) = false)
      by (apply starts_digit; [assumption|unfold digit_char, c_minus; lia]).
    now rewrite Em, Ep. }
  cbv zeta in S0. rewrite S0. rewrite fin_digits by auto.
  assert (S1 : (if starts c_dot (frac_text fr ++ et ++ rest) then find_if_not is_digit (tl (frac_text fr ++ et ++ rest)) else ([], frac_text fr ++ et ++ rest)) = (fr, et ++ rest)).
  { destruct fr as [|f fr']; cbn [frac_text app].
    - replace (starts c_dot (et ++ rest)) with false; [reflexivity|]. destruct Het as [|c ds [-> | ->]|c ds [-> | ->]|c ds [-> | ->]]; try reflexivity. cbn. now rewrite E1.
    - change (starts c_dot (46 :: _)) with true. cbn [tl]. exact (fin_digits (f :: fr') (et ++ rest) Hfr HetD). }
  rewrite S1. cbn zeta. rewrite digits_value_0. change (ip ++ fr) with (d :: (ip' ++ fr)). cbn iota.
  change (d :: ip' ++ fr) with (ip ++ fr).
  assert (Sg : forall ds, ds <> [] -> Forall digit_char ds -> starts c_minus (ds ++ rest) = false /\ starts c_plus (ds ++ rest) = false).
  { intros [|a ds] N D; [congruence|]. inversion D; subst. cbn [app].
    split; apply starts_digit; auto; unfold digit_char, c_minus, c_plus; lia. }
  assert (Ex : forall es c q ds, (c = 101 \/ c = 69) -> ds <> [] -> Forall digit_char ds ->
    (if starts c_minus (tl (c :: q)) then (-1, tl (tl (c :: q))) else if starts c_plus (tl (c :: q)) then (1, tl (tl (c :: q))) else (1, tl (c :: q))) = (es, ds ++ rest) ->
    (if starts c_e (c :: q) || starts c_E (c :: q) then
      let '(es, q) := if starts c_minus (tl (c :: q)) then (-1, tl (tl (c :: q)))
                      else if starts c_plus (tl (c :: q)) then (1, tl (tl (c :: q))) else (1, tl (c :: q)) in
      let '(ed, q) := find_if_not is_digit q in
      match ed with
      | [] => (None, q)
      | _ => (Some ((if neg then -1 else 1) * dec_value (ip ++ fr), es * digits_value 0 ed - Z.of_nat (length fr)), q)
      end
     else (Some ((if neg then -1 else 1) * dec_value (ip ++ fr), - Z.of_nat (length fr)), c :: q)) =
    (Some ((if neg then -1 else 1) * dec_value (ip ++ fr), es * dec_value ds - Z.of_nat (length fr)), rest)).
  { intros es c q ds C N D W. replace (starts c_e (c :: q) || starts c_E (c :: q)) with true
      by (symmetry; apply starts_e_E; destruct C; subst; eauto).
    rewrite W, fin_digits by auto. rewrite digits_value_0. destruct ds; [congruence|reflexivity]. }
  destruct Het as [|c ds C N D|c ds C N D|c ds C N D]; cbn [app].
  - rewrite E2, E3. cbn [orb]. repeat f_equal.
  - rewrite (Ex 1 c (43 :: ds ++ rest) ds C N D); [repeat f_equal; lia|reflexivity].
  - rewrite (Ex 1 c (ds ++ rest) ds C N D); [repeat f_equal; lia|]. cbn [tl]. destruct (Sg ds N D) as [-> ->]. reflexivity.
  - rewrite (Ex (-1) c (45 :: ds ++ rest) ds C N D); [repeat f_equal; lia|reflexivity].
Qed.

(** The printed number is read as a decimal of the same value. *)
Lemma scan_pg d rest : dec6_ok d -> num_end rest ->
  exists m e, scan_float (pg d ++ rest) = (Some (m, e), rest) /\ (dec_q m e == dec6_q d)%Q.
Proof.
  intros Hok Hrest.
  destruct (pg_shape d Hok) as (ip & l & et & x & E & Hne & Hip & Hl & Het & Hx & Hv & Hs9 & Hex & Hk & H0 & H9 & Hx0).
  destruct (strip_zeros_spec l) as (k & Hst). set (fr := strip_zeros l) in *.
  assert (Hfr : Forall digit_char fr) by (rewrite Hst in Hl; apply Forall_app in Hl; tauto).
  exists ((if d_neg d then -1 else 1) * dec_value (ip ++ fr)), (x - Z.of_nat (length fr)). split.
  - rewrite E, <- !app_assoc. now apply scan_text.
  - assert (Hsig : d_sig d = dec_value (ip ++ fr) * 10 ^ Z.of_nat k).
    { rewrite <- Hv, Hst, app_assoc, dec_value_app, dec_value_zeros, repeat_length. lia. }
    unfold dec6_q. destruct (Z.eqb_spec (d_sig d) 0) as [Z0|NZ].
    + assert (dec_value (ip ++ fr) = 0). { assert (1 <= 10 ^ Z.of_nat k) by (pose proof (Z.pow_pos_nonneg 10 (Z.of_nat k)); lia). nia. }
      rewrite H. destruct (d_neg d); unfold dec_q; cbn [Z.mul]; change (inject_Z 0) with 0%Q; ring.
    + specialize (Hex NZ). unfold dec6_signed.
      replace (if d_neg d then - d_sig d else d_sig d) with ((if d_neg d then -1 else 1) * dec_value (ip ++ fr) * 10 ^ Z.of_nat k) by (rewrite Hsig; destruct (d_neg d); ring).
      rewrite dec_q_shift by lia. rewrite Hst, app_length, repeat_length in Hex.
      replace (d_ex d - 5 + Z.of_nat k) with (x - Z.of_nat (length fr)) by lia. reflexivity.
Qed.

Lemma F2_one_l {A B} (P : A -> B -> Prop) a l : Forall2 P [a] l -> exists b, l = [b] /\ P a b.
Proof. intros H. inversion H as [|? b ? r Hb Hr]; subst. inversion Hr; subst. eauto. Qed.
Lemma F2_one_r {A B} (P : A -> B -> Prop) b l : Forall2 P l [b] -> exists a, l = [a] /\ P a b.
Proof. intros H. inversion H as [|a ? r ? Hb Hr]; subst. inversion Hr; subst. eauto. Qed.

Section T.
Context {R : Type}.
Variable N : num R.
Variable pr : R -> printed.
Variable strtof : Z -> Z -> option R.
Local Notation rb := (reads_back pr strtof).

Lemma text_head d rest : dec6_ok d -> exists c r, pg d ++ rest = c :: r /\ M_Str.is_space c = false /\ c <> 93.
Proof.
  intros Hok. destruct (pg_shape d Hok) as (ip & l & et & x & E & Hne & Hip & _). rewrite E.
  destruct (d_neg d); cbn [app]; [exists 45; eexists; repeat split; lia|].
  destruct ip as [|c ip]; [congruence|]. inversion Hip; subst. exists c. eexists. split; [reflexivity|].
  unfold digit_char in *. unfold M_Str.is_space. lia.
Qed.
Lemma skip_nonspace c r : M_Str.is_space c = false -> skip_ws (c :: r) = c :: r.
Proof. intros H. unfold skip_ws, find_if_not. cbn. now rewrite H. Qed.
Lemma skip_space c r : M_Str.is_space c = true -> skip_ws (c :: r) = skip_ws r.
Proof. intros H. unfold skip_ws, find_if_not. cbn. rewrite H. cbn. now destruct (find_if _ r). Qed.

Lemma get_float_ok old w w' rest : rb w w' -> num_end rest ->
  get_float N strtof old (mkistr (32 :: text_of (pr w) ++ rest) false) = (w', mkistr rest false).
Proof.
  intros (d & P & Ok & T) E. unfold get_float. cbn [i_fail i_rest]. rewrite skip_space by reflexivity.
  rewrite P. cbn [text_of]. change (print_g6 (d_neg d) (d_sig d) (d_ex d)) with (pg d).
  destruct (text_head d rest Ok) as (c & r & H & Sp & _). destruct (scan_pg d rest Ok E) as (m & e & Sc & Q).
  rewrite H in *. rewrite skip_nonspace by exact Sp. rewrite Sc, (T m e Q). reflexivity.
Qed.

Definition items (v : list R) : list Z := concat (map (fun x => text_of (pr x) ++ [c_sp]) v).
Lemma get_floats_ok v : forall old v' rest, length old = length v -> Forall2 rb v v' ->
  get_floats N strtof old (mkistr (32 :: items v ++ 93 :: rest) false) = (v', mkistr (32 :: 93 :: rest) false).
Proof.
  induction v as [|w v IH]; intros old v' rest L F; inversion F; subst; (destruct old as [|o old]; [try discriminate L|try discriminate L]).
  - reflexivity.
  - cbn [get_floats]. unfold items. cbn [map concat]. fold (items v). rewrite <- !app_assoc. cbn [app].
    change c_sp with 32. rewrite (get_float_ok o w y (32 :: items v ++ 93 :: rest)) by (auto; cbn; unfold digit_char; lia).
    rewrite (IH old l') by (auto; cbn in L; lia). reflexivity.
Qed.

Lemma ignore_to d a rest : Forall (fun c => c <> d) a -> ignore d (mkistr (a ++ d :: rest) false) = mkistr rest false.
Proof.
  intros H. unfold ignore. cbn [i_fail i_rest]. rewrite find_if_app; [reflexivity|now apply Forall_ne_dec|].
  right. exists d, rest. split; [reflexivity|apply Z.eqb_refl].
Qed.

(** A name and a vector as written are read back. *)
Definition label (l : list Z) : Prop := l <> [] /\ Forall (fun c => M_Str.is_space c = false) l.
Lemma read_vec_ok name sep v v' old rest : label name -> (sep = [] \/ sep = [32]) -> v <> [] ->
  length old = length v -> Forall2 rb v v' ->
  read_vec N strtof old (mkistr (name ++ sep ++ write_vec pr v ++ 10 :: rest) false) = (v', mkistr rest false).
Proof.
  intros [Nn Ns] Hsep Nv L F. unfold read_vec.
  destruct v as [|x v0]; [congruence|]. set (v := x :: v0) in *.
  assert (W : write_vec pr v = 10 :: 91 :: 32 :: items v ++ [93]) by reflexivity. rewrite W. clear W.
  set (tail := sep ++ (10 :: 91 :: 32 :: items v ++ [93]) ++ 10 :: rest).
  assert (G : get_word (mkistr (name ++ tail) false) = mkistr tail false).
  { unfold get_word. cbn [i_fail i_rest]. destruct name as [|c nm]; [congruence|]. inversion Ns; subst.
    cbn [app]. rewrite skip_nonspace by assumption. change (c :: nm ++ tail) with ((c :: nm) ++ tail).
    rewrite find_if_app; [reflexivity|assumption|]. right.
    destruct Hsep; subst sep; unfold tail; cbn [app]; do 2 eexists; split; reflexivity. }
  rewrite G. unfold tail.
  assert (I : ignore 91 (mkistr (sep ++ (10 :: 91 :: 32 :: items v ++ [93]) ++ 10 :: rest) false)
     = mkistr (32 :: items v ++ 93 :: 10 :: rest) false).
  { replace (sep ++ (10 :: 91 :: 32 :: items v ++ [93]) ++ 10 :: rest) with ((sep ++ [10]) ++ 91 :: (32 :: items v ++ 93 :: 10 :: rest)).
    - apply ignore_to. destruct Hsep; subst; repeat constructor; lia.
    - rewrite <- app_assoc. cbn [app]. rewrite <- app_assoc. reflexivity. }
  rewrite I, (get_floats_ok v old v' (10 :: rest) L F).
  pose proof (ignore_to 93 [32] (10 :: rest)) as I1. cbn [app] in I1. rewrite I1 by (repeat constructor; lia).
  pose proof (ignore_to c_nl [] rest) as I2. cbn [app] in I2. change (10 :: rest) with (c_nl :: rest). rewrite I2 by constructor. reflexivity.
Qed.

Definition same_size (v w : list R) : Prop := length v = length w.
Lemma label_index name i s : Forall (fun c => M_Str.is_space c = false) name -> print_d i = Some s -> is_i32 i -> label (name ++ bytes "[" ++ s ++ bytes "]:").
Proof.
  intros Hn Ps Hi. destruct (print_d64_ok i) as (s' & Ps' & _ & _ & D); [unfold is_i32 in Hi; lia|]. rewrite Ps in Ps'. inversion Ps'; subst s'.
  split; [destruct name; discriminate|]. repeat (apply Forall_app; split); auto; try (repeat constructor).
  eapply Forall_impl; [|exact D]. intros c [Hc|Hc]; unfold digit_char in *; unfold M_Str.is_space; lia.
Qed.

Lemma write_vecs_ok name sep vs : forall i vs' olds rest,
  Forall (fun c => M_Str.is_space c = false) name -> (sep = [] \/ sep = [32]) -> 0 <= i -> i + Z.of_nat (length vs) <= 2147483648 ->
  Forall (fun v => v <> []) vs -> Forall2 same_size olds vs -> Forall2 (Forall2 rb) vs vs' ->
  exists t, write_vecs pr name sep i vs = Some t /\
    read_vecs N strtof olds (mkistr (t ++ rest) false) = (vs', mkistr rest false).
Proof.
  induction vs as [|v vs IH]; intros i vs' olds rest Hn Hs Hi Hb Ne Sz F; inversion F; subst; inversion Sz; subst.
  - exists []. split; reflexivity.
  - inversion Ne; subst. cbn [length] in Hb. assert (I32 : is_i32 i) by (unfold is_i32; lia).
    destruct (print_d_ok i I32) as (s & Ps & _). cbn [write_vecs]. rewrite Ps. cbn [bind].
    edestruct (IH (i + 1)) as (t & Wt & Rt); eauto; try lia. rewrite Wt. cbn [bind]. eexists. split; [reflexivity|].
    cbn [read_vecs]. pose proof (label_index name i s Hn Ps I32) as Lb.
    assert (E : (name ++ bytes "[" ++ s ++ bytes "]:" ++ sep ++ write_vec pr v ++ [c_nl] ++ t) ++ rest
       = (name ++ bytes "[" ++ s ++ bytes "]:") ++ sep ++ write_vec pr v ++ 10 :: (t ++ rest)).
    { rewrite <- !app_assoc. reflexivity. }
    rewrite E, (read_vec_ok _ sep v y x (t ++ rest) Lb Hs) by auto. rewrite Rt. reflexivity.
Qed.

Lemma read_vecs_app a : forall b s,
  read_vecs N strtof (a ++ b) s = let '(x, s1) := read_vecs N strtof a s in let '(y, s2) := read_vecs N strtof b s1 in (x ++ y, s2).
Proof.
  induction a as [|v a IH]; intros b s; cbn [app read_vecs]; [now destruct (read_vecs N strtof b s)|].
  destruct (read_vec N strtof v s) as [l s1]. rewrite IH. destruct (read_vecs N strtof a s1) as [x s2].
  destruct (read_vecs N strtof b s2). reflexivity.
Qed.

(** Blocks of vectors, with names the code uses. *)
Definition block_ok (b : block (R:=R)) : Prop :=
  match b with
  | Indexed name vs => Forall (fun c => M_Str.is_space c = false) name /\ Z.of_nat (length vs) <= 2147483647
  | Single name _ => Forall (fun c => M_Str.is_space c = false) name
  end.
Lemma write_blocks_ok bs : forall xs' olds rest, Forall block_ok bs ->
  Forall (fun v => v <> []) (concat (map block_vecs bs)) ->
  Forall2 same_size olds (concat (map block_vecs bs)) -> Forall2 (Forall2 rb) (concat (map block_vecs bs)) xs' ->
  exists t, write_blocks pr bs = Some t /\ read_vecs N strtof olds (mkistr (t ++ rest) false) = (xs', mkistr rest false).
Proof.
  induction bs as [|b bs IH]; intros xs' olds rest Hb Ne Sz F.
  - cbn in *. inversion F; subst; inversion Sz; subst. exists []. split; reflexivity.
  - inversion Hb; subst. cbn [map concat] in *. apply Forall_app in Ne as [Ne1 Ne2].
    apply Forall2_app_inv_l in F as (x1 & x2 & F1 & F2 & ->). apply Forall2_app_inv_r in Sz as (o1 & o2 & S1 & S2 & ->).
    destruct (IH x2 o2 rest) as (u & Wu & Ru); auto. cbn [write_blocks].
    assert (B : exists t, write_block pr b = Some t /\ read_vecs N strtof o1 (mkistr (t ++ (u ++ rest)) false) = (x1, mkistr (u ++ rest) false)).
    { destruct b as [name vs|name v]; cbn [block_vecs block_ok write_block] in *.
      - destruct H1. apply write_vecs_ok; auto; lia.
      - eexists. split; [reflexivity|]. apply F2_one_l in F1 as (y & -> & F1). apply F2_one_r in S1 as (x & -> & S1). inversion Ne1; subst.
        cbn [read_vecs].
        replace ((name ++ bytes ": " ++ write_vec pr v ++ [c_nl]) ++ u ++ rest) with ((name ++ [58]) ++ [32] ++ write_vec pr v ++ 10 :: (u ++ rest)) by (rewrite <- !app_assoc; reflexivity).
        rewrite (read_vec_ok (name ++ [58]) [32] v y x (u ++ rest)); auto.
        split; [destruct name; discriminate|]. apply Forall_app; split; auto. }
    destruct B as (t & Wt & Rt). rewrite Wt, Wu. cbn [bind]. eexists. split; [reflexivity|].
    rewrite read_vecs_app, <- app_assoc, Rt, Ru. reflexivity.
Qed.

(* -------------------------------------------------------------------- the lines *)
Lemma getline_ok l rest : ~ In 10 l -> getline (l ++ 10 :: rest) = (l, rest).
Proof.
  intros H. unfold getline. rewrite find_if_app; [reflexivity| |right; exists 10, rest; split; reflexivity].
  apply Forall_ne_dec, Forall_forall. intros c Hc ->. tauto.
Qed.
Lemma str_eqb_neq a b : a <> b -> str_eqb a b = false.
Proof. intros H. destruct (str_eqb a b) eqn:E; [|reflexivity]. apply str_eqb_eq in E. congruence. Qed.
Lemma marker_no_nl : ~ In 10 marker_param.
Proof. vm_compute. intuition discriminate. Qed.
Lemma load_loop_ok ls : forall fuel doc body, (length ls < fuel)%nat ->
  Forall (fun l => ~ In 10 l /\ l <> marker_param) ls ->
  load_loop fuel doc (concat (map (fun l => l ++ [10]) ls) ++ marker_param ++ [c_nl] ++ body) = Some ((doc ++ concat ls) ++ marker_param, body).
Proof.
  induction ls as [|l ls IH]; intros fuel doc body Hf F; (destruct fuel as [|fuel]; [cbn in Hf; lia|]); cbn [load_loop map concat].
  - change ([] ++ marker_param ++ [c_nl] ++ body) with (marker_param ++ 10 :: body). rewrite getline_ok by apply marker_no_nl.
    replace (str_eqb marker_param marker_param) with true by (symmetry; now apply str_eqb_eq). now rewrite app_nil_r.
  - inversion F as [|? ? [Nl Nm] F']; subst. 
    replace (((l ++ [10]) ++ concat (map (fun l => l ++ [10]) ls)) ++ marker_param ++ [c_nl] ++ body)
      with (l ++ 10 :: (concat (map (fun l => l ++ [10]) ls) ++ marker_param ++ [c_nl] ++ body)) by (rewrite <- !app_assoc; reflexivity).
    rewrite getline_ok by exact Nl.
    rewrite str_eqb_neq by exact Nm. cbn in Hf. rewrite (IH fuel (doc ++ l) body) by (auto; lia). now rewrite <- !app_assoc.
Qed.
(** Without the marker line the loop never ends. *)
Lemma getline_nil : getline [] = ([], []). Proof. reflexivity. Qed.
Lemma load_loop_nil fuel : forall doc, load_loop fuel doc [] = None.
Proof. induction fuel as [|f IH]; intros doc; [reflexivity|]. cbn [load_loop]. rewrite getline_nil. cbn [str_eqb]. replace (str_eqb [] marker_param) with false by reflexivity. apply IH. Qed.
End T.
