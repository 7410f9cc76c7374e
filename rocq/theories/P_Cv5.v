(** Proofs about M_Cv: what a report must have for a number to be read. *)
From Coq Require Import String.
From Verif Require Import M_Base M_DataPoint M_Text M_Str M_Tools S_Text P_Parse P_Str M_Cv P_Cv4.
Local Open Scope list_scope.
Local Open Scope Z_scope.

Lemma literal_ok l : forall t r, literal l t = Some r -> t = l ++ r.
Proof.
  induction l as [|c l IH]; intros [|d t] r H; cbn in *; try congruence; try discriminate. destruct (Z.eqb_spec c d); [|discriminate]. subst. now rewrite (IH _ _ H).
Qed.
Lemma match_sound l t ds r : match_at l t = Some (ds, r) -> exists a b, t = l ++ a ++ 58 :: b ++ ds ++ r /\ Forall (fun c => M_Str.is_space c = true) (a ++ b) /\ ds <> [] /\
  Forall (fun c => is_digit c = true) ds /\ (r = [] \/ exists c r', r = c :: r' /\ is_digit c = false).
Proof.
  unfold match_at. destruct (literal l t) as [x|] eqn:El; [|discriminate]. apply literal_ok in El. subst t. cbn [bind]. unfold find_if_not.
  assert (A := find_if_spec (fun c => negb (M_Str.is_space c)) x). destruct (find_if (fun c => negb (M_Str.is_space c)) x) as (a, x1). destruct A as (A1 & A2 & _). cbn [snd].
  destruct x1 as [|c x1]; [discriminate|]. destruct (Z.eqb_spec c 58) as [->|]; [|discriminate]. cbn [negb].
  assert (B := find_if_spec (fun c => negb (M_Str.is_space c)) x1). destruct (find_if (fun c => negb (M_Str.is_space c)) x1) as (b, x2). destruct B as (B1 & B2 & _). cbn [snd].
  assert (D := find_if_spec (fun c => negb (is_digit c)) x2). destruct (find_if (fun c => negb (is_digit c)) x2) as (d, x3). destruct D as (D1 & D2 & D3).
  destruct d as [|d0 d]; [discriminate|]. intros H. inversion H; subst. exists a, b. split; [reflexivity|].
  split; [apply Forall_app; split; [revert A2|revert B2]; apply Forall_impl; intros q Hq; now apply negb_false_iff|]. split; [discriminate|].
  split; [revert D2; apply Forall_impl; intros q Hq; now apply negb_false_iff|]. destruct D3 as [D3|(q & r' & D3 & E)]; [now left|right]. exists q, r'. split; [exact D3|now apply negb_true_iff].
Qed.
Lemma findall_sound l t : forall k ds, In ds (findall l k t) -> exists pre u r, t = pre ++ u /\ match_at l u = Some (ds, r).
Proof.
  induction t as [|c t IH]; intros k ds H; cbn [findall] in H; [contradiction|]. destruct k as [|k].
  - destruct (match_at l (c :: t)) as [(d, r)|] eqn:E.
    + destruct H as [<-|H]; [exists [], (c :: t), r; auto|]. destruct (IH _ _ H) as (pre & u & r' & -> & M). now exists (c :: pre), u, r'.
    + destruct (IH _ _ H) as (pre & u & r' & -> & M). now exists (c :: pre), u, r'.
  - destruct (IH _ _ H) as (pre & u & r' & -> & M). now exists (c :: pre), u, r'.
Qed.
Lemma info_sound name text n : info name text = Some n -> exists pre a b ds post,
  text = pre ++ bytes name ++ a ++ 58 :: b ++ ds ++ post /\ Forall (fun c => M_Str.is_space c = true) (a ++ b) /\ ds <> [] /\
  Forall (fun c => is_digit c = true) ds /\ (post = [] \/ exists c r', post = c :: r' /\ is_digit c = false) /\ n = digits_value 0 ds.
Proof.
  unfold info. destruct (findall (bytes name) 0 text) as [|ds [|? ?]] eqn:E; try discriminate. intros H. inversion H; subst.
  destruct (findall_sound (bytes name) text 0 ds) as (pre & u & r & -> & M); [rewrite E; now left|]. destruct (match_sound _ _ _ _ M) as (a & b & -> & A & B & D & F).
  exists pre, a, b, ds, r. auto 8.
Qed.
Lemma info_twice n gap ds gap' ds' t : In n lits -> ds <> [] -> Forall digit_char ds -> Forall (fun c => c = 32) gap -> ds' <> [] -> Forall digit_char ds' -> Forall (fun c => c = 32) gap' ->
  info n ((bytes n ++ gap ++ [58; 32]) ++ ds ++ 10 :: (bytes n ++ gap' ++ [58; 32]) ++ ds' ++ 10 :: t) = None.
Proof. intros I A B G A' B' G'. unfold info. now rewrite !this_line. Qed.
