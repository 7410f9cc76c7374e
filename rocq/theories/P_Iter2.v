(** Proofs about the data iterator, part 2: what holds in every state. *)
From Verif Require Import M_Base M_Queue S_Queue P_Queue P_Queue2 P_Queue3 M_Iter S_Iter P_Iter.

Section P.
Context {P : Type}.
Notation reader := (reader (P:=P)). Notation iter := (iter (P:=P)).
Notation op := (aop (A:=ptr)). Notation ast := (ast (P:=P)). Notation rop := (reader * option op)%type.

Definition isN (p : ptr) : nat := match p with None => 1 | Some _ => 0 end.
Definition isS (p : ptr) : nat := match p with None => 0 | Some _ => 1 end.
(** The weight of the mini-batches that exist. *)
Fixpoint hs (g : ptr -> nat) (i : nat) (h : list (option (list P))) : nat :=
  match h with [] => 0 | x :: r => match x with Some _ => g (Some i) | None => 0 end + hs g (S i) r end%nat.
Lemma hs_app g h x : forall i, hs g i (h ++ [Some x]) = (hs g i h + g (Some (i + length h)%nat))%nat.
Proof. induction h as [|y h IH]; intros i; cbn [hs app length]; [replace (i + 0)%nat with i by lia; lia|]. rewrite IH. replace (S i + length h)%nat with (i + S (length h))%nat by lia. lia. Qed.
Lemma hs_wr g h : forall i id c y h', nth_error h id = Some (Some c) -> wr h id y = Some h' ->
  (hs g i h' + g (Some (i + id)%nat) = hs g i h + match y with Some _ => g (Some (i + id)%nat) | None => 0 end)%nat.
Proof.
  induction h as [|x h IH]; intros i [|id] c y h' H W; try discriminate; cbn [wr hs] in *.
  - cbn in H. inversion H; inversion W; subst. cbn [hs]. replace (i + 0)%nat with i by lia. lia.
  - cbn in H, W. destruct (wr h id y) as [r|] eqn:E; [|discriminate]. cbn in W. inversion W; subst. cbn [hs]. specialize (IH (S i) id c y r H E).
    replace (i + S id)%nat with (S i + id)%nat by lia. lia.
Qed.
Lemma hs_len h : forall i, (hs isS i h <= length h)%nat.
Proof. induction h as [|x h IH]; intros i; cbn [hs length]; [lia|]. specialize (IH (S i)). destruct x; cbn [isS]; lia. Qed.
Definition one (id : nat) (p : ptr) : nat := match p with Some i => if Nat.eqb i id then 1 else 0 | None => 0 end.
Lemma hs_one h id : forall i, hs (one id) i h = if (i <=? id)%nat then match nth_error h (id - i) with Some (Some _) => 1%nat | _ => 0%nat end else 0%nat.
Proof.
  induction h as [|x h IH]; intros i; cbn [hs].
  - destruct (i <=? id)%nat; [|reflexivity]. now destruct (id - i)%nat.
  - rewrite IH. cbn [one]. destruct (Nat.leb_spec i id) as [L|L].
    + destruct (Nat.leb_spec (S i) id) as [L1|L1].
      * replace (id - i)%nat with (S (id - S i)) by lia. cbn [nth_error]. assert (i =? id = false)%nat as -> by (apply Nat.eqb_neq; lia). destruct x; reflexivity.
      * assert (i = id) by lia. subst i. rewrite Nat.sub_diag, Nat.eqb_refl. cbn [nth_error]. destruct x; reflexivity.
    + assert (S i <=? id = false)%nat as -> by (apply Nat.leb_gt; lia). assert (i =? id = false)%nat as -> by (apply Nat.eqb_neq; lia). destruct x; reflexivity.
Qed.
Lemma apoints_nth (h : list (option (list P))) id c : apoints h id = Some c <-> nth_error h id = Some (Some c).
Proof. unfold apoints, rd. destruct (nth_error h id) as [[x|]|]; cbn [bind]; split; intros H; try discriminate; congruence. Qed.
Lemma adelete_wr (h h' : list (option (list P))) id : adelete h (Some id) = Some h' -> exists c, nth_error h id = Some (Some c) /\ wr h id None = Some h'.
Proof. unfold adelete. destruct (apoints h id) as [c|] eqn:E; [|discriminate]. apply apoints_nth in E. cbn [bind]. eauto. Qed.
Lemma astart_wr (rs rs' : list rop) j r o : nth_error rs j = Some (r, o) -> r_pc r = RNone -> astart rs j = Some rs' -> wr rs j (set_pc r RLoop, o) = Some rs'.
Proof. intros N Pc. unfold astart, rd. rewrite N. cbn [bind fst snd]. now rewrite Pc. Qed.

Variables n bs k : nat.

(** Batches in hand. *)
Definition rtok (g : ptr -> nat) (x : rop) : nat := (aw g (snd x) + match r_pc (fst x) with RFill id | RPut0 id => g (Some id) | _ => 0 end)%nat.
Definition tok (g : ptr -> nat) (a : ast) : nat :=
  (ssum g (a_cf a) + ssum g (a_cb a) + aw g (a_mop a) + ssum (rtok g) (a_rs a) + match a_held a with Some id => g (Some id) | None => 0 end)%nat.
(** Ends of sources on their way to the caller. *)
Definition mnb (a : ast) : nat := match a_main a with CNew _ | CPut _ | NSend => 1 | CSig | NGet | NEnd | KGet2 => aw isN (a_mop a) | _ => 0 end.
Definition rnb (x : rop) : nat := match r_pc (fst x) with RNone | RDone => 0 | RFin => aw isN (snd x) | _ => 1 end.
Definition nb (a : ast) : nat := (ssum isN (a_cb a) + mnb a + ssum rnb (a_rs a))%nat.
(** Stop signals on their way to readers. *)
Definition mnf (a : ast) : nat := if fac_m (a_main a) then aw isN (a_mop a) else 0%nat.
Definition rnf (x : rop) : nat := match r_pc (fst x) with RNull0 => 1 | RGet | RNull => aw isN (snd x) | _ => 0 end.
Definition nf (a : ast) : nat := (ssum isN (a_cf a) + mnf a + ssum rnf (a_rs a))%nat.
(** A reader that has sent its end. *)
Definition spent (x : rop) : Prop := r_pc (fst x) = RDone \/ (r_pc (fst x) = RFin /\ snd x = Some AEnqd).

Definition mok (m : mpc) (o : option op) : Prop :=
  match m, o with
  | CPut c, Some (AEnq (Some d)) => c = d
  | CPut _, Some AEnqd | CSig, Some (AEnq None) | CSig, Some AEnqd
  | NPut, Some (AEnq (Some _)) | NPut, Some AEnqd | NGet, Some ADeq | NGet, Some (ADeqd _) | NEnd, Some (AEnq None) | NEnd, Some AEnqd
  | KGet, Some ADeq | KGet, Some (ADeqd _) | KSend, Some (AEnq None) | KSend, Some AEnqd | KGet2, Some ADeq | KGet2, Some (ADeqd _)
  | KGet3, Some ADeq | KGet3, Some (ADeqd _) => True
  | CNew _, None | MIdle, None | NTake, None | NSend, None | KSize, None | KSend0, None | KLoop, None | KJoin _, None | KSize2, None | KDone, None => True
  | _, _ => False
  end.
Definition rok (x : rop) : Prop :=
  match r_pc (fst x), snd x with
  | RNone, None | RLoop, None | RNull0, None | RPut0 _, None | RFin0, None | RDone, None => True
  | RFill _, None | RGet, Some ADeq | RGet, Some (ADeqd _) => r_ok (fst x) = true /\ 0 < r_pass (fst x)
  | RNull, Some (AEnq None) | RNull, Some AEnqd
  | RPut, Some (AEnq (Some _)) | RPut, Some AEnqd | RFin, Some (AEnq None) | RFin, Some AEnqd => True
  | _, _ => False
  end.
(** Before the first stop signal; after the pool was cleared; in the constructor; after the readers ended. *)
Definition before (m : mpc) : Prop := match m with KSend | KLoop | KGet2 | KJoin _ | KSize2 | KGet3 | KDone => False | _ => True end.
Definition cleared (m : mpc) : Prop := match m with KSend0 | KSend | KLoop | KGet2 | KJoin _ | KSize2 | KGet3 | KDone => True | _ => False end.
Definition ctor (m : mpc) : Prop := match m with CNew _ | CPut _ | CSig => True | _ => False end.
Definition joined (m : mpc) : Prop := match m with KSize2 | KGet3 | KDone => True | _ => False end.
Definition past (m : mpc) : Prop := match m with KJoin _ | KSize2 | KGet3 | KDone => True | _ => False end.
Definition normal (m : mpc) : Prop := match m with CNew _ | CPut _ | CSig | MIdle | NPut | NTake | NGet | NSend | NEnd => True | _ => False end.

Record inv (a : ast) : Prop := {
  v_mok : mok (a_main a) (a_mop a);
  v_rok : forall j x, nth_error (a_rs a) j = Some x -> rok x;
  v_len : match a_main a with CNew c => length (a_heap a) = c /\ (c <= n)%nat | CPut c => length (a_heap a) = S c /\ (c < n)%nat | _ => length (a_heap a) = n end;
  v_ctor : ctor (a_main a) -> a_rs a = [] /\ a_idx a = -1;
  v_held : a_held a <> None -> a_main a = MIdle \/ ~ normal (a_main a);
  v_bs : forall id c, nth_error (a_heap a) id = Some (Some c) -> (length c <= bs)%nat;
  v_tok : forall g, g None = O -> tok g a = hs g 0 (a_heap a);
  v_idx : -1 <= a_idx a;
  v_past : if a_idx a <? acount (a_rs a) then ~ past (a_main a) else past (a_main a) \/ a_main a = KLoop;
  v_new : forall j x, nth_error (a_rs a) j = Some x -> a_idx a < Z.of_nat j -> r_pc (fst x) = RNone;
  v_old : forall j x, nth_error (a_rs a) j = Some x -> Z.of_nat j < a_idx a -> spent x;
  v_cur : forall j x, nth_error (a_rs a) j = Some x -> Z.of_nat j = a_idx a -> r_pc (fst x) <> RNone;
  v_nb : nb a = if a_idx a <? acount (a_rs a) then 1%nat else 0%nat;
  v_ctl : mnb a <> O -> a_cb a = [];
  v_last : forall l1 l2, a_cb a = l1 ++ None :: l2 -> l2 = [];
  v_end : a_main a = NSend \/ a_main a = NEnd -> acount (a_rs a) <= a_idx a + 1 /\ (forall j x, nth_error (a_rs a) j = Some x -> spent x) /\ (a_cb a = [] \/ a_cb a = [None]);
  v_nf : nf a = match a_main a with KSend | KLoop | KGet2 | KJoin _ => 1%nat | KSize2 | KGet3 | KDone => nf a | _ => 0%nat end /\ (nf a <= 1)%nat;
  v_nonull : before (a_main a) -> forall j x, nth_error (a_rs a) j = Some x -> r_pc (fst x) <> RNull;
  v_clear : cleared (a_main a) -> ssum isS (a_cf a) = O;
  v_join : match a_main a with KJoin i => forall j x, (j < i)%nat -> nth_error (a_rs a) j = Some x -> r_pc (fst x) = RNone \/ r_pc (fst x) = RDone | _ => True end;
  v_joined : joined (a_main a) -> forall j x, nth_error (a_rs a) j = Some x -> r_pc (fst x) = RNone \/ r_pc (fst x) = RDone;
  v_get3 : a_main a = KGet3 -> a_mop a = Some ADeq -> a_cf a <> [];
  v_alive : normal (a_main a) -> hs isS 0 (a_heap a) = length (a_heap a)
}.

Lemma inv_init : (0 < n)%nat -> inv ainit.
Proof.
  intros N. constructor; cbn; try tauto; try (intros [|j]; discriminate); try lia; auto.
  all: try (intros; repeat match goal with H : _ \/ _ |- _ => destruct H | H : nth_error [] ?j = _ |- _ => destruct j; discriminate | H : [] = ?l ++ _ |- _ => destruct l; discriminate end; discriminate).
Qed.

(* ----------------------------------------------------------------- token counting *)
Ltac asimp := cbn [a_cf a_cb a_heap a_main a_mop a_idx a_rs a_held] in *.
Ltac sumw f := match goal with N : nth_error ?rs ?j = Some ?y, W : wr ?rs ?j ?x = Some ?rs' |- _ => pose proof (ssum_wr f _ _ _ _ _ N W) as Sw end.

Lemma next_reader a : inv a -> a_idx a + 1 < acount (a_rs a) -> exists r o, nth_error (a_rs a) (Z.to_nat (a_idx a + 1)) = Some (r, o) /\ r_pc r = RNone /\ o = None.
Proof.
  intros I L. pose proof (v_idx a I). unfold acount in L.
  destruct (nth_error (a_rs a) (Z.to_nat (a_idx a + 1))) as [[r o]|] eqn:E; [|apply nth_error_None in E; lia].
  pose proof (v_new a I _ _ E ltac:(lia)) as Pc. pose proof (v_rok a I _ _ E) as R. cbn [fst] in Pc. unfold rok in R. cbn [fst snd] in R. rewrite Pc in R.
  exists r, o. repeat split; auto. destruct o; [destruct R|reflexivity].
Qed.

Ltac prep := try match goal with L : ?i + 1 < acount ?rs, S : astart _ _ = Some ?rs', I : inv ?a |- _ =>
    destruct (next_reader a I L) as (r0 & o0 & N0 & Pc0 & Eo0); asimp; subst o0; pose proof (astart_wr _ _ _ _ _ N0 Pc0 S) as W0; clear S end.
Ltac cases St := let M := fresh "M" in let R := fresh "R" in
  destruct St as [l a a' outs M|l j cf cb h m mo i rs hd r o cf' cb' h' r' o' rs' Nj R W];
  [inversion M; subst; clear M; prep|inversion R; subst; clear R]; asimp.

Lemma st_tok l a a' outs : inv a -> astep n bs k l a a' outs -> forall g, g None = O -> tok g a' = hs g 0 (a_heap a').
Proof.
  intros I St g Gn. pose proof (v_tok a I g Gn) as T. pose proof (v_len a I) as Ln. pose proof (v_mok a I) as Mo.
  unfold tok in *. cases St.
  all: rewrite ?ssum_app in *; cbn [ssum aw] in *.
  all: try lia.
  all: try (rewrite hs_app; cbn [Nat.add]; destruct Ln as [-> _]; lia).
  all: try match goal with H : adelete _ (Some _) = _ |- _ => apply adelete_wr in H; destruct H as (c & Hc & W); pose proof (hs_wr g _ 0 _ _ _ _ Hc W); cbn [Nat.add] in *; lia end.
  all: try match goal with H : adelete _ ?p = _ |- _ => destruct p as [id|]; [apply adelete_wr in H; destruct H as (c & Hc & W); pose proof (hs_wr g _ 0 _ _ _ _ Hc W); cbn [Nat.add] in *; lia|cbn in H; inversion H; subst; lia] end.
  all: try (unfold rtok at 2; cbn [fst snd aw new_reader r_pc]; lia).
  all: try (destruct hd; [exfalso; destruct (v_held _ I) as [Q|Q]; [discriminate|discriminate|apply Q; exact Logic.I]|lia]).
  all: sumw (rtok g); unfold rtok at 2 4 in Sw; cbn [fst snd set_pc r_pc aw] in Sw;
    repeat match goal with H : r_pc _ = _ |- _ => rewrite H in Sw end; try lia.
  all: match goal with H : apoints _ _ = Some _, W : wr ?h _ (Some _) = Some ?h' |- _ => apply apoints_nth in H; pose proof (hs_wr g _ 0 _ _ _ _ H W); cbn [Nat.add] in *; lia end.
Qed.

Ltac pcs := repeat match goal with H : r_pc _ = _ |- _ => rewrite H in * end.
Lemma cnt_wr (rs rs' : list rop) j x : wr rs j x = Some rs' -> acount rs' = acount rs.
Proof. intros W. destruct (wr_spec _ _ _ _ W) as (_ & L & _). unfold acount. now rewrite L. Qed.
Lemma cnt_app (rs : list rop) x : acount (rs ++ [x]) = acount rs + 1.
Proof. unfold acount. rewrite app_length. cbn [length]. lia. Qed.
Ltac cnts := repeat match goal with W : wr ?rs _ _ = Some ?rs' |- context [acount ?rs'] => rewrite (cnt_wr rs rs' _ _ W) end; rewrite ?cnt_app.
Ltac bools := repeat match goal with
  | H : context [Z.ltb ?x ?y] |- _ => destruct (Z.ltb_spec x y)
  | |- context [Z.ltb ?x ?y] => destruct (Z.ltb_spec x y) end.

Ltac split_step St := destruct St as [l a a' outs M|l j cf cb h m mo i rs hd r o cf' cb' h' r' o' rs' Nj R W]; asimp.
Ltac mcases M := inversion M; subst; clear M; prep; asimp.
Ltac rcases I R := match type of R with rstep _ _ _ (_, _, _, ?r, ?o) _ => match goal with Nj : nth_error _ _ = Some (r, o) |- _ => let Ok := fresh "Ok" in pose proof (v_rok _ I _ _ Nj) as Ok; unfold rok in Ok; cbn [fst snd] in Ok end end;
  inversion R; subst; clear R; asimp;
  repeat match goal with H : fac_r (r_pc ?r) = true |- _ => destruct (r_pc r) eqn:?; try discriminate; clear H | H : buf_r (r_pc ?r) = true |- _ => destruct (r_pc r) eqn:?; try discriminate; clear H end;
  repeat match goal with H : r_pc _ = _, Ok : context [r_pc _] |- _ => rewrite H in Ok end; cbn [r_pc r_ok r_pass] in *;
  try match goal with Ok : match ?x with Some _ => _ | None => _ end |- _ => destruct x; try (destruct Ok; fail) end; try match goal with Ok : False |- _ => destruct Ok end.
Ltac rsum f := match goal with N : nth_error ?rs ?j = Some ?y, W : wr ?rs ?j ?x = Some ?rs' |- _ => let Sw := fresh "Sw" in pose proof (ssum_wr f _ _ _ _ _ N W) as Sw;
  unfold f at 2 4 in Sw; cbn [fst snd set_pc r_pc aw isN isS] in Sw; repeat match goal with H : r_pc _ = _ |- _ => rewrite H in Sw end; cbn [isN isS] in Sw end.

Lemma st_nb l a a' outs : inv a -> astep n bs k l a a' outs -> nb a' = if a_idx a' <? acount (a_rs a') then 1%nat else 0%nat.
Proof.
  intros I St. pose proof (v_nb a I) as T. pose proof (v_mok a I) as Mo. pose proof (v_past a I) as Pa.
  unfold nb, mnb in *. split_step St.
  - mcases M; cnts.
    all: try (rewrite ?ssum_app in *; cbn [ssum aw isN] in *; try assumption; try lia).
    all: try (destruct m; try discriminate; cbn in Mo, T |- *; try tauto; try lia).
    all: try (destruct x; cbn in *; try tauto; try lia).
    all: try (bools; cbn [past] in *; try tauto; try lia; try (exfalso; intuition congruence)).
    all: try (unfold rnb at 2; cbn [fst new_reader r_pc]; lia).
    all: try (rsum rnb; lia).
  - rcases I R; cnts; rewrite ?ssum_app in *; cbn [ssum isN] in *; rsum rnb; try lia.
Qed.

(** What a reader's state became, at every place. *)
Ltac at_reader := let i := fresh "i" in let x := fresh "x" in let Hi := fresh "Hi" in intros i x Hi;
  match goal with W : wr ?rs ?j ?y = Some ?rs' |- _ => destruct (wr_spec _ _ _ _ W) as (W1 & W2 & W3 & W4);
    destruct (Nat.eq_dec i j) as [Ei|Ni]; [rewrite Ei in *; rewrite W3 in Hi; inversion Hi; subst x; clear Hi|rewrite (W4 _ Ni) in Hi] end.
Lemma nth_app_one {A} (l : list A) x i y : nth_error (l ++ [x]) i = Some y -> nth_error l i = Some y \/ (i = length l /\ y = x).
Proof.
  intros H. destruct (Nat.lt_ge_cases i (length l)); [left; now rewrite nth_error_app1 in H|]. rewrite nth_error_app2 in H by lia.
  destruct (i - length l)%nat as [|d] eqn:E; cbn in H; [right; split; [lia|congruence]|destruct d; discriminate].
Qed.

Lemma st_mok l a a' outs : inv a -> astep n bs k l a a' outs -> mok (a_main a') (a_mop a').
Proof.
  intros I St. pose proof (v_mok a I) as Mo. split_step St.
  - mcases M; try exact Logic.I; try (destruct m; try discriminate; cbn in Mo |- *; try tauto; destruct x; tauto). reflexivity.
  - assumption.
Qed.
Lemma st_rok l a a' outs : inv a -> astep n bs k l a a' outs -> forall j x, nth_error (a_rs a') j = Some x -> rok x.
Proof.
  intros I St. pose proof (v_rok a I) as Ro. split_step St.
  - mcases M; try exact Ro.
    + at_reader; [exact Logic.I|eauto].
    + intros i0 x H1. apply nth_app_one in H1. destruct H1 as [H1|[_ ->]]; [eauto|exact Logic.I].
    + at_reader; [exact Logic.I|eauto].
  - rcases I R; at_reader; eauto; unfold rok; cbn [fst snd set_pc r_pc r_ok r_pass]; pcs; try exact Logic.I; try assumption; try tauto.
Qed.
Lemma st_len l a a' outs : inv a -> astep n bs k l a a' outs ->
  match a_main a' with CNew c => length (a_heap a') = c /\ (c <= n)%nat | CPut c => length (a_heap a') = S c /\ (c < n)%nat | _ => length (a_heap a') = n end.
Proof.
  intros I St. pose proof (v_len a I) as Ln. pose proof (v_mok a I) as Mo. split_step St.
  - mcases M; try assumption; try (destruct m; try discriminate; assumption).
    + rewrite app_length. cbn [length]. lia.
    + lia.
    + destruct p; [apply adelete_wr in H; destruct H as (c & Hc & W); apply wr_spec in W; destruct W as (_ & -> & _); assumption|cbn in H; congruence].
    + apply adelete_wr in H; destruct H as (c & Hc & W); apply wr_spec in W; destruct W as (_ & -> & _); assumption.
    + destruct p; [apply adelete_wr in H; destruct H as (c & Hc & W); apply wr_spec in W; destruct W as (_ & -> & _); assumption|cbn in H; congruence].
  - rcases I R; try assumption.
    all: match goal with W : wr ?h _ (Some _) = Some ?h' |- _ => apply wr_spec in W; destruct W as (_ & -> & _); assumption end.
Qed.
Lemma st_ctor l a a' outs : inv a -> astep n bs k l a a' outs -> ctor (a_main a') -> a_rs a' = [] /\ a_idx a' = -1.
Proof.
  intros I St. pose proof (v_ctor a I) as Ct. split_step St.
  - mcases M; cbn [ctor] in *; try tauto.
  - intros C. destruct (Ct C) as [-> _]. now destruct j.
Qed.
Lemma st_held l a a' outs : inv a -> astep n bs k l a a' outs -> a_held a' <> None -> a_main a' = MIdle \/ ~ normal (a_main a').
Proof.
  intros I St. pose proof (v_held a I) as Ct. split_step St.
  - mcases M; cbn [normal] in *; try tauto.
    all: intros Q; specialize (Ct Q); destruct Ct as [Ct|Ct]; try discriminate; tauto.
  - assumption.
Qed.
Lemma st_bs l a a' outs : inv a -> astep n bs k l a a' outs -> forall id c, nth_error (a_heap a') id = Some (Some c) -> (length c <= bs)%nat.
Proof.
  intros I St. pose proof (v_bs a I) as B.
  assert (D : forall (h0 : list (option (list P))) p h1, (forall id c, nth_error h0 id = Some (Some c) -> (length c <= bs)%nat) -> adelete h0 p = Some h1 -> forall id c, nth_error h1 id = Some (Some c) -> (length c <= bs)%nat).
  { intros h0 [p|] h1 B0 E id c Hc; [|cbn in E; inversion E; subst; eauto]. apply adelete_wr in E. destruct E as (c0 & _ & W). apply wr_spec in W. destruct W as (_ & _ & W3 & W4).
    destruct (Nat.eq_dec id p) as [->|Ni]; [congruence|]. rewrite W4 in Hc by assumption. eauto. }
  split_step St.
  - mcases M; try assumption; try (eapply D; eassumption).
    intros id c0 Hc. apply nth_app_one in Hc. destruct Hc as [Hc|[_ Hc]]; [eauto|]. inversion Hc. cbn. lia.
  - rcases I R; try assumption.
    all: match goal with W : wr ?h ?i (Some _) = Some ?h' |- _ => intros id0 c0 Hc; apply wr_spec in W; destruct W as (_ & _ & W3 & W4); destruct (Nat.eq_dec id0 i) as [->|Ni]; [rewrite W3 in Hc; inversion Hc|rewrite W4 in Hc by assumption; eauto] end.
    + cbn. lia.
    + rewrite app_length. cbn. lia.
Qed.
Lemma st_idx l a a' outs : inv a -> astep n bs k l a a' outs -> -1 <= a_idx a'.
Proof. intros I St. pose proof (v_idx a I) as B. split_step St; [mcases M; lia|assumption]. Qed.
Lemma st_past l a a' outs : inv a -> astep n bs k l a a' outs -> if a_idx a' <? acount (a_rs a') then ~ past (a_main a') else past (a_main a') \/ a_main a' = KLoop.
Proof.
  intros I St. pose proof (v_past a I) as B. split_step St; [|cnts; exact B].
  mcases M; cnts; try exact B; bools; cbn [past] in *; try lia; try tauto; try (exfalso; intuition congruence).
Qed.
Lemma st_new l a a' outs : inv a -> astep n bs k l a a' outs -> forall j x, nth_error (a_rs a') j = Some x -> a_idx a' < Z.of_nat j -> r_pc (fst x) = RNone.
Proof.
  intros I St. pose proof (v_new a I) as B. pose proof (v_idx a I) as Bi. split_step St.
  - mcases M; try exact B.
    + at_reader; intros; [lia|eapply B; eauto; lia].
    + intros i0 x H1. apply nth_app_one in H1. destruct H1 as [H1|[_ ->]]; [eauto|reflexivity].
    + at_reader; intros; [lia|eapply B; eauto; lia].
    + intros j x Hj L. eapply B; eauto; lia.
  - at_reader; intros; [|eauto]. specialize (B _ _ Nj H). cbn [fst] in B. inversion R; subst; cbn [r_pc] in *; try congruence; rewrite B in *; discriminate.
Qed.
Lemma spent_rnb x : rok x -> rnb x = O -> r_pc (fst x) <> RNone -> spent x.
Proof.
  unfold rok, rnb, spent. destruct x as [r o]. cbn [fst snd]. destruct (r_pc r); try discriminate; try congruence; auto.
  destruct o as [[[p|]| | |]|]; cbn; try tauto; try discriminate.
Qed.
Lemma spent_rnb0 x : spent x -> rnb x = O.
Proof. unfold spent, rnb. intros [->|[-> ->]]; reflexivity. Qed.
Lemma spent_step l cf cb h r o cf' cb' h' r' o' : rstep n bs l (cf, cb, h, r, o) (cf', cb', h', r', o') -> spent (r, o) -> cf' = cf /\ cb' = cb /\ h' = h /\ spent (r', o').
Proof.
  unfold spent. cbn [fst snd]. intros R [S|[S1 S2]]; inversion R; subst; cbn [r_pc] in *; try congruence; try (rewrite ?S, ?S1 in *; discriminate).
  auto 10.
Qed.
(** When the end of a source is elsewhere, all started readers have ended. *)
Lemma all_spent a : inv a -> (ssum isN (a_cb a) + mnb a <> 0)%nat -> forall j x, nth_error (a_rs a) j = Some x -> Z.of_nat j <= a_idx a -> spent x.
Proof.
  intros I N j x Hj L. destruct (Z.eq_dec (Z.of_nat j) (a_idx a)) as [E|E]; [|eapply (v_old a I); eauto; lia].
  apply spent_rnb; [eapply (v_rok a I); eauto| |eapply (v_cur a I); eauto].
  pose proof (v_nb a I) as T. unfold nb in T. pose proof (ssum_nth rnb _ _ _ Hj). destruct (_ <? _); lia.
Qed.
Lemma st_old l a a' outs : inv a -> astep n bs k l a a' outs -> forall j x, nth_error (a_rs a') j = Some x -> Z.of_nat j < a_idx a' -> spent x.
Proof.
  intros I St. pose proof (v_old a I) as B. pose proof (v_idx a I) as Bi. split_step St.
  - mcases M; try exact B.
    + at_reader; intros; [lia|]. eapply (all_spent _ I); cbn; eauto; lia.
    + intros i0 x H1 L. apply nth_app_one in H1. destruct H1 as [H1|[E ->]]; [eauto|]. exfalso.
      pose proof (v_past _ I) as Pa. cbn in Pa. unfold acount in Pa. bools; [lia|intuition congruence].
    + at_reader; intros; [lia|]. eapply (all_spent _ I); cbn; eauto; lia.
    + intros j x Hj L. eapply (all_spent _ I); cbn; eauto; lia.
  - at_reader; intros; [|eauto]. specialize (B _ _ Nj H). eapply spent_step in R; [|eassumption]. tauto.
Qed.
Lemma st_cur l a a' outs : inv a -> astep n bs k l a a' outs -> forall j x, nth_error (a_rs a') j = Some x -> Z.of_nat j = a_idx a' -> r_pc (fst x) <> RNone.
Proof.
  intros I St. pose proof (v_cur a I) as B. pose proof (v_idx a I) as Bi. split_step St.
  - mcases M; try exact B.
    + at_reader; intros; [cbn; discriminate|]. lia.
    + intros i0 x H1 L. apply nth_app_one in H1. destruct H1 as [H1|[E ->]]; [eauto|]. exfalso.
      pose proof (v_past _ I) as Pa. cbn in Pa. unfold acount in Pa. bools; [lia|intuition congruence].
    + at_reader; intros; [cbn; discriminate|]. lia.
    + intros j x Hj L. pose proof (proj1 (nth_error_Some rs j) ltac:(congruence)). unfold acount in H. lia.
  - at_reader; intros; [|eauto]. rcases I R; cbn [fst set_pc r_pc]; congruence.
Qed.
Lemma st_ctl l a a' outs : inv a -> astep n bs k l a a' outs -> mnb a' <> O -> a_cb a' = [].
Proof.
  intros I St. pose proof (v_ctl a I) as B. pose proof (v_mok a I) as Mo. pose proof (v_nb a I) as T. pose proof (v_last a I) as La. unfold nb, mnb in *. split_step St.
  - mcases M; cbn [aw isN] in *; auto; try congruence; try (intros _; apply B; discriminate).
    + destruct m; try discriminate; cbn in *; tauto.
    + destruct m; try discriminate; cbn in *; tauto.
    + destruct m; try discriminate; cbn in *; try tauto.
    + destruct m; try discriminate; cbn in *; try tauto; destruct x; try tauto; intros _; eapply (La []); reflexivity.
  - intros Q. specialize (B Q). asimp. subst cb. rcases I R; try reflexivity; exfalso; rsum rnb; pose proof (ssum_nth rnb _ _ _ Nj) as Sn; unfold rnb at 1 in Sn; cbn [fst snd] in Sn; pcs; cbn in *; bools; try lia.
Qed.
Lemma st_last l a a' outs : inv a -> astep n bs k l a a' outs -> forall l1 l2, a_cb a' = l1 ++ None :: l2 -> l2 = [].
Proof.
  intros I St. pose proof (v_ctl a I) as B. pose proof (v_mok a I) as Mo. pose proof (v_nb a I) as T. pose proof (v_last a I) as La. unfold nb, mnb in *.
  assert (Ap : forall cb (x : ptr) l1 l2, cb ++ [x] = l1 ++ None :: l2 -> ssum isN cb = O -> l2 = []).
  { intros cb x l1 l2 E S. destruct l2 as [|y l2] using rev_ind; [reflexivity|]. rewrite app_comm_cons, app_assoc in E. apply app_inj_tail in E. destruct E as [E _].
    rewrite E, ssum_app in S. cbn in S. lia. }
  split_step St.
  - mcases M; try exact La.
    + intros l1 l2 E. eapply Ap; [eassumption|]. destruct m; try discriminate; cbn in Mo; try tauto; destruct x; try tauto; cbn in T; bools; lia.
    + intros l1 l2 E. apply (La (x :: l1) l2). rewrite E; reflexivity.
  - rcases I R; try exact La.
    all: try (intros l1 l2 E; apply (La (x :: l1) l2); rewrite E; reflexivity).
    all: intros l1 l2 E; eapply Ap; [eassumption|]; pose proof (ssum_nth rnb _ _ _ Nj) as Sn; unfold rnb at 1 in Sn; cbn [fst snd] in Sn; pcs; cbn in *; bools; try lia.
Qed.
Lemma st_end l a a' outs : inv a -> astep n bs k l a a' outs -> a_main a' = NSend \/ a_main a' = NEnd ->
  acount (a_rs a') <= a_idx a' + 1 /\ (forall j x, nth_error (a_rs a') j = Some x -> spent x) /\ (a_cb a' = [] \/ a_cb a' = [None]).
Proof.
  intros I St. pose proof (v_end a I) as B. pose proof (v_mok a I) as Mo. pose proof (v_ctl a I) as Ct. split_step St.
  - mcases M; try exact B; intros Q; try (destruct Q; discriminate).
    + specialize (B Q). destruct Q; subst m; try discriminate. destruct B as (B1 & B2 & B3). split; [assumption|split; [assumption|]]. cbn in Mo. destruct x; [tauto|].
      right. rewrite Ct; [reflexivity|cbn; discriminate].
    + destruct Q; subst m; try discriminate. destruct Mo.
    + split; [assumption|split; [|left; apply Ct; cbn; discriminate]]. intros j x Hj. eapply (all_spent _ I); cbn; eauto; [lia|].
      pose proof (proj1 (nth_error_Some rs j) ltac:(congruence)). unfold acount in H. lia.
    + apply B. auto.
  - intros Q. destruct (B Q) as (B1 & B2 & B3). destruct (spent_step _ _ _ _ _ _ _ _ _ _ _ R (B2 _ _ Nj)) as (-> & -> & -> & S). cnts. split; [assumption|split; [|assumption]].
    at_reader; eauto.
Qed.
Lemma st_nf l a a' outs : inv a -> astep n bs k l a a' outs ->
  nf a' = match a_main a' with KSend | KLoop | KGet2 | KJoin _ => 1%nat | KSize2 | KGet3 | KDone => nf a' | _ => 0%nat end /\ (nf a' <= 1)%nat.
Proof.
  intros I St. pose proof (v_nf a I) as B. pose proof (v_mok a I) as Mo. unfold nf, mnf in *. split_step St.
  - mcases M; cnts.
    all: try (rewrite ?ssum_app in *; cbn [ssum aw isN fac_m] in *; try assumption; try lia).
    all: try (destruct m; try discriminate; cbn in Mo, B |- *; try tauto; try lia).
    all: try (destruct x; cbn in *; try tauto; try lia).
    all: try (unfold rnf at 2 4; cbn [fst new_reader r_pc]; lia).
    all: try (rsum rnf; lia).
  - rcases I R; rewrite ?ssum_app in *; cbn [ssum isN] in *; rsum rnf; destruct m; try lia.
Qed.

Lemma st_nonull l a a' outs : inv a -> astep n bs k l a a' outs -> before (a_main a') -> forall j x, nth_error (a_rs a') j = Some x -> r_pc (fst x) <> RNull.
Proof.
  intros I St. pose proof (v_nonull a I) as B. pose proof (v_nf a I) as T. split_step St.
  - mcases M; cbn [before] in *; intros Q; try (destruct Q; fail); try (exact (B Logic.I)); try exact (B Q).
    + at_reader; [cbn; discriminate|eauto].
    + intros i0 x H1. apply nth_app_one in H1. destruct H1 as [H1|[E ->]]; [eauto|cbn; discriminate].
  - intros Q. at_reader; [|eauto]. specialize (B Q _ _ Nj). cbn [fst] in B. rcases I R; cbn [fst set_pc r_pc]; try congruence.
    pose proof (ssum_nth rnf _ _ _ Nj) as Sn. unfold rnf at 1 in Sn. cbn [fst] in Sn. pcs. unfold nf in T. cbn [a_cf a_rs] in T. destruct m; cbn in Q; try tauto; lia.
Qed.
Lemma st_clear l a a' outs : inv a -> astep n bs k l a a' outs -> cleared (a_main a') -> ssum isS (a_cf a') = O.
Proof.
  intros I St. pose proof (v_clear a I) as B. pose proof (v_nonull a I) as T. pose proof (v_mok a I) as Mo. split_step St.
  - mcases M; cbn [cleared] in *; intros Q; try (destruct Q; fail); try (exact (B Logic.I)); try exact (B Q).
    + specialize (B Q). rewrite ssum_app. destruct m; try discriminate; cbn in *; try tauto; destruct x; try tauto; cbn; lia.
    + specialize (B Q). cbn [ssum] in B. lia.
    + rewrite H; [reflexivity|]. intros j r o Hj. exact (T Logic.I _ _ Hj).
  - intros Q. specialize (B Q). rcases I R; rewrite ?ssum_app; cbn [ssum isS] in *; lia.
Qed.
Lemma idle_step l cf cb h r o y : rok (r, o) -> rstep n bs l (cf, cb, h, r, o) y -> r_pc r = RNone \/ r_pc r = RDone -> False.
Proof. intros Ok R [S|S]; unfold rok in Ok; cbn [fst snd] in Ok; rewrite S in Ok; inversion R; subst; cbn [r_pc] in *; try congruence; try (rewrite S in *; discriminate). Qed.
Lemma st_join l a a' outs : inv a -> astep n bs k l a a' outs ->
  match a_main a' with KJoin i => forall j x, (j < i)%nat -> nth_error (a_rs a') j = Some x -> r_pc (fst x) = RNone \/ r_pc (fst x) = RDone | _ => True end.
Proof.
  intros I St. pose proof (v_join a I) as B. split_step St.
  - mcases M; try exact B; try exact Logic.I; try (destruct m; try discriminate; exact Logic.I).
    + intros j x L. lia.
    + intros j0 x L Hj. destruct (Nat.eq_dec j0 j) as [->|Ne]; [|eapply B; eauto; lia]. rewrite H in Hj. inversion Hj; subst. exact H0.
  - destruct m; auto. intros i0 x L Hi. destruct (wr_spec _ _ _ _ W) as (W1 & W2 & W3 & W4). destruct (Nat.eq_dec i0 j) as [->|Ne]; [|rewrite W4 in Hi by assumption; eauto].
    exfalso. eapply idle_step; [exact (v_rok _ I _ _ Nj)|exact R|]. exact (B _ _ L Nj).
Qed.
Lemma st_joined l a a' outs : inv a -> astep n bs k l a a' outs -> joined (a_main a') -> forall j x, nth_error (a_rs a') j = Some x -> r_pc (fst x) = RNone \/ r_pc (fst x) = RDone.
Proof.
  intros I St. pose proof (v_joined a I) as B. pose proof (v_join a I) as Bj. split_step St.
  - mcases M; cbn [joined] in *; intros Q; try (destruct Q; fail); try (exact (B Logic.I)); try exact (B Q).
    intros i0 x Hi. eapply Bj; [|exact Hi]. apply nth_error_None in H. pose proof (proj1 (nth_error_Some rs i0) ltac:(congruence)). lia.
  - intros Q. exfalso. eapply idle_step; [exact (v_rok _ I _ _ Nj)|exact R|]. exact (B Q _ _ Nj).
Qed.
Lemma st_get3 l a a' outs : inv a -> astep n bs k l a a' outs -> a_main a' = KGet3 -> a_mop a' = Some ADeq -> a_cf a' <> [].
Proof.
  intros I St. pose proof (v_get3 a I) as B. pose proof (v_joined a I) as Bj. split_step St.
  - mcases M; intros Q Q1; try discriminate.
    + apply H. intros j r o Hj. destruct (Bj Logic.I _ _ Hj) as [E|E]; cbn [fst] in E; rewrite E; reflexivity.
  - intros -> Q. exfalso. eapply idle_step; [exact (v_rok _ I _ _ Nj)|exact R|]. exact (Bj Logic.I _ _ Nj).
Qed.
Lemma st_alive l a a' outs : inv a -> astep n bs k l a a' outs -> normal (a_main a') -> hs isS 0 (a_heap a') = length (a_heap a').
Proof.
  intros I St. pose proof (v_alive a I) as B. split_step St.
  - mcases M; cbn [normal] in *; intros Q; try (destruct Q; fail); try (exact (B Logic.I)); try exact (B Q).
    rewrite hs_app, app_length, B by exact Logic.I. reflexivity.
  - intros Q. specialize (B Q). rcases I R; try assumption.
    all: match goal with H : apoints _ _ = Some _, W : wr ?h _ (Some _) = Some ?h' |- _ => apply apoints_nth in H; pose proof (hs_wr isS _ 0 _ _ _ _ H W); apply wr_spec in W; destruct W as (_ & -> & _); lia end.
Qed.

Theorem inv_step l a a' outs : inv a -> astep n bs k l a a' outs -> inv a'.
Proof.
  intros I St. constructor.
  - eapply st_mok; eauto. - eapply st_rok; eauto. - eapply st_len; eauto. - eapply st_ctor; eauto. - eapply st_held; eauto. - eapply st_bs; eauto.
  - eapply st_tok; eauto. - eapply st_idx; eauto. - eapply st_past; eauto. - eapply st_new; eauto. - eapply st_old; eauto. - eapply st_cur; eauto.
  - eapply st_nb; eauto. - eapply st_ctl; eauto. - eapply st_last; eauto. - eapply st_end; eauto. - eapply st_nf; eauto. - eapply st_nonull; eauto.
  - eapply st_clear; eauto. - eapply st_join; eauto. - eapply st_joined; eauto. - eapply st_get3; eauto. - eapply st_alive; eauto.
Qed.
End P.
