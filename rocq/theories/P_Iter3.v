(** Proofs about the data iterator, part 3: what the caller gets. *)
From Verif Require Import M_Base M_Queue S_Queue P_Queue P_Queue2 P_Queue3 M_Iter S_Iter P_Iter P_Iter2.

Section P.
Context {P : Type}.
Notation reader := (reader (P:=P)). Notation iter := (iter (P:=P)).
Notation op := (aop (A:=ptr)). Notation ast := (ast (P:=P)). Notation rop := (reader * option op)%type.
Notation heap := (list (option (list P))).
Variables n bs k : nat.

(** The mini-batches a reader has still to send. *)
Definition later (r : reader) : list (list P) := if r_bad r then [] else concat (repeat (cut bs [] (r_pts r)) (Z.to_nat (r_pass r - 1))).
Definition rest (r : reader) : list (list P) := if r_ok r && (0 <? r_pass r) then cut bs [] (r_left r) ++ later r else [].
Definition pt (h : heap) (id : nat) : list P := match nth_error h id with Some (Some c) => c | _ => [] end.
Definition ptp (h : heap) (p : ptr) : list (list P) := match p with Some id => [pt h id] | None => [] end.
Definition rdata (h : heap) (x : rop) : list (list P) :=
  match r_pc (fst x), snd x with
  | RFill id, _ => if (length (pt h id) <? bs)%nat then cut bs (pt h id) (r_left (fst x)) ++ later (fst x) else pt h id :: rest (fst x)
  | RPut0 id, _ => pt h id :: rest (fst x)
  | RPut, Some (AEnq p) => ptp h p ++ rest (fst x)
  | _, _ => rest (fst x)
  end.
Definition cbdata (h : heap) (cb : list ptr) : list (list P) := concat (map (ptp h) cb).
Definition mhand (h : heap) (m : mpc) (o : option op) : list (list P) := match m, o with NGet, Some (ADeqd p) => ptp h p | _, _ => [] end.
Definition rsdata (h : heap) (rs : list rop) : list (list P) := concat (map (rdata h) rs).
Definition data (a : ast) : list (list P) := mhand (a_heap a) (a_main a) (a_mop a) ++ cbdata (a_heap a) (a_cb a) ++ rsdata (a_heap a) (a_rs a).
Definition fin (m : rpc) : Prop := match m with RFin0 | RFin | RDone => True | _ => False end.

Record dinv (outs : list (output (P:=P))) (want : list (list P)) (a : ast) : Prop := {
  d_prefix : exists t, batches outs ++ t = want;
  d_data : normal (a_main a) -> batches outs ++ data a = want;
  d_fin : normal (a_main a) -> forall j x, nth_error (a_rs a) j = Some x -> fin (r_pc (fst x)) -> rest (fst x) = [];
  d_held : forall id, a_held a = Some id -> exists o c, outs = o ++ [Some c] /\ nth_error (a_heap a) id = Some (Some c);
  d_size : forall c, In (Some c) outs -> (length c <= bs)%nat
}.

Lemma parts_rest pts bad pass : parts bs (pts, bad, pass) = rest (new_reader pts bad pass).
Proof.
  unfold parts, rest, later, new_reader. cbn [r_ok r_pass r_left r_bad r_pts]. destruct (Z.leb_spec pass 0); destruct (Z.ltb_spec 0 pass); try lia; [reflexivity|]. cbn [andb].
  destruct bad; [now rewrite app_nil_r|]. replace (Z.to_nat pass) with (S (Z.to_nat (pass - 1))) by lia. reflexivity.
Qed.
Lemma batches_app a b : batches (P:=P) (a ++ b) = batches a ++ batches b.
Proof. unfold batches. now rewrite map_app, concat_app. Qed.

(* ------------------------------------------------------------------ frames *)
Lemma pt_wr (h h' : heap) id y id0 : wr h id y = Some h' -> id0 <> id -> pt h' id0 = pt h id0.
Proof. intros W N. destruct (wr_spec _ _ _ _ W) as (_ & _ & _ & W4). unfold pt. now rewrite W4. Qed.
Lemma ptp_wr (h h' : heap) id y p : wr h id y = Some h' -> one id p = O -> ptp h' p = ptp h p.
Proof. intros W N. destruct p as [i|]; [|reflexivity]. cbn in *. f_equal. apply (pt_wr _ _ _ _ _ W). intros ->. now rewrite Nat.eqb_refl in N. Qed.
Lemma cb_wr (h h' : heap) id y cb : wr h id y = Some h' -> ssum (one id) cb = O -> cbdata h' cb = cbdata h cb.
Proof.
  intros W. induction cb as [|p cb IH]; [reflexivity|]. cbn [ssum]. intros S. unfold cbdata in *. cbn [map concat]. rewrite IH by lia. f_equal. apply (ptp_wr _ _ _ _ _ W). lia.
Qed.
Lemma rd_wr (h h' : heap) id y x : wr h id y = Some h' -> rtok (one id) x = O -> rdata h' x = rdata h x.
Proof.
  intros W S. unfold rdata. unfold rtok in S. destruct x as [r o]. cbn [fst snd] in *.
  destruct (r_pc r); try reflexivity; cbn [one] in S.
  - rewrite (pt_wr _ _ _ _ id0 W); [reflexivity|]. intros ->. rewrite Nat.eqb_refl in S. lia.
  - rewrite (pt_wr _ _ _ _ id0 W); [reflexivity|]. intros ->. rewrite Nat.eqb_refl in S. lia.
  - destruct o as [[p| | |]|]; try reflexivity. f_equal. apply (ptp_wr _ _ _ _ _ W). cbn in S. lia.
Qed.
Lemma rs_wr (h h' : heap) id y rs : wr h id y = Some h' -> ssum (rtok (one id)) rs = O -> rsdata h' rs = rsdata h rs.
Proof.
  intros W. induction rs as [|x rs IH]; [reflexivity|]. cbn [ssum]. intros S. unfold rsdata in *. cbn [map concat]. rewrite IH by lia. f_equal. apply (rd_wr _ _ _ _ _ W). lia.
Qed.
Lemma wr_split {A} (l : list A) : forall j y x l', nth_error l j = Some y -> wr l j x = Some l' -> exists l1 l2, l = l1 ++ y :: l2 /\ l' = l1 ++ x :: l2 /\ length l1 = j.
Proof.
  induction l as [|z l IH]; intros [|j] y x l' N W; try discriminate; cbn in *.
  - inversion N; inversion W; subst. exists [], l. auto.
  - destruct (wr l j x) as [r|] eqn:E; [|discriminate]. cbn in W. inversion W; subst. destruct (IH _ _ _ _ N E) as (l1 & l2 & -> & -> & <-). exists (z :: l1), l2. auto.
Qed.
Lemma rs_app h l1 l2 : rsdata h (l1 ++ l2) = rsdata h l1 ++ rsdata h l2.
Proof. unfold rsdata. now rewrite map_app, concat_app. Qed.
Lemma rs_cons h x l : rsdata h (x :: l) = rdata h x ++ rsdata h l.
Proof. reflexivity. Qed.
Lemma cb_app h l1 l2 : cbdata h (l1 ++ l2) = cbdata h l1 ++ cbdata h l2.
Proof. unfold cbdata. now rewrite map_app, concat_app. Qed.
Lemma rs_nil h (rs : list rop) : (forall x, In x rs -> rdata h x = []) -> rsdata h rs = [].
Proof. induction rs as [|x rs IH]; intros H; [reflexivity|]. unfold rsdata in *. cbn [map concat]. rewrite (H x) by now left. rewrite IH; [reflexivity|]. intros; apply H; now right. Qed.
Lemma spent_data h x : spent x -> (fin (r_pc (fst x)) -> rest (fst x) = []) -> rdata h x = [].
Proof. unfold rdata. intros S F. rewrite F; [|destruct S as [->|[-> _]]; exact Logic.I]. destruct S as [->|[-> _]]; reflexivity. Qed.

(** Nobody else has a mini-batch in somebody's hands. *)
Lemma tok_one (a : ast) id : inv n bs a -> (tok (one id) a <= 1)%nat.
Proof. intros I. rewrite (v_tok _ _ a I (one id) eq_refl), hs_one. cbn [Nat.leb]. destruct (nth_error _ _) as [[c|]|]; lia. Qed.
(** The readers before one that runs have ended. *)
Lemma before_spent (a : ast) j r o l1 l2 : inv n bs a -> a_rs a = l1 ++ (r, o) :: l2 -> length l1 = j -> r_pc r <> RNone -> forall x, In x l1 -> spent x.
Proof.
  intros I E L Pc x Hx. apply In_nth_error in Hx. destruct Hx as [i Hi]. assert (Li : (i < j)%nat) by (rewrite <- L; apply nth_error_Some; congruence).
  assert (Nj : nth_error (a_rs a) j = Some (r, o)) by (rewrite E, nth_error_app2, <- L, Nat.sub_diag by lia; reflexivity).
  assert (Lj : Z.of_nat j <= a_idx a). { destruct (Z_lt_le_dec (a_idx a) (Z.of_nat j)) as [Q|Q]; [|assumption]. exfalso. apply Pc. exact (v_new _ _ a I _ _ Nj Q). }
  apply (v_old _ _ a I i); [|lia]. rewrite E, nth_error_app1 by lia. exact Hi.
Qed.

Lemma pt_eq (h : heap) id c : nth_error h id = Some (Some c) -> pt h id = c.
Proof. unfold pt. now intros ->. Qed.

Lemma st_data l (a a' : ast) outs O w : (0 < bs)%nat -> inv n bs a -> astep n bs k l a a' outs -> dinv O w a -> normal (a_main a') ->
  batches (O ++ outs) ++ data a' = w ++ match l with LU ls => concat (map (parts bs) ls) | _ => [] end /\
  (forall j x, nth_error (a_rs a') j = Some x -> fin (r_pc (fst x)) -> rest (fst x) = []).
Proof.
  intros Bs I St D. rewrite batches_app.
  destruct St as [l a a' outs M|l j cf cb h m mo i rs hd r o cf' cb' h' r' o' rs' Nj R W]; cbn [a_cf a_cb a_heap a_main a_mop a_idx a_rs a_held]; intros Nm.
  - assert (Nm0 : normal (a_main a)) by (inversion M; subst; cbn [a_main] in *; try exact Logic.I; exact Nm || destruct Nm).
    inversion M; subst; clear M; pose proof (d_data _ _ _ D Nm0) as T; pose proof (d_fin _ _ _ D Nm0) as F; pose proof (v_mok _ _ _ I) as Mo; unfold data in *; cbn [a_cf a_cb a_heap a_main a_mop a_idx a_rs a_held] in *; try (destruct Nm; fail).
    all: change (@batches P []) with (@nil (list P)); rewrite ?app_nil_r; try (split; [exact T|exact F]).
    + destruct m; try discriminate; try (destruct Nm; fail); cbn in Mo; (destruct x; [destruct Mo|]); rewrite cb_app; (split; [rewrite app_nil_r; exact T|exact F]).
    + destruct m; try discriminate; try (destruct Nm; fail); destruct Mo.
    + destruct m; try discriminate; try (destruct Nm; fail); cbn in Mo; try tauto; split; [cbn [mhand] in *; unfold cbdata in T; cbn [map concat app] in T; rewrite <- app_assoc in T; exact T|exact F].
    + destruct (v_ctor _ _ _ I Logic.I) as [Er _]. pose proof (v_ctl _ _ _ I) as Ec. cbn in Er, Ec. rewrite Ec in * by discriminate. subst rs. split; [exact T|exact F].
    + apply apoints_nth in H. cbn [mhand ptp] in *. rewrite (pt_eq _ _ _ H) in T. split; [|assumption]. unfold batches at 2. cbn [map concat app]. rewrite <- T, <- !app_assoc. reflexivity.
    + destruct (next_reader _ _ _ I H) as (r0 & o0 & N0 & Pc0 & ->). cbn [a_rs a_idx] in N0. pose proof (astart_wr _ _ _ _ _ N0 Pc0 H0) as W0.
      split.
      * destruct (wr_split _ _ _ _ _ N0 W0) as (l1 & l2 & -> & -> & _). rewrite <- T, !rs_app, !rs_cons. unfold rdata. cbn [fst snd set_pc r_pc]. rewrite Pc0. reflexivity.
      * destruct (wr_spec _ _ _ _ W0) as (_ & _ & W3 & W4). intros j x Hj. destruct (Nat.eq_dec j (Z.to_nat (i + 1))) as [->|Ne]; [rewrite W3 in Hj; inversion Hj; subst; intros []|rewrite W4 in Hj by assumption; eauto].
    + split.
      * rewrite <- T, rs_app, rs_cons, <- !app_assoc. cbn [map concat]. rewrite parts_rest. reflexivity.
      * intros j x Hj. apply nth_app_one in Hj. destruct Hj as [Hj|[_ ->]]; [eauto|intros []].
  - pose proof (d_data _ _ _ D Nm) as T. pose proof (d_fin _ _ _ D Nm) as F. pose proof (v_rok _ _ _ I _ _ Nj) as Ok. unfold data in *. cbn [a_cf a_cb a_heap a_main a_mop a_idx a_rs a_held] in *.
    assert (El : match l with LU ls => concat (map (@parts P bs) ls) | _ => [] end = []) by (inversion R; reflexivity). rewrite El, !app_nil_r.
    destruct (wr_spec _ _ _ _ W) as (_ & _ & W3 & W4).
    assert (F' : (fin (r_pc r') -> rest r' = []) -> forall j x, nth_error rs' j = Some x -> fin (r_pc (fst x)) -> rest (fst x) = []).
    { intros Q i0 x Hi. destruct (Nat.eq_dec i0 j) as [->|Ne]; [rewrite W3 in Hi; inversion Hi; subst; exact Q|rewrite W4 in Hi by assumption; eauto]. }
    destruct (wr_split _ _ _ _ _ Nj W) as (l1 & l2 & Ers & Ers' & L1).
    assert (B : r_pc r <> RNone -> rsdata h l1 = []).
    { intros Pc. apply rs_nil. intros x Hx. pose proof (before_spent _ j r o l1 l2 I Ers L1 Pc x Hx) as S. apply spent_data; [exact S|].
      apply In_nth_error in Hx. destruct Hx as [q Hq]. apply (F q). rewrite Ers, nth_error_app1; [assumption|]. apply nth_error_Some. congruence. }
    assert (Fr : forall id y, wr h id (Some y) = Some h' -> rtok (one id) (r, o) = 1%nat -> rsdata h' l1 = rsdata h l1 /\ rsdata h' l2 = rsdata h l2 /\ cbdata h' cb = cbdata h cb /\ mhand h' m mo = mhand h m mo).
    { intros id y Wh Rt. pose proof (tok_one _ id I) as Tk. unfold tok in Tk. cbn [a_cf a_cb a_heap a_main a_mop a_idx a_rs a_held] in Tk. rewrite Ers, ssum_app in Tk. cbn [ssum] in Tk. rewrite Rt in Tk.
      split; [|split; [|split]].
      - apply (rs_wr _ _ _ _ _ Wh). lia.
      - apply (rs_wr _ _ _ _ _ Wh). lia.
      - apply (cb_wr _ _ _ _ _ Wh). lia.
      - destruct m; try reflexivity. destruct mo as [[| | |p]|]; try reflexivity. apply (ptp_wr _ _ _ _ _ Wh). cbn [aw] in Tk. lia. }
    assert (Same : h' = h -> cb' = cb -> rdata h (r', o') = rdata h (r, o) -> batches O ++ mhand h' m mo ++ cbdata h' cb' ++ rsdata h' rs' = w).
    { intros -> -> E. rewrite <- T, Ers, Ers', !rs_app, !rs_cons. now rewrite E. }
    unfold rok in Ok. cbn [fst snd] in Ok.
    assert (T' : exists w', w' = w) by eauto. destruct T' as (w' & Ew). rewrite <- Ew in *. clear T.
    inversion R; subst; clear R; cbn [r_pc set_pc fin] in *;
      repeat match goal with H : fac_r (r_pc ?r) = true |- _ => destruct (r_pc r) eqn:?; try discriminate; clear H | H : buf_r (r_pc ?r) = true |- _ => destruct (r_pc r) eqn:?; try discriminate; clear H end.
    all: repeat match goal with H : r_pc _ = _, Ok : context [r_pc _] |- _ => rewrite H in Ok end; cbn [r_pc] in Ok; try (destruct Ok; fail).
    all: pose proof (d_data _ _ _ D Nm) as T; unfold data in T; cbn [a_cf a_cb a_heap a_main a_mop a_idx a_rs a_held] in T.
    all: try (split; [apply Same; [reflexivity|reflexivity|unfold rdata; cbn [fst snd set_pc r_pc]; repeat match goal with H : r_pc _ = _ |- _ => rewrite H end; reflexivity]|
       apply F'; try (intros []; fail); first [intros _; apply (F _ _ Nj); cbn [fst]; repeat match goal with H : r_pc _ = _ |- _ => rewrite H end; exact Logic.I|idtac]]).
    + destruct x as [id|]; [|destruct Ok]. split; [|apply F'; intros []]. rewrite <- T, !rs_app, !rs_cons, cb_app, B by discriminate. unfold rdata. cbn [fst snd]. rewrite Heqr.
      unfold cbdata at 2. cbn [map concat ptp app]. rewrite <- !app_assoc. reflexivity.
    + destruct x as [id|]; [destruct Ok|]. split; [|apply F'; intros _; apply (F _ _ Nj); cbn [fst]; rewrite Heqr; exact Logic.I].
      rewrite <- T, !rs_app, !rs_cons, cb_app. unfold rdata. cbn [fst snd]. rewrite Heqr. unfold cbdata at 2. cbn [map concat ptp app]. rewrite app_nil_r. reflexivity.
    + intros _. unfold rest. cbn [set_pc r_ok r_pass]. match goal with H : _ && _ = false |- _ => now rewrite H end.
    + match goal with H : apoints _ id = Some _, Wh : wr _ id _ = Some _ |- _ => apply apoints_nth in H;
        destruct (Fr id _ Wh ltac:(unfold rtok; cbn [fst snd aw one]; rewrite Nat.eqb_refl; repeat match goal with H : r_pc _ = _ |- _ => rewrite H end; reflexivity)) as (E1 & E2 & E3 & E4); destruct (wr_spec _ _ _ _ Wh) as (_ & _ & Wp & _) end.
      split; [|apply F'; intros []]. rewrite <- T, E4, E3, !rs_app, !rs_cons, E1, E2.
      assert (rdata h' (set_pc r (RFill id), None) = rdata h (r, Some (ADeqd (Some id)))) as ->; [|reflexivity].
      unfold rdata, pt. cbn [fst snd set_pc r_pc]. rewrite Wp. match goal with H : r_pc _ = RGet |- _ => rewrite H end. cbn [length]. destruct (Nat.ltb_spec 0 bs); [|lia].
      unfold rest. destruct Ok as [Ok1 Ok2]. rewrite Ok1. destruct (Z.ltb_spec 0 (r_pass r)); [reflexivity|lia].
    + exfalso. apply (v_nonull _ _ _ I) with (x := (r, Some AEnqd)) (j := length l1); auto. destruct m; cbn in *; auto.
    + match goal with H : apoints _ id = Some _, Wh : wr _ id _ = Some _ |- _ => apply apoints_nth in H; rename H into Hc;
        destruct (Fr id _ Wh ltac:(unfold rtok; cbn [fst snd aw one r_pc]; rewrite Nat.eqb_refl; reflexivity)) as (E1 & E2 & E3 & E4); destruct (wr_spec _ _ _ _ Wh) as (_ & _ & Wp & _) end.
      split; [|apply F'; intros []]. rewrite <- T, E4, E3, !rs_app, !rs_cons, E1, E2.
      match goal with |- context [rdata h' ?x] => match goal with |- context [rdata h ?y] => assert (rdata h' x = rdata h y) as ->; [|reflexivity] end end.
      unfold rdata, pt, rest, later. cbn [fst snd r_pc r_ok r_pass r_left r_bad r_pts]. rewrite Wp, Hc. cbn [r_ok r_pass] in Ok. destruct (Z.ltb_spec 0 pass); [|lia]. cbn [andb cut].
      match goal with H : (length c < bs)%nat |- _ => apply Nat.ltb_lt in H; rewrite H end. destruct (length (c ++ [x]) <? bs)%nat; reflexivity.
    + split; [|apply F'; intros []]. apply Same; auto. unfold rdata, rest, later. cbn [fst snd r_pc r_ok r_pass r_left r_bad r_pts andb].
      match goal with H : apoints _ id = Some _ |- _ => apply apoints_nth, pt_eq in H; rewrite H end. match goal with H : (length c < bs)%nat |- _ => apply Nat.ltb_lt in H; rewrite H end. reflexivity.
    + split; [|apply F'; intros []]. apply Same; auto. unfold rdata, rest, later. cbn [fst snd r_pc r_ok r_pass r_left r_bad r_pts andb] in *.
      match goal with H : apoints _ id = Some _ |- _ => apply apoints_nth, pt_eq in H; rewrite H end. match goal with H : (length c < bs)%nat |- _ => apply Nat.ltb_lt in H; rewrite H end. cbn [cut app].
      destruct (Z.ltb_spec 0 (pass - 1)); cbn [app].
      * replace (Z.to_nat (pass - 1)) with (S (Z.to_nat (pass - 1 - 1))) by lia. reflexivity.
      * replace (Z.to_nat (pass - 1)) with 0%nat by lia. reflexivity.
    + split; [|apply F'; intros []]. apply Same; auto. unfold rdata. cbn [fst snd set_pc r_pc]. repeat match goal with H : r_pc _ = _ |- _ => rewrite H end.
      match goal with H : apoints _ id = Some _ |- _ => apply apoints_nth, pt_eq in H; rewrite H end. match goal with G : _ && _ = false |- _ => destruct Ok as [Ok1 Ok2]; rewrite Ok1, andb_true_r in G; rewrite G end. reflexivity.
Qed.

Lemma st_dheld l (a a' : ast) outs O w : inv n bs a -> astep n bs k l a a' outs -> dinv O w a ->
  forall id, a_held a' = Some id -> exists o c, O ++ outs = o ++ [Some c] /\ nth_error (a_heap a') id = Some (Some c).
Proof.
  intros I St D id Hh. pose proof (d_held _ _ _ D) as B. pose proof (v_held _ _ _ I) as Bh.
  assert (K : a_held a = Some id -> outs = [] -> (forall c, nth_error (a_heap a) id = Some (Some c) -> nth_error (a_heap a') id = Some (Some c)) -> exists o c, O ++ outs = o ++ [Some c] /\ nth_error (a_heap a') id = Some (Some c)).
  { intros H -> Q. destruct (B _ H) as (o & c & -> & Hc). exists o, c. rewrite app_nil_r. auto. }
  assert (Fr : forall id0 y h1, a_held a = Some id -> wr (a_heap a) id0 y = Some h1 -> (2 <= tok (one id0) a + (if Nat.eqb id id0 then 0 else 1))%nat -> nth_error h1 id = nth_error (a_heap a) id).
  { intros id0 y h1 H W Tk. pose proof (tok_one _ id0 I) as T. destruct (Nat.eqb_spec id id0); [lia|]. apply wr_spec in W. destruct W as (_ & _ & _ & W4). now apply W4. }
  assert (Del : forall p h1, a_held a = Some id -> adelete (a_heap a) p = Some h1 -> a_mop a = Some (ADeqd p) -> nth_error h1 id = nth_error (a_heap a) id).
  { intros [p|] h1 H E Em; [|cbn in E; congruence]. apply adelete_wr in E. destruct E as (c & _ & W). apply (Fr p _ _ H W).
    assert (L : (one p (Some p) = 1)%nat) by (cbn; now rewrite Nat.eqb_refl). unfold tok. rewrite Em, H. cbn [aw]. rewrite L. cbn [one]. destruct (Nat.eqb_spec id p); lia. }
  destruct St as [l a a' outs M|l j cf cb h m mo i rs hd r o cf' cb' h' r' o' rs' Nj R W]; cbn [a_cf a_cb a_heap a_main a_mop a_idx a_rs a_held] in *.
  - inversion M; subst; clear M; cbn [a_cf a_cb a_heap a_main a_mop a_idx a_rs a_held] in *; try discriminate; try (apply K; auto; fail).
    all: try (exfalso; subst hd; destruct (Bh ltac:(discriminate)) as [Q|Q]; [discriminate|apply Q; exact Logic.I]).
    + inversion Hh; subst. exists O, c. apply apoints_nth in H. auto.
    + apply K; auto. intros c0. rewrite (Del _ _ Hh H eq_refl). auto.
    + apply K; auto. intros c0. rewrite (Del _ _ Hh H eq_refl). auto.
    + apply K; auto. intros c0. rewrite (Del _ _ Hh H eq_refl). auto.
  - apply K; auto.
    assert (RT : forall id0, rtok (one id0) (r, o) = 1%nat -> (2 <= tok (one id0) (mka cf cb h m mo i rs hd) + (if Nat.eqb id id0 then 0 else 1))%nat).
    { intros id0 E. pose proof (ssum_nth (rtok (one id0)) _ _ _ Nj). unfold tok. cbn [a_cf a_cb a_heap a_main a_mop a_idx a_rs a_held]. rewrite Hh. cbn [one]. destruct (Nat.eqb id id0); lia. }
    inversion R; subst; auto; intros c0.
    + match goal with Wh : wr _ _ _ = Some _ |- _ => rewrite (Fr _ _ _ eq_refl Wh) end; auto. apply RT. unfold rtok. cbn [fst snd aw one]. rewrite Nat.eqb_refl. match goal with H : r_pc _ = _ |- _ => rewrite H end. reflexivity.
    + match goal with Wh : wr _ _ _ = Some _ |- _ => rewrite (Fr _ _ _ eq_refl Wh) end; auto. apply RT. unfold rtok. cbn [fst snd aw one r_pc]. rewrite Nat.eqb_refl. reflexivity.
Qed.

(** Nothing is returned once the destructor runs. *)
Lemma st_quiet l (a a' : ast) outs : astep n bs k l a a' outs -> normal (a_main a') \/ (outs = [] /\ match l with LU ls => ls = [] | _ => True end).
Proof. intros St. destruct St as [l a a' outs M|]; [|right; split; [reflexivity|]; inversion H0; exact Logic.I]. inversion M; subst; cbn; auto. Qed.

Theorem dinv_step l (a a' : ast) outs O w : (0 < bs)%nat -> inv n bs a -> astep n bs k l a a' outs -> dinv O w a ->
  dinv (O ++ outs) (w ++ match l with LU ls => concat (map (parts bs) ls) | _ => [] end) a'.
Proof.
  intros Bs I St D. constructor.
  - destruct (st_quiet _ _ _ _ St) as [Nm|[-> El]].
    + destruct (st_data _ _ _ _ _ _ Bs I St D Nm) as [E _]. eauto.
    + rewrite app_nil_r. destruct (d_prefix _ _ _ D) as [t <-]. destruct l; subst; cbn; rewrite ?app_nil_r; eauto.
  - intros Nm. apply (st_data _ _ _ _ _ _ Bs I St D Nm).
  - intros Nm. apply (st_data _ _ _ _ _ _ Bs I St D Nm).
  - eapply st_dheld; eauto.
  - intros c Hc. apply in_app_or in Hc. destruct Hc as [Hc|Hc]; [eapply (d_size _ _ _ D); eauto|].
    destruct St as [l a a' outs M|]; [|destruct Hc]. inversion M; subst; try (destruct Hc; fail).
    + destruct Hc as [Hc|[]]. inversion Hc; subst. apply apoints_nth in H. eapply (v_bs _ _ _ I). exact H.
    + destruct Hc as [Hc|[]]. discriminate.
Qed.
Lemma dinv_init : dinv [] [] ainit.
Proof. constructor; cbn; try discriminate; eauto; [intros _ [|j]; discriminate|tauto]. Qed.

(** Returning null: everything was batches. *)
Lemma null_all l (a a' : ast) outs O w : inv n bs a -> astep n bs k l a a' outs -> dinv O w a -> In None outs -> batches O = w /\ outs = [None].
Proof.
  intros I St D Hn. destruct St as [l a a' outs M|]; [|destruct Hn]. inversion M; subst; try (destruct Hn; fail); [destruct Hn as [Hn|[]]; discriminate|].
  split; [|reflexivity]. pose proof (d_data _ _ _ D Logic.I) as T. destruct (v_end _ _ _ I ltac:(right; reflexivity)) as (_ & Sp & Cb). unfold data in T. cbn [a_cf a_cb a_heap a_main a_mop a_idx a_rs a_held] in *.
  rewrite <- T. cbn [mhand app]. rewrite rs_nil.
  - destruct Cb as [->| ->]; cbn; now rewrite app_nil_r.
  - intros x Hx. apply In_nth_error in Hx. destruct Hx as [j Hj]. apply spent_data; [eapply Sp; eauto|]. exact (d_fin _ _ _ D Logic.I _ _ Hj).
Qed.

(* --------------------------------------------------------- for the iterator *)
(** Runs and their states. *)
Theorem run_inv l : (0 < bs)%nat -> forall (s : iter) a O w s' outs, abs n k s a -> inv n bs a -> dinv O w a -> irun n bs k l s = Some (s', outs) ->
  exists a', abs n k s' a' /\ inv n bs a' /\ dinv (O ++ outs) (w ++ portions bs l) a'.
Proof.
  intros Bs. induction l as [|act l IH]; intros s a O w s' outs A I D E; cbn [irun] in E.
  - inversion E; subst. exists a. unfold portions, sources. cbn. rewrite !app_nil_r. auto.
  - destruct (inext n bs k act s) as [[s1 o1]|] eqn:E1; [|discriminate]. cbn [bind] in E. destruct (irun n bs k l s1) as [[s2 o2]|] eqn:E2; [|discriminate]. cbn [bind] in E.
    inversion E; subst s2 outs; clear E. destruct (sim_next _ _ _ _ _ _ _ _ A E1) as (a1 & A1 & [(-> & -> & C & _)|(lb & St & _ & _ & L)]).
    + destruct (IH _ _ _ _ _ _ A1 I D E2) as (a' & A' & I' & D'). exists a'. split; [assumption|split; [assumption|]]. cbn [app].
      assert (portions bs (act :: l) = portions bs l) as ->; [|assumption]. destruct act; try discriminate; reflexivity.
    + pose proof (inv_step _ _ _ _ _ _ _ I St) as I1. pose proof (dinv_step _ _ _ _ _ _ Bs I St D) as D1.
      destruct (IH _ _ _ _ _ _ A1 I1 D1 E2) as (a' & A' & I' & D'). exists a'. split; [assumption|split; [assumption|]]. rewrite app_assoc.
      assert ((w ++ match lb with LU ls => concat (map (@parts P bs) ls) | _ => [] end) ++ portions bs l = w ++ portions bs (act :: l)) as <-; [|assumption].
      rewrite <- app_assoc. f_equal. unfold portions, sources. cbn [map concat]. rewrite map_app, concat_app. f_equal.
      destruct lb; try (destruct act; try discriminate; reflexivity). destruct L as [_ ->]. reflexivity.
Qed.
End P.
