(** Proofs about the data iterator, part 1: the iterator as a system with atomic queue operations, and the
    simulation of the real one by it. *)
From Verif Require Import M_Base M_Queue S_Queue P_Queue P_Queue2 P_Queue3 M_Iter S_Iter.

Section P.
Context {P : Type}.
Notation reader := (reader (P:=P)). Notation iter := (iter (P:=P)).
Notation op := (aop (A:=ptr)).

(** A state: contents of the two queues, points, the caller's place and what it has done of the queue
    operation it is in, the running index, the readers with theirs, the mini-batch the caller holds. *)
Record ast := mka {
  a_cf : list ptr; a_cb : list ptr; a_heap : list (option (list P)); a_main : mpc; a_mop : option op;
  a_idx : Z; a_rs : list (reader * option op); a_held : ptr
}.
(** Places inside a factory or buffer operation. *)
Definition fac_m (m : mpc) : bool := match m with CPut _ | NPut | KGet | KSend | KGet3 => true | _ => false end.
Definition buf_m (m : mpc) : bool := match m with CSig | NGet | NEnd | KGet2 => true | _ => false end.
Definition fac_r (m : rpc) : bool := match m with RGet | RNull => true | _ => false end.
Definition buf_r (m : rpc) : bool := match m with RPut | RFin => true | _ => false end.

(** Kinds of steps: inside a queue operation, starting one, local, by the caller's choice. *)
Inductive lbl := LQ | LI | LL | LU (l : list (list P * bool * Z)).
Definition apoints (h : list (option (list P))) (id : nat) : option (list P) := do c <- rd h id; c.
Definition adelete (h : list (option (list P))) (p : ptr) : option (list (option (list P))) :=
  match p with None => Some h | Some id => do _ <- apoints h id; wr h id None end.
Definition astart (rs : list (reader * option op)) (j : nat) : option (list (reader * option op)) :=
  do r <- rd rs j;
  match r_pc (fst r) with RNone => wr rs j (set_pc (fst r) RLoop, snd r) | _ => Some rs end.
Definition acount (rs : list (reader * option op)) : Z := Z.of_nat (length rs).

Section N.
Variables n bs k : nat.
(** Operations of the caller on a queue with contents c. *)
Inductive mstep : lbl -> ast -> ast -> list (output (P:=P)) -> Prop :=
(* queue effects *)
| m_put_f x cf cb h m i rs hd : fac_m m = true -> (length cf < n)%nat -> mstep LQ (mka cf cb h m (Some (AEnq x)) i rs hd) (mka (cf ++ [x]) cb h m (Some AEnqd) i rs hd) []
| m_put_b x cf cb h m i rs hd : buf_m m = true -> (length cb < n)%nat -> mstep LQ (mka cf cb h m (Some (AEnq x)) i rs hd) (mka cf (cb ++ [x]) h m (Some AEnqd) i rs hd) []
| m_take_f x cf cb h m i rs hd : fac_m m = true -> mstep LQ (mka (x :: cf) cb h m (Some ADeq) i rs hd) (mka cf cb h m (Some (ADeqd x)) i rs hd) []
| m_take_b x cf cb h m i rs hd : buf_m m = true -> mstep LQ (mka cf (x :: cb) h m (Some ADeq) i rs hd) (mka cf cb h m (Some (ADeqd x)) i rs hd) []
(* constructor *)
| m_new c cf cb h i rs hd : (c < n)%nat -> mstep LI (mka cf cb h (CNew c) None i rs hd) (mka cf cb (h ++ [Some []]) (CPut c) (Some (AEnq (Some c))) i rs hd) []
| m_new_ret c cf cb h i rs hd : mstep LQ (mka cf cb h (CPut c) (Some AEnqd) i rs hd) (mka cf cb h (CNew (S c)) None i rs hd) []
| m_sig c cf cb h i rs hd : (n <= c)%nat -> mstep LI (mka cf cb h (CNew c) None i rs hd) (mka cf cb h CSig (Some (AEnq None)) i rs hd) []
| m_sig_ret cf cb h i rs hd : mstep LQ (mka cf cb h CSig (Some AEnqd) i rs hd) (mka cf cb h MIdle None i rs hd) []
(* Next *)
| m_next_give id cf cb h i rs : mstep (LU []) (mka cf cb h MIdle None i rs (Some id)) (mka cf cb h NPut (Some (AEnq (Some id))) i rs None) []
| m_next_none cf cb h i rs : mstep (LU []) (mka cf cb h MIdle None i rs None) (mka cf cb h NTake None i rs None) []
| m_give_ret cf cb h i rs hd : mstep LQ (mka cf cb h NPut (Some AEnqd) i rs hd) (mka cf cb h NTake None i rs hd) []
| m_take cf cb h i rs hd : mstep LI (mka cf cb h NTake None i rs hd) (mka cf cb h NGet (Some ADeq) i rs hd) []
| m_got id c cf cb h i rs hd : apoints h id = Some c -> mstep LQ (mka cf cb h NGet (Some (ADeqd (Some id))) i rs hd) (mka cf cb h MIdle None i rs (Some id)) [Some c]
| m_got_null cf cb h i rs rs' hd : i + 1 < acount rs -> astart rs (Z.to_nat (i + 1)) = Some rs' ->
    mstep LQ (mka cf cb h NGet (Some (ADeqd None)) i rs hd) (mka cf cb h NTake None (i + 1) rs' hd) []
| m_got_last cf cb h i rs hd : acount rs <= i + 1 -> mstep LQ (mka cf cb h NGet (Some (ADeqd None)) i rs hd) (mka cf cb h NSend None i rs hd) []
| m_send cf cb h i rs hd : mstep LI (mka cf cb h NSend None i rs hd) (mka cf cb h NEnd (Some (AEnq None)) i rs hd) []
| m_end cf cb h i rs hd : mstep LQ (mka cf cb h NEnd (Some AEnqd) i rs hd) (mka cf cb h MIdle None i rs hd) [None]
(* AddReader *)
| m_add pts bad pass cf cb h i rs hd : (S (length rs) < k)%nat -> mstep (LU [(pts, bad, pass)]) (mka cf cb h MIdle None i rs hd) (mka cf cb h MIdle None i (rs ++ [(new_reader pts bad pass, None)]) hd) []
(* destructor *)
| m_destroy cf cb h i rs hd : mstep (LU []) (mka cf cb h MIdle None i rs hd) (mka cf cb h KSize None i rs hd) []
| m_k1 cf cb h i rs hd : ((forall j r o, nth_error rs j = Some (r, o) -> fac_r (r_pc r) = false) -> cf <> []) ->
    mstep LI (mka cf cb h KSize None i rs hd) (mka cf cb h KGet (Some ADeq) i rs hd) []
| m_k1_ret p cf cb h h' i rs hd : adelete h p = Some h' -> mstep LQ (mka cf cb h KGet (Some (ADeqd p)) i rs hd) (mka cf cb h' KSize None i rs hd) []
| m_k1_end cf cb h i rs hd : ((forall j r o, nth_error rs j = Some (r, o) -> r_pc r <> RNull) -> cf = []) ->
    mstep LL (mka cf cb h KSize None i rs hd) (mka cf cb h KSend0 None i rs hd) []
| m_k2 cf cb h i rs hd : mstep LI (mka cf cb h KSend0 None i rs hd) (mka cf cb h KSend (Some (AEnq None)) i rs hd) []
| m_k2_ret cf cb h i rs hd : mstep LQ (mka cf cb h KSend (Some AEnqd) i rs hd) (mka cf cb h KLoop None i rs hd) []
| m_k3 cf cb h i rs hd : i < acount rs -> mstep LI (mka cf cb h KLoop None i rs hd) (mka cf cb h KGet2 (Some ADeq) i rs hd) []
| m_k3_end cf cb h i rs hd : acount rs <= i -> mstep LL (mka cf cb h KLoop None i rs hd) (mka cf cb h (KJoin 0) None i rs hd) []
| m_k3_null cf cb h i rs rs' hd : i + 1 < acount rs -> astart rs (Z.to_nat (i + 1)) = Some rs' ->
    mstep LQ (mka cf cb h KGet2 (Some (ADeqd None)) i rs hd) (mka cf cb h KLoop None (i + 1) rs' hd) []
| m_k3_last cf cb h i rs hd : acount rs <= i + 1 -> mstep LQ (mka cf cb h KGet2 (Some (ADeqd None)) i rs hd) (mka cf cb h KLoop None (i + 1) rs hd) []
| m_k3_batch id cf cb h h' i rs hd : adelete h (Some id) = Some h' -> mstep LQ (mka cf cb h KGet2 (Some (ADeqd (Some id))) i rs hd) (mka cf cb h' KLoop None i rs hd) []
| m_join j r o cf cb h i rs hd : nth_error rs j = Some (r, o) -> (r_pc r = RNone \/ r_pc r = RDone) ->
    mstep LL (mka cf cb h (KJoin j) None i rs hd) (mka cf cb h (KJoin (S j)) None i rs hd) []
| m_join_end j cf cb h i rs hd : nth_error rs j = None -> mstep LL (mka cf cb h (KJoin j) None i rs hd) (mka cf cb h KSize2 None i rs hd) []
| m_k4 cf cb h i rs hd : ((forall j r o, nth_error rs j = Some (r, o) -> fac_r (r_pc r) = false) -> cf <> []) ->
    mstep LI (mka cf cb h KSize2 None i rs hd) (mka cf cb h KGet3 (Some ADeq) i rs hd) []
| m_k4_ret p cf cb h h' i rs hd : adelete h p = Some h' -> mstep LQ (mka cf cb h KGet3 (Some (ADeqd p)) i rs hd) (mka cf cb h' KSize2 None i rs hd) []
| m_k4_end cf cb h i rs hd : ((forall j r o, nth_error rs j = Some (r, o) -> fac_r (r_pc r) = false) -> cf = []) ->
    mstep LL (mka cf cb h KSize2 None i rs hd) (mka cf cb h KDone None i rs hd) [].

(** Steps of a reader, as a change of its own state, the queues and the points. *)
Inductive rstep : lbl -> (list ptr * list ptr * list (option (list P)) * reader * option op) -> (list ptr * list ptr * list (option (list P)) * reader * option op) -> Prop :=
| r_put_f x cf cb h r : fac_r (r_pc r) = true -> (length cf < n)%nat -> rstep LQ (cf, cb, h, r, Some (AEnq x)) (cf ++ [x], cb, h, r, Some AEnqd)
| r_put_b x cf cb h r : buf_r (r_pc r) = true -> (length cb < n)%nat -> rstep LQ (cf, cb, h, r, Some (AEnq x)) (cf, cb ++ [x], h, r, Some AEnqd)
| r_take_f x cf cb h r : fac_r (r_pc r) = true -> rstep LQ (x :: cf, cb, h, r, Some ADeq) (cf, cb, h, r, Some (ADeqd x))
| r_take_b x cf cb h r : buf_r (r_pc r) = true -> rstep LQ (cf, x :: cb, h, r, Some ADeq) (cf, cb, h, r, Some (ADeqd x))
| r_loop cf cb h r : r_pc r = RLoop -> r_ok r = true -> 0 < r_pass r -> rstep LI (cf, cb, h, r, None) (cf, cb, h, set_pc r RGet, Some ADeq)
| r_loop_end cf cb h r : r_pc r = RLoop -> r_ok r && (0 <? r_pass r) = false -> rstep LL (cf, cb, h, r, None) (cf, cb, h, set_pc r RFin0, None)
| r_get_null cf cb h r : r_pc r = RGet -> rstep LQ (cf, cb, h, r, Some (ADeqd None)) (cf, cb, h, set_pc r RNull0, None)
| r_get id c cf cb h h' r : r_pc r = RGet -> apoints h id = Some c -> wr h id (Some []) = Some h' -> rstep LQ (cf, cb, h, r, Some (ADeqd (Some id))) (cf, cb, h', set_pc r (RFill id), None)
| r_null cf cb h r : r_pc r = RNull0 -> rstep LI (cf, cb, h, r, None) (cf, cb, h, set_pc r RNull, Some (AEnq None))
| r_null_ret cf cb h r : r_pc r = RNull -> rstep LQ (cf, cb, h, r, Some AEnqd) (cf, cb, h, set_pc r RFin0, None)
| r_read id c x l h' cf cb h pts bad pass : apoints h id = Some c -> (length c < bs)%nat -> wr h id (Some (c ++ [x])) = Some h' ->
    rstep LL (cf, cb, h, mkreader pts bad pass (x :: l) true (RFill id), None) (cf, cb, h', mkreader pts bad pass l true (RFill id), None)
| r_error id c cf cb h pts pass : apoints h id = Some c -> (length c < bs)%nat ->
    rstep LL (cf, cb, h, mkreader pts true pass [] true (RFill id), None) (cf, cb, h, mkreader pts true pass [] false (RPut0 id), None)
| r_eof id c cf cb h pts pass : apoints h id = Some c -> (length c < bs)%nat ->
    rstep LL (cf, cb, h, mkreader pts false pass [] true (RFill id), None) (cf, cb, h, mkreader pts false (pass - 1) pts true (RPut0 id), None)
| r_full id c cf cb h r : r_pc r = RFill id -> apoints h id = Some c -> (length c <? bs)%nat && r_ok r = false -> rstep LL (cf, cb, h, r, None) (cf, cb, h, set_pc r (RPut0 id), None)
| r_put id cf cb h r : r_pc r = RPut0 id -> rstep LI (cf, cb, h, r, None) (cf, cb, h, set_pc r RPut, Some (AEnq (Some id)))
| r_put_ret cf cb h r : r_pc r = RPut -> rstep LQ (cf, cb, h, r, Some AEnqd) (cf, cb, h, set_pc r RLoop, None)
| r_fin cf cb h r : r_pc r = RFin0 -> rstep LI (cf, cb, h, r, None) (cf, cb, h, set_pc r RFin, Some (AEnq None))
| r_fin_ret cf cb h r : r_pc r = RFin -> rstep LQ (cf, cb, h, r, Some AEnqd) (cf, cb, h, set_pc r RDone, None).

Inductive astep : lbl -> ast -> ast -> list (output (P:=P)) -> Prop :=
| as_main l a a' outs : mstep l a a' outs -> astep l a a' outs
| as_read l j cf cb h m mo i rs hd r o cf' cb' h' r' o' rs' : nth_error rs j = Some (r, o) ->
    rstep l (cf, cb, h, r, o) (cf', cb', h', r', o') -> wr rs j (r', o') = Some rs' ->
    astep l (mka cf cb h m mo i rs hd) (mka cf' cb' h' m mo i rs' hd) [].

(** Which of the two kinds of operations a place is in. *)
Definition enq_m (m : mpc) : bool := match m with CPut _ | CSig | NPut | NEnd | KSend => true | _ => false end.
Definition enq_r (m : rpc) : bool := match m with RNull | RPut | RFin => true | _ => false end.
Definition kind (e : bool) (o : option op) : Prop :=
  match o with Some (AEnq _) | Some AEnqd => e = true | Some ADeq | Some (ADeqd _) => e = false | None => True end.

(** The real state and the simple one. *)
Record abs (s : iter) (a : ast) : Prop := {
  b_fac : okq (i_fac s) n k (a_cf a); b_buf : okq (i_buf s) n k (a_cb a);
  b_heap : i_heap s = a_heap a; b_main : i_main s = a_main a; b_idx : i_idx s = a_idx a; b_held : i_held s = a_held a;
  b_rs : i_readers s = map fst (a_rs a);
  b_mf : top (i_fac s) 0 = if fac_m (a_main a) then a_mop a else None;
  b_mb : top (i_buf s) 0 = if buf_m (a_main a) then a_mop a else None;
  b_mo : fac_m (a_main a) || buf_m (a_main a) = match a_mop a with Some _ => true | None => false end;
  b_mk : kind (enq_m (a_main a)) (a_mop a);
  b_rf : forall j, top (i_fac s) (S j) = match nth_error (a_rs a) j with Some (r, o) => if fac_r (r_pc r) then o else None | None => None end;
  b_rb : forall j, top (i_buf s) (S j) = match nth_error (a_rs a) j with Some (r, o) => if buf_r (r_pc r) then o else None | None => None end;
  b_ro : forall j r o, nth_error (a_rs a) j = Some (r, o) -> fac_r (r_pc r) || buf_r (r_pc r) = match o with Some _ => true | None => false end;
  b_rk : forall j r o, nth_error (a_rs a) j = Some (r, o) -> kind (enq_r (r_pc r)) o;
  b_cnt : (length (a_rs a) < k)%nat
}.
Definition rk (s : iter) : nat := rank (i_fac s) + rank (i_buf s).
Definition rkok (l : lbl) (s s' : iter) : Prop :=
  match l with LQ => (rk s' < rk s)%nat | LL => rk s' = rk s | LI | LU _ => (rk s' <= rk s + (2 * k + 11))%nat end.

Lemma proceed_ok m cap c t w m' o : okq m cap k c -> proceed t w m = Some (m', o) ->
  exists a c' a', top m t = Some a /\ okq m' cap k c' /\ top m' t = a' /\ (forall u, u <> t -> top m' u = top m u) /\
    seen c cap a c' a' o /\ (rank m' < rank m)%nat.
Proof.
  intros O E. unfold proceed in E. destruct (mnext is_null (Step t w) m) as [[m1 vs]|] eqn:Q; [|discriminate]. cbn [bind] in E.
  inversion E; subst m1 o; clear E. pose proof (rank_step _ _ _ _ _ _ _ _ _ O Q) as R.
  destruct (okq_step _ _ _ _ _ _ _ _ _ O Q) as (a & c' & a' & r & fs & A1 & A2 & A3 & A4 & _ & A5 & A6).
  exists a, c', a'. assert (returned vs = r) as ->; [|auto 10].
  rewrite A6. clear. induction fs; cbn; [destruct r; reflexivity|assumption].
Qed.
Lemma issue_ok m cap c t o m' : okq m cap k c -> issue t o m = Some m' -> single_op o <> None ->
  okq m' cap k c /\ top m t = None /\ top m' t = single_op o /\ (forall u, u <> t -> top m' u = top m u) /\ (rank m' <= rank m + (2 * k + 11))%nat.
Proof.
  intros O E S. unfold issue in E. destruct (mnext is_null (Call t o) m) as [[m1 vs]|] eqn:Q; [|discriminate]. cbn [bind] in E.
  inversion E; subst m1; clear E. pose proof (rank_call _ _ _ _ _ _ _ _ _ O S Q) as R.
  destruct (okq_call _ _ _ _ _ _ _ _ _ O S Q) as (A1 & A2 & A3 & A4 & _). auto.
Qed.

Ltac noS := intros; match goal with H : forall u, u <> _ -> top _ u = top _ u |- _ => rewrite H by lia end; auto.
Ltac mabs := constructor; cbn [i_fac i_buf i_heap i_main i_idx i_held i_readers a_cf a_cb a_heap a_main a_mop a_idx a_rs a_held set_fac set_buf set_main set_heap set_held set_idx set_readers fac_m buf_m enq_m kind orb]; auto; try noS; try congruence.
Ltac rks := unfold rkok, rk; cbn [i_fac i_buf set_fac set_buf set_main set_heap set_held set_idx set_readers]; try lia.
Ltac tops := repeat match goal with H : top _ _ = Some _, G : top _ _ = _ |- _ => rewrite H in G end.

Lemma ext_nth {A} (l l' : list A) : (forall i, nth_error l i = nth_error l' i) -> l = l'.
Proof.
  revert l'. induction l as [|x l IH]; intros [|y l'] H; [reflexivity|specialize (H O); discriminate|specialize (H O); discriminate|].
  f_equal; [specialize (H O); cbn in H; congruence|]. apply IH. intros i. exact (H (S i)).
Qed.
(** Starting a reader keeps the correspondence. *)
Lemma start_rel s a (j : nat) s' : i_readers s = map fst (a_rs a) -> start_reader s j = Some s' ->
  exists rs', astart (a_rs a) j = Some rs' /\ s' = set_readers s (map fst rs') /\ length rs' = length (a_rs a) /\
    (forall i, nth_error rs' i = nth_error (a_rs a) i \/
       exists r o, i = j /\ nth_error (a_rs a) i = Some (r, o) /\ r_pc r = RNone /\ nth_error rs' i = Some (set_pc r RLoop, o)).
Proof.
  intros R E. unfold start_reader in E. rewrite R in E.
  assert (Rd : forall l : list (reader * option op), rd (map fst l) j = match rd l j with Some (r, _) => Some r | None => None end).
  { intros l. unfold rd. rewrite nth_error_map. destruct (nth_error l j) as [[r o]|]; reflexivity. }
  rewrite Rd in E. unfold astart. destruct (rd (a_rs a) j) as [[r o]|] eqn:Rj; [|discriminate]. cbn [bind fst snd] in *.
  assert (D : (r_pc r = RNone /\ (do l <- wr (map fst (a_rs a)) j (set_pc r RLoop); Some (set_readers s l)) = Some s') \/ (r_pc r <> RNone /\ s' = s)).
  { destruct (r_pc r); try (right; split; congruence). left. auto. }
  destruct D as [[Pc E']|[Pc ->]].
  - rewrite Pc. assert (L : (j < length (a_rs a))%nat) by (apply nth_error_Some; unfold rd in Rj; congruence).
    destruct (wr_total (a_rs a) j (set_pc r RLoop, o) L) as (l' & Wl). rewrite Wl. exists l'. split; [reflexivity|].
    destruct (wr_spec _ _ _ _ Wl) as (W1 & W2 & W3 & W4).
    destruct (wr (map fst (a_rs a)) j (set_pc r RLoop)) as [l2|] eqn:W5; [|discriminate]. cbn [bind] in E'. inversion E'; subst s'; clear E'.
    assert (l2 = map fst l') as ->.
    { destruct (wr_spec _ _ _ _ W5) as (V1 & V2 & V3 & V4). apply ext_nth. intros i. rewrite nth_error_map. destruct (Nat.eq_dec i j) as [->|Ni]; [now rewrite V3, W3|]. rewrite V4, W4, nth_error_map by assumption. reflexivity. }
    repeat split; auto. intros i. destruct (Nat.eq_dec i j) as [->|Ni]; [right; exists r, o; auto|left; auto].
  - exists (a_rs a). split; [destruct (r_pc r); congruence|]. repeat split; auto. rewrite <- R. destruct s; reflexivity.
Qed.

Ltac iss B con :=
  match goal with Q : issue 0 ?o ?m = Some ?m', E : _ = Some (?s', ?outs), mo : option op |- _ =>
     destruct (issue_ok _ _ _ _ _ _ B Q ltac:(cbn; discriminate)) as (O' & T1 & T2 & T3 & Rk);
     destruct mo; [discriminate|]; inversion E; subst s' outs; clear E;
     eexists; apply and_comm; split; [right; exists LI; split; [eapply con|split; [exact Logic.I|rks]]|mabs]
  end.
Ltac pro B :=
  match goal with Q : proceed 0 ?w ?m = Some _, mo : option op, Bmk : kind _ _ |- _ =>
     destruct (proceed_ok _ _ _ _ _ _ _ B Q) as (a0 & c' & a' & T1 & O' & T2 & T3 & Sn & Rk);
     match goal with G : top m 0 = mo |- _ => rewrite T1 in G; subst mo end;
     inversion Sn; subst; cbn [kind] in Bmk; try discriminate
  end.
Ltac qui := match goal with E : _ = Some (?s', ?outs) |- _ => cbn [bind] in E; inversion E; subst s' outs; clear E; eexists; apply and_comm; split; [left; split; [reflexivity|split; [reflexivity|rks]]|mabs] end.
Ltac eff con := match goal with E : _ = Some (?s', ?outs) |- _ => cbn [bind] in E; inversion E; subst s' outs; clear E; eexists; apply and_comm; split; [right; exists LQ; split; [apply con; [reflexivity|..]; try assumption|split; [exact Logic.I|rks]]|mabs] end.
Ltac ret con := match goal with E : _ = Some (?s', ?outs) |- _ => cbn [bind] in E; inversion E; subst s' outs; clear E; eexists; apply and_comm; split; [right; exists LQ; split; [eapply con|split; [exact Logic.I|rks]]|mabs] end.

Ltac loc con := match goal with E : _ = Some (?s', ?outs), mo : option op |- _ => destruct mo; [discriminate|]; inversion E; subst s' outs; clear E; eexists; apply and_comm; split; [right; exists LL; split; [eapply con|split; [exact Logic.I|rks]]|mabs] end.
Lemma delete_rel s p s' : delete s p = Some s' -> exists h', adelete (i_heap s) p = Some h' /\ s' = set_heap s h'.
Proof.
  unfold delete, adelete, apoints, points. intros E. destruct p as [id|].
  - destruct (do c <- rd (i_heap s) id; c); [|discriminate]. cbn [bind] in *. destruct (wr (i_heap s) id None); [|discriminate]. cbn [bind] in E. inversion E. eauto.
  - inversion E; subst s'. exists (i_heap s). destruct s; auto.
Qed.
Lemma no_enq m c (rs : list (reader * option op)) t0 : okq m n k c -> top m 0 = None -> (forall j, top m (S j) = match nth_error rs j with Some (r, o) => if fac_r (r_pc r) then o else None | None => None end) ->
  (forall j r o, nth_error rs j = Some (r, o) -> kind (enq_r (r_pc r)) o) -> (forall j r o, nth_error rs j = Some (r, o) -> r_pc r <> RNull) ->
  forall x, top m t0 = Some (AEnq x) \/ top m t0 = Some AEnqd -> False.
Proof.
  intros O T0 Tj K N x H. destruct t0 as [|j]; [rewrite T0 in H; destruct H; discriminate|]. rewrite Tj in H.
  destruct (nth_error rs j) as [[r o]|] eqn:Ej; [|destruct H; discriminate]. specialize (K _ _ _ Ej). specialize (N _ _ _ Ej).
  destruct (r_pc r); try congruence; cbn in H; destruct H as [H|H]; try discriminate; subst o; discriminate.
Qed.

Lemma sim_main s a w s' outs : abs s a -> main_step n w s = Some (s', outs) ->
  exists a', abs s' a' /\ ((a' = a /\ outs = [] /\ (rk s' < rk s)%nat) \/ exists l, mstep l a a' outs /\ match l with LU _ => False | _ => True end /\ rkok l s s').
Proof.
  intros [Bf Bb Bh Bm Bi Bhd Brs Bmf Bmb Bmo Bmk Brf Brb Bro Brk Bc] E.
  destruct a as [cf cb h m mo i rs hd]. destruct s as [fac buf h0 m0 i0 rs0 hd0].
  cbn [i_fac i_buf i_heap i_main i_idx i_held i_readers a_cf a_cb a_heap a_main a_mop a_idx a_rs a_held] in *. subst h0 m0 i0 hd0 rs0.
  unfold main_step in E. cbn [i_fac i_buf i_heap i_main i_idx i_held i_readers] in E.
  destruct m; cbn [fac_m buf_m enq_m orb] in Bmf, Bmb, Bmo, Bmk; try discriminate;
  repeat match type of E with
  | (if ?b then _ else _) = _ => match type of b with bool => destruct b eqn:? end
  | bind (bind ?o _) _ = _ => destruct o as [?m'|] eqn:Q; cbn [bind] in E; [|discriminate]
  | bind (proceed ?t ?w ?m) _ = _ => destruct (proceed t w m) as [[?m' ?o]|] eqn:Q; cbn [bind] in E; [|discriminate]
  end.
  - iss Bf m_new. apply Nat.ltb_lt. assumption.
  - iss Bb m_sig. apply Nat.ltb_ge. assumption.
  - pro Bf; [qui|eff m_put_f|ret m_new_ret].
  - pro Bb; [qui|eff m_put_b|ret m_sig_ret].
  - pro Bf; [qui|eff m_put_f|ret m_give_ret].
  - iss Bb m_take.
  - pro Bb; [qui|eff m_take_b|].
    destruct x as [id|].
    + destruct (points _ id) as [c|] eqn:Pt in E; [|discriminate]. cbn [bind] in E. ret m_got. exact Pt.
    + destruct (_ <? _) eqn:Lt in E.
      * destruct (start_reader _ _) as [s2|] eqn:St in E; [|discriminate]. cbn [bind] in E.
        eapply (start_rel _ (mka [] [] [] NGet None i rs hd)) in St; [|reflexivity]. destruct St as (rs' & S1 & -> & S3 & S4).
        ret m_got_null; [apply Z.ltb_lt in Lt; unfold count in Lt; cbn in Lt; rewrite map_length in Lt; exact Lt|exact S1| | | | | ]; cbn [a_rs i_idx] in *.
        all: try (rewrite S3; assumption).
        all: try (intros; match goal with |- top _ (S ?j) = _ => first [rewrite Brf|rewrite Brb];
          destruct (S4 j) as [->|(r & o & _ & -> & Pc & ->)]; [reflexivity|rewrite Pc; reflexivity] end).
        -- intros j r o Hj. destruct (S4 j) as [Ej|(r1 & o1 & _ & E1 & Pc & E2)]; [rewrite Ej in Hj; eauto|]. rewrite E2 in Hj. inversion Hj; subst. specialize (Bro _ _ _ E1). rewrite Pc in Bro. exact Bro.
        -- intros j r o Hj. destruct (S4 j) as [Ej|(r1 & o1 & _ & E1 & Pc & E2)]; [rewrite Ej in Hj; eauto|]. rewrite E2 in Hj. inversion Hj; subst. specialize (Brk _ _ _ E1). rewrite Pc in Brk. exact Brk.
      * ret m_got_last. apply Z.ltb_ge in Lt. unfold count in Lt. cbn in Lt. rewrite map_length in Lt. exact Lt.
  - iss Bb m_send.
  - pro Bb; [qui|eff m_put_b|ret m_end].
  - iss Bf m_k1. intros N Ec. subst cf. apply Z.ltb_lt in Heqb. rewrite (okq_num_idle _ _ _ _ Bf) in Heqb; [cbn in Heqb; lia|].
    intros [|t]; [assumption|]. rewrite Brf. destruct (nth_error rs t) as [[r o]|] eqn:Et; [|reflexivity]. now rewrite (N _ _ _ Et).
  - loc m_k1_end. intros N. apply Z.ltb_ge in Heqb.
    assert (Z.of_nat (length cf) <= q_num (m_queue fac)) by (eapply (okq_num is_null); [exact Bf|intros t x H; apply (no_enq fac cf rs t Bf Bmf Brf Brk N x); auto|intros t H; apply (no_enq fac cf rs t Bf Bmf Brf Brk N None); auto]).
    destruct cf; [reflexivity|cbn [length] in *; lia].
  - pro Bf; [qui|eff m_take_f|]. destruct (delete _ _) as [s2|] eqn:D in E; [|discriminate]. destruct (delete_rel _ _ _ D) as (h' & D1 & ->). ret m_k1_ret. exact D1.
  - iss Bf m_k2.
  - pro Bf; [qui|eff m_put_f|ret m_k2_ret].
  - iss Bb m_k3. unfold count in Heqb. cbn in Heqb. rewrite map_length in Heqb. now apply Z.ltb_lt.
  - loc m_k3_end. unfold count in Heqb. cbn in Heqb. rewrite map_length in Heqb. now apply Z.ltb_ge.
  - pro Bb; [qui|eff m_take_b|].
    destruct x as [id|].
    + destruct (delete _ _) as [s2|] eqn:D in E; [|discriminate]. destruct (delete_rel _ _ _ D) as (h' & D1 & ->). ret m_k3_batch. exact D1.
    + destruct (_ <? _) eqn:Lt in E.
      * destruct (start_reader _ _) as [s2|] eqn:St in E; [|discriminate]. cbn [bind] in E.
        eapply (start_rel _ (mka [] [] [] NGet None i rs hd)) in St; [|reflexivity]. destruct St as (rs' & S1 & -> & S3 & S4).
        ret m_k3_null; [apply Z.ltb_lt in Lt; unfold count in Lt; cbn in Lt; rewrite map_length in Lt; exact Lt|exact S1| | | | | ]; cbn [a_rs i_idx] in *.
        all: try (rewrite S3; assumption).
        all: try (intros; match goal with |- top _ (S ?j) = _ => first [rewrite Brf|rewrite Brb];
          destruct (S4 j) as [->|(r & o & _ & -> & Pc & ->)]; [reflexivity|rewrite Pc; reflexivity] end).
        -- intros j r o Hj. destruct (S4 j) as [Ej|(r1 & o1 & _ & E1 & Pc & E2)]; [rewrite Ej in Hj; eauto|]. rewrite E2 in Hj. inversion Hj; subst. specialize (Bro _ _ _ E1). rewrite Pc in Bro. exact Bro.
        -- intros j r o Hj. destruct (S4 j) as [Ej|(r1 & o1 & _ & E1 & Pc & E2)]; [rewrite Ej in Hj; eauto|]. rewrite E2 in Hj. inversion Hj; subst. specialize (Brk _ _ _ E1). rewrite Pc in Brk. exact Brk.
      * ret m_k3_last. apply Z.ltb_ge in Lt. unfold count in Lt. cbn in Lt. rewrite map_length in Lt. exact Lt.
  - rewrite nth_error_map in E. destruct (nth_error rs j) as [[r o]|] eqn:Ej; cbn [option_map fst] in E.
    + destruct (r_pc r) eqn:Pc; try discriminate; (loc m_join; [exact Ej|rewrite Pc; auto]).
    + loc m_join_end. exact Ej.
  - iss Bf m_k4. intros N Ec. subst cf. apply Z.ltb_lt in Heqb. rewrite (okq_num_idle _ _ _ _ Bf) in Heqb; [cbn in Heqb; lia|].
    intros [|t]; [assumption|]. rewrite Brf. destruct (nth_error rs t) as [[r o]|] eqn:Et; [|reflexivity]. now rewrite (N _ _ _ Et).
  - loc m_k4_end. intros N. apply Z.ltb_ge in Heqb. rewrite (okq_num_idle _ _ _ _ Bf) in Heqb; [destruct cf; [reflexivity|cbn [length] in *; lia]|].
    intros [|t]; [assumption|]. rewrite Brf. destruct (nth_error rs t) as [[r o]|] eqn:Et; [|reflexivity]. now rewrite (N _ _ _ Et).
  - pro Bf; [qui|eff m_take_f|]. destruct (delete _ _) as [s2|] eqn:D in E; [|discriminate]. destruct (delete_rel _ _ _ D) as (h' & D1 & ->). ret m_k4_ret. exact D1.
Qed.

(** A reader's new state in the list. *)
Lemma read_abs s j r o r' o' fac' buf' cf' cb' h' a rs' : abs s a -> nth_error (a_rs a) j = Some (r, o) -> wr (a_rs a) j (r', o') = Some rs' ->
  okq fac' n k cf' -> okq buf' n k cb' ->
  (forall u, u <> S j -> top fac' u = top (i_fac s) u) -> (forall u, u <> S j -> top buf' u = top (i_buf s) u) ->
  top fac' (S j) = (if fac_r (r_pc r') then o' else None) -> top buf' (S j) = (if buf_r (r_pc r') then o' else None) ->
  fac_r (r_pc r') || buf_r (r_pc r') = match o' with Some _ => true | None => false end -> kind (enq_r (r_pc r')) o' ->
  abs (mkiter fac' buf' h' (i_main s) (i_idx s) (map fst rs') (i_held s)) (mka cf' cb' h' (a_main a) (a_mop a) (a_idx a) rs' (a_held a)).
Proof.
  intros [Bf Bb Bh Bm Bi Bhd Brs Bmf Bmb Bmo Bmk Brf Brb Bro Brk Bc] Nj W Of Ob Tf Tb Tf' Tb' Ko Kk.
  destruct (wr_spec _ _ _ _ W) as (W1 & W2 & W3 & W4).
  constructor; cbn [i_fac i_buf i_heap i_main i_idx i_held i_readers a_cf a_cb a_heap a_main a_mop a_idx a_rs a_held]; auto; try (rewrite ?Tf, ?Tb by lia; assumption); try congruence.
  - intros i. destruct (Nat.eq_dec i j) as [->|Ni]; [now rewrite W3|]. rewrite W4, Tf by lia. auto.
  - intros i. destruct (Nat.eq_dec i j) as [->|Ni]; [now rewrite W3|]. rewrite W4, Tb by lia. auto.
  - intros i r1 o1. destruct (Nat.eq_dec i j) as [->|Ni]; [rewrite W3; intros H; inversion H; subst; auto|]. rewrite W4 by lia. eauto.
  - intros i r1 o1. destruct (Nat.eq_dec i j) as [->|Ni]; [rewrite W3; intros H; inversion H; subst; auto|]. rewrite W4 by lia. eauto.
Qed.
Lemma wr_map (l : list (reader * option op)) j r o l1 : wr (map fst l) j r = Some l1 -> exists l2, wr l j (r, o) = Some l2 /\ l1 = map fst l2.
Proof.
  intros W. destruct (wr_spec _ _ _ _ W) as (V1 & V2 & V3 & V4). rewrite map_length in V1.
  destruct (wr_total l j (r, o) V1) as (l2 & W2). exists l2. split; [assumption|]. destruct (wr_spec _ _ _ _ W2) as (U1 & U2 & U3 & U4).
  apply ext_nth. intros i. rewrite nth_error_map. destruct (Nat.eq_dec i j) as [->|Ni]; [now rewrite V3, U3|]. rewrite V4, U4, nth_error_map by assumption. reflexivity.
Qed.
Lemma wr_same (l : list (reader * option op)) j r o o' : nth_error l j = Some (r, o) -> exists l', wr l j (r, o') = Some l' /\ map fst l' = map fst l.
Proof.
  intros N. assert (L : (j < length l)%nat) by (apply nth_error_Some; congruence). destruct (wr_total l j (r, o') L) as (l' & W). exists l'. split; [assumption|].
  destruct (wr_spec _ _ _ _ W) as (W1 & W2 & W3 & W4). apply ext_nth. intros i. rewrite !nth_error_map. destruct (Nat.eq_dec i j) as [->|Ni]; [now rewrite W3, N|now rewrite W4].
Qed.
Lemma abs_tops s a fac' buf' : abs s a -> okq fac' n k (a_cf a) -> okq buf' n k (a_cb a) -> (forall u, top fac' u = top (i_fac s) u) -> (forall u, top buf' u = top (i_buf s) u) ->
  abs (mkiter fac' buf' (i_heap s) (i_main s) (i_idx s) (i_readers s) (i_held s)) a.
Proof.
  intros [Bf Bb Bh Bm Bi Bhd Brs Bmf Bmb Bmo Bmk Brf Brb Bro Brk Bc] Of Ob Tf Tb.
  constructor; cbn [i_fac i_buf i_heap i_main i_idx i_held i_readers]; auto; try (rewrite Tf; auto); try (rewrite Tb; auto); intros; rewrite ?Tf, ?Tb; auto.
Qed.

Ltac rput o1 := match goal with E : bind (wr _ _ _) _ = Some _ |- _ =>
    cbn [i_readers set_fac set_buf set_heap] in E;
    match type of E with bind (wr _ ?j ?r) _ = _ => destruct (wr (map fst _) j r) as [l1|] eqn:W in E; [|discriminate]; cbn [bind] in E; inversion E; clear E; subst;
      destruct (wr_map _ _ _ o1 _ W) as (rs' & Wr & ->) end end.
Ltac rfin l con := eexists; apply and_comm; split;
  [right; exists l; split; [eapply as_read; [eassumption|eapply con|eassumption]|split; [exact Logic.I|rks]]
  |match goal with Ab : abs _ _ |- _ => eapply (read_abs _ _ _ _ _ _ _ _ _ _ _ _ _ Ab) end; cbn [a_rs]; try eassumption; cbn [i_fac i_buf set_pc r_pc fac_r buf_r enq_r orb kind]; auto ].

Ltac iss2 B :=
  match goal with Q : issue _ ?o ?m = Some ?m', o1 : option op |- _ =>
     destruct (issue_ok _ _ _ _ _ _ B Q ltac:(cbn; discriminate)) as (O' & T1 & T2 & T3 & Rk); destruct o1; [discriminate|] end.
Ltac pro2 B :=
  match goal with E : bind (proceed ?t ?w ?m) _ = Some _, Kk : kind _ _ |- _ =>
     destruct (proceed t w m) as [[m1 o1]|] eqn:Q; cbn [bind] in E; [|discriminate];
     destruct (proceed_ok _ _ _ _ _ _ _ B Q) as (a0 & c' & a' & T1 & O' & T2 & T3 & Sn & Rk);
     match goal with G : top m t = ?o |- _ => is_var o; rewrite T1 in G; subst o end;
     inversion Sn; subst; cbn [kind] in Kk; try discriminate end.
Ltac alltops := intros u; match goal with T3 : forall u, u <> ?t -> _ |- _ => destruct (Nat.eq_dec u t) as [->|Nu]; [congruence|auto] end.
Ltac qui2 := match goal with E : Some _ = Some ?s', Ab : abs _ _ |- _ => inversion E; subst s'; clear E; eexists; apply and_comm; split; [left; split; [reflexivity|rks]|
   apply (abs_tops _ _ _ _ Ab); cbn [i_fac i_buf a_cf a_cb]; auto; try alltops] end.
Ltac eff2 con := match goal with E : Some _ = Some ?s', Ab : abs _ _, N : nth_error ?rs ?j = Some (?r, _), T2 : Some ?a2 = _ |- _ => inversion E; subst s'; clear E;
   destruct (wr_same rs j r _ (Some a2) N) as (rs' & Wr & Mr); unfold set_fac, set_buf; cbn [i_fac i_buf i_heap i_main i_idx i_held i_readers]; rewrite <- Mr; rfin LQ con end.

Lemma sim_read s a j w s' : abs s a -> reader_step bs j w s = Some s' ->
  exists a', abs s' a' /\ ((a' = a /\ (rk s' < rk s)%nat) \/ exists l, astep l a a' [] /\ match l with LU _ => False | _ => True end /\ rkok l s s').
Proof.
  intros Ab E. destruct Ab as [Bf Bb Bh Bm Bi Bhd Brs Bmf Bmb Bmo Bmk Brf Brb Bro Brk Bc] eqn:Hab. clear Hab.
  destruct a as [cf cb h m mo i rs hd]. destruct s as [fac buf h0 m0 i0 rs0 hd0].
  cbn [i_fac i_buf i_heap i_main i_idx i_held i_readers a_cf a_cb a_heap a_main a_mop a_idx a_rs a_held] in *. subst h0 m0 i0 hd0 rs0.
  unfold reader_step in E. cbn [i_fac i_buf i_heap i_main i_idx i_held i_readers] in E.
  unfold rd in E. rewrite nth_error_map in E. destruct (nth_error rs j) as [[r o]|] eqn:Nj; [|discriminate]. cbn [option_map bind fst] in E.
  pose proof (Bro _ _ _ Nj) as Ko. pose proof (Brk _ _ _ Nj) as Kk. pose proof (Brf j) as Tf. pose proof (Brb j) as Tb. rewrite Nj in Tf, Tb.
  destruct (r_pc r) eqn:Pc; cbn [fac_r buf_r enq_r orb] in Ko, Kk, Tf, Tb; try discriminate.
  - destruct (r_ok r && (0 <? r_pass r)) eqn:Cd.
    + destruct (issue (S j) ODequeue fac) as [m1|] eqn:Q; [|discriminate]. cbn [bind] in E. iss2 Bf.
      rput (Some (ADeq : op)). rfin LI r_loop. all: try (apply andb_prop in Cd; destruct Cd as [C1 C2]; rewrite ?Z.ltb_lt in C2; assumption).
    + destruct o; [discriminate|]. rput (None : option op). rfin LL r_loop_end. all: auto.
  - pro2 Bf; [qui2|eff2 r_take_f; rewrite ?Pc; cbn [fac_r buf_r enq_r orb kind]; auto|]. destruct x as [id|].
    + destruct (points _ id) as [c|] eqn:Pt in E; [|discriminate]. cbn [bind] in E. destruct (wr h id (Some [])) as [h'|] eqn:Wh; [|discriminate]. cbn [bind] in E.
      rput (None : option op). rfin LQ r_get. all: eauto.
    + rput (None : option op). rfin LQ r_get_null. all: auto.
  - destruct (issue _ _ _) as [m1|] eqn:Q in E; [|discriminate]. cbn [bind] in E. iss2 Bf. rput (Some (AEnq None : op)). rfin LI r_null. all: auto.
  - pro2 Bf; [qui2|eff2 r_put_f; rewrite ?Pc; cbn [fac_r buf_r enq_r orb kind]; auto|]. rput (None : option op). rfin LQ r_null_ret. all: auto.
  - destruct o; [discriminate|]. destruct (points _ id) as [c|] eqn:Pt in E; [|discriminate]. cbn [bind] in E. unfold points in Pt. cbn [i_heap] in Pt.
    destruct ((length c <? bs)%nat && r_ok r) eqn:Cd.
    + apply andb_prop in Cd. destruct Cd as [C1 C2]. apply Nat.ltb_lt in C1. destruct r as [pts bad pass left ok pc]. cbn [r_pc r_ok r_left r_bad r_pts r_pass] in *. subst ok pc.
      destruct left as [|x l].
      * destruct bad; rput (None : option op); [rfin LL r_error|rfin LL r_eof]. all: eauto.
      * destruct (wr h id (Some (c ++ [x]))) as [h'|] eqn:Wh; [|discriminate]. cbn [bind] in E. rput (None : option op). rfin LL r_read. all: eauto.
    + rput (None : option op). rfin LL r_full. all: eauto.
  - destruct (issue _ _ _) as [m1|] eqn:Q in E; [|discriminate]. cbn [bind] in E. iss2 Bb. rput (Some (AEnq (Some id) : op)). rfin LI r_put. all: auto.
  - pro2 Bb; [qui2|eff2 r_put_b; rewrite ?Pc; cbn [fac_r buf_r enq_r orb kind]; auto|]. rput (None : option op). rfin LQ r_put_ret. all: auto.
  - destruct (issue _ _ _) as [m1|] eqn:Q in E; [|discriminate]. cbn [bind] in E. iss2 Bb. rput (Some (AEnq None : op)). rfin LI r_fin. all: auto.
  - pro2 Bb; [qui2|eff2 r_put_b; rewrite ?Pc; cbn [fac_r buf_r enq_r orb kind]; auto|]. rput (None : option op). rfin LQ r_fin_ret. all: auto.
Qed.

Lemma sim_next s a act s' outs : abs s a -> inext n bs k act s = Some (s', outs) ->
  exists a', abs s' a' /\
    ((a' = a /\ outs = [] /\ callers act = false /\ if spurious act then (rk s' <= rk s + 2 * k)%nat else (rk s' < rk s)%nat) \/
     exists l, astep l a a' outs /\ rkok l s s' /\ spurious act = false /\ match l with LU ls => callers act = true /\ ls = added act | _ => internal act = true end).
Proof.
  intros Ab E. destruct act as [w|j w|t|t| |pts bad pass| ]; cbn [inext] in E; cbn [callers spurious internal added].
  - destruct (sim_main _ _ _ _ _ Ab E) as (a' & A1 & [(-> & -> & R)|(l & M & L & R)]); eexists; (split; [eassumption|]); [left; auto|right].
    exists l. split; [now constructor|]. split; [assumption|]. destruct l; auto. destruct L.
  - destruct (reader_step bs j w s) as [s1|] eqn:Q; [|discriminate]. cbn [bind] in E. inversion E; subst s1 outs; clear E.
    destruct (sim_read _ _ _ _ _ Ab Q) as (a' & A1 & [(-> & R)|(l & M & L & R)]); eexists; (split; [eassumption|]); [left; auto|right].
    exists l. split; [assumption|]. split; [assumption|]. destruct l; auto. destruct L.
  - destruct (mnext is_null (Spurious t) (i_fac s)) as [[m vs]|] eqn:Q; [|discriminate]. cbn [bind] in E. inversion E; subst s' outs; clear E.
    destruct (okq_spurious _ _ _ _ _ _ _ _ (b_fac _ _ Ab) Q) as (O & Th & _). exists a. split.
    + apply abs_tops; auto; [apply (b_buf _ _ Ab)|]. intros u. unfold top. now rewrite Th.
    + left. repeat split. pose proof (rank_spurious _ _ _ _ _ _ _ _ (b_fac _ _ Ab) Q). rks.
  - destruct (mnext is_null (Spurious t) (i_buf s)) as [[m vs]|] eqn:Q; [|discriminate]. cbn [bind] in E. inversion E; subst s' outs; clear E.
    destruct (okq_spurious _ _ _ _ _ _ _ _ (b_buf _ _ Ab) Q) as (O & Th & _). exists a. split.
    + apply abs_tops; auto; [apply (b_fac _ _ Ab)|]. intros u. unfold top. now rewrite Th.
    + left. repeat split. pose proof (rank_spurious _ _ _ _ _ _ _ _ (b_buf _ _ Ab) Q). rks.
  - destruct Ab as [Bf Bb Bh Bm Bi Bhd Brs Bmf Bmb Bmo Bmk Brf Brb Bro Brk Bc]. destruct a as [cf cb h m mo i rs hd]. destruct s as [fac buf h0 m0 i0 rs0 hd0].
    cbn [i_fac i_buf i_heap i_main i_idx i_held i_readers a_cf a_cb a_heap a_main a_mop a_idx a_rs a_held] in *. subst h0 m0 i0 hd0 rs0.
    destruct m; try discriminate. destruct mo; [discriminate|]. destruct hd as [id|].
    + destruct (issue _ _ _) as [m'|] eqn:Q in E; [|discriminate]. cbn [bind] in E. inversion E; subst s' outs; clear E.
      destruct (issue_ok _ _ _ _ _ _ Bf Q ltac:(cbn; discriminate)) as (O' & T1 & T2 & T3 & Rk).
      eexists; apply and_comm; split; [right; exists (LU []); split; [apply as_main, m_next_give|split; [rks|auto]]|mabs].
    + inversion E; subst s' outs; clear E.
      eexists; apply and_comm; split; [right; exists (LU []); split; [apply as_main, m_next_none|split; [rks|auto]]|mabs].
  - destruct Ab as [Bf Bb Bh Bm Bi Bhd Brs Bmf Bmb Bmo Bmk Brf Brb Bro Brk Bc]. destruct a as [cf cb h m mo i rs hd]. destruct s as [fac buf h0 m0 i0 rs0 hd0].
    cbn [i_fac i_buf i_heap i_main i_idx i_held i_readers a_cf a_cb a_heap a_main a_mop a_idx a_rs a_held] in *. subst h0 m0 i0 hd0 rs0.
    destruct m; try discriminate. destruct mo; [discriminate|]. rewrite map_length in E. destruct (S (length rs) <? k)%nat eqn:L; [|discriminate]. apply Nat.ltb_lt in L.
    inversion E; subst s' outs; clear E.
    assert (Nx : forall j, nth_error (rs ++ [(new_reader pts bad pass, None : option op)]) j = nth_error rs j \/ (nth_error rs j = None /\ nth_error (rs ++ [(new_reader pts bad pass, None : option op)]) j = Some (new_reader pts bad pass, None))).
    { intros j. destruct (Nat.lt_ge_cases j (length rs)); [left; now apply nth_error_app1|]. destruct (Nat.eq_dec j (length rs)) as [->|].
      - right. split; [now apply nth_error_None|]. rewrite nth_error_app2, Nat.sub_diag by lia. reflexivity.
      - left. rewrite (proj2 (nth_error_None rs j)) by lia. apply nth_error_None. rewrite app_length. cbn. lia. }
    eexists; apply and_comm; split; [right; exists (LU [(pts, bad, pass)]); split; [apply as_main, m_add; assumption|split; [rks|auto]]|mabs].
    + now rewrite map_app.
    + intros j. rewrite Brf. destruct (Nx j) as [->|[-> ->]]; reflexivity.
    + intros j. rewrite Brb. destruct (Nx j) as [->|[-> ->]]; reflexivity.
    + intros j r o. destruct (Nx j) as [->|[E1 ->]]; [eauto|]. intros H; inversion H; subst. reflexivity.
    + intros j r o. destruct (Nx j) as [->|[E1 ->]]; [eauto|]. intros H; inversion H; subst. exact Logic.I.
    + rewrite app_length. cbn. lia.
  - destruct Ab as [Bf Bb Bh Bm Bi Bhd Brs Bmf Bmb Bmo Bmk Brf Brb Bro Brk Bc]. destruct a as [cf cb h m mo i rs hd]. destruct s as [fac buf h0 m0 i0 rs0 hd0].
    cbn [i_fac i_buf i_heap i_main i_idx i_held i_readers a_cf a_cb a_heap a_main a_mop a_idx a_rs a_held] in *. subst h0 m0 i0 hd0 rs0.
    destruct m; try discriminate. destruct mo; [discriminate|]. inversion E; subst s' outs; clear E.
    eexists; apply and_comm; split; [right; exists (LU []); split; [apply as_main, m_destroy|split; [rks|auto]]|mabs].
Qed.

(** The initial state. *)
Definition ainit : ast := mka [] [] [] (CNew 0) None (-1) [] None.
Lemma abs_start junkf junkb : length junkf = n -> length junkb = n -> (0 < n)%nat -> (0 < k)%nat -> abs (istart junkf junkb k) ainit.
Proof.
  intros L1 L2 N K. pose proof (okq_start junkf k ltac:(lia)) as O1. pose proof (okq_start junkb k ltac:(lia)) as O2. rewrite L1 in O1. rewrite L2 in O2.
  assert (T : forall (j : list ptr) u, top (start j k) u = None).
  { intros j u. unfold top, start. cbn [m_threads]. destruct (nth_error (repeat None k) u) as [x|] eqn:E; [|reflexivity].
    apply nth_error_In, repeat_spec in E. now subst x. }
  constructor; cbn; auto; try (intros; rewrite T; destruct j; reflexivity); try (intros [|j]; discriminate).
  all: intros [|j]; discriminate.
Qed.
End N.
End P.
