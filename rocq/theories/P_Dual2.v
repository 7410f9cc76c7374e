(** The dual-averaging algorithms of the code keep the sums and scales of the remembering learner. *)
From Coq Require Import Sorted.
From Verif Require Import M_Base M_Num M_Expr M_Loss M_Online M_Olm M_Algs S_Expr S_Online S_Session S_Dual
  P_DataPoint P_Expr P_Online P_Predict P_Step P_Safe P_SafeOlm P_Session P_Session2 P_Dual.

Section D.
Context {R : Type}.
Variable N : num R.
Local Notation zero := (zero N).
Variable n : nat.

Lemma each_class_inv (f : R -> list R -> option (list R)) F : forall vs gs r, each_class N f gs vs = Some r ->
  (forall g v, In v vs -> f g v = Some (F g v)) -> length r = length vs /\
  forall k, (k < length vs)%nat ->
    nth k r [] = if n_eq N (nth k gs zero) zero then nth k vs [] else F (nth k gs zero) (nth k vs []).
Proof.
  induction vs as [|v vs IH]; intros gs r H Hf.
  - destruct gs; cbn in H; injection H as <-; split; auto; cbn; intros; lia.
  - destruct gs as [|g gs]; [discriminate|]. cbn [each_class] in H. rewrite (Hf g v) in H by now left.
    destruct (n_eq N g zero) eqn:Eg; cbn [bind] in H;
      (destruct (each_class N f gs vs) as [r1|] eqn:E1; [|discriminate]; cbn [bind] in H; injection H as <-;
       destruct (IH gs r1 E1) as (L & H1); [intros; apply Hf; now right|];
       split; [cbn; lia|]; intros [|k] Hk; cbn [nth]; [now rewrite Eg|apply H1; cbn in Hk; lia]).
Qed.
Lemma each_class2_inv {A} (da : A) f (F : R -> list R -> A -> list R) (G : R -> list R -> A -> A) : forall ws es gs r s,
  each_class2 N f gs ws es = Some (r, s) -> length es = length ws ->
  (forall g w e, In w ws -> In e es -> f g w e = Some (F g w e, G g w e)) ->
  length r = length ws /\ length s = length ws /\
  forall k, (k < length ws)%nat ->
    nth k r [] = (if n_eq N (nth k gs zero) zero then nth k ws [] else F (nth k gs zero) (nth k ws []) (nth k es da)) /\
    nth k s da = (if n_eq N (nth k gs zero) zero then nth k es da else G (nth k gs zero) (nth k ws []) (nth k es da)).
Proof.
  induction ws as [|w ws IH]; intros es gs r s H L Hf.
  - cbn in H. destruct gs; injection H as <- <-; split; auto; split; auto; cbn; intros; lia.
  - destruct gs as [|g gs]; [discriminate|]. destruct es as [|e es]; [discriminate|]. cbn [each_class2] in H.
    rewrite (Hf g w e) in H by now left.
    destruct (n_eq N g zero) eqn:Eg; cbn [bind] in H;
      (destruct (each_class2 N f gs ws es) as [(r1, s1)|] eqn:E1; [|discriminate]; cbn [bind] in H; injection H as <- <-;
       destruct (IH es gs r1 s1 E1) as (L1 & L2 & H1); [cbn in L; lia|intros; apply Hf; now right|];
       split; [cbn; lia|]; split; [cbn; lia|]; intros [|k] Hk; cbn [nth]; [now rewrite Eg|apply H1; cbn in Hk; lia]).
Qed.
Lemma nth_zipc {A C} (f : list R -> A -> list C) da : forall ws es k, length es = length ws -> (k < length ws)%nat ->
  nth k (zipc f ws es) [] = f (nth k ws []) (nth k es da).
Proof.
  induction ws as [|w ws IH]; intros [|e es] [|k] L Hk; cbn in *; try lia; auto. apply IH; lia.
Qed.
Lemma shape_zip {A C} (f : list R -> A -> list C) m d ws (es : list A) : length ws = m -> length es = m ->
  (forall w e, In w ws -> In e es -> length (f w e) = d) -> shape m d (zipc f ws es).
Proof.
  intros L1 L2 H. split; [rewrite zipc_length; lia|]. apply Forall_zipc. auto.
Qed.
Lemma look_below p d i : wf_point 0 p -> (Z.to_nat (x_dim (R:=R) p) <= d)%nat -> (d <= i)%nat -> lookup (feats p) i = None.
Proof.
  intros Hp Hd Hi. apply lookup_None. intros H.
  pose proof (feats_below 0 p d ltac:(lia) Hp Hd) as F. rewrite Forall_forall in F. specialize (F _ H). lia.
Qed.
Lemma nth_in {A} (l : list A) k d : (k < length l)%nat -> In (nth k l d) l.
Proof. apply nth_In. Qed.

(** ** RDA, RDA_L1, ERDA_L1 *)
Definition sums (d : nat) (ut : list (list R)) (h : history (R:=R)) : Prop :=
  shape n d ut /\ forall k i, (k < n)%nat -> nth i (nth k ut []) zero = gsum N h k i.

Lemma grow_nth_any d d' v (l : list R) i : length l = d -> (d <= d')%nat ->
  nth i (grow d d' v l) v = nth i l v.
Proof.
  intros L Hd. destruct (Nat.lt_ge_cases i d').
  - rewrite (grow_nth d d') by auto. destruct (Nat.ltb_spec i d); [reflexivity|]. now rewrite nth_overflow by lia.
  - rewrite !nth_overflow; auto; [lia|]. now rewrite (grow_length d d').
Qed.
Lemma sums_grow d c ut h c1 ut1 : (1 <= c_dim c)%nat -> sums (c_dim c) ut h ->
  rda_grow N d c ut = Some (c1, ut1) -> c1 = linear_update_dim N d c /\ sums (Nat.max (c_dim c) d) ut1 h.
Proof.
  intros Hd (Hs & H) G. unfold rda_grow in G. pose proof (shape_grow n (c_dim c) d zero ut Hs) as Sg.
  destruct (Nat.ltb_spec (c_dim c) d); injection G as <- <-.
  - split; auto. split; auto. intros k i Hk. rewrite <- H by auto.
    rewrite (nth_indep _ _ (grow (c_dim c) d zero [])) by (rewrite map_length, (proj1 Hs); lia).
    rewrite map_nth. apply grow_nth_any; [|lia]. eapply shape_nth; eauto.
  - rewrite linear_grow_eq by lia. split; auto. split; auto.
Qed.
Lemma sums_update p loss c ut h c1 ut1 : wf_point 0 p -> (1 <= c_dim c)%nat ->
  (Z.to_nat (x_dim p) <= c_dim c)%nat -> sums (c_dim c) ut h -> rda_update N p loss c ut = Some (c1, ut1) ->
  c1 = c /\ sums (c_dim c) ut1 ((feats p, c_g c) :: h).
Proof.
  intros Hp Hd Hx (Hs & H) G. unfold rda_update in G.
  destruct (each_class N (ut_step N (feats p)) (c_g c) ut) as [r|] eqn:E; [|discriminate]. cbn [bind] in G.
  injection G as <- <-. split; auto.
  assert (Hl : forall v, In v ut -> length v = c_dim c) by (intros v Hv; exact (shape_in _ _ _ v Hs Hv)).
  apply (each_class_inv _ (fun g u => pstep N (fun _ a v => n_add N a (n_mul N g v)) (fun b => n_add N b g) (feats p) u)) in E
    as (L & E); [|intros g v Hv; apply ut_step_spec; auto using fs; rewrite Hl; auto].
  pose proof (proj1 Hs) as Ln. split.
  - split; [lia|]. rewrite Forall_forall. intros v Hv. apply (In_nth _ _ []) in Hv as (k & Hk & <-).
    rewrite E by lia. assert (Hin : In (nth k ut []) ut) by (apply nth_In; lia).
    destruct (n_eq N _ _); [auto|]. rewrite pstep_length. auto.
  - intros k i Hk. rewrite E by lia. cbn [gsum]. destruct (n_eq N (nth k (c_g c) zero) zero); [auto|].
    assert (Lk : length (nth k ut []) = c_dim c) by (apply Hl, nth_In; lia).
    destruct (Nat.lt_ge_cases i (c_dim c)).
    + rewrite (pstep_nth N) by lia. cbv zeta. rewrite H by auto. reflexivity.
    + rewrite nth_overflow by (rewrite pstep_length; lia). rewrite (look_below p (c_dim c)) by auto.
      destruct (Nat.eqb_spec i 0); [lia|]. rewrite <- H by auto. now rewrite nth_overflow by lia.
Qed.

(** The assignments from the sums. *)
Lemma rda_assign_sparse (F : R -> R) p c e ut c1 h : wf_point 0 p -> (1 <= c_dim c)%nat ->
  shape n (c_dim c) (c_ws c) -> sums (c_dim c) ut h ->
  (forall w u, length w = length u -> (1 <= length w)%nat ->
     calc assign w (emul N (EScalar (n_opp N (c_eta c))) (e u)) =
     Some (smap (fun i _ v => n_mul N (n_opp N (c_eta c)) (F (nth i u zero))) (feats p) w)) ->
  rda_assign N c e F ut = Some c1 ->
  exists ws, c1 = set_ws c ws /\ shape n (c_dim c) ws /\
    forall k i, (k < n)%nat -> (i < c_dim c)%nat -> i = 0%nat \/ lookup (feats p) i <> None ->
      nth i (nth k ws []) zero = step_to N F c h k i.
Proof.
  intros Hp Hd Hw (Hs & Hsum) He G. unfold rda_assign in G.
  assert (Hlw : forall v, In v (c_ws c) -> length v = c_dim c) by (intros v Hv; exact (shape_in _ _ _ v Hw Hv)).
  assert (Hlu : forall v, In v ut -> length v = c_dim c) by (intros v Hv; exact (shape_in _ _ _ v Hs Hv)).
  pose proof (proj1 Hw) as Ln. pose proof (proj1 Hs) as Lu.
  set (G1 := fun w u => upd 0 (n_mul N (n_opp N (bias_eta N c)) (F (nth 0 u zero)))
     (smap (fun i _ v => n_mul N (n_opp N (c_eta c)) (F (nth i u zero))) (feats p) w)).
  rewrite (zip_class_spec _ G1) in G.
  - cbn [bind] in G. injection G as <-. eexists. split; [reflexivity|]. split.
    + apply shape_zip; auto. intros w u Hiw Hiu. unfold G1. rewrite upd_length, smap_length. auto.
    + intros k i Hk Hi Hx. rewrite (nth_zipc G1 []) by lia.
      assert (Lk : length (nth k (c_ws c) []) = c_dim c) by (apply Hlw, nth_In; lia).
      unfold G1. rewrite nth_upd by (rewrite smap_length; lia). unfold step_to.
      destruct (Nat.eqb_spec i 0) as [->|Hn].
      * now rewrite Hsum by auto.
      * rewrite nth_smap by lia. destruct Hx as [|Hx]; [lia|]. destruct (lookup (feats p) i); [|easy].
        now rewrite Hsum by auto.
  - lia.
  - intros w u Hiw Hiu. pose proof (Hlw w Hiw). pose proof (Hlu u Hiu).
    rewrite He by lia. cbn [bind]. rewrite (rd0 N) by lia. cbn [bind].
    rewrite wr_upd by (rewrite smap_length; lia). reflexivity.
Qed.
Lemma rda_assign_full (F : R -> R) c e ut c1 h : (1 <= c_dim c)%nat ->
  shape n (c_dim c) (c_ws c) -> sums (c_dim c) ut h ->
  (forall w u, length w = length u -> (1 <= length w)%nat ->
     calc assign w (emul N (EScalar (n_opp N (c_eta c))) (e u)) =
     Some (imap 0 (fun i _ => n_mul N (n_opp N (c_eta c)) (F (nth i u zero))) w)) ->
  rda_assign N c e F ut = Some c1 -> c1 = set_ws c (table n (c_dim c) (step_to N F c h)).
Proof.
  intros Hd Hw (Hs & Hsum) He G. unfold rda_assign in G.
  assert (Hlw : forall v, In v (c_ws c) -> length v = c_dim c) by (intros v Hv; exact (shape_in _ _ _ v Hw Hv)).
  assert (Hlu : forall v, In v ut -> length v = c_dim c) by (intros v Hv; exact (shape_in _ _ _ v Hs Hv)).
  pose proof (proj1 Hw) as Ln. pose proof (proj1 Hs) as Lu.
  set (G1 := fun w u => upd 0 (n_mul N (n_opp N (bias_eta N c)) (F (nth 0 u zero)))
     (imap 0 (fun i _ => n_mul N (n_opp N (c_eta c)) (F (nth i u zero))) w)).
  rewrite (zip_class_spec _ G1) in G.
  - cbn [bind] in G. injection G as <-. f_equal. apply (table_eq zero).
    + apply shape_zip; auto. intros w u Hiw Hiu. unfold G1. rewrite upd_length, imap_length. auto.
    + intros k i Hk Hi. rewrite (nth_zipc G1 []) by lia.
      assert (Lk : length (nth k (c_ws c) []) = c_dim c) by (apply Hlw, nth_In; lia).
      unfold G1. rewrite nth_upd by (rewrite imap_length; lia). unfold step_to.
      destruct (Nat.eqb_spec i 0) as [->|Hn].
      * now rewrite Hsum by auto.
      * assert (Ei : nth_error (imap 0 (fun i _ => n_mul N (n_opp N (c_eta c)) (F (nth i (nth k ut []) zero))) (nth k (c_ws c) [])) i
                   = Some (n_mul N (n_opp N (c_eta c)) (F (nth i (nth k ut []) zero)))).
        { rewrite nth_error_imap. rewrite (nth_error_nth' _ zero) by lia. reflexivity. }
        rewrite (nth_error_nth _ _ _ Ei). now rewrite Hsum by auto.
  - lia.
  - intros w u Hiw Hiu. pose proof (Hlw w Hiw). pose proof (Hlu u Hiu).
    rewrite He by lia. cbn [bind]. rewrite (rd0 N) by lia. cbn [bind].
    rewrite wr_upd by (rewrite imap_length; lia). reflexivity.
Qed.

(** ** From the lockstep to what a user sees *)
Section User.
Variable k : kind (R:=R).
Variable a' : alg (R:=R) (history (R:=R)).
Variable can : use (R:=R) -> Prop.
Variable St : nat -> list (list R) -> R * R -> state_of k -> history (R:=R) -> Prop.
Variable I : list (list R) -> nat -> state_of k -> Prop.
Variable Q : list Z -> list R -> list R -> Prop.
Variable lo : Z.
Hypothesis Hlo : lo_of k <= 0 /\ 0 <= lo.
Hypothesis Hsafe : gsafe N 0 (alg_of N k) I Q.
Hypothesis HI : forall c e h, St (c_dim c) (c_ws c) (par c) e h -> length (c_ws c) = n -> I (c_ws c) (c_dim c) e.
Variable c0 : core (R:=R).
Hypothesis Hinit : St 1 (repeat [zero] n) (par c0) (init_of N k n) [].
Hypothesis Hsess : forall pre us s s' t, Forall can us -> Forall (oku (wf_point lo) pre) us -> SRel (DRel n St) s s' ->
  session N (alg_of N k) pre us s = Some t -> exists t', session N a' pre us s' = Some t' /\ SRel (DRel n St) t t'.
Hypothesis Hiter : forall p rnd c e ws h lab ps c1 e1, wf_point lo p -> DRel n St c e ws h ->
  iterate N (alg_of N k) p rnd c e = Some (lab, ps, c1, e1) ->
  exists ws1 h1, iterate N a' p rnd (set_ws c ws) h = Some (lab, ps, set_ws c1 ws1, h1) /\ DRel n St c1 e1 ws1 h1.
Hypothesis Htest : forall pre data c e ws h rows j c1 e1, DRel n St c e ws h -> (c_updated c = false -> ws = c_ws c) ->
  test N (alg_of N k) pre data c e = Some (rows, j, c1, e1) ->
  exists h1, test N a' pre data (set_ws c ws) h = Some (rows, j, c1, h1).

Lemma user_agrees : fresh N n c0 -> loss_ok n (c_loss c0) ->
  indistinguishable N (alg_of N k) a' n c0 (init_of N k n) [] lo can.
Proof.
  intros Hf Hl pre us HU HC.
  assert (Hwp : forall p, wf_point lo p -> wf_point (R:=R) 0 p) by (intros; eapply wf_point_weaken; [apply Hlo|eassumption]).
  assert (Hac : forall p, accepts lo n pre p -> accepts (lo_of k) n pre p).
  { intros p (x & Ex & Hx & Hy). exists x. split; auto. split; auto. eapply wf_point_weaken; [|exact Hx]. lia. }
  assert (HU' : Forall (use_ok (lo_of k) n pre) us).
  { eapply Forall_impl; [|exact HU]. intros [bs|data|] Hu; cbn in *; auto.
    - eapply Forall_impl; [|exact Hu]. intros b Hb. eapply Forall_impl; [|exact Hb]. auto.
    - eapply Forall_impl; [|exact Hu]. auto. }
  destruct (session_of N False k n c0 (c_loss c0) us pre Hf eq_refl Hl ltac:(tauto) HU')
    as (c & e & r & Es & Hc & Hn & Hcl & _).
  assert (HO : Forall (oku (wf_point lo) pre) us).
  { eapply Forall_impl; [|exact HU]. intros [bs|data|] Hu; cbn in *; auto.
    eapply Forall_impl; [|exact Hu]. intros b Hb. eapply Forall_impl; [|exact Hb].
    intros d (x & Ex & Hx & _). exists x. auto. }
  destruct (Hsess pre us (c0, init_of N k n, true) (c0, [], true) (c, e, r) HC HO) as (((c', h), r') & Es' & HR); auto.
  { cbn. split; auto. exists (c_ws c0). rewrite set_ws_id. split; auto. split; auto.
    destruct Hf as (H1 & Hw & Hd & _). unfold DRel. rewrite Hd, Hw. split; auto.
    assert (Sh : shape n 1 (repeat [zero] n)) by apply shape_repeat. auto. }
  cbn in HR. destruct HR as (-> & ws & -> & HR & Hw).
  exists c, e, (set_ws c ws), h, r. split; [exact Es|]. split; [exact Es'|]. split; [reflexivity|]. split.
  - intros p rnd Hp Hy.
    destruct (iterate_safe N 0 (alg_of N k) I Q p rnd c e ltac:(lia) Hsafe (Hwp _ Hp) Hc) as (lab & ps & c1 & e1 & E1 & _).
    { eapply HI; [apply HR|exact Hn]. } { now rewrite Hn, Hcl. } { now rewrite Hn. }
    destruct (Hiter p rnd c e ws h lab ps c1 e1 Hp HR E1) as (ws1 & h1 & E1' & _).
    exists lab, ps, c1, e1, (set_ws c1 ws1), h1. auto.
  - intros data Hda.
    assert (HU2 : Forall (use_ok (lo_of k) n pre) (us ++ [UTest data])).
    { apply Forall_app. split; auto. constructor; auto. cbn. eapply Forall_impl; [|exact Hda]. auto. }
    destruct (session_of N False k n c0 (c_loss c0) (us ++ [UTest data]) pre Hf eq_refl Hl ltac:(tauto) HU2)
      as (c2 & e2 & r2 & E2 & _).
    unfold session in E2. rewrite foldM_app in E2. unfold session in Es. rewrite Es in E2. cbn [bind foldM use_step] in E2.
    destruct (test N (alg_of N k) pre data c e) as [(((rows, j), c3), e3)|] eqn:E3; [|discriminate].
    destruct (Htest pre data c e ws h rows j c3 e3 HR Hw E3) as (h3 & E3').
    exists rows, j, c3, e3, h3. auto.
Qed.

(** Replacing the weights by others. *)
Hypothesis Hcache : forall d ws ws' q e h, St d ws q e h -> St d ws' q e h.
Hypothesis Hends : forall c e ws h c1 e1, DRel n St c e ws h -> a_end (alg_of N k) c e = Some (c1, e1) ->
  a_end a' (set_ws c ws) h = Some (c1, h).
Hypothesis Hendt : forall c e, wf_core c -> I (c_ws c) (c_dim c) e -> exists c1 e1, a_end (alg_of N k) c e = Some (c1, e1).
Hypothesis Hcan : forall u, can u.
Lemma user_cache : fresh N n c0 -> loss_ok n (c_loss c0) ->
  weights_are_cache N (alg_of N k) n c0 (init_of N k n) lo.
Proof.
  intros Hf Hl pre us c e r HU Es ws2 L2 F2.
  assert (Hwp : forall p, wf_point lo p -> wf_point (R:=R) 0 p) by (intros; eapply wf_point_weaken; [apply Hlo|eassumption]).
  assert (HU' : Forall (use_ok (lo_of k) n pre) us).
  { assert (Hac : forall p, accepts lo n pre p -> accepts (lo_of k) n pre p).
    { intros p (x & Ex & Hx & Hy). exists x. split; auto. split; auto. eapply wf_point_weaken; [|exact Hx]. lia. }
    eapply Forall_impl; [|exact HU]. intros [bs|data|] Hu; cbn in *; auto.
    - eapply Forall_impl; [|exact Hu]. intros b Hb. eapply Forall_impl; [|exact Hb]. auto.
    - eapply Forall_impl; [|exact Hu]. auto. }
  destruct (session_of N False k n c0 (c_loss c0) us pre Hf eq_refl Hl ltac:(tauto) HU')
    as (c' & e' & r' & Es2 & Hc & Hn & Hcl & _).
  rewrite Es in Es2. injection Es2 as <- <- <-.
  assert (HO : Forall (oku (wf_point lo) pre) us).
  { eapply Forall_impl; [|exact HU]. intros [bs|data|] Hu; cbn in *; auto.
    eapply Forall_impl; [|exact Hu]. intros b Hb. eapply Forall_impl; [|exact Hb].
    intros d (x & Ex & Hx & _). exists x. auto. }
  assert (HC : Forall can us) by (rewrite Forall_forall; auto).
  destruct (Hsess pre us (c0, init_of N k n, true) (c0, [], true) (c, e, r) HC HO) as (((c', h), r') & Es' & HR); auto.
  { cbn. split; auto. exists (c_ws c0). rewrite set_ws_id. split; auto. split; auto.
    destruct Hf as (H1 & Hw & Hd & _). unfold DRel. rewrite Hd, Hw. split; auto.
    assert (Sh : shape n 1 (repeat [zero] n)) by apply shape_repeat. auto. }
  cbn in HR. destruct HR as (_ & ws & _ & HR & _).
  assert (HR2 : DRel n St (set_ws c ws2) e ws h).
  { destruct HR as (D1 & D2 & D3 & D4). split; [exact D1|]. split; [split; auto|]. split; [exact D3|].
    cbn [c_ws c_dim set_ws]. eapply Hcache. exact D4. }
  assert (Hc2 : wf_core (set_ws c ws2)).
  { destruct Hc as (A1 & A2 & A3 & A4). split; [exact A1|]. cbn [c_ws c_dim c_g set_ws]. split.
    - intros ->. cbn in L2. destruct (c_ws c); [easy|]. cbn in Hn. lia.
    - split; [exact F2|]. lia. }
  assert (I1 : I (c_ws c) (c_dim c) e) by (eapply HI; [apply HR|exact Hn]).
  assert (I2 : I (c_ws (set_ws c ws2)) (c_dim (set_ws c ws2)) e) by (eapply HI; [apply HR2|exact L2]).
  split.
  - intros p rnd Hp Hy.
    destruct (iterate_safe N 0 (alg_of N k) I Q p rnd c e ltac:(lia) Hsafe (Hwp _ Hp) Hc) as (lab & ps & c1 & e1 & E1 & _).
    { exact I1. } { now rewrite Hn, Hcl. } { now rewrite Hn. }
    destruct (iterate_safe N 0 (alg_of N k) I Q p rnd (set_ws c ws2) e ltac:(lia) Hsafe (Hwp _ Hp) Hc2) as (lab2 & ps2 & c2 & e2 & E2 & _).
    { exact I2. } { cbn [c_ws set_ws c_loss]. now rewrite L2, Hcl. } { cbn [c_ws set_ws]. now rewrite L2. }
    destruct (Hiter p rnd c e ws h lab ps c1 e1 Hp HR E1) as (w1 & h1 & E1' & _).
    destruct (Hiter p rnd (set_ws c ws2) e ws h lab2 ps2 c2 e2 Hp HR2 E2) as (w2 & h2 & E2' & _).
    change (set_ws (set_ws c ws2) ws) with (set_ws c ws) in E2'. rewrite E1' in E2'.
    assert (Ec : set_ws c1 w1 = set_ws c2 w2)
      by exact (f_equal (fun o => match o with Some (_, _, q, _) => q | None => c1 end) E2').
    assert (El : (lab, ps) = (lab2, ps2))
      by exact (f_equal (fun o => match o with Some (l, q, _, _) => (l, q) | None => (lab, ps) end) E2').
    injection El as <- <-.
    exists lab, ps, c1, e1, c2, e2. split; auto. split; auto.
    transitivity (set_ws (set_ws c2 w2) (c_ws c2)); [now destruct c2|]. rewrite <- Ec. reflexivity.
  - intros c1 e1 G. destruct (Hendt (set_ws c ws2) e Hc2 I2) as (c2 & e2 & G2). exists e2.
    pose proof (Hends c e ws h c1 e1 HR G) as A1. pose proof (Hends (set_ws c ws2) e ws h c2 e2 HR2 G2) as A2.
    change (set_ws (set_ws c ws2) ws) with (set_ws c ws) in A2. congruence.
Qed.
End User.

Lemma gsum_nil k i : gsum N [] k i = zero.
Proof. reflexivity. Qed.
Lemma sums_init : sums 1 (repeat [zero] n) [].
Proof.
  split; [apply shape_repeat|]. intros k i Hk. rewrite (nth_indep _ [] [zero]) by (rewrite repeat_length; lia).
  rewrite nth_repeat. destruct i as [|[|i]]; reflexivity.
Qed.

Ltac sparse_form p := intros w u Hlw H1; rewrite (calc_sparse zero _ (feats p));
  [reflexivity|simpl; auto|reflexivity|now apply fs|simpl; repeat split; auto; lia].
Ltac dense_form := intros w u Hlw H1; rewrite (calc_dense zero); [reflexivity|simpl; auto|simpl; auto].
(** The three algorithms share all but the step size and the truncation. *)
Section Rda.
Variable prep : point R -> core (R:=R) -> list (list R) -> option (core (R:=R) * list (list R)).
Variable endf : core (R:=R) -> list (list R) -> option (core (R:=R) * list (list R)).
Variable eta1 eta2 : core (R:=R) -> R.
Variable f1 f2 : core (R:=R) -> R -> R.
Variable fin : list R -> list R.
Definition rda_like : alg (R:=R) (list (list R)) :=
  mkalg (rda_grow N) begin_none reg_begin_none prep margin_none (rda_update N) reg_end_none endf.
Definition dual_like : alg (R:=R) (history (R:=R)) :=
  dual N eta1 eta2 (fun c => step_to N (f1 c) c) (fun c => step_to N (f2 c) c) fin.
Hypothesis Hfin : forall w, length (fin w) = length w.
Hypothesis He1 : forall c ws, eta1 (set_ws c ws) = eta1 c.
Hypothesis He2 : forall c ws, eta2 (set_ws c ws) = eta2 c.
Hypothesis Hf1 : forall c ws u, f1 (set_ws c ws) u = f1 c u.
Hypothesis Hf2 : forall c ws u, f2 (set_ws c ws) u = f2 c u.
Hypothesis Hprep : forall p c ut h c1 ut1, wf_point 0 p -> (1 <= c_dim c)%nat -> shape n (c_dim c) (c_ws c) ->
  sums (c_dim c) ut h -> prep p c ut = Some (c1, ut1) -> ut1 = ut /\
  exists ws, c1 = set_ws (set_eta c (eta1 c)) ws /\ shape n (c_dim c) ws /\
    forall k i, (k < n)%nat -> (i < c_dim c)%nat -> i = 0%nat \/ lookup (feats p) i <> None ->
      nth i (nth k ws []) zero = step_to N (f1 (set_eta c (eta1 c))) (set_eta c (eta1 c)) h k i.
Hypothesis Hend : forall c ut h c1 ut1, (1 <= c_dim c)%nat -> shape n (c_dim c) (c_ws c) ->
  sums (c_dim c) ut h -> endf c ut = Some (c1, ut1) -> ut1 = ut /\
  c1 = set_updated (set_ws (set_eta c (eta2 c))
         (map fin (table n (c_dim c) (step_to N (f2 (set_eta c (eta2 c))) (set_eta c (eta2 c)) h)))) false.
Definition RSt (d : nat) (ws : list (list R)) (eta : R * R) ut h := sums d ut h.

Lemma r_grow d c e h c1 e1 : (1 <= c_dim c)%nat -> shape n (c_dim c) (c_ws c) ->
  RSt (c_dim c) (c_ws c) (par c) e h -> a_grow rda_like d c e = Some (c1, e1) ->
  c1 = linear_update_dim N d c /\ RSt (c_dim c1) (c_ws c1) (par c1) e1 h.
Proof.
  intros Hd Hs Hst H. destruct (sums_grow d c e h c1 e1 Hd Hst H) as (-> & H2). split; auto.
  unfold RSt. now rewrite (proj1 (upd_dim_shape N n d c Hs)).
Qed.
Lemma r_upd p loss c e h c1 e1 : wf_point 0 p -> (1 <= c_dim c)%nat -> shape n (c_dim c) (c_ws c) ->
  (Z.to_nat (x_dim p) <= c_dim c)%nat -> RSt (c_dim c) (c_ws c) (par c) e h ->
  a_update rda_like p loss c e = Some (c1, e1) ->
  exists ws, c1 = set_ws c ws /\ shape n (c_dim c) ws /\ RSt (c_dim c) ws (par c) e1 ((feats p, c_g c) :: h).
Proof.
  intros Hp Hd Hs Hx Hst H. destruct (sums_update p loss c e h c1 e1 Hp Hd Hx Hst H) as (-> & H2).
  exists (c_ws c). rewrite set_ws_id. auto.
Qed.
Lemma r_prep p c e h c1 e1 : wf_point 0 p -> (1 <= c_dim c)%nat -> shape n (c_dim c) (c_ws c) ->
  (Z.to_nat (x_dim p) <= c_dim c)%nat -> RSt (c_dim c) (c_ws c) (par c) e h ->
  a_prep rda_like p c e = Some (c1, e1) -> e1 = e /\
  exists ws, c1 = set_ws (set_eta c (eta1 c)) ws /\ shape n (c_dim c) ws /\ RSt (c_dim c) ws (eta1 c, c_b0 c) e h /\
    forall k i, (k < n)%nat -> (i < c_dim c)%nat -> i = 0%nat \/ lookup (feats p) i <> None ->
      nth i (nth k ws []) zero = (fun c => step_to N (f1 c) c) (set_eta c (eta1 c)) h k i.
Proof.
  intros Hp Hd Hs Hx Hst H. destruct (Hprep p c e h c1 e1 Hp Hd Hs Hst H) as (-> & ws & E & S1 & A). split; auto.
  exists ws. auto.
Qed.
Lemma step_to_ws f g c ws h k i : (forall u, f u = g u) -> step_to N f (set_ws c ws) h k i = step_to N g c h k i.
Proof. intros H. unfold step_to. now rewrite H. Qed.
Lemma r_w1 c ws h k i : eta1 (set_ws c ws) = eta1 c /\
  (fun c => step_to N (f1 c) c) (set_ws c ws) h k i = (fun c => step_to N (f1 c) c) c h k i.
Proof. split; auto. apply step_to_ws. auto. Qed.
Lemma r_w2 c ws h k i : eta2 (set_ws c ws) = eta2 c /\
  (fun c => step_to N (f2 c) c) (set_ws c ws) h k i = (fun c => step_to N (f2 c) c) c h k i.
Proof. split; auto. apply step_to_ws. auto. Qed.
Lemma r_end_st c e h c1 e1 : (1 <= c_dim c)%nat -> shape n (c_dim c) (c_ws c) ->
  RSt (c_dim c) (c_ws c) (par c) e h -> a_end rda_like c e = Some (c1, e1) ->
  c_dim c1 = c_dim c /\ RSt (c_dim c1) (c_ws c1) (par c1) e1 h.
Proof. intros Hd Hs Hst H. destruct (Hend c e h c1 e1 Hd Hs Hst H) as (-> & ->). auto. Qed.

Lemma rda_like_session pre us s s' t : Forall (oku (wf_point 0) pre) us -> SRel (DRel n RSt) s s' ->
  session N rda_like pre us s = Some t -> exists t', session N dual_like pre us s' = Some t' /\ SRel (DRel n RSt) t t'.
Proof.
  apply dual_session with (lo := 0); auto; try lia; eauto using r_grow, r_upd, r_prep, r_w1, r_w2, r_end_st.
Qed.
Lemma rda_like_iterate p rnd c e ws h lab ps c1 e1 : wf_point 0 p -> DRel n RSt c e ws h ->
  iterate N rda_like p rnd c e = Some (lab, ps, c1, e1) ->
  exists ws1 h1, iterate N dual_like p rnd (set_ws c ws) h = Some (lab, ps, set_ws c1 ws1, h1) /\ DRel n RSt c1 e1 ws1 h1.
Proof.
  apply dual_iterate with (lo := 0); auto; try lia; eauto using r_grow, r_upd, r_prep, r_w1, r_w2, r_end_st.
Qed.
Lemma rda_like_test pre data c e ws h rows j c1 e1 : DRel n RSt c e ws h -> (c_updated c = false -> ws = c_ws c) ->
  test N rda_like pre data c e = Some (rows, j, c1, e1) ->
  exists h1, test N dual_like pre data (set_ws c ws) h = Some (rows, j, c1, h1).
Proof.
  apply dual_test; auto; try lia; eauto using r_grow, r_upd, r_prep, r_w1, r_w2, r_end_st.
Qed.
Lemma rda_like_end c e ws h c1 e1 : DRel n RSt c e ws h -> a_end rda_like c e = Some (c1, e1) ->
  a_end dual_like (set_ws c ws) h = Some (c1, h).
Proof. apply dual_end; eauto using r_w2. Qed.
End Rda.
End D.
