(** The second-order feature-selection models (SOFS, AdaFOBOS_OFS, AdaRDA_OFS) are safe, and keep
    their weights inside the features kept by the heap. *)
From Verif Require Import M_Base M_Num M_Expr M_Loss M_Online M_Olm M_OlmSel M_Heap S_Expr S_Online
  S_Heap P_DataPoint P_Expr P_Online P_Predict P_Step P_Safe P_SafeOlm P_Heap P_SafeSel.
From Coq Require Import Sorted.

Section P.
Context {R : Type}.
Variable N : num R.
Local Notation zero := (zero N).
Local Notation one := (one N).
Local Notation len_is d := (fun w : list R => length w = d).

(** ** The confidence part *)
(** The heap only moves ids around. *)
Definition heap_same (h h' : heap) : Prop :=
  heap_wf h' /\ h_N h' = h_N h /\ h_K h' = h_K h /\ forall i, kept h' i <-> kept h i.
Lemma heap_same_refl h : heap_wf h -> heap_same h h.
Proof. intros. split; auto. split; auto. split; auto. tauto. Qed.
Lemma heap_same_trans a b c : heap_same a b -> heap_same b c -> heap_same a c.
Proof.
  intros (A1 & A2 & A3 & A4) (B1 & B2 & B3 & B4). split; auto. split; [congruence|].
  split; [congruence|]. intros i. now rewrite B4.
Qed.
Lemma readjust_ok cmp d B (values : list R) i h : heap_wf h -> h_N h = (d - 1)%nat -> h_K h = B ->
  (d - 1 <= length values)%nat -> 1 <= i < Z.of_nat d ->
  exists h', readjust cmp B values i h = Some h' /\ heap_same h h'.
Proof.
  intros Hh HN HK Hv Hi. unfold readjust, rdz. replace (i - 1 <? 0) with false by lia. unfold rd.
  pose proof Hh as (L1 & _).
  destruct (nth_error_lt (h_id2pos h) (Z.to_nat (i - 1))) as (pos & E); [lia|]. rewrite E. cbn [bind].
  destruct (Nat.ltb_spec pos B) as [Hp|Hp].
  - destruct (adjust_heap_spec cmp values h pos Hh) as (h' & E' & W & EN & EK & S & _); [lia|lia|].
    rewrite HK in E'. exists h'. split; auto. split; auto. split; auto. split; auto.
    now apply same_kept_kept.
  - exists h. split; auto. now apply heap_same_refl.
Qed.
Lemma feature_loop_ok cmp f d B x : forall (v : list R) h, heap_wf h -> h_N h = (d - 1)%nat ->
  h_K h = B -> length v = d -> (forall i, In i (map fst x) -> 1 <= i < Z.of_nat d) ->
  exists v' h', feature_loop cmp f B x v h = Some (v', h') /\ length v' = d /\ heap_same h h'.
Proof.
  induction x as [|(i, xv) x IH]; intros v h Hh HN HK Hv Hi.
  - exists v, h. split; [reflexivity|]. split; auto. now apply heap_same_refl.
  - cbn [feature_loop]. assert (Hi0 : 1 <= i < Z.of_nat d) by (apply Hi; now left).
    unfold rd. rewrite (nth_error_nth' v zero) by lia. cbn [bind]. rewrite wr_upd by lia. cbn [bind].
    match goal with |- context [readjust cmp B ?vals i h] =>
      destruct (readjust_ok cmp d B vals i h Hh HN HK) as (h1 & E & S) end.
    { rewrite skipn_length, upd_length. lia. }
    { auto. }
    rewrite E. cbn [bind]. pose proof S as (W & EN & EK & _).
    match goal with |- context [feature_loop cmp f B x ?w h1] =>
      destruct (IH w h1) as (v' & h' & E' & L' & S') end; auto; try congruence.
    { now rewrite upd_length. }
    { intros. apply Hi. now right. }
    exists v', h'. split; auto. split; auto. eapply heap_same_trans; eauto.
Qed.
Lemma sum_at_ok d i (vs : list (list R)) : forall acc, Forall (len_is d) vs -> (i < d)%nat ->
  exists t, sum_at N i vs acc = Some t.
Proof.
  induction vs as [|v vs IH]; intros acc HF Hi; cbn [sum_at]; [eauto|]. inversion HF; subst.
  unfold rd. rewrite (nth_error_nth' v zero) by lia. cbn [bind]. auto.
Qed.
Lemma sum_loop_ok cmp d B idx (vs : list (list R)) : forall sum h, heap_wf h -> h_N h = (d - 1)%nat ->
  h_K h = B -> Forall (len_is d) vs -> length sum = d ->
  (forall i, In i idx -> 1 <= i < Z.of_nat d) ->
  exists sum' h', sum_loop N cmp B idx vs sum h = Some (sum', h') /\ length sum' = d /\ heap_same h h'.
Proof.
  induction idx as [|i idx IH]; intros sum h Hh HN HK HF Hs Hi.
  - exists sum, h. split; [reflexivity|]. split; auto. now apply heap_same_refl.
  - cbn [sum_loop]. assert (Hi0 : 1 <= i < Z.of_nat d) by (apply Hi; now left).
    destruct (sum_at_ok d (Z.to_nat i) vs zero HF) as (t & ->); [lia|]. cbn [bind].
    rewrite wr_upd by lia. cbn [bind].
    match goal with |- context [readjust cmp B ?vals i h] =>
      destruct (readjust_ok cmp d B vals i h Hh HN HK) as (h1 & E & S) end.
    { rewrite skipn_length, upd_length. lia. }
    { auto. }
    rewrite E. cbn [bind]. pose proof S as (W & EN & EK & _).
    destruct (IH (upd (Z.to_nat i) t sum) h1) as (v' & h' & E' & L' & S'); auto; try congruence.
    { now rewrite upd_length. }
    { intros. apply Hi. now right. }
    exists v', h'. split; auto. split; auto. eapply heap_same_trans; eauto.
Qed.

(** The confidence vectors, their sum and the heap fit the dimension. *)
Definition conf_ok (n d B : nat) (s : sel2 (R:=R)) : Prop :=
  shape n d (s_vecs s) /\ (n <> 1%nat -> length (s_sum s) = d) /\ heap_wf (s_heap s) /\
  h_N (s_heap s) = (d - 1)%nat /\ h_K (s_heap s) = B.
Lemma scores_len n d B s : conf_ok n d B s -> length (sel2_scores s) = d.
Proof.
  intros ((L & F) & Hs & _). unfold sel2_scores.
  destruct (s_vecs s) as [|v [|v2 vs]]; simpl in L.
  - apply Hs. lia.
  - now inversion F.
  - apply Hs. lia.
Qed.
Lemma sel2_confidence_ok cmp bias0 feat whole d B x gs s n : (1 <= d)%nat ->
  conf_ok n d B s -> length gs = n -> (forall i, In i (map fst x) -> 1 <= i < Z.of_nat d) ->
  (forall g v, length v = d -> exists v', whole g v = Some v' /\ length v' = length v) ->
  exists s', sel2_confidence N cmp bias0 feat whole B x gs s = Some s' /\ conf_ok n d B s' /\
    heap_same (s_heap s) (s_heap s').
Proof.
  intros Hd ((L & F) & Hsum & Hh & HN & HK) Hg Hi Hw. unfold sel2_confidence.
  assert (Hmulti : n <> 1%nat -> exists s',
    (do vs' <- each_class N whole gs (s_vecs s);
     do (sum, h) <- sum_loop N cmp B (map fst x) vs' (s_sum s) (s_heap s);
     Some (mksel2 vs' sum h)) = Some s' /\ conf_ok n d B s' /\ heap_same (s_heap s) (s_heap s')).
  { intros Hn. destruct (each_class_ok N whole gs (s_vecs s)) as (vs' & E & F2); [lia| |].
    { intros g v Hv. apply Hw. rewrite Forall_forall in F. auto. }
    rewrite E. cbn [bind]. assert (F' : Forall (len_is d) vs').
    { clear - F F2. induction F2; constructor; inversion F; subst; auto. }
    destruct (sum_loop_ok cmp d B (map fst x) vs' (s_sum s) (s_heap s)) as (sum & h & E' & Ls & S); auto.
    rewrite E'. cbn [bind]. eexists. split; [reflexivity|]. pose proof S as (W & EN & EK & _).
    cbn [s_heap]. split; auto. split; [|cbn; repeat split; auto; try apply W; congruence].
    split; auto. cbn. rewrite <- L. symmetry. eapply Forall2_len; eauto. }
  destruct (s_vecs s) as [|v [|v2 vs]] eqn:Ev; simpl in L.
  - apply Hmulti. lia.
  - destruct gs as [|g gs]; [simpl in Hg; lia|]. inversion F; subst.
    rewrite (upd0_spec N) by lia. cbn [bind].
    match goal with |- context [feature_loop cmp ?f (h_K (s_heap s)) x ?v (s_heap s)] =>
      destruct (feature_loop_ok cmp f (length v) (h_K (s_heap s)) x v (s_heap s)) as (v' & h & E & Lv & S)
    end; rewrite ?upd_length in *; auto.
    rewrite E. cbn [bind]. eexists. split; [reflexivity|]. pose proof S as (W & EN & EK & _).
    cbn [s_heap]. split; auto. split; [split; cbn; auto|].
    cbn [s_sum s_heap]. split; [auto|]. split; auto. split; congruence.
  - apply Hmulti. lia.
Qed.

(** ** Truncation *)
Lemma sel2_truncate_ok (P : Prop) cmp p c s B : wf_point 1 p -> wf_core c ->
  (Z.to_nat (x_dim p) <= c_dim c)%nat -> conf_ok (length (c_ws c)) (c_dim c) B s ->
  (P -> forall j, (S j < c_dim c)%nat -> ~ In (Z.of_nat (S j)) (p_idx p) -> ~ kept (s_heap s) j ->
     zeroed N (c_ws c) j) ->
  exists c' s', sel2_truncate N cmp p c s = Some (c', s') /\ framed same_len c c' /\
    conf_ok (length (c_ws c)) (c_dim c) B s' /\ s_vecs s' = s_vecs s /\
    (P -> sparse_in N (c_dim c) (s_heap s') (c_ws c')).
Proof.
  intros Hp Hc Hx Hs HP. pose proof (scores_len _ _ _ _ Hs) as Lsc.
  destruct Hs as (Hv & Hsum & Hh & HN & HK). unfold sel2_truncate. pose proof Hc as (Hd & _ & HF & _).
  destruct (offer_ids_ok N cmp (c_dim c) (skipn 1 (sel2_scores s)) (map (fun i => i - 1) (p_idx p))
    (s_heap s) (c_ws c) (fun j => P /\ ~ In (Z.of_nat (S j)) (p_idx p)))
    as (h & ws & E & W & EN & EK & HF' & Lw & Hz); auto.
  { rewrite skipn_length. lia. }
  { intros i Hi. apply in_map_iff in Hi as (k & <- & Hk).
    pose proof (x_dim_below 1 p k ltac:(lia) Hp Hk). lia. }
  { intros j Hj (HPp & Hnin). now apply HP. }
  rewrite E. cbn [bind]. eexists _, _. split; [reflexivity|]. split.
  { apply framed_set_ws. eapply lens_rel; eauto. }
  split.
  { split; [exact Hv|]. split; [exact Hsum|]. cbn [s_heap]. split; auto. split; congruence. }
  split; [reflexivity|].
  intros HPp j Hj Hnk. apply Hz; auto.
  destruct (in_dec Z.eq_dec (Z.of_nat (S j)) (p_idx p)) as [Hin|Hin]; [right|left; auto].
  apply in_map_iff. exists (Z.of_nat (S j)). split; [lia|auto].
Qed.
Lemma zeroed_local idx ws ws' j : Forall2 (local idx) ws ws' -> ~ In (Z.of_nat (S j)) idx ->
  zeroed N ws j -> zeroed N ws' j.
Proof.
  intros H Hn. induction H as [|w w' ws ws' (L & Hl) H IH]; intros Hz u Hu; [destruct Hu|].
  destruct Hu as [<-|Hu].
  - rewrite Hl by auto. apply Hz. now left.
  - apply IH; auto. intros v Hv. apply Hz. now right.
Qed.

(** ** Invariant *)
Definition sel2_inv (P : Prop) (B : nat) (ws : list (list R)) (d : nat) (s : sel2 (R:=R)) : Prop :=
  (B = O /\ h_K (s_heap s) = O /\ shape (length ws) d (s_vecs s)) \/
  ((1 <= B)%nat /\ conf_ok (length ws) d B s /\ (P -> sparse_in N d (s_heap s) ws)).

Lemma update_dim_n d c : wf_core c -> length (c_ws (linear_update_dim N d c)) = length (c_ws c).
Proof. intros Hc. apply (wf_update_dim N d c Hc). Qed.
Lemma sel2_grow_ok P B a d c s : wf_core c -> sel2_inv P B (c_ws c) (c_dim c) s ->
  exists s1, sel2_grow N a d c s = Some (linear_update_dim N d c, s1) /\
  sel2_inv P B (c_ws (linear_update_dim N d c)) (Nat.max (c_dim c) d) s1.
Proof.
  intros Hc HI. unfold sel2_grow.
  destruct (Nat.ltb_spec (c_dim c) d) as [Hd|Hd].
  - unfold sigma_grow. replace (c_dim c <? d)%nat with true by lia. cbn [bind].
    destruct HI as [(-> & HK & Hv)|(HB & (Hv & Hsum & Hh & HN & HK) & HP)].
    + unfold heap_set_N. rewrite HK. cbn [bind]. eexists. split; [reflexivity|]. left.
      cbn [s_heap s_vecs]. rewrite update_dim_n by auto. repeat split; auto.
      * pose proof (shape_grow _ _ d a _ Hv) as (H1 & H2).
        replace (c_dim c <? d)%nat with true in * by lia. auto.
      * pose proof (shape_grow _ _ d a _ Hv) as (H1 & H2).
        replace (c_dim c <? d)%nat with true in * by lia. auto.
    + destruct (set_N_spec (s_heap s) (d - 1) Hh) as (h' & E & W & EN & EK & EP); [lia|].
      rewrite E. cbn [bind]. eexists. split; [reflexivity|]. right. rewrite update_dim_n by auto.
      split; auto. split.
      { split; [|split].
        - cbn [s_vecs]. pose proof (shape_grow _ _ d a _ Hv) as Hg.
          now replace (c_dim c <? d)%nat with true in * by lia.
        - intros Hn. cbn [s_sum]. destruct Hv as (L & _).
          assert (El : length (firstn (c_dim c) (s_sum s ++ repeat zero (c_dim c)) ++
            repeat (n_mul N (n_int N (Z.of_nat (clf_num c))) a) (d - c_dim c)) = Nat.max (c_dim c) d).
          { rewrite app_length, repeat_length, firstn_length, app_length, repeat_length. lia. }
          destruct (s_vecs s) as [|v [|v2 vs]]; auto. simpl in L. lia.
        - cbn [s_heap]. split; auto. split; lia. }
      cbn [s_heap]. intros HPp i Hi Hk. apply (sparse_grow N d c (s_heap s) Hc (HP HPp) i Hi).
      intros Hkk. apply Hk. unfold kept in *. now rewrite EP.
  - rewrite linear_grow_eq by lia. eexists. split; [reflexivity|].
    replace (Nat.max (c_dim c) d) with (c_dim c) by lia. exact HI.
Qed.

Lemma wf1 p : wf_point (R:=R) 1 p -> wf_point 0 p.
Proof. apply wf_point_weaken. lia. Qed.
Lemma feat_range p c : wf_point (R:=R) 1 p -> (Z.to_nat (x_dim p) <= c_dim c)%nat ->
  forall i, In i (map fst (feats p)) -> 1 <= i < Z.of_nat (c_dim (R:=R) c).
Proof.
  intros Hp Hd i Hi. rewrite ff in Hi by now apply wf1.
  pose proof (x_dim_below 1 p i ltac:(lia) Hp Hi). lia.
Qed.
Lemma framed_n Q (c c' : core (R:=R)) : framed Q c c' -> length (c_ws c') = length (c_ws c) /\ c_dim c' = c_dim c.
Proof. intros (H1 & H2 & _). split; auto. symmetry. eapply Forall2_len; eauto. Qed.

(** Weights and confidence: sparsity before truncation. *)
Lemma pre_truncate (P : Prop) p c c2 h h' d : framed (local (p_idx (V:=R) p)) c c2 -> heap_same h h' ->
  (P -> sparse_in N d h (c_ws c)) ->
  P -> forall j, (S j < d)%nat -> ~ In (Z.of_nat (S j)) (p_idx p) -> ~ kept h' j ->
     zeroed N (c_ws c2) j.
Proof.
  intros (_ & F & _) (_ & _ & _ & Hk) HP HPp j Hj Hin Hnk.
  eapply zeroed_local; [exact F|exact Hin|]. apply HP; auto. now rewrite <- Hk.
Qed.
(** The weight loops leave the confidence alone. *)
Lemma weights_ok f (p : point R) (c : core (R:=R)) (Ss : list (list R)) : wf_core c -> shape (length (c_ws c)) (c_dim c) Ss ->
  (forall g w Sg, In w (c_ws c) -> length Sg = c_dim c ->
     exists w', f g w Sg = Some w' /\ local (p_idx p) w w') ->
  exists c', (do (ws, _) <- each_class2 N (fun g w Sg => do w' <- f g w Sg; Some (w', Sg))
      (c_g c) (c_ws c) Ss; Some (set_ws c ws)) = Some c' /\ framed (local (p_idx p)) c c'.
Proof.
  intros Hc (L & F) Hf.
  destruct (each_class2_ok N (fun g w Sg => do w' <- f g w Sg; Some (w', Sg)) (len_is (c_dim c))
    (p_idx p) (c_g c) (c_ws c) Ss) as (ws' & Ss' & E & F' & _).
  - now apply wf_glen.
  - auto.
  - exact F.
  - intros g w Sg Hw HS. rewrite Forall_forall in F. destruct (Hf g w Sg Hw (F Sg HS)) as (w' & E & Lo).
    rewrite E. cbn [bind]. exists w', Sg. split; [reflexivity|]. split; auto.
  - rewrite E. cbn [bind]. eexists. split; [reflexivity|]. now apply framed_set_ws.
Qed.
Lemma sofs_weights_ok p c Ss : wf_point 0 p -> wf_core c -> shape (length (c_ws c)) (c_dim c) Ss ->
  exists c', sofs_weights N (feats p) c Ss = Some c' /\ framed (local (p_idx p)) c c'.
Proof.
  intros Hp Hc Hs. apply weights_ok; auto. intros g w Sg Hw HS.
  destruct (wf_len c w Hc Hw). rewrite (sigma_w_step_spec N) by (auto using fs; lia).
  eexists. split; [reflexivity|]. rewrite <- ff by auto. apply local_pstep.
Qed.
Lemma ada_ofs_weights_ok p c Ss : wf_point 0 p -> wf_core c -> shape (length (c_ws c)) (c_dim c) Ss ->
  exists c', ada_ofs_weights N (feats p) c Ss = Some c' /\ framed (local (p_idx p)) c c'.
Proof.
  intros Hp Hc Hs. apply weights_ok; auto. intros g w Sg Hw HS.
  destruct (wf_len c w Hc Hw). rewrite (ada_w_step_spec N) by (auto using fs; lia).
  eexists. split; [reflexivity|]. rewrite <- ff by auto. apply local_pstep.
Qed.
Lemma framed_len idx c c' : framed (local (R:=R) idx) c c' -> framed same_len c c'.
Proof. apply framed_local_len. Qed.

(** With one class and gradient zero the weight loop changes nothing. *)
Lemma single_zero_weights p c Ss c2 : wf_core c -> length (c_ws c2) = length (c_ws c) ->
  sofs_weights N (feats p) c Ss = Some c2 -> single_zero N c2 = true -> c_ws c2 = c_ws c.
Proof.
  intros (_ & _ & _ & Hg) Hl E Hz. unfold sofs_weights in E. destruct (each_class2 N _ _ _ _) as [(ws, es)|] eqn:Ew; cbn [bind] in E; inv E.
  unfold single_zero in Hz. cbn [c_ws c_g set_ws] in *.
  destruct (c_ws c) as [|w [|w2 ws0]]; destruct ws as [|u [|]]; try discriminate; auto.
  destruct (c_g c) as [|g [|g2 gs]]; simpl in Hg; try lia.
  cbn [each_class2] in Ew. destruct Ss as [|S0 Ss]; [discriminate|].
  rewrite Hz in Ew. cbn [bind] in Ew. destruct Ss; cbn in Ew; inv Ew; auto.
Qed.

Lemma conf_weak n d B s s' : conf_ok n d B s -> s_vecs s' = s_vecs s -> s_sum s' = s_sum s ->
  s_heap s' = s_heap s -> conf_ok n d B s'.
Proof. unfold conf_ok. intros H -> -> ->. exact H. Qed.

(** ** SOFS *)
Lemma sofs_update_ok P r B p loss c s : wf_point 1 p -> wf_core c ->
  (Z.to_nat (x_dim p) <= c_dim c)%nat -> sel2_inv P B (c_ws c) (c_dim c) s ->
  exists c' s', sofs_update N r B p loss c s = Some (c', s') /\ framed same_len c c' /\
    sel2_inv P B (c_ws c') (c_dim c) s'.
Proof.
  intros Hp Hc Hx HI. pose proof (wf1 p Hp) as Hp0. unfold sofs_update.
  destruct HI as [(-> & HK & Hv)|(HB & Hs & HP)].
  - destruct (arow_update_ok N r p loss c (s_vecs s) Hp0 Hc Hv) as (c' & vs & E & F & Hv').
    rewrite E. cbn [bind]. eexists _, _. split; [reflexivity|]. split; [eapply framed_len; eauto|].
    left. split; auto. split; auto. cbn [s_vecs]. now rewrite (proj1 (framed_n _ _ _ F)).
  - destruct B as [|B]; [lia|]. unfold arow_eta. pose proof Hs as (Hv & Hsum & Hh & HN & HK).
    destruct (variance_ok N (feats p) (negb (n_eq N (c_b0 c) zero)) (c_g c) (s_vecs s) zero) as (v & ->).
    { now apply fs. }
    { rewrite (wf_glen c Hc). destruct Hv as (L & _). lia. }
    { apply (shape_pos _ _ _ (proj1 Hc) Hv). }
    cbn [bind]. cbv zeta.
    match goal with |- context [sofs_weights N _ ?c1 _] =>
      destruct (sofs_weights_ok p c1 (s_vecs s) Hp0 Hc Hv) as (c2 & E2 & F2);
      assert (F : framed (local (p_idx p)) c c2)
        by (eapply framed_trans; [apply wrel_local|apply framed_set_eta, wrel_local|exact F2]);
      pose proof (single_zero_weights p c1 (s_vecs s) c2 Hc (proj1 (framed_n _ _ _ F2)) E2) as Hsz
    end.
    destruct (framed_wf _ _ _ (wrel_local _) F Hc) as (Hc2 & Ln). pose proof (proj1 F) as Ed.
    rewrite E2. cbn [bind]. destruct (single_zero N c2).
    + exists c2, s. split; [reflexivity|]. split; [eapply framed_len; eauto|]. right.
      rewrite (Hsz eq_refl). cbn [c_ws set_eta]. auto.
    + match goal with |- context [sel2_confidence N ?cmp ?b ?f ?w ?B0 ?x ?gs s] =>
        destruct (sel2_confidence_ok cmp b f w (c_dim c) B0 x gs s (length (c_ws c)))
          as (s1 & E1 & Hs1 & S1) end; auto.
      { apply Hc. }
      { rewrite (wf_glen c2 Hc2). auto. }
      { now apply feat_range. }
      { intros g u Hu. rewrite (arow_sigma_spec N) by (auto using fs; rewrite Hu; apply Hc).
        eexists. split; [reflexivity|]. apply pstep_length. }
      rewrite E1. cbn [bind].
      destruct (sel2_truncate_ok P (cmp_max N) p c2 s1 (S B) Hp Hc2)
        as (c3 & s3 & E3 & F3 & Hs3 & Hv3 & HP3).
      { rewrite Ed. exact Hx. }
      { rewrite Ed, Ln. exact Hs1. }
      { rewrite Ed. eapply pre_truncate; eauto. }
      rewrite Ed, Ln in Hs3. rewrite Ed in HP3.
      exists c3, s3. split; [exact E3|]. split.
      * eapply framed_trans; [apply wrel_len|eapply framed_len; eauto|exact F3].
      * right. rewrite (proj1 (framed_n _ _ _ F3)), Ln. auto.
Qed.
Lemma sel2_gsafe P B a begin upd :
  (forall p loss c s, wf_point 1 p -> wf_core c -> (Z.to_nat (x_dim p) <= c_dim c)%nat ->
     sel2_inv P B (c_ws c) (c_dim c) s ->
     exists c' s', upd p loss c s = Some (c', s') /\ framed same_len c c' /\
       sel2_inv P B (c_ws c') (c_dim c) s') ->
  gsafe N 1 (mkalg (sel2_grow N a) begin reg_begin_none prep_none margin_none upd reg_end_none
    end_none) (sel2_inv P B) (fun _ => same_len).
Proof.
  intros Hu. split; [intros; apply wrel_len|]. split.
  { intros p c s Hp Hc HI. destruct (sel2_grow_ok P B a (Z.to_nat (x_dim p)) c s Hc HI) as (s1 & E & HI').
    exists s1, s1. auto. }
  split.
  { intros p c e Hp Hc Hd HI. exists c, e. split; [reflexivity|]. split; auto.
    apply framed_refl, wrel_len. }
  split; [intros; exact I|]. split; [exact Hu|].
  intros. exists e. auto.
Qed.
Lemma gsafe_sofs P r B : gsafe N 1 (sofs N r B) (sel2_inv P B) (fun _ => same_len).
Proof. apply sel2_gsafe. intros. now apply sofs_update_ok. Qed.

(** ** AdaFOBOS_OFS *)
Lemma ada_confidence_ok delta d B p gs s n : wf_point 1 p -> (1 <= d)%nat ->
  conf_ok n d B s -> length gs = n -> (forall i, In i (map fst (feats p)) -> 1 <= i < Z.of_nat d) ->
  exists s', ada_confidence N delta B p gs s = Some s' /\ conf_ok n d B s' /\
    heap_same (s_heap s) (s_heap s').
Proof.
  intros Hp Hd Hs Hg Hi. unfold ada_confidence. eapply sel2_confidence_ok; eauto.
  intros g u Hu. rewrite (ada_H_spec N) by (try apply fs, wf1; auto; lia).
  eexists. split; [reflexivity|]. apply pstep_length.
Qed.
Lemma ada_fobos_ofs_update_ok P delta B p loss c s : wf_point 1 p -> wf_core c ->
  (Z.to_nat (x_dim p) <= c_dim c)%nat -> sel2_inv P B (c_ws c) (c_dim c) s ->
  exists c' s', ada_fobos_ofs_update N delta B p loss c s = Some (c', s') /\ framed same_len c c' /\
    sel2_inv P B (c_ws c') (c_dim c) s'.
Proof.
  intros Hp Hc Hx HI. pose proof (wf1 p Hp) as Hp0. unfold ada_fobos_ofs_update.
  destruct HI as [(-> & HK & Hv)|(HB & Hs & HP)].
  - destruct (ada_fobos_update_ok N delta p loss c (s_vecs s) Hp0 Hc Hv) as (c' & vs & E & F & Hv').
    rewrite E. cbn [bind]. eexists _, _. split; [reflexivity|]. split; [eapply framed_len; eauto|].
    left. split; auto. split; auto. cbn [s_vecs]. now rewrite (proj1 (framed_n _ _ _ F)).
  - destruct B as [|B]; [lia|]. destruct (single_zero N c).
    { exists c, s. split; [reflexivity|]. split; [apply framed_refl, wrel_len|]. right. auto. }
    destruct (ada_confidence_ok delta (c_dim c) (S B) p (c_g c) s (length (c_ws c)))
      as (s1 & E1 & Hs1 & S1); auto.
    { apply Hc. }
    { now apply wf_glen. }
    { now apply feat_range. }
    rewrite E1. cbn [bind].
    destruct (ada_ofs_weights_ok p c (s_vecs s1) Hp0 Hc (proj1 Hs1)) as (c2 & E2 & F).
    destruct (framed_wf _ _ _ (wrel_local _) F Hc) as (Hc2 & Ln). pose proof (proj1 F) as Ed.
    rewrite E2. cbn [bind].
    destruct (sel2_truncate_ok P (cmp_min N) p c2 s1 (S B) Hp Hc2)
      as (c3 & s3 & E3 & F3 & Hs3 & Hv3 & HP3).
    { rewrite Ed. exact Hx. }
    { rewrite Ed, Ln. exact Hs1. }
    { rewrite Ed. eapply pre_truncate; eauto. }
    rewrite Ed, Ln in Hs3. rewrite Ed in HP3.
    exists c3, s3. split; [exact E3|]. split.
    + eapply framed_trans; [apply wrel_len|eapply framed_len; eauto|exact F3].
    + right. rewrite (proj1 (framed_n _ _ _ F3)), Ln. auto.
Qed.
Lemma gsafe_ada_fobos_ofs P delta B :
  gsafe N 1 (ada_fobos_ofs N delta B) (sel2_inv P B) (fun _ => same_len).
Proof. apply sel2_gsafe. intros. now apply ada_fobos_ofs_update_ok. Qed.

(** ** AdaRDA_OFS *)
Definition sel2u_inv (P : Prop) (B : nat) (ws : list (list R)) (d : nat) (su : sel2u (R:=R)) : Prop :=
  sel2_inv P B ws d (fst su) /\ shape (length ws) d (snd su).
Lemma combine_shape2 n d vs us : shape (R:=R) n d vs -> shape n d us -> shape2 n d (combine vs us).
Proof.
  intros (L1 & F1) (L2 & F2). split; [rewrite combine_length; lia|].
  rewrite Forall_forall in *. intros (a, b) H.
  pose proof (in_combine_l _ _ _ _ H). pose proof (in_combine_r _ _ _ _ H). cbn. auto.
Qed.
Lemma shape2_split n d s : shape2 (R:=R) n d s -> shape n d (map fst s) /\ shape n d (map snd s).
Proof.
  intros (L & F). split; (split; [now rewrite map_length|]); rewrite Forall_forall in *; intros v Hv;
    apply in_map_iff in Hv as (x & <- & Hx); now apply F.
Qed.
Lemma sel2_inv_shape P B ws d s : sel2_inv P B ws d s -> shape (length ws) d (s_vecs s).
Proof. intros [(_ & _ & H)|(_ & (H & _) & _)]; exact H. Qed.
Lemma ada_rda_ofs_weights_ok p c Hs ut : wf_point 0 p -> wf_core c ->
  shape (length (c_ws c)) (c_dim c) Hs -> shape (length (c_ws c)) (c_dim c) ut ->
  exists c' ut', ada_rda_ofs_weights N (feats p) c Hs ut = Some (c', ut') /\
    framed (local (p_idx p)) c c' /\ shape (length (c_ws c)) (c_dim c) ut'.
Proof.
  intros Hp Hc HH Hu. unfold ada_rda_ofs_weights.
  pose proof (combine_shape2 _ _ _ _ HH Hu) as (L & F).
  match goal with |- context [each_class2 N ?f ?g ?w ?e] =>
    destruct (each_class2_ok N f (fun Hu : list R * list R => length (fst Hu) = c_dim c /\ length (snd Hu) = c_dim c)
      (p_idx p) g w e) as (ws' & es' & E & F' & L' & FJ) end; auto.
  - now apply wf_glen.
  - intros g w (H, u) Hw He. rewrite Forall_forall in F. destruct (F _ He) as (L1 & L2).
    cbn [fst snd] in *. destruct (wf_len c w Hc Hw) as (Lw & Lp).
    rewrite (ut_step_spec N) by (auto using fs; lia). cbn [bind].
    rewrite (ada_rda_assign_spec N) by (auto using fs; rewrite ?pstep_length; lia). cbn [bind].
    eexists _, _. split; [reflexivity|]. rewrite <- ff by auto. split; [apply local_pstep|].
    cbn [fst snd]. rewrite pstep_length. auto.
  - rewrite E. cbn [bind]. eexists _, _. split; [reflexivity|]. split; [now apply framed_set_ws|].
    apply shape2_split. split; auto.
Qed.
Lemma ada_rda_ofs_update_ok P delta B p loss c su : wf_point 1 p -> wf_core c ->
  (Z.to_nat (x_dim p) <= c_dim c)%nat -> sel2u_inv P B (c_ws c) (c_dim c) su ->
  exists c' su', ada_rda_ofs_update N delta B p loss c su = Some (c', su') /\ framed same_len c c' /\
    sel2u_inv P B (c_ws c') (c_dim c) su'.
Proof.
  intros Hp Hc Hx (HI & Hu). pose proof (wf1 p Hp) as Hp0. destruct su as (s, ut). cbn [fst snd] in *.
  unfold ada_rda_ofs_update.
  destruct HI as [(-> & HK & Hv)|(HB & Hs & HP)].
  - destruct (ada_rda_update_ok N delta p loss c (combine (s_vecs s) ut) Hp0 Hc) as (c' & vs & E & F & Hv').
    { now apply combine_shape2. }
    rewrite E. cbn [bind]. apply shape2_split in Hv' as (H1 & H2).
    eexists _, _. split; [reflexivity|]. split; [eapply framed_len; eauto|].
    split; cbn [fst snd]; rewrite ?(proj1 (framed_n _ _ _ F)); auto.
    left. split; auto. split; auto. cbn [s_vecs]. now rewrite (proj1 (framed_n _ _ _ F)).
  - destruct B as [|B]; [lia|]. destruct (single_zero N c).
    { eexists _, _. split; [reflexivity|]. split; [apply framed_refl, wrel_len|]. split; auto. right. auto. }
    destruct (ada_confidence_ok delta (c_dim c) (S B) p (c_g c) s (length (c_ws c)))
      as (s1 & E1 & Hs1 & S1); auto.
    { apply Hc. }
    { now apply wf_glen. }
    { now apply feat_range. }
    rewrite E1. cbn [bind].
    destruct (ada_rda_ofs_weights_ok p c (s_vecs s1) ut Hp0 Hc (proj1 Hs1) Hu) as (c2 & ut' & E2 & F & Hu').
    destruct (framed_wf _ _ _ (wrel_local _) F Hc) as (Hc2 & Ln). pose proof (proj1 F) as Ed.
    rewrite E2. cbn [bind].
    destruct (sel2_truncate_ok P (cmp_min N) p c2 s1 (S B) Hp Hc2)
      as (c3 & s3 & E3 & F3 & Hs3 & Hv3 & HP3).
    { rewrite Ed. exact Hx. }
    { rewrite Ed, Ln. exact Hs1. }
    { rewrite Ed. eapply pre_truncate; eauto. }
    rewrite Ed, Ln in Hs3. rewrite Ed in HP3. rewrite E3. cbn [bind].
    eexists _, _. split; [reflexivity|]. split.
    + eapply framed_trans; [apply wrel_len|eapply framed_len; eauto|exact F3].
    + split; cbn [fst snd]; rewrite ?(proj1 (framed_n _ _ _ F3)), ?Ln; auto.
      right. rewrite (proj1 (framed_n _ _ _ F3)), Ln. auto.
Qed.
Lemma sel2u_grow_ok P B delta d c su : wf_core c -> sel2u_inv P B (c_ws c) (c_dim c) su ->
  exists su1, ada_rda_ofs_grow N delta d c su = Some (linear_update_dim N d c, su1) /\
  sel2u_inv P B (c_ws (linear_update_dim N d c)) (Nat.max (c_dim c) d) su1.
Proof.
  intros Hc (HI & Hu). destruct su as (s, ut). cbn [fst snd] in *. unfold ada_rda_ofs_grow.
  destruct (sel2_grow_ok P B delta d c s Hc HI) as (s1 & E & HI'). rewrite E. cbn [bind].
  eexists. split; [reflexivity|]. split; auto. cbn [snd]. rewrite update_dim_n by auto.
  now apply shape_grow.
Qed.
Lemma gsafe_ada_rda_ofs P delta B :
  gsafe N 1 (ada_rda_ofs N delta B) (sel2u_inv P B) (fun _ => same_len).
Proof.
  split; [intros; apply wrel_len|]. split.
  { intros p c s Hp Hc HI. destruct (sel2u_grow_ok P B delta (Z.to_nat (x_dim p)) c s Hc HI) as (s1 & E & HI').
    exists s1, s1. auto. }
  split.
  { intros p c e Hp Hc Hd HI. exists c, e. split; [reflexivity|]. split; auto.
    apply framed_refl, wrel_len. }
  split; [intros; exact I|]. split; [intros; now apply ada_rda_ofs_update_ok|].
  intros. exists e. auto.
Qed.
End P.
