(** Proofs about the binary data format. *)
From Verif Require Import M_Base M_Compress M_Binary P_Compress.
Ltac Zify.zify_post_hook ::= Z.div_mod_to_equations.

Lemma bytes_of_length n : forall z, length (bytes_of n z) = n.
Proof. induction n as [|n IH]; intros z; cbn; [reflexivity|now rewrite IH]. Qed.

Lemma of_bytes_bytes_of n : forall z, 0 <= z < 256 ^ Z.of_nat n -> of_bytes (bytes_of n z) = z.
Proof.
  induction n as [|n IH]; intros z Hz; cbn [bytes_of of_bytes].
  - change (256 ^ Z.of_nat 0) with 1 in Hz. lia.
  - replace (Z.of_nat (S n)) with (1 + Z.of_nat n) in Hz by lia.
    rewrite Z.pow_add_r in Hz by lia. change (256 ^ 1) with 256 in Hz.
    rewrite IH; lia.
Qed.

Lemma bytes_of_vals_length vs : length (bytes_of_vals vs) = (4 * length vs)%nat.
Proof.
  induction vs as [|v vs IH]; [reflexivity|].
  cbn [bytes_of_vals]. rewrite app_length, bytes_of_length, IH. cbn [length]. lia.
Qed.

Lemma vals_of_bytes_ok vs : Forall is_u32 vs -> vals_of_bytes (length vs) (bytes_of_vals vs) = vs.
Proof.
  induction 1 as [|v vs Hv Hvs IH]; [reflexivity|].
  cbn [length vals_of_bytes bytes_of_vals].
  rewrite firstn_app, skipn_app, bytes_of_length, Nat.sub_diag.
  rewrite (firstn_all2 (bytes_of 4 v)) by (rewrite bytes_of_length; lia).
  rewrite (skipn_all2 (bytes_of 4 v)) by (rewrite bytes_of_length; lia).
  cbn [firstn skipn app]. rewrite app_nil_r, IH, of_bytes_bytes_of; [reflexivity|].
  unfold is_u32, two32 in Hv. change (256 ^ Z.of_nat 4) with 4294967296. lia.
Qed.

Lemma file_read_app a b : file_read (Z.of_nat (length a)) (a ++ b) = (Status_OK, a, b).
Proof.
  unfold file_read. rewrite app_length.
  replace (_ <=? _) with true by lia. rewrite Nat2Z.id.
  rewrite firstn_app, skipn_app, Nat.sub_diag, firstn_all, skipn_all. cbn.
  now rewrite app_nil_r.
Qed.

Lemma file_read_app' n a b : Z.of_nat (length a) = n -> file_read n (a ++ b) = (Status_OK, a, b).
Proof. intros <-. apply file_read_app. Qed.

Lemma file_read_short n a : Z.of_nat (length a) < n -> file_read n a = (Status_EndOfFile, a, []).
Proof. intros H. unfold file_read. now replace (n <=? _) with false by lia. Qed.

Lemma i32_u32 z : is_i32 z -> i32 (u32 z) = z.
Proof.
  unfold is_i32, i32, u32, two32. intros H. rewrite Z.mod_mod by lia.
  destruct (Z.ltb_spec (z mod 4294967296) 2147483648); lia.
Qed.

(** A point the writer is meant for: 32-bit label and indexes, one value per index, and small
    enough to be in memory. *)
Definition wf_point (p : point Z) : Prop :=
  is_i32 (p_label p) /\ Forall is_u32 (p_idx p) /\ Forall is_u32 (p_val p) /\
  length (p_val p) = length (p_idx p) /\ Z.of_nat (length (p_idx p)) < 2 ^ 60.

(** Structure of a record. *)
Lemma bin_write_shape p : wf_point p ->
  exists h f tl, bin_write p = Some (h ++ f ++ tl) /\
    h = bytes_of 4 (u32 (p_label p)) /\ f = bytes_of 8 (Z.of_nat (length (p_idx p))) /\
    (p_idx p = [] /\ tl = [] \/
     p_idx p <> [] /\ exists codes, comp_index (p_idx p) = Some codes /\
       decomp_index codes = Some (p_idx p) /\ Z.of_nat (length codes) < 2 ^ 63 /\
       (0 < length codes)%nat /\
       tl = bytes_of 8 (Z.of_nat (length codes)) ++ codes ++ bytes_of_vals (p_val p)).
Proof.
  intros (Hl & Hi & Hv & Hlen & Hsz). unfold bin_write.
  destruct (p_idx p) as [|x xs] eqn:Hx.
  - exists (bytes_of 4 (u32 (p_label p))), (bytes_of 8 (Z.of_nat 0)), [].
    cbn [length Nat.ltb Nat.leb]. rewrite !app_nil_r. repeat split. left; auto.
  - rewrite <- Hx in *.
    assert (Hpos : (0 <? length (p_idx p))%nat = true) by (rewrite Hx; reflexivity).
    rewrite Hpos.
    destruct (comp_total_go (p_idx p) 0) as (c & Hc & Hb & Hcl).
    destruct (comp_index_roundtrip_l _ Hi) as (c' & Hc' & _ & Hd).
    unfold comp_index in *. assert (c' = c) by congruence. subst c'.
    rewrite Hc. cbn [bind]. replace (length (p_val p) <? _)%nat with false by lia.
    rewrite <- Hlen, firstn_all.
    eexists _, _, _. split; [rewrite <- app_assoc; reflexivity|]. split; [reflexivity|].
    split; [reflexivity|]. right. split; [rewrite Hx; discriminate|].
    exists c. repeat split; try assumption; try lia.
Qed.

Lemma bin_next_ok p b rest : wf_point p -> bin_write p = Some b ->
  bin_next (b ++ rest) = Some (Status_OK, p, rest).
Proof.
  intros Hwf Hb. destruct (bin_write_shape p Hwf) as (h & f & tl & Hw & Hh & Hf & Hcase).
  rewrite Hw in Hb. injection Hb as <-.
  destruct Hwf as (Hl & Hi & Hv & Hlen & Hsz).
  unfold bin_next. rewrite <- !app_assoc.
  rewrite (file_read_app' 4 h) by (subst h; now rewrite bytes_of_length).
  rewrite (file_read_app' 8 f) by (subst f; now rewrite bytes_of_length).
  assert (Hlab : i32 (of_bytes h) = p_label p).
  { subst h. rewrite of_bytes_bytes_of.
    - now apply i32_u32.
    - unfold u32, two32. change (256 ^ Z.of_nat 4) with 4294967296. lia. }
  assert (Hfn : of_bytes f = Z.of_nat (length (p_idx p))).
  { subst f. apply of_bytes_bytes_of. change (256 ^ Z.of_nat 8) with 18446744073709551616.
    change (2 ^ 60) with 1152921504606846976 in Hsz. lia. }
  rewrite Hlab, Hfn.
  destruct Hcase as [[Hnil ->]|(Hne & codes & Hc & Hd & Hcl & Hcp & ->)].
  - rewrite Hnil. cbn [length Z.of_nat Z.ltb Z.compare]. cbn [app].
    destruct p as [l i v]; cbn in *. subst i. destruct v; [reflexivity|discriminate].
  - assert (Hpos : 0 < Z.of_nat (length (p_idx p)))
      by (destruct (p_idx p); [congruence|cbn [length]; lia]).
    replace (0 <? _) with true by lia. rewrite <- !app_assoc.
    rewrite (file_read_app' 8 (bytes_of 8 _)) by (now rewrite bytes_of_length).
    rewrite of_bytes_bytes_of by
      (change (256 ^ Z.of_nat 8) with 18446744073709551616;
       change (2 ^ 63) with 9223372036854775808 in Hcl; lia).
    rewrite file_read_app. rewrite Hd. cbn [bind]. rewrite Z.eqb_refl. cbn [negb].
    rewrite (file_read_app' (4 * _) (bytes_of_vals (p_val p))) by (rewrite bytes_of_vals_length; lia).
    rewrite <- Hlen, vals_of_bytes_ok by assumption. now destruct p.
Qed.

Lemma bin_write_total p : wf_point p -> exists b, bin_write p = Some b /\ (12 <= length b)%nat.
Proof.
  intros H. destruct (bin_write_shape p H) as (h & f & tl & Hw & -> & -> & _).
  eexists. split; [exact Hw|]. rewrite !app_length, !bytes_of_length. lia.
Qed.

Lemma bin_write_all_total ps : Forall wf_point ps -> exists b, bin_write_all ps = Some b.
Proof.
  induction 1 as [|p ps Hp Hps IH]; cbn [bin_write_all]; [eauto|].
  destruct (bin_write_total p Hp) as (a & -> & _), IH as (b & ->). cbn. eauto.
Qed.

Lemma bin_read_all_app ps : forall a rest fuel pts e, Forall wf_point ps ->
  bin_write_all ps = Some a -> bin_read_all fuel rest = Some (pts, e) ->
  bin_read_all (length ps + fuel) (a ++ rest) = Some (ps ++ pts, e).
Proof.
  induction ps as [|p ps IH]; intros a rest fuel pts e Hwf Ha Hr; cbn [bin_write_all] in Ha.
  - injection Ha as <-. exact Hr.
  - inversion Hwf as [|? ? Hp Hps]; subst.
    destruct (bin_write p) as [b1|] eqn:H1; [|discriminate].
    destruct (bin_write_all ps) as [b2|] eqn:H2; [|discriminate].
    cbn [bind] in Ha. injection Ha as <-. rewrite <- app_assoc.
    cbn [length Nat.add bin_read_all]. rewrite (bin_next_ok p b1 _ Hp H1). cbn [bind].
    rewrite (IH b2 rest fuel pts e) by auto. reflexivity.
Qed.

Lemma bin_read_all_mono fuel : forall fuel' file r, (fuel <= fuel')%nat ->
  bin_read_all fuel file = Some r -> bin_read_all fuel' file = Some r.
Proof.
  induction fuel as [|f IH]; intros fuel' file r Hle H; [discriminate|].
  destruct fuel' as [|f']; [lia|]. cbn [bin_read_all] in *.
  destruct (bin_next file) as [[[st p] file']|]; [|discriminate]. cbn [bind] in *.
  destruct st; try exact H.
  destruct (bin_read_all f file') as [[ps e]|] eqn:E; [|discriminate].
  rewrite (IH f' file' _ ltac:(lia) E). exact H.
Qed.

Lemma bin_write_all_length ps : forall a, Forall wf_point ps -> bin_write_all ps = Some a ->
  (length ps <= length a)%nat.
Proof.
  induction ps as [|p ps IH]; intros a Hwf Ha; cbn [bin_write_all length] in *; [lia|].
  inversion Hwf; subst.
  destruct (bin_write_total p) as (b & Hb & Hl); [assumption|]. rewrite Hb in Ha.
  destruct (bin_write_all ps) as [b2|] eqn:E2; [|discriminate].
  cbn [bind] in Ha. injection Ha as <-. rewrite app_length.
  specialize (IH b2 ltac:(assumption) eq_refl). lia.
Qed.

Lemma bin_read_file_app ps a rest pts e : Forall wf_point ps -> bin_write_all ps = Some a ->
  bin_read_all (S (length rest)) rest = Some (pts, e) ->
  bin_read_file (a ++ rest) = Some (ps ++ pts, e).
Proof.
  intros Hwf Ha Hr. unfold bin_read_file.
  eapply bin_read_all_mono; [|eapply bin_read_all_app; eassumption].
  rewrite app_length. pose proof (bin_write_all_length ps a Hwf Ha). lia.
Qed.

Lemma binary_roundtrip_l ps : Forall wf_point ps ->
  exists file, bin_write_all ps = Some file /\ bin_read_file file = Some (ps, Status_EndOfFile).
Proof.
  intros H. destruct (bin_write_all_total ps H) as (a & Ha).
  exists a. split; [exact Ha|].
  pose proof (bin_read_file_app ps a [] [] Status_EndOfFile H Ha eq_refl) as E.
  now rewrite !app_nil_r in E.
Qed.

Lemma firstn_app_le {A} c (a b : list A) : (length a <= c)%nat ->
  firstn c (a ++ b) = a ++ firstn (c - length a) b.
Proof. intros H. rewrite firstn_app. now rewrite firstn_all2 by lia. Qed.

(** One record cut inside: what the reader makes of it. *)
Lemma bin_next_cut p b c : wf_point p -> bin_write p = Some b -> (0 < c < length b)%nat ->
  bin_next (firstn c b) =
    Some (if (c <? 4)%nat then (Status_EndOfFile, mkpt 0 [] [], [])
          else if (c <? 12)%nat then (Status_OK, mkpt (p_label p) [] [], [])
          else (Status_Invalid_Format, mkpt (p_label p) [] [], [])).
Proof.
  intros Hwf Hb Hc. destruct (bin_write_shape p Hwf) as (h & f & tl & Hw & Hh & Hf & Hcase).
  rewrite Hw in Hb. injection Hb as <-.
  destruct Hwf as (Hl & Hi & Hv & Hlen & Hsz).
  assert (Lh : length h = 4%nat) by (subst h; apply bytes_of_length).
  assert (Lf : length f = 8%nat) by (subst f; apply bytes_of_length).
  assert (Hlab : i32 (of_bytes h) = p_label p).
  { subst h. rewrite of_bytes_bytes_of.
    - now apply i32_u32.
    - unfold u32, two32. change (256 ^ Z.of_nat 4) with 4294967296. lia. }
  assert (Hfn : of_bytes f = Z.of_nat (length (p_idx p))).
  { subst f. apply of_bytes_bytes_of. change (256 ^ Z.of_nat 8) with 18446744073709551616.
    change (2 ^ 60) with 1152921504606846976 in Hsz. lia. }
  rewrite !app_length in Hc. unfold bin_next.
  destruct (Nat.ltb_spec c 4) as [H4|H4].
  - rewrite file_read_short by (rewrite firstn_length; lia). reflexivity.
  - rewrite firstn_app_le by lia.
    rewrite (file_read_app' 4 h) by lia. rewrite Hlab.
    destruct (Nat.ltb_spec c 12) as [H12|H12].
    + rewrite file_read_short; [reflexivity|].
      rewrite firstn_length, app_length. lia.
    + rewrite firstn_app_le by lia.
      rewrite (file_read_app' 8 f) by lia. rewrite Hfn.
      destruct Hcase as [[Hnil ->]|(Hne & codes & Hcomp & Hd & Hcl & Hcp & ->)].
      * cbn [length] in Hc. lia.
      * assert (Hpos : 0 < Z.of_nat (length (p_idx p)))
          by (destruct (p_idx p); [congruence|cbn [length]; lia]).
        replace (0 <? _) with true by lia.
        rewrite !app_length, !bytes_of_length, bytes_of_vals_length in Hc.
        set (k := (c - length h - length f)%nat).
        destruct (Nat.ltb_spec k 8) as [H8|H8].
        { rewrite file_read_short; [reflexivity|].
          rewrite firstn_length, !app_length, bytes_of_length. lia. }
        rewrite firstn_app_le by (rewrite bytes_of_length; lia).
        rewrite (file_read_app' 8 (bytes_of 8 _)) by (now rewrite bytes_of_length).
        rewrite of_bytes_bytes_of by
          (change (256 ^ Z.of_nat 8) with 18446744073709551616;
           change (2 ^ 63) with 9223372036854775808 in Hcl; lia).
        rewrite bytes_of_length.
        destruct (Nat.ltb_spec (k - 8) (length codes)) as [Hcd|Hcd].
        { rewrite file_read_short; [reflexivity|]. rewrite firstn_length. lia. }
        rewrite firstn_app_le by lia. rewrite file_read_app, Hd. cbn [bind].
        rewrite Z.eqb_refl. cbn [negb].
        rewrite file_read_short; [reflexivity|].
        rewrite firstn_length, bytes_of_vals_length. lia.
Qed.

Lemma binary_truncation_l pre p a b c : Forall wf_point pre -> wf_point p ->
  bin_write_all pre = Some a -> bin_write p = Some b -> (0 < c < length b)%nat ->
  bin_read_file (a ++ firstn c b) =
    Some (pre ++ (if andb (4 <=? c)%nat (c <? 12)%nat then [mkpt (p_label p) [] []] else []),
          if (c <? 12)%nat then Status_EndOfFile else Status_Invalid_Format).
Proof.
  intros Hpre Hp Ha Hb Hc. apply bin_read_file_app; try assumption.
  cbn [bin_read_all]. rewrite (bin_next_cut p b c Hp Hb Hc).
  destruct (Nat.ltb_spec c 4) as [H4|H4].
  - replace (4 <=? c)%nat with false by lia. replace (c <? 12)%nat with true by lia. reflexivity.
  - replace (4 <=? c)%nat with true by lia.
    destruct (Nat.ltb_spec c 12) as [H12|H12]; cbn [bind andb]; [|reflexivity].
    replace (length (firstn c b)) with (S (pred c)) by (rewrite firstn_length; lia).
    reflexivity.
Qed.


Lemma binary_truncation_refuted_l : exists ps file k pts st,
  Forall wf_point ps /\ bin_write_all ps = Some file /\ (k < length file)%nat /\
  bin_read_file (firstn k file) = Some (pts, st) /\ (forall n, pts <> firstn n ps).
Proof.
  eexists [mkpt 1 [3] [1065353216]], _, 6%nat, _, _.
  split.
  { repeat apply Forall_cons; try apply Forall_nil. unfold wf_point; cbn [p_label p_idx p_val length].
    (split; [cbv; intuition congruence|]); (split; [repeat constructor; cbv; intuition congruence|]);
    (split; [repeat constructor; cbv; intuition congruence|]); split; reflexivity. }
  split; [vm_compute; reflexivity|]. split; [cbn [length]; lia|].
  split; [vm_compute; reflexivity|]. intros [|[|n]]; cbn; discriminate.
Qed.

(** Every position of a file lies in exactly one record, or at the end. *)
Lemma cut_split ps : forall file k, bin_write_all ps = Some file -> (k <= length file)%nat ->
  (k = length file) \/
  exists ps1 p ps2 a b c, ps = ps1 ++ p :: ps2 /\ bin_write_all ps1 = Some a /\ bin_write p = Some b /\
    (c < length b)%nat /\ k = (length a + c)%nat /\ firstn k file = a ++ firstn c b.
Proof.
  induction ps as [|p ps IH]; intros file k H Hk; cbn [bin_write_all] in H.
  - injection H as <-. left. cbn in *. lia.
  - destruct (bin_write p) as [b1|] eqn:E1; [|discriminate]. cbn [bind] in H.
    destruct (bin_write_all ps) as [b2|] eqn:E2; [|discriminate]. cbn [bind] in H. injection H as <-.
    rewrite app_length in Hk. destruct (le_lt_dec (length b1) k) as [Hle|Hlt].
    + destruct (IH b2 (k - length b1)%nat eq_refl ltac:(lia)) as [E|(ps1 & q & ps2 & a & b & c & -> & Ea & Eb & Hc & Ek & Ef)].
      * left. rewrite app_length. lia.
      * right. exists (p :: ps1), q, ps2, (b1 ++ a), b, c. split; [reflexivity|]. cbn [bin_write_all]. rewrite E1, Ea. cbn [bind].
        split; [reflexivity|]. split; [exact Eb|]. split; [exact Hc|]. rewrite app_length. split; [lia|].
        rewrite firstn_app, firstn_all2 by lia. rewrite Ef. now rewrite app_assoc.
    + right. exists [], p, ps, [], b1, k. split; [reflexivity|]. split; [reflexivity|]. split; [exact E1|]. split; [exact Hlt|].
      split; [reflexivity|]. rewrite firstn_app. replace (k - length b1)%nat with 0%nat by lia. cbn. now rewrite app_nil_r.
Qed.
Lemma binary_every_cut_l ps file k : Forall wf_point ps -> bin_write_all ps = Some file -> (k <= length file)%nat ->
  exists n a st, (n <= length ps)%nat /\ bin_write_all (firstn n ps) = Some a /\ (length a <= k)%nat /\
    (forall b, bin_write_all (firstn (S n) ps) = Some b -> (n < length ps)%nat -> (k < length b)%nat) /\ st <> Status_OK /\
    (bin_read_file (firstn k file) = Some (firstn n ps, st) \/
     ((length a + 4 <= k < length a + 12)%nat /\ exists p, nth_error ps n = Some p /\
      bin_read_file (firstn k file) = Some (firstn n ps ++ [mkpt (p_label p) [] []], Status_EndOfFile))).
Proof.
  intros Hwf Hf Hk. destruct (cut_split ps file k Hf Hk) as [->|(ps1 & p & ps2 & a & b & c & -> & Ea & Eb & Hc & -> & Ef)].
  - exists (length ps), file, Status_EndOfFile. rewrite !firstn_all. split; [lia|]. split; [exact Hf|]. split; [lia|]. split; [lia|]. split; [discriminate|].
    left. destruct (binary_roundtrip_l ps Hwf) as (f2 & E2 & E3). rewrite Hf in E2. injection E2 as <-. exact E3.
  - assert (F1 : firstn (length ps1) (ps1 ++ p :: ps2) = ps1) by (rewrite firstn_app, Nat.sub_diag, firstn_all; cbn; apply app_nil_r).
    assert (F2 : firstn (S (length ps1)) (ps1 ++ p :: ps2) = ps1 ++ [p]).
    { rewrite firstn_app, firstn_all2 by lia. replace (S (length ps1) - length ps1)%nat with 1%nat by lia. reflexivity. }
    apply Forall_app in Hwf as (Hw1 & Hw2). inversion Hw2; subst.
    assert (W : bin_write_all (ps1 ++ [p]) = Some (a ++ b)).
    { clear -Ea Eb. revert a Ea. induction ps1 as [|q ps1 IH]; intros a Ea; cbn [bin_write_all app] in *.
      - injection Ea as <-. rewrite Eb. cbn. now rewrite app_nil_r.
      - destruct (bin_write q) as [bq|]; [|discriminate]. cbn [bind] in *. destruct (bin_write_all ps1) as [a1|]; [|discriminate]. cbn [bind] in *. injection Ea as <-.
        rewrite (IH a1 eq_refl). cbn [bind]. now rewrite app_assoc. }
    exists (length ps1), a. rewrite F1, F2, Ef.
    destruct c as [|c].
    + exists Status_EndOfFile. split; [rewrite app_length; lia|]. split; [exact Ea|]. split; [lia|]. split; [intros b' Eb'; rewrite W in Eb'; injection Eb' as <-; intros _; rewrite app_length; lia|].
      split; [discriminate|]. left. cbn [firstn]. rewrite app_nil_r. destruct (binary_roundtrip_l ps1 Hw1) as (f2 & E2 & E3). rewrite Ea in E2. injection E2 as <-. exact E3.
    + pose proof (binary_truncation_l ps1 p a b (S c) Hw1 H1 Ea Eb ltac:(lia)) as T.
      exists (if (S c <? 12)%nat then Status_EndOfFile else Status_Invalid_Format).
      split; [rewrite app_length; lia|]. split; [exact Ea|]. split; [lia|]. split; [intros b' Eb'; rewrite W in Eb'; injection Eb' as <-; intros _; rewrite app_length; lia|].
      split; [destruct (_ <? _)%nat; discriminate|]. rewrite T.
      destruct (Nat.leb_spec 4 (S c)); [destruct (Nat.ltb_spec (S c) 12)|]; cbn [andb].
      * right. split; [lia|]. exists p. split; [|reflexivity]. rewrite nth_error_app2, Nat.sub_diag by lia. reflexivity.
      * left. now rewrite app_nil_r.
      * left. now rewrite app_nil_r.
Qed.
