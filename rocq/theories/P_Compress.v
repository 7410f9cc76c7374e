(** Proofs about the index codec. *)
From Verif Require Import M_Base M_Compress.
Ltac Zify.zify_post_hook ::= Z.div_mod_to_equations.

Lemma land_127 i : Z.land i 127 = i mod 128.
Proof. change 127 with (Z.ones 7). now rewrite Z.land_ones. Qed.

Lemma lor_disjoint a b n : 0 <= n -> 0 <= a < 2 ^ n -> Z.lor a (b * 2 ^ n) = a + b * 2 ^ n.
Proof.
  intros Hn Ha.
  assert (Hd : Z.land a (b * 2 ^ n) = 0).
  { rewrite <- Z.shiftl_mul_pow2 by lia.
    apply Z.bits_inj'. intros m Hm. rewrite Z.land_spec, Z.bits_0.
    destruct (Z_lt_le_dec m n) as [Hlt|Hge].
    - rewrite Z.shiftl_spec_low by lia. apply andb_false_r.
    - assert (Ht : Z.testbit a m = false).
      { destruct (Z.eq_dec a 0) as [->|Hnz]; [apply Z.bits_0|].
        apply Z.bits_above_log2; [lia|].
        apply Z.log2_lt_pow2; [lia|]. apply Z.lt_le_trans with (2 ^ n); [lia|].
        apply Z.pow_le_mono_r; lia. }
      now rewrite Ht. }
  rewrite <- Z.lxor_lor by exact Hd. symmetry. now apply Z.add_nocarry_lxor.
Qed.

Lemma cont_byte i : Z.lor (Z.land i 127) 128 = i mod 128 + 128.
Proof.
  rewrite land_127. pose proof (lor_disjoint (i mod 128) 1 7 ltac:(lia)) as H.
  change (1 * 2 ^ 7) with 128 in H. apply H. change (2 ^ 7) with 128. lia.
Qed.

Lemma land_128_small b : 0 <= b < 128 -> Z.land b 128 = 0.
Proof.
  intros Hb. change 128 with (2 ^ 7).
  apply Z.bits_inj'. intros m Hm. rewrite Z.land_spec, Z.bits_0.
  destruct (Z.eq_dec m 7) as [->|Hne].
  - assert (Ht : Z.testbit b 7 = false).
    { destruct (Z.eq_dec b 0) as [->|Hnz]; [apply Z.bits_0|].
      apply Z.bits_above_log2; [lia|]. apply Z.log2_lt_pow2; [lia|].
      change (2 ^ 7) with 128. lia. }
    now rewrite Ht.
  - rewrite Z.pow2_bits_false by lia. apply andb_false_r.
Qed.

Lemma land_128_cont b : 0 <= b < 128 -> Z.land (b + 128) 128 = 128.
Proof.
  intros Hb.
  assert (H : Z.lor b (1 * 2 ^ 7) = b + 1 * 2 ^ 7)
    by (apply lor_disjoint; [lia|change (2^7) with 128; lia]).
  change (1 * 2 ^ 7) with 128 in H. rewrite <- H.
  rewrite Z.land_lor_distr_l, land_128_small by lia. reflexivity.
Qed.

Lemma land_127_cont b : 0 <= b < 128 -> Z.land (b + 128) 127 = b.
Proof. intros Hb. rewrite land_127. lia. Qed.

(** Sign extension performed by the decoder. *)
Definition sx (i : Z) : Z := u64 (i32 i).

Lemma sx_u32 i l : is_u32 i -> u32 (sx i + l) = u32 (i + l).
Proof.
  unfold is_u32, sx, u32, u64, i32, two32, two64. intros H.
  rewrite (Z.mod_small i) by lia.
  destruct (Z.ltb_spec i 2147483648); lia.
Qed.

Lemma shl_int_ok v c : 0 <= v < 128 -> 0 <= c <= 4 -> v * 2 ^ (7 * c) < two32 ->
  shl_int v (7 * c) = Some (sx (v * 2 ^ (7 * c))).
Proof.
  intros Hv Hc Hx. unfold shl_int, sx.
  replace (32 <=? 7 * c) with false by lia.
  now replace (v * 2 ^ (7 * c) <? two32) with true by lia.
Qed.

Lemma lor_sx acc v c : 0 <= v < 128 -> 0 <= c <= 4 -> v * 2 ^ (7 * c) < two32 ->
  0 <= acc < 2 ^ (7 * c) ->
  Z.lor acc (sx (v * 2 ^ (7 * c))) = sx (acc + v * 2 ^ (7 * c)).
Proof.
  intros Hv Hc Hx Ha.
  assert (Hm : exists k, sx (v * 2 ^ (7 * c)) = k * 2 ^ (7 * c) /\
                         sx (acc + v * 2 ^ (7 * c)) = acc + k * 2 ^ (7 * c)).
  { unfold sx, u64, i32, two64, two32 in *.
    assert (c = 0 \/ c = 1 \/ c = 2 \/ c = 3 \/ c = 4) as Hc' by lia.
    set (q := 2 ^ (7 * c)) in *.
    assert (Hq : q = 1 \/ q = 128 \/ q = 16384 \/ q = 2097152 \/ q = 268435456).
    { subst q. destruct Hc' as [->|[->|[->|[->| ->]]]]; cbn; lia. }
    clearbody q.
    rewrite (Z.mod_small (v * q)) by (destruct Hq as [->|[->|[->|[->| ->]]]]; lia).
    rewrite (Z.mod_small (acc + v * q)) by (destruct Hq as [->|[->|[->|[->| ->]]]]; lia).
    destruct (Z.ltb_spec (v * q) 2147483648).
    - exists v. replace (acc + v * q <? 2147483648) with true
        by (destruct Hq as [->|[->|[->|[->| ->]]]]; lia).
      rewrite !Z.mod_small by (destruct Hq as [->|[->|[->|[->| ->]]]]; lia). lia.
    - replace (acc + v * q <? 2147483648) with false by lia.
      destruct Hq as [->|[->|[->|[->| ->]]]]; try lia.
      exists (v + 68719476720). lia. }
  destruct Hm as (k & -> & ->). apply lor_disjoint; lia.
Qed.

Lemma encode_go_nonempty fuel i c : run_len_encode_go fuel i = Some c -> c <> [].
Proof.
  destruct fuel; cbn [run_len_encode_go]; [discriminate|]. destruct (128 <=? i).
  - destruct (run_len_encode_go fuel (Z.shiftr i 7)); cbn [bind]; intros H; inversion H; discriminate.
  - intros H; inversion H; discriminate.
Qed.

Lemma encode_go_total fuel : forall i, 0 <= i < 2 ^ (7 * Z.of_nat fuel) -> (0 < fuel)%nat ->
  exists c, run_len_encode_go fuel i = Some c /\ (1 <= length c <= fuel)%nat /\ Forall is_byte c
            /\ (forall k : nat, (0 < k)%nat -> i < 2 ^ (7 * Z.of_nat k) -> (length c <= k)%nat).
Proof.
  induction fuel as [|f IH]; intros i Hi Hf; [lia|].
  cbn [run_len_encode_go]. destruct (Z.leb_spec 128 i).
  - assert (f <> O).
    { intros ->. change (2 ^ (7 * Z.of_nat 1)) with 128 in Hi. lia. }
    rewrite Z.shiftr_div_pow2 by lia. change (2 ^ 7) with 128.
    replace (7 * Z.of_nat (S f)) with (7 + 7 * Z.of_nat f) in Hi by lia.
    rewrite Z.pow_add_r in Hi by lia. change (2 ^ 7) with 128 in Hi.
    destruct (IH (i / 128)) as (c & Hc & Hl & Hb & Hk); [lia|lia|].
    rewrite Hc. cbn [bind]. eexists. split; [reflexivity|]. cbn [length]. split; [lia|]. split.
    + constructor; [|exact Hb]. rewrite cont_byte. unfold is_byte. lia.
    + intros k Hk0 Hik. destruct k as [|k]; [lia|].
      destruct k as [|k]; [change (2 ^ (7 * Z.of_nat 1)) with 128 in Hik; lia|].
      enough (length c <= S k)%nat by lia. apply Hk; [lia|].
      replace (7 * Z.of_nat (S (S k))) with (7 + 7 * Z.of_nat (S k)) in Hik by lia.
      rewrite Z.pow_add_r in Hik by lia. change (2 ^ 7) with 128 in Hik. lia.
  - eexists. split; [reflexivity|]. cbn [length]. split; [lia|]. split.
    + constructor; [|constructor]. rewrite land_127. unfold is_byte; lia.
    + lia.
Qed.

Lemma encode_total i : 0 <= i < two64 ->
  exists c, run_len_encode i = Some c /\ (1 <= length c <= 10)%nat /\ Forall is_byte c /\
            (i < two32 -> (length c <= 5)%nat).
Proof.
  intros Hi. destruct (encode_go_total 10 i) as (c & Hc & Hl & Hb & Hk);
    [unfold two64 in *; change (2 ^ (7 * Z.of_nat 10)) with 1180591620717411303424; lia|lia|].
  exists c. split; [exact Hc|]. split; [exact Hl|]. split; [exact Hb|].
  intros H. apply Hk; [lia|]. unfold two32 in *. change (2 ^ (7 * Z.of_nat 5)) with 34359738368. lia.
Qed.

Lemma decode_encode_go fuel : forall i c cnt acc rest,
  run_len_encode_go fuel i = Some c ->
  0 <= cnt <= 4 -> 0 <= i -> i * 2 ^ (7 * cnt) < two32 -> 0 <= acc < 2 ^ (7 * cnt) ->
  run_len_decode_go (c ++ rest) cnt acc = Some (sx (acc + i * 2 ^ (7 * cnt)), rest).
Proof.
  induction fuel as [|f IH]; intros i c cnt acc rest He Hc Hi Hx Ha; [discriminate|].
  cbn [run_len_encode_go] in He.
  assert (Hp : 0 < 2 ^ (7 * cnt)) by (apply Z.pow_pos_nonneg; lia).
  destruct (Z.leb_spec 128 i) as [Hge|Hlt].
  - destruct (run_len_encode_go f (Z.shiftr i 7)) as [r|] eqn:Hr; [|discriminate].
    cbn [bind] in He. injection He as <-. cbn [app run_len_decode_go].
    rewrite cont_byte, land_128_cont, land_127_cont by lia.
    change (128 =? 0) with false. cbn [negb].
    rewrite Z.shiftr_div_pow2 in Hr by lia. change (2 ^ 7) with 128 in Hr.
    assert (Hc3 : cnt <= 3).
    { destruct (Z.eq_dec cnt 4) as [->|]; [|lia]. exfalso.
      change (2 ^ (7 * 4)) with 268435456 in Hx. unfold two32 in Hx. lia. }
    assert (Hsm : (i mod 128) * 2 ^ (7 * cnt) < 2147483648).
    { assert (cnt = 0 \/ cnt = 1 \/ cnt = 2 \/ cnt = 3) as Hc' by lia.
      destruct Hc' as [->|[->|[->| ->]]];
      [change (2 ^ (7*0)) with 1|change (2 ^ (7*1)) with 128
      |change (2 ^ (7*2)) with 16384|change (2 ^ (7*3)) with 2097152]; lia. }
    rewrite shl_int_ok by (unfold two32; lia). cbn [bind].
    assert (Hsx : sx (i mod 128 * 2 ^ (7 * cnt)) = i mod 128 * 2 ^ (7 * cnt)).
    { unfold sx, u64, i32, two64, two32. assert (0 <= i mod 128 * 2 ^ (7 * cnt)) by nia.
      rewrite (Z.mod_small _ 4294967296) by lia.
      replace (_ <? 2147483648) with true by lia. rewrite Z.mod_small; lia. }
    rewrite Hsx, lor_disjoint by lia.
    assert (Hpow : 2 ^ (7 * (cnt + 1)) = 128 * 2 ^ (7 * cnt)).
    { replace (7 * (cnt + 1)) with (7 + 7 * cnt) by lia. now rewrite Z.pow_add_r by lia. }
    pose proof (Z.div_mod i 128 ltac:(lia)) as Hdm.
    assert (Hm : 0 <= i mod 128 < 128) by lia.
    assert (H1 : i / 128 * 2 ^ (7 * (cnt + 1)) < two32) by (rewrite Hpow; nia).
    assert (H2 : 0 <= acc + i mod 128 * 2 ^ (7 * cnt) < 2 ^ (7 * (cnt + 1))) by (rewrite Hpow; nia).
    rewrite (IH (i / 128) r (cnt + 1) _ rest Hr ltac:(lia) ltac:(lia) H1 H2).
    rewrite Hpow. do 3 f_equal. nia.
  - injection He as <-. cbn [app run_len_decode_go].
    rewrite land_127, Z.mod_small by lia. rewrite land_128_small by lia.
    cbn [negb Z.eqb]. rewrite shl_int_ok by lia. cbn [bind]. now rewrite lor_sx by lia.
Qed.

Lemma decode_encode i c rest : is_u32 i -> run_len_encode i = Some c ->
  run_len_decode (c ++ rest) = Some (sx i, rest).
Proof.
  intros Hi Hc. unfold run_len_decode. unfold is_u32 in Hi.
  rewrite (decode_encode_go 10 i c 0 0 rest Hc); change (2 ^ (7 * 0)) with 1; try lia.
  do 3 f_equal. lia.
Qed.

Lemma comp_total_go xs : forall last, exists c, comp_index_go last xs = Some c /\ Forall is_byte c
   /\ (length xs <= length c <= 5 * length xs)%nat.
Proof.
  induction xs as [|x xs IH]; intros last; cbn [comp_index_go].
  - exists []. repeat split; auto.
  - destruct (encode_total (u32 (x - last))) as (c & Hc & Hl & Hb & H5);
      [unfold u32, two32, two64; lia|].
    destruct (IH x) as (cs & Hcs & Hbs & Hls). rewrite Hc, Hcs. cbn [bind].
    eexists. split; [reflexivity|]. split; [now apply Forall_app|].
    rewrite app_length. cbn [length].
    assert (length c <= 5)%nat by (apply H5; unfold u32, two32; lia). lia.
Qed.

Lemma decomp_comp_go xs : forall last last' fuel c,
  Forall is_u32 xs -> 0 <= last' < two64 -> u32 last' = u32 last ->
  comp_index_go last xs = Some c -> (length c <= fuel)%nat ->
  decomp_index_go fuel last' c = Some xs.
Proof.
  induction xs as [|x xs IH]; intros last last' fuel c Hxs Hl Heq Hc Hf.
  - cbn in Hc. injection Hc as <-. destruct fuel; reflexivity.
  - cbn [comp_index_go] in Hc.
    inversion Hxs as [|? ? Hx Hxs']; subst.
    destruct (run_len_encode (u32 (x - last))) as [c1|] eqn:H1; [|discriminate].
    cbn [bind] in Hc.
    destruct (comp_index_go x xs) as [c2|] eqn:H2; [|discriminate].
    cbn [bind] in Hc. injection Hc as <-.
    assert (Hne : c1 <> []) by (eapply encode_go_nonempty; exact H1).
    assert (Hlen : (0 < length c1)%nat) by (destruct c1; [congruence|cbn; lia]).
    rewrite app_length in Hf.
    destruct fuel as [|f]; [lia|].
    destruct c1 as [|b c1]; [congruence|]. cbn [app].
    change (decomp_index_go (S f) last' (b :: c1 ++ c2)) with
      (do (d, r) <- run_len_decode ((b :: c1) ++ c2);
       let index := u64 (d + last') in
       do ys <- decomp_index_go f index r; Some (u32 index :: ys)).
    rewrite (decode_encode (u32 (x - last)) (b :: c1) c2); [|unfold is_u32, u32, two32; lia|exact H1].
    cbn [bind]. cbn zeta.
    assert (Hu : u32 (u64 (sx (u32 (x - last)) + last')) = x).
    { assert (E : u32 (u64 (sx (u32 (x - last)) + last')) = u32 (sx (u32 (x - last)) + last')).
      { unfold u32, u64, two32, two64. lia. }
      rewrite E, sx_u32 by (unfold is_u32, u32, two32; lia).
      unfold u32, is_u32, two32 in *. lia. }
    rewrite (IH x (u64 (sx (u32 (x - last)) + last')) f c2); try assumption.
    + cbn [bind]. now rewrite Hu.
    + unfold u64, two64. lia.
    + rewrite Hu. unfold u32, is_u32, two32 in *. lia.
    + cbn [length] in Hf. lia.
Qed.

Lemma comp_index_roundtrip_l xs : Forall is_u32 xs ->
  exists c, comp_index xs = Some c /\ Forall is_byte c /\ decomp_index c = Some xs.
Proof.
  intros H. destruct (comp_total_go xs 0) as (c & Hc & Hb & _).
  exists c. split; [exact Hc|]. split; [exact Hb|].
  unfold decomp_index. eapply (decomp_comp_go xs 0 0); eauto; unfold two64; lia.
Qed.

(** Decoder over-read: every buffer made only of continuation bytes. *)
Lemma decode_overread_go bs : forall cnt acc, Forall (fun b => 128 <= b < 256) bs ->
  run_len_decode_go bs cnt acc = None.
Proof.
  induction bs as [|b bs IH]; intros cnt acc H; [reflexivity|].
  inversion H as [|? ? Hb Hbs]; subst. cbn [run_len_decode_go].
  replace b with ((b - 128) + 128) by lia.
  rewrite land_128_cont by lia. change (128 =? 0) with false. cbn [negb].
  destruct (shl_int _ _); cbn [bind]; auto.
Qed.

Lemma decode_self_delimiting_l i c rest : is_u32 i -> run_len_encode i = Some c ->
  exists v, run_len_decode (c ++ rest) = Some (v, rest) /\ u32 v = i.
Proof.
  intros Hi Hc. exists (sx i). split; [now apply decode_encode|].
  pose proof (sx_u32 i 0 Hi) as H. rewrite !Z.add_0_r in H. rewrite H.
  unfold u32, is_u32, two32 in *. lia.
Qed.

Lemma decode_overread_l : exists bs, bs <> [] /\ Forall is_byte bs /\ run_len_decode bs = None.
Proof.
  exists [130]. split; [discriminate|]. split; [repeat constructor; cbv; congruence|].
  vm_compute. reflexivity.
Qed.
