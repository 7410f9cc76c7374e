(** C56: a feature list file selects exactly the listed features. *)
From Verif Require Import M_Base M_Text M_Str M_Num M_Expr M_Loss M_Online S_Filter P_DataPoint P_Str M_Filter P_Filter.
From Coq Require Import Lia.

Section F.
Context {R : Type}.
Variable N : num R.

(** After the file was loaded, an example keeps the value of a feature if its index is listed and has it
    replaced by zero otherwise. *)
Theorem C56_selection (es : list entry) (nl : bool) : Forall entry_ok es -> chosen es <> [] ->
  exists flags, load_presel (Some (file_of es nl)) = SelOk flags /\
    forall p : point R, length (p_idx p) = length (p_val p) -> Forall (fun i => 0 <= i) (p_idx p) ->
      p_label (filter_features N (Some flags) p) = p_label p /\ p_idx (filter_features N (Some flags) p) = p_idx p /\
      forall j, (j < length (p_idx p))%nat ->
        nth j (p_val (filter_features N (Some flags) p)) (zero N) =
          if in_dec Z.eq_dec (nth j (p_idx p) 0) (chosen es) then nth j (p_val p) (zero N) else zero N.
Proof.
  intros H Hne. cbn [load_presel]. rewrite get_lines_file by auto.
  rewrite <- (app_nil_r (map entry_text es)), sel_entries by auto. cbn [app sel_lines].
  assert (HR := chosen_range es H). destruct (chosen es) as [|i r] eqn:Ec; [congruence|]. clear Hne.
  unfold build_flags. destruct (max_bound r i) as (M1 & M2). set (m := fold_left Z.max r i) in *.
  assert (Hm : 1 <= m <= 2147483647) by (eapply Forall_forall in HR; [|exact M2]; exact HR).
  unfold u32, two32. rewrite Z.mod_small by lia.
  destruct (set_flags_ok (i :: r) (repeat false (Z.to_nat (m + 1)))) as (fl & -> & L & G).
  { apply Forall_forall. intros x Hx. rewrite repeat_length. assert (x <= m) by auto. eapply Forall_forall in HR; [|exact Hx]. cbn in HR. lia. }
  exists fl. split; [reflexivity|]. intros p Hl Hp. cbn [filter_features p_label p_idx p_val]. split; [auto|]. split; [auto|]. intros j Hj.
  rewrite repeat_length in L.
  assert (E : nth j (map (filter_value N fl) (feats p)) (filter_value N fl (0, zero N)) = filter_value N fl (nth j (p_idx p) 0, nth j (p_val p) (zero N))).
  { rewrite map_nth. unfold feats. rewrite combine_nth by auto. reflexivity. }
  rewrite (nth_indep _ _ (filter_value N fl (0, zero N))) by (rewrite map_length; unfold feats; rewrite combine_length; lia).
  rewrite E. unfold filter_value. set (x := nth j (p_idx p) 0). assert (Hx : 0 <= x). { eapply Forall_forall in Hp; [exact Hp|]. apply nth_In. auto. }
  rewrite L, (G x Hx).
  assert (Hf : nth (Z.to_nat x) (repeat false (Z.to_nat (m + 1))) false = false) by (rewrite nth_repeat; reflexivity). rewrite Hf. cbn [orb].
  destruct (in_dec Z.eq_dec x (i :: r)) as [I | I].
  - assert (Hxm : x <= m) by auto. replace (_ <? x) with false by lia.
    assert (X : existsb (Z.eqb x) (i :: r) = true) by (apply existsb_exists; exists x; split; [auto|apply Z.eqb_refl]). rewrite X. reflexivity.
  - assert (X : existsb (Z.eqb x) (i :: r) = false).
    { apply not_true_is_false. intros X. apply existsb_exists in X as (y & Hy & Ey). apply Z.eqb_eq in Ey. subst y. auto. }
    rewrite X. cbn [negb]. rewrite orb_true_r. reflexivity.
Qed.
End F.

(** A line without a number that is no comment (a blank line, for instance) makes the whole file
    rejected by an exception, whatever follows. *)
Theorem C56_bad_line (es : list entry) (l rest : list Z) : Forall entry_ok es -> no_number l ->
  load_presel (Some (lines_text es ++ l ++ [10] ++ rest)) = SelThrow false.
Proof.
  intros H Hl. cbn [load_presel]. rewrite get_lines_entries by auto.
  assert (Hn : no_newline l) by (destruct Hl as (? & ? & ? & -> & X & _); exact X).
  rewrite get_lines_line by exact Hn. rewrite sel_entries by auto. cbn [sel_lines].
  destruct (stoi_no_number l Hl) as (-> & ->). reflexivity.
Qed.

(** A file of comments only dereferences the end of an empty vector. *)
Theorem C56_no_index_refuted : exists es, es <> [] /\ Forall entry_ok es /\ forall nl, load_presel (Some (file_of es nl)) = SelUB.
Proof.
  exists [Comment [32] [110; 111; 110; 101]]. split; [discriminate|]. split.
  - repeat constructor; lia.
  - intros [|]; vm_compute; reflexivity.
Qed.
(** The line "-1" writes outside the vector of flags (its index becomes 2^32 - 1, and the size 0). *)
Theorem C56_negative_refuted : exists l, no_newline l /\ load_presel (Some (l ++ [10])) = SelUB.
Proof. exists [45; 49]. split; [repeat constructor; lia|]. vm_compute. reflexivity. Qed.

Example C56_witness : Forall entry_ok [Comment [] [65]; Index [32] true [48; 51] [32; 35]; Index [] false [55] []] /\
  chosen [Comment [] [65]; Index [32] true [48; 51] [32; 35]; Index [] false [55] []] = [3; 7] /\
  load_presel (Some (file_of [Comment [] [65]; Index [32] true [48; 51] [32; 35]; Index [] false [55] []] false)) =
    SelOk [false; false; false; true; false; false; false; true].
Proof.
  split; [|split; vm_compute; reflexivity].
  apply Forall_cons; [cbn; repeat constructor; lia|]. apply Forall_cons; [|apply Forall_cons; [|constructor]].
  - cbn. unfold no_newline. repeat match goal with |- _ /\ _ => split end; repeat constructor; try lia. intros c r' E. injection E as <- _. lia.
  - cbn. unfold no_newline. repeat match goal with |- _ /\ _ => split end; repeat constructor; try lia. intros c r' E. discriminate E.
Qed.
Example C56_bad_line_witness : no_number [] /\ load_presel (Some [53; 10; 10]) = SelThrow false.
Proof.
  split; [|vm_compute; reflexivity]. exists [], [], []. repeat split; try constructor; auto; try discriminate; intros; discriminate.
Qed.
Print Assumptions C56_selection.
Print Assumptions C56_bad_line.
Print Assumptions C56_no_index_refuted.
Print Assumptions C56_negative_refuted.
