(** The reader always comes to an end. *)
From Coq Require Import String Sorted.
From Verif Require Import M_Base M_Str M_Text S_Text P_Str P_Parse M_Save M_Json S_Json P_Json.

Lemma find_if_not_length p l a b : find_if_not p l = (a, b) -> (length b <= length l)%nat.
Proof.
  unfold find_if_not. revert a b. induction l as [|c l IH]; intros a b; cbn; [intros [= <- <-]; cbn; lia|].
  destruct (negb (p c)); [intros [= <- <-]; cbn; lia|]. destruct (find_if _ l) as [x y]. intros [= <- <-]. specialize (IH _ _ eq_refl). lia.
Qed.
Lemma c_comment_length l : forall r, c_comment l = Some r -> (length r <= length l)%nat.
Proof. induction l as [|c l IH]; intros r; cbn; [discriminate|]. destruct (_ && _); [intros [= <-]; destruct l; cbn; lia|]. intros H. apply IH in H. lia. Qed.
Lemma cpp_comment_length l : (length (cpp_comment l) <= length l)%nat.
Proof. induction l as [|c l IH]; cbn; [lia|]. destruct (c =? 10); [lia|]. destruct (c =? 13); [destruct (starts 10 l); [destruct l; cbn; lia|lia]|lia]. Qed.
Lemma read_comment_length l r : read_comment l = Some r -> (length r <= length l)%nat.
Proof.
  destruct l as [|c l]; cbn; [discriminate|]. destruct (c =? 42); [intros H; apply c_comment_length in H; lia|].
  destruct (c =? 47); [|discriminate]. intros [= <-]. pose proof (cpp_comment_length l). lia.
Qed.
Lemma read_number_length l a b : read_number l = (a, b) -> (length b <= length l)%nat.
Proof.
  unfold read_number. destruct (find_if_not is_digit l) as [x1 l1] eqn:E1. apply find_if_not_length in E1.
  destruct (if starts 46 l1 then _ else _) as [x2 l2] eqn:E2.
  assert (L2 : (length l2 <= length l1)%nat).
  { destruct (starts 46 l1); [|injection E2 as <- <-; lia]. destruct (find_if_not is_digit (tl l1)) as [x y] eqn:E. injection E2 as <- <-. apply find_if_not_length in E. destruct l1; cbn in *; lia. }
  destruct (match l2 with [] => _ | _ => _ end) as [x3 l3] eqn:E3. intros [= <- <-].
  enough (length l3 <= length l2)%nat by lia. destruct l2 as [|e r]; [injection E3 as <- <-; lia|]. destruct (_ || _); [|injection E3 as <- <-; lia].
  destruct r as [|s q].
  - cbn in E3. injection E3 as <- <-. cbn. lia.
  - destruct (_ || _).
    + destruct (find_if_not is_digit q) as [x y] eqn:E. injection E3 as <- <-. apply find_if_not_length in E. cbn. lia.
    + destruct (find_if_not is_digit (s :: q)) as [x y] eqn:E. injection E3 as <- <-. apply find_if_not_length in E. cbn in *. lia.
Qed.
Lemma read_string_length n : forall l t r, (length l <= n)%nat -> read_string l = Some (t, r) -> (length r < length l)%nat.
Proof.
  induction n as [|n IH]; intros l t r L; destruct l as [|c l]; cbn in *; try discriminate; try lia.
  destruct (c =? 92).
  - destruct l as [|e l]; [discriminate|]. destruct (read_string l) as [[x y]|] eqn:E; [|discriminate]. cbn. intros [= <- <-]. apply IH in E; cbn in *; lia.
  - destruct (c =? 34); [intros [= <- <-]; lia|]. destruct (read_string l) as [[x y]|] eqn:E; [|discriminate]. cbn. intros [= <- <-]. apply IH in E; lia.
Qed.
Lemma match_word_length w : forall l r, match_word w l = Some r -> (length r <= length l)%nat.
Proof. induction w as [|x w IH]; intros l r; cbn; [intros [= <-]; lia|]. destruct l as [|y l]; [discriminate|]. destruct (x =? y); [|discriminate]. intros H. apply IH in H. cbn. lia. Qed.
Lemma read_token_length l t r : read_token l = (t, r) -> (length r < length l)%nat \/ t = TEnd /\ (length r <= length l)%nat.
Proof.
  unfold read_token. pose proof (skip_spaces_length l) as L. destruct (skip_spaces l) as [|c q]; [intros [= <- <-]; right; cbn; split; [reflexivity|lia]|]. cbn [length] in L.
  repeat match goal with
  | |- (if ?b then _ else _) = _ -> _ => destruct b
  | |- match ?e with Some _ => _ | None => _ end = _ -> _ => let E := fresh "E" in destruct e as [?|] eqn:E
  | |- (let '(_, _) := ?e in _) = _ -> _ => let E := fresh "E" in destruct e eqn:E
  end; intros [= <- <-]; left; cbn [length] in *;
  repeat match goal with
  | H : read_string _ = Some (_, _) |- _ => apply (read_string_length _ _ _ _ (le_n _)) in H
  | H : read_comment _ = Some _ |- _ => apply read_comment_length in H
  | H : match_word _ _ = Some _ |- _ => apply match_word_length in H
  | H : read_number _ = (_, _) |- _ => apply read_number_length in H
  end; try lia.
Qed.
Lemma skip_comments_length fuel : forall l t r, skip_comments fuel l = Some (t, r) -> (length r < length l)%nat \/ t = TEnd /\ (length r <= length l)%nat.
Proof.
  induction fuel as [|f IH]; intros l t r; cbn; [discriminate|]. destruct (read_token l) as [t' r'] eqn:E. pose proof (read_token_length _ _ _ E) as L.
  destruct t'; try (intros [= <- <-]; exact L). intros H. apply IH in H. destruct L as [L|(? & ?)]; [|discriminate]. destruct H as [|(? & ?)]; [left; lia|right; split; [assumption|lia]].
Qed.
Lemma next_token_ends l : exists t r, next_token l = Some (t, r).
Proof.
  unfold next_token. assert (H : forall fuel l, (length l < fuel)%nat -> exists t r, skip_comments fuel l = Some (t, r)).
  { induction fuel as [|f IH]; intros k L; [lia|]. cbn. destruct (read_token k) as [t r] eqn:E. pose proof (read_token_length _ _ _ E) as Lr.
    destruct t; eauto. apply IH. destruct Lr as [|(? & ?)]; [lia|discriminate]. }
  apply H. lia.
Qed.
Section P.
Context {D : Type}.
Variable read_double : list Z -> option D.
Definition shorter (l : list Z) (o : option (outcome (json D))) : Prop :=
  exists x, o = Some x /\ match x with Ok _ r => (length r < length l)%nat | _ => True end.
Lemma shorter_le l l' o : (length l' <= length l)%nat -> shorter l' o -> shorter l o.
Proof. intros L (x & -> & H). exists x. split; [reflexivity|]. destruct x; auto. lia. Qed.
Lemma shorter_option l r (o : option (json D)) : (length r < length l)%nat -> shorter l (Some (of_option o r)).
Proof. intros L. exists (of_option o r). split; [reflexivity|]. destruct o; cbn; auto. Qed.
Lemma read_ends fuel :
  (forall depth l, (2 * length l + 2 <= fuel)%nat -> shorter l (read_value read_double fuel depth l)) /\
  (forall depth name m l, (2 * length l + 2 <= fuel)%nat -> shorter l (read_object read_double fuel depth name m l)) /\
  (forall depth acc l, (2 * length l + 3 <= fuel)%nat -> shorter l (read_array read_double fuel depth acc l)).
Proof.
  induction fuel as [|f (IHv & IHo & IHa)]; [repeat split; intros; lia|].
  assert (Done : forall l v r, (length r < length l)%nat -> shorter l (Some (Ok v r))) by (intros l v r L; exists (Ok v r); auto).
  assert (Failed : forall l, shorter l (Some Fail)) by (intros l; exists Fail; auto).
  assert (Thrown : forall l, shorter l (Some Throw)) by (intros l; exists Throw; auto).
  split; [|split].
  - intros depth l L. cbn [M_Json.read_value]. destruct (1000 <=? depth); [auto|]. destruct (next_token_ends l) as (t & r & E). rewrite E. cbn [bind].
    pose proof (skip_comments_length _ _ _ _ E) as Lr.
    destruct t; try (destruct Lr as [Lr|(? & ?)]; [|discriminate]); auto using shorter_option.
    + apply shorter_le with r; [lia|]. apply IHo. lia.
    + pose proof (skip_spaces_length r) as Ls. destruct (starts 93 (skip_spaces r)); [apply Done; destruct (skip_spaces r); cbn in *; lia|].
      apply shorter_le with (skip_spaces r); [lia|]. apply IHa. lia.
  - intros depth name m l L. cbn [M_Json.read_object]. destruct (next_token_ends l) as (t & r & E). rewrite E. cbn [bind].
    pose proof (skip_comments_length _ _ _ _ E) as Lr.
    destruct t as [| | | | s | | | | | | | | | ]; try (destruct Lr as [Lr|(? & ?)]; [|discriminate]); auto using shorter_option.
    + destruct (length name =? 0)%nat; auto.
    + destruct (decode_string s) as [nm|]; [|auto]. destruct (read_token r) as [t1 r1] eqn:E1. pose proof (read_token_length _ _ _ E1) as L1.
      destruct t1; auto. destruct L1 as [L1|(? & ?)]; [|discriminate].
      match goal with |- context [bind (?e f depth r1) _] => change (e f depth r1) with (M_Json.read_value read_double f depth r1) end.
      destruct (IHv depth r1 ltac:(lia)) as (o & -> & Ho). cbn [bind]. destruct o as [v r2| |]; auto.
      destruct (read_token r2) as [t2 r3] eqn:E2. pose proof (read_token_length _ _ _ E2) as L2. destruct t2; auto; (destruct L2 as [L2|(? & ?)]; [|discriminate]).
      * apply Done. lia.
      * apply shorter_le with r3; [lia|]. apply IHo. lia.
      * destruct (next_token_ends r3) as (t3 & r4 & E3). rewrite E3. cbn [bind]. pose proof (skip_comments_length _ _ _ _ E3) as L3.
        assert (L4 : (length r4 <= length r3)%nat) by (destruct L3 as [|(_ & ?)]; lia). clear L3.
        destruct t3; try (apply shorter_le with r4; [lia|apply IHo; lia]); try (apply Done; lia).
  - intros depth acc l L. cbn [M_Json.read_array]. match goal with |- context [bind (?e f depth l) _] => change (e f depth l) with (M_Json.read_value read_double f depth l) end.
    destruct (IHv depth l ltac:(lia)) as (o & -> & Ho). cbn [bind]. destruct o as [v r| |]; auto.
    destruct (next_token_ends r) as (t & r1 & E). rewrite E. cbn [bind]. pose proof (skip_comments_length _ _ _ _ E) as Lr.
    destruct t; auto; (destruct Lr as [Lr|(? & ?)]; [|discriminate]).
    + apply Done. lia.
    + apply shorter_le with r1; [lia|]. apply IHa. lia.
Qed.
Lemma parse_ends doc slack : exists o, parse read_double doc slack = Some o.
Proof.
  unfold parse. destruct (proj1 (read_ends (2 + 2 * length (doc ++ slack))) 0 (doc ++ slack) ltac:(lia)) as (o & E & _). now exists o.
Qed.
End P.
