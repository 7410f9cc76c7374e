(** The parser accepts exactly the command lines of S_Cmd. *)
From Coq Require Import String Permutation.
From Verif Require Import M_Base M_Text M_Str S_Text S_Str P_Str M_Cmd S_Cmd.
Local Open Scope list_scope.
Local Open Scope Z_scope.

(* ------------------------------------------------------------------ numbers *)
Lemma fold_decimal ds : forall a, fold_left (fun a d => 10 * a + (d - 48)) ds a = a * 10 ^ Z.of_nat (length ds) + decimal ds.
Proof.
  induction ds as [|d ds IH]; intros a; cbn [fold_left decimal length]; [change (10 ^ Z.of_nat 0) with 1; lia|].
  rewrite IH, Nat2Z.inj_succ, Z.pow_succ_r by lia. ring.
Qed.
Lemma digits_split s : exists ds rest, find_if_not is_digit s = (ds, rest) /\ s = ds ++ rest /\ Forall (fun c => 48 <= c <= 57) ds /\
  (rest = [] \/ exists c r, rest = c :: r /\ ~ 48 <= c <= 57).
Proof.
  unfold find_if_not. pose proof (find_if_spec (fun c => negb (is_digit c)) s) as H. destruct (find_if _ s) as [a b].
  exists a, b. destruct H as (-> & Ha & Hb). split; [reflexivity|]. split; [reflexivity|].
  assert (Hd : forall c, is_digit c = true <-> 48 <= c <= 57).
  { intros c. unfold is_digit. rewrite andb_true_iff, !Z.leb_le. unfold c_0, c_9. lia. }
  split.
  - eapply Forall_impl; [|exact Ha]. cbn. intros c Hc. apply Hd. now apply negb_false_iff.
  - destruct Hb as [->|(c & r & -> & Hc)]; [now left|]. right. exists c, r. split; [reflexivity|]. rewrite <- Hd. apply negb_true_iff in Hc. congruence.
Qed.
Lemma is_space_iff c : is_space c = true <-> c = 32 \/ 9 <= c <= 13.
Proof. unfold is_space. rewrite orb_true_iff, andb_true_iff, Z.eqb_eq, !Z.leb_le. tauto. Qed.
Lemma is_digit_iff c : is_digit c = true <-> 48 <= c <= 57.
Proof. unfold is_digit. rewrite andb_true_iff, !Z.leb_le. unfold c_0, c_9. tauto. Qed.
(** The sign. *)
Definition sign_of (s : list Z) : bool * list Z := match s with 45 :: r => (true, r) | 43 :: r => (false, r) | _ => (false, s) end.
Lemma sign_cases s : (exists r, s = 45 :: r /\ sign_of s = (true, r)) \/ (exists r, s = 43 :: r /\ sign_of s = (false, r)) \/
  (hd 0 s <> 45 /\ hd 0 s <> 43 /\ sign_of s = (false, s)).
Proof.
  destruct s as [|c r]; [right; right; cbn; repeat split; lia|].
  destruct (Z.eq_dec c 45) as [->|]; [left; now exists r|]. destruct (Z.eq_dec c 43) as [->|]; [right; left; now exists r|].
  right; right. cbn [hd]. repeat split; auto. unfold sign_of.
  destruct c as [|[p|p|]|]; try reflexivity; repeat (destruct p as [p|p|]; try reflexivity); contradiction.
Qed.
Lemma read_int_eq s : read_int s =
  let '(neg, s2) := sign_of (snd (find_if_not is_space s)) in
  let '(ds, rest) := find_if_not is_digit s2 in
  match ds, rest with
  | _ :: _, [] =>
    let v := fold_left (fun a d => 10 * a + (d - 48)) ds 0 in
    let v := if (neg : bool) then - v else v in
    if (-2147483648 <=? v) && (v <=? 2147483647) then Some v else None
  | _, _ => None
  end.
Proof. reflexivity. Qed.
Lemma read_int_iff s z : read_int s = Some z <-> is_int s z.
Proof.
  rewrite read_int_eq. split.
  - intros H. pose proof (find_if_spec (fun c => negb (is_space c)) s) as F. unfold find_if_not at 1 in H. destruct (find_if _ s) as [bl s1].
    destruct F as (Hs & Hb & _). cbn [snd] in H.
    assert (Hbl : Forall (fun c => c = 32 \/ 9 <= c <= 13) bl).
    { eapply Forall_impl; [|exact Hb]. cbn. intros c Hc. apply is_space_iff. now apply negb_false_iff. }
    destruct (sign_of s1) as [neg s2] eqn:E. destruct (digits_split s2) as (ds & rest & Hd & H2 & H3 & _). rewrite Hd in H.
    destruct ds as [|d ds]; [discriminate|]. destruct rest; [|discriminate]. rewrite app_nil_r in H2. subst s2. cbn zeta in H.
    rewrite fold_decimal, Z.mul_0_l, Z.add_0_l in H.
    destruct (sign_cases s1) as [(r & -> & E')|[(r & -> & E')|(Hm & Hp & E')]]; rewrite E' in E; injection E as En Er; subst neg.
    + subst r. exists bl, [45], (d :: ds). destruct (_ && _) eqn:G in H; [|discriminate]. injection H as <-. apply andb_true_iff in G. rewrite !Z.leb_le in G.
      split; [exact Hs|]. split; [exact Hbl|]. split; [discriminate|]. split; [exact H3|]. split; [tauto|]. cbn [decimal] in G. lia.
    + subst r. exists bl, [43], (d :: ds). destruct (_ && _) eqn:G in H; [|discriminate]. injection H as <-. apply andb_true_iff in G. rewrite !Z.leb_le in G.
      split; [exact Hs|]. split; [exact Hbl|]. split; [discriminate|]. split; [exact H3|]. split; [tauto|]. cbn [decimal] in G. lia.
    + subst s1. exists bl, [], (d :: ds). destruct (_ && _) eqn:G in H; [|discriminate]. injection H as <-. apply andb_true_iff in G. rewrite !Z.leb_le in G.
      split; [exact Hs|]. split; [exact Hbl|]. split; [discriminate|]. split; [exact H3|]. split; [tauto|]. cbn [decimal] in G. lia.
  - intros (bl & sg & ds & -> & Hb & Hn & Hd & Hz & Hr).
    assert (Hf : find_if_not is_digit ds = (ds, [])).
    { rewrite <- (app_nil_r ds) at 1. apply find_if_not_app; [|now left]. eapply Forall_impl; [|exact Hd]. intros c. apply is_digit_iff. }
    assert (Hsp : find_if_not is_space (bl ++ sg ++ ds) = (bl, sg ++ ds)).
    { apply find_if_not_app.
      - eapply Forall_impl; [|exact Hb]. intros c. apply is_space_iff.
      - right. assert (K : forall c r, ~ (c = 32 \/ 9 <= c <= 13) -> exists c0 r0, c :: r = c0 :: r0 /\ is_space c0 = false).
        { intros c r Hc. exists c, r. split; [reflexivity|]. apply not_true_is_false. rewrite is_space_iff. exact Hc. }
        destruct Hz as [[-> _]|[[-> _]|[-> _]]]; cbn [app]; [|apply K; lia|apply K; lia]. destruct ds as [|c r]; [contradiction|]. inversion Hd; subst. apply K. lia. }
    rewrite Hsp. cbn [snd].
    assert (G : forall v, v = z -> (if (-2147483648 <=? v) && (v <=? 2147483647) then Some v else None) = Some z).
    { intros v ->. destruct (_ && _) eqn:G; [reflexivity|]. apply andb_false_iff in G. rewrite !Z.leb_gt in G. lia. }
    destruct Hz as [[-> Hz]|[[-> Hz]|[-> Hz]]].
    + cbn [app]. destruct (sign_cases ds) as [(r & -> & _)|[(r & -> & _)|(_ & _ & ->)]]; [inversion Hd; lia|inversion Hd; lia|].
      rewrite Hf. destruct ds; [contradiction|]. cbn zeta. apply G. rewrite fold_decimal. lia.
    + cbn [app sign_of]. rewrite Hf. destruct ds; [contradiction|]. cbn zeta. apply G. rewrite fold_decimal. lia.
    + cbn [app sign_of]. rewrite Hf. destruct ds; [contradiction|]. cbn zeta. apply G. rewrite fold_decimal. lia.
Qed.

(* ------------------------------------------------------------------ options *)
Section P0.
Context {R : Type}.
Lemma nodup_inj {A B} (f : A -> B) l : NoDup (map f l) -> forall a b, In a l -> In b l -> f a = f b -> a = b.
Proof.
  induction l as [|x l IH]; intros H a b; [intros []|]. cbn [map] in H. inversion H as [|? ? N1 N2]; subst.
  intros [<-|Ha] [<-|Hb] E; [reflexivity| | |now apply IH]; exfalso; apply N1.
  - rewrite E. now apply in_map.
  - rewrite <- E. now apply in_map.
Qed.
Notation opts := (opts R). Notation decl := (decl R). Notation pst := (pst R).
Definition fresh (d : decl) : opt R := mkopt (d_short d) (d_need d) (d_read d) false (d_def d).
Lemma ins_in n o (m : opts) p : In p (ins n o m) <-> p = (n, o) \/ In p m.
Proof.
  induction m as [|(k, q) m IH]; cbn [ins In]; [intuition congruence|]. destruct (str_ltb n k); cbn [In]; [intuition congruence|]. rewrite IH. tauto.
Qed.
Lemma ins_nodup n o (m : opts) : NoDup (map fst m) -> ~ In n (map fst m) -> NoDup (map fst (ins n o m)).
Proof.
  induction m as [|(k, q) m IH]; cbn [ins map fst In]; intros H Hn; [constructor; auto|]. inversion H; subst.
  destruct (str_ltb n k); cbn [map fst]; [constructor; auto|].
  constructor; [|apply IH; tauto]. rewrite in_map_iff. intros ((k', q') & E & Hin). cbn in E. subst k'. apply ins_in in Hin.
  destruct Hin as [Hin|Hin]; [injection Hin; intros; subst; tauto|]. apply H2. apply in_map_iff. now exists (k, q').
Qed.
Lemma adds_spec D : forall (m : opts), NoDup (map fst m) ->
  match adds D m with
  | Some m' => NoDup (map d_name D) /\ (forall d, In d D -> ~ In (d_name d) (map fst m)) /\ NoDup (map fst m') /\
      (forall p, In p m' <-> In p m \/ exists d, In d D /\ p = (d_name d, fresh d))
  | None => ~ (NoDup (map d_name D) /\ forall d, In d D -> ~ In (d_name d) (map fst m))
  end.
Proof.
  induction D as [|d D IH]; intros m Hm; cbn [adds map].
  - split; [constructor|]. split; [intros d []|]. split; [exact Hm|]. intros p. split; [now left|]. intros [H|(d & [] & _)]. exact H.
  - unfold add. destruct (reg_find (d_name d) m) as [o|] eqn:E; cbn [bind].
    + intros (_ & H). apply (H d (or_introl eq_refl)). apply reg_find_some in E. apply in_map_iff. now exists (d_name d, o).
    + apply reg_find_none in E. fold (fresh d). specialize (IH (ins (d_name d) (fresh d) m) (ins_nodup _ _ _ Hm E)).
      assert (HI : forall n, In n (map fst (ins (d_name d) (fresh d) m)) <-> n = d_name d \/ In n (map fst m)).
      { intros n. rewrite !in_map_iff. split.
        - intros (p & <- & Hp). apply ins_in in Hp. destruct Hp as [->|Hp]; [now left|right; eauto].
        - intros [->|(p & <- & Hp)]; [exists (d_name d, fresh d)|exists p]; rewrite ins_in; auto. }
      destruct (adds D _) as [m'|].
      * destruct IH as (H1 & H2 & H3 & H4). split; [constructor; [|exact H1]|].
        -- intros Hin. apply in_map_iff in Hin. destruct Hin as (d' & Ed & Hd'). apply (H2 _ Hd'). apply HI. now left.
        -- split; [|split; [exact H3|]].
           ++ intros d' [<-|Hd']; [exact E|]. intros Hin. apply (H2 _ Hd'). apply HI. now right.
           ++ intros p. rewrite H4, ins_in. split.
              ** intros [[->|Hp]|(d' & Hd' & ->)]; [right; exists d; split; [now left|reflexivity]|now left|right; exists d'; split; [now right|reflexivity]].
              ** intros [Hp|(d' & [<-|Hd'] & ->)]; [left; now right|left; now left|right; eauto].
      * intros (Hn & Hd). inversion Hn as [|? ? N1 N2]; subst. apply IH. split; [exact N2|]. intros d' Hd'. rewrite HI. intros [Hq|Hq].
        -- apply N1. rewrite <- Hq. now apply in_map.
        -- apply (Hd d' (or_intror Hd') Hq).
Qed.
Lemma adds_some D : NoDup (map d_name D) -> exists m : opts, adds D [] = Some m.
Proof.
  intros Hn. pose proof (adds_spec D [] (NoDup_nil _)) as H. destruct (adds D []) as [m|]; [eauto|]. exfalso. apply H. split; [exact Hn|]. intros d _ [].
Qed.
Lemma put_fst n o (m : opts) : map fst (put n o m) = map fst m.
Proof. induction m as [|(k, q) m IH]; cbn [put map fst]; [reflexivity|]. destruct (str_eqb k n); cbn [map fst]; [reflexivity|now rewrite IH]. Qed.
Lemma put_find n o (m : opts) k : In n (map fst m) ->
  reg_find k (put n o m) = if str_eqb n k then Some o else reg_find k m.
Proof.
  induction m as [|(k', q) m IH]; cbn [put map fst In]; [tauto|]. intros H. destruct (str_eqb k' n) eqn:E; cbn [reg_find].
  - apply str_eqb_eq in E. subst k'. now destruct (str_eqb n k).
  - destruct H as [->|H]; [rewrite (proj2 (str_eqb_eq n n) eq_refl) in E; discriminate|]. rewrite (IH H).
    destruct (str_eqb k' k) eqn:E2, (str_eqb n k) eqn:E3; try reflexivity. apply str_eqb_eq in E2, E3. subst. rewrite (proj2 (str_eqb_eq k k) eq_refl) in E. discriminate.
Qed.


Lemma lookup_inl (m : opts) : forall lk,
  NoDup (map fst m) ->
  (forall n o, In (n, o) m -> n <> [] -> o_short o <> 0 -> char_find (o_short o) lk = None) ->
  (forall n o n' o', In (n, o) m -> In (n', o') m -> n <> [] -> n' <> [] -> o_short o = o_short o' -> o_short o <> 0 -> n = n') ->
  exists lk', lookup_of m lk = inl lk' /\
    forall c n, char_find c lk' = Some n <-> char_find c lk = Some n \/ exists o, In (n, o) m /\ o_short o = c /\ c <> 0 /\ n <> [].
Proof.
  induction m as [|(n0, o0) m IH]; intros lk Hn H1 H2; cbn [lookup_of].
  - exists lk. split; [reflexivity|]. intros c n. split; [now left|]. intros [H|(o & [] & _)]. exact H.
  - inversion Hn as [|? ? N1 N2]; subst.
    assert (Hskip : (n0 = [] \/ o_short o0 = 0) -> exists lk', lookup_of m lk = inl lk' /\
      forall c n, char_find c lk' = Some n <-> char_find c lk = Some n \/ exists o, In (n, o) ((n0, o0) :: m) /\ o_short o = c /\ c <> 0 /\ n <> []).
    { intros Hs. destruct (IH lk N2) as (lk' & E & Hc).
      - intros n o Hin. apply H1. now right.
      - intros n o n' o' Hin Hin'. apply H2; now right.
      - exists lk'. split; [exact E|]. intros c n. rewrite Hc. split; (intros [H|(o & Hin & Hr)]; [now left|right]); exists o; [split; [now right|exact Hr]|].
        destruct Hin as [Hin|Hin]; [|split; auto]. injection Hin as <- <-. exfalso. destruct Hr as (R1 & R2 & R3), Hs; congruence. }
    destruct n0 as [|a0 n0]; [apply Hskip; now left|]. destruct (o_short o0 =? 0) eqn:E0; [apply Hskip; right; lia|].
    rewrite (H1 (a0 :: n0) o0); [|now left|discriminate|lia].
    destruct (IH ((o_short o0, a0 :: n0) :: lk) N2) as (lk' & E & Hc).
    + intros n o Hin Hne Hz. cbn [char_find]. destruct (o_short o0 =? o_short o) eqn:Eq.
      * exfalso. apply N1. cbn [fst]. apply in_map_iff. exists (n, o). split; [|exact Hin]. cbn.
        apply (H2 n o (a0 :: n0) o0); auto; [now right|now left|discriminate|lia].
      * apply (H1 n o); auto. now right.
    + intros n o n' o' Hin Hin'. apply H2; now right.
    + exists lk'. split; [exact E|]. intros c n. rewrite Hc. cbn [char_find]. split.
      * intros [H|(o & Hin & Hr)]; [|right; exists o; split; [now right|exact Hr]]. destruct (o_short o0 =? c) eqn:Eq; [|now left].
        injection H as <-. right. exists o0. split; [now left|]. repeat split; [lia|lia|discriminate].
      * intros [H|(o & [Hin|Hin] & R1 & R2 & R3)].
        -- left. destruct (o_short o0 =? c) eqn:Eq; [|exact H]. exfalso. apply Z.eqb_eq in Eq. subst c.
           rewrite (H1 (a0 :: n0) o0) in H; [discriminate|now left|discriminate|lia].
        -- injection Hin as <- <-. left. rewrite (proj2 (Z.eqb_eq _ _) R1). reflexivity.
        -- right. exists o. auto.
Qed.
Lemma lookup_distinct (m : opts) : forall lk lk', lookup_of m lk = inl lk' ->
  (forall n o, In (n, o) m -> n <> [] -> o_short o <> 0 -> char_find (o_short o) lk = None) /\
  (forall n o n' o', In (n, o) m -> In (n', o') m -> n <> [] -> n' <> [] -> o_short o = o_short o' -> o_short o <> 0 -> n = n').
Proof.
  induction m as [|(n0, o0) m IH]; intros lk lk' E; cbn [lookup_of] in E; [split; intros n o; intros; contradiction|].
  assert (Hskip : (n0 = [] \/ o_short o0 = 0) -> lookup_of m lk = inl lk' ->
    (forall n o, In (n, o) ((n0, o0) :: m) -> n <> [] -> o_short o <> 0 -> char_find (o_short o) lk = None) /\
    (forall n o n' o', In (n, o) ((n0, o0) :: m) -> In (n', o') ((n0, o0) :: m) -> n <> [] -> n' <> [] -> o_short o = o_short o' -> o_short o <> 0 -> n = n')).
  { intros Hs E'. destruct (IH _ _ E') as (A & B). split.
    - intros n o [Hin|Hin] Hne Hz; [injection Hin as <- <-; destruct Hs; contradiction|]. now apply (A n o).
    - intros n o n' o' [Hin|Hin] [Hin'|Hin'] Hne Hne' Hq Hz; try (injection Hin as <- <-); try (injection Hin' as <- <-); try (destruct Hs; congruence).
      now apply (B n o n' o'). }
  destruct n0 as [|a0 n0]; [apply Hskip; auto|]. destruct (o_short o0 =? 0) eqn:E0; [apply Hskip; [right; lia|exact E]|].
  destruct (char_find (o_short o0) lk) eqn:Ef; [discriminate|]. destruct (IH _ _ E) as (A & B). split.
  - intros n o [Hin|Hin] Hne Hz; [injection Hin as <- <-; exact Ef|]. specialize (A n o Hin Hne Hz). cbn [char_find] in A. destruct (o_short o0 =? o_short o); [discriminate|exact A].
  - intros n o n' o' [Hin|Hin] [Hin'|Hin'] Hne Hne' Hq Hz; try (injection Hin as <- <-); try (injection Hin' as <- <-); [reflexivity| | |now apply (B n o n' o')]; exfalso.
    + assert (Hz' : o_short o' <> 0) by congruence. specialize (A n' o' Hin' Hne' Hz'). cbn [char_find] in A. rewrite (proj2 (Z.eqb_eq _ _) Hq) in A. discriminate.
    + specialize (A n o Hin Hne Hz). cbn [char_find] in A. rewrite (proj2 (Z.eqb_eq _ _) (eq_sym Hq)) in A. discriminate.
Qed.
End P0.

Section P.
Context {R : Type}.
Variable read_float : list Z -> option R.
Notation reads := (reads read_float).
Notation read := (read read_float).

Lemma read_iff r v x : read r v = Some x <-> reads r v x.
Proof.
  destruct r as [|alts| |]; cbn [M_Cmd.read S_Cmd.reads].
  - split; intros H; [now inversion H|now subst].
  - destruct (existsb _ _) eqn:E.
    + apply existsb_exists in E. destruct E as (a & Ha & E). apply str_eqb_eq in E. subst a. split; intros H; [inversion H; auto|]. destruct H as (_ & ->). reflexivity.
    + split; [discriminate|]. intros (Hin & _). assert (existsb (fun a => str_eqb a v) alts = true); [|congruence].
      apply existsb_exists. exists v. split; [exact Hin|]. now apply str_eqb_eq.
  - destruct (read_int v) as [z|] eqn:E; cbn [bind].
    + split; intros H; [inversion H; subst; exists z; split; [now apply read_int_iff|reflexivity]|].
      destruct H as (z' & Hz & ->). apply read_int_iff in Hz. congruence.
    + split; [discriminate|]. intros (z & Hz & _). apply read_int_iff in Hz. congruence.
  - destruct (read_float v) as [f|] eqn:E; cbn [bind].
    + split; intros H; [inversion H; subst; eauto|]. destruct H as (f' & Hf & ->). congruence.
    + split; [discriminate|]. intros (f & Hf & _). congruence.
Qed.

Notation opts := (opts R). Notation decl := (decl R). Notation pst := (pst R).
(* ---------------------------------------------------------- what the map holds *)
Variable D : list decl.
Hypothesis HD : unambiguous D.
Notation entry := (list Z * option (list Z))%type.
(** The state of an option after [said]. *)
Definition holds (said : list entry) (d : decl) (o : opt R) : Prop :=
  o_short o = d_short d /\ o_need o = d_need d /\ o_read o = d_read d /\ (o_has o = true <-> mentioned said (d_name d)) /\
  (forall r, d_read d = Some r -> final read_float D said (d_name d) (o_val o)).
Record inv (said : list entry) (m : opts) : Prop := {
  iv_nodup : NoDup (map fst m);
  iv_some : forall d, In d D -> exists o, reg_find (d_name d) m = Some o /\ holds said d o;
  iv_only : forall n o, reg_find n m = Some o -> exists d, In d D /\ d_name d = n
}.
Lemma decl_unique d d' : In d D -> In d' D -> d_name d = d_name d' -> d = d'.
Proof. apply (nodup_inj d_name D), HD. Qed.
Lemma inv_start m : adds D [] = Some m -> inv [] m.
Proof.
  intros E. pose proof (adds_spec D [] (NoDup_nil _)) as H. rewrite E in H. destruct H as (_ & _ & H3 & H4). split.
  - exact H3.
  - intros d Hd. exists (fresh d). split.
    + apply reg_find_unique; [exact H3|]. apply H4. right. eauto.
    + repeat split; cbn; try discriminate; try (intros (v & [])).
      intros r Hr. exists d, r. split; [exact Hd|]. split; [reflexivity|]. split; [exact Hr|]. left. split; [intros (v & [])|reflexivity].
  - intros n o Ho. apply reg_find_some in Ho. apply H4 in Ho. destruct Ho as [[]|(d & Hd & Ho)]. injection Ho as -> _. eauto.
Qed.
Lemma mentioned_app (a b : list entry) n : mentioned (a ++ b) n <-> mentioned a n \/ mentioned b n.
Proof.
  unfold mentioned. split.
  - intros (v & H). apply in_app_or in H. destruct H; eauto.
  - intros [(v & H)|(v & H)]; exists v; apply in_or_app; auto.
Qed.
Lemma mentioned_one n v n' : mentioned [(n, v)] n' <-> n = n'.
Proof. unfold mentioned. cbn. split; [intros (w & [H|[]]); now injection H|intros ->; exists v; now left]. Qed.
Lemma final_other said n v n' x : n <> n' -> final read_float D said n' x -> final read_float D (said ++ [(n, v)]) n' x.
Proof.
  intros Hne (d & r & H1 & H2 & H3 & H). exists d, r. repeat split; auto. destruct H as [(Hm & ->)|(pre & w & post & -> & Hp & Hr)].
  - left. split; [|reflexivity]. rewrite mentioned_app, mentioned_one. tauto.
  - right. exists pre, w, (post ++ [(n, v)]). split; [now rewrite <- app_assoc|]. split; [|exact Hr]. rewrite mentioned_app, mentioned_one. tauto.
Qed.

(** One setting. *)
Definition enter (e : entry) (s : pst) : pst := match snd e with None => set1 (fst e) s | Some v => set2 read_float (fst e) v s end.
Lemma enter_spec said s e : inv said (q_opts s) ->
  (allowed read_float D e /\ exists m', enter e s = mkpst m' (q_errs s) (q_rest s) /\ inv (said ++ [e]) m') \/
  (~ allowed read_float D e /\ exists er, enter e s = fail er s).
Proof.
  intros I. destruct e as [n v]. unfold enter. cbn [fst snd].
  assert (Hput : forall d o' , In d D -> d_name d = n -> holds (said ++ [(n, v)]) d o' -> inv (said ++ [(n, v)]) (put n o' (q_opts s))).
  { intros d o' Hd Hn Ho. destruct (iv_some _ _ I d Hd) as (o & Hf & _).
    assert (Hin : In n (map fst (q_opts s))). { rewrite Hn in Hf. apply reg_find_some in Hf. apply in_map_iff. now exists (n, o). }
    split.
    - rewrite put_fst. apply I.
    - intros d' Hd'. rewrite (put_find _ _ _ _ Hin). destruct (str_eqb n (d_name d')) eqn:E.
      + apply str_eqb_eq in E. exists o'. split; [reflexivity|]. rewrite (decl_unique d' d Hd' Hd); [exact Ho|congruence].
      + assert (Hne : n <> d_name d'). { intros ->. rewrite (proj2 (str_eqb_eq _ _) eq_refl) in E. discriminate. }
        destruct (iv_some _ _ I d' Hd') as (o1 & Hf1 & H1 & H2 & H3 & H4 & H5). exists o1. split; [exact Hf1|]. repeat split; auto.
        * intros Hh. apply mentioned_app. left. now apply H4.
        * intros Hm. apply H4. apply mentioned_app in Hm. destruct Hm as [Hm|Hm]; [exact Hm|]. apply mentioned_one in Hm. contradiction.
        * intros r Hr. apply final_other; [exact Hne|]. now apply (H5 r).
    - intros k o1. rewrite (put_find _ _ _ _ Hin). destruct (str_eqb n k) eqn:E; [|apply (iv_only _ _ I)].
      intros _. exists d. split; [exact Hd|]. apply str_eqb_eq in E. congruence. }
  destruct (reg_find n (q_opts s)) as [o|] eqn:Ef.
  2:{ right. split.
      - intros (d & Hd & Hn & _). cbn [fst] in Hn. destruct (iv_some _ _ I d Hd) as (o & Hf & _). rewrite Hn in Hf. congruence.
      - exists (EUndef n). destruct v; unfold set1, set2; now rewrite Ef. }
  destruct (iv_only _ _ I _ _ Ef) as (d & Hd & Hn). destruct (iv_some _ _ I d Hd) as (o1 & Hf & H1 & H2 & H3 & H4 & H5). rewrite Hn, Ef in Hf. injection Hf as <-.
  assert (Huniq : forall d', In d' D -> d_name d' = n -> d' = d) by (intros d' Hd' Hn'; apply decl_unique; congruence).
  destruct v as [v|]; unfold set1, set2; rewrite Ef, H3.
  - destruct (d_read d) as [r|] eqn:Er.
    + destruct (read r v) as [x|] eqn:Ex.
      * left. split; [exists d; cbn; rewrite Er; split; [exact Hd|]; split; [exact Hn|]; exists x; now apply read_iff|].
        eexists. split; [reflexivity|]. apply Hput with d; auto. unfold holds. cbn [o_short o_need o_read o_has o_val]. rewrite Er. repeat split; auto.
        -- intros _. apply mentioned_app. right. now apply mentioned_one.
        -- intros r' _. exists d, r. repeat split; auto. right. exists said, v, []. split; [now rewrite Hn|]. split; [intros (w & [])|]. now apply read_iff.
      * right. split; [|eauto]. intros (d' & Hd' & Hn' & Ha). cbn [fst snd] in *. rewrite (Huniq _ Hd' Hn'), Er in Ha. destruct Ha as (x & Hx). apply read_iff in Hx. congruence.
    + right. split; [|eauto]. intros (d' & Hd' & Hn' & Ha). cbn [fst snd] in *. rewrite (Huniq _ Hd' Hn'), Er in Ha. exact Ha.
  - destruct (d_read d) as [r|] eqn:Er.
    + right. split; [|eauto]. intros (d' & Hd' & Hn' & Ha). cbn [fst snd] in *. rewrite (Huniq _ Hd' Hn'), Er in Ha. exact Ha.
    + left. split; [exists d; cbn; rewrite Er; auto|].
      eexists. split; [reflexivity|]. apply Hput with d; auto. unfold holds. cbn [o_short o_need o_read o_has o_val]. rewrite Er. repeat split; auto.
      * intros _. apply mentioned_app. right. now apply mentioned_one.
      * intros r' Hr'. discriminate.
Qed.

(* -------------------------------------------------------------- short names *)
Lemma lookup_start m : adds D [] = Some m -> exists lk, lookup_of m [] = inl lk /\ forall c n, char_find c lk = Some n <-> long D c n.
Proof.
  intros E. pose proof (adds_spec D [] (NoDup_nil _)) as H. rewrite E in H. destruct H as (_ & _ & H3 & H4).
  destruct (lookup_inl m [] H3) as (lk & El & Hc).
  - reflexivity.
  - intros n o n' o' Hin Hin' Hne Hne' Hq Hz. apply H4 in Hin, Hin'. destruct Hin as [[]|(d & Hd & Ep)], Hin' as [[]|(d' & Hd' & Ep')].
    injection Ep as -> ->. injection Ep' as -> ->. now apply (proj2 HD d d').
  - exists lk. split; [exact El|]. intros c n. rewrite Hc. cbn [char_find]. split.
    + intros [H|(o & Hin & Ho & Hz & Hne)]; [discriminate|]. apply H4 in Hin. destruct Hin as [[]|(d & Hd & Ep)]. injection Ep as -> ->. exists d. auto.
    + intros (d & Hd & Hs & Hn & Hz & Hne). right. exists (fresh d). split; [|auto]. apply H4. right. exists d. subst n. auto.
Qed.

(* ----------------------------------------------------------------- the loop *)
Variable lk : list (Z * list Z).
Hypothesis Hlk : forall c n, char_find c lk = Some n <-> long D c n.
Notation pa := (parse_args read_float lk).

Lemma long_ne c n : long D c n -> n <> [].
Proof. now intros (d & _ & _ & _ & _ & H). Qed.
Lemma fail_mono er (s : pst) : q_errs (fail er s) <> [].
Proof. cbn. now destruct (q_errs s). Qed.
Lemma enter_mono e s : exists t, q_errs (enter e s) = q_errs s ++ t.
Proof.
  destruct e as [n [v|]]; unfold enter, set1, set2; cbn [fst snd]; destruct (reg_find n (q_opts s)) as [o|]; try (eexists; reflexivity);
    destruct (o_read o) as [r|]; try (eexists; reflexivity); try (exists []; cbn; now rewrite app_nil_r).
  destruct (read r v); try (eexists; reflexivity). exists []. cbn. now rewrite app_nil_r.
Qed.
Lemma shorts_step c cs (s : pst) : shorts lk (c :: cs) s =
  shorts lk cs (match char_find c lk with None => fail (EUndefShort c) s | Some n => enter (n, None) s end).
Proof.
  cbn [shorts]. destruct (char_find c lk) as [[|a n]|] eqn:E; try reflexivity. apply Hlk, long_ne in E. contradiction.
Qed.
Lemma shorts_mono cs : forall s : pst, exists t, q_errs (shorts lk cs s) = q_errs s ++ t.
Proof.
  induction cs as [|c cs IH]; intros s; [exists []; now rewrite app_nil_r|]. rewrite shorts_step.
  assert (H : exists t, q_errs (match char_find c lk with None => fail (EUndefShort c) s | Some n => enter (n, None) s end) = q_errs s ++ t).
  { destruct (char_find c lk); [apply enter_mono|eexists; reflexivity]. }
  destruct H as (t & Ht). destruct (IH (match char_find c lk with None => fail (EUndefShort c) s | Some n => enter (n, None) s end)) as (t' & Ht').
  exists (t ++ t'). now rewrite Ht', Ht, app_assoc.
Qed.
Definition flags (ns : list (list Z)) : list entry := map (fun n => (n, None)) ns.
Lemma shorts_fwd cs ns : Forall2 (long D) cs ns -> forall said s, inv said (q_opts s) -> Forall (allowed read_float D) (flags ns) ->
  exists m', shorts lk cs s = mkpst m' (q_errs s) (q_rest s) /\ inv (said ++ flags ns) m'.
Proof.
  induction 1 as [|c n cs ns Hc Hcs IH]; intros said s I Ha.
  - exists (q_opts s). cbn. rewrite app_nil_r. split; [now destruct s|exact I].
  - cbn [flags map] in Ha. inversion Ha as [|? ? A1 A2]; subst. rewrite shorts_step, (proj2 (Hlk c n) Hc).
    destruct (enter_spec said s (n, None) I) as [(_ & m' & E & I')|(Hno & _)]; [|contradiction]. rewrite E.
    destruct (IH (said ++ [(n, None)]) (mkpst m' (q_errs s) (q_rest s)) I' A2) as (m2 & E2 & I2).
    exists m2. split; [exact E2|]. cbn [flags map]. now rewrite <- app_assoc in I2.
Qed.
Lemma shorts_bwd cs : forall said s, inv said (q_opts s) -> q_errs (shorts lk cs s) = [] ->
  exists ns, Forall2 (long D) cs ns /\ Forall (allowed read_float D) (flags ns).
Proof.
  induction cs as [|c cs IH]; intros said s I He; [exists []; split; constructor|]. rewrite shorts_step in He.
  destruct (shorts_mono cs (match char_find c lk with None => fail (EUndefShort c) s | Some n => enter (n, None) s end)) as (t & Ht).
  rewrite He in Ht. symmetry in Ht. apply app_eq_nil in Ht. destruct Ht as (Ht & _).
  destruct (char_find c lk) as [n|] eqn:Ec; [|now apply fail_mono in Ht].
  destruct (enter_spec said s (n, None) I) as [(Ha & m' & E & I')|(_ & er & E)]; rewrite E in *; [|now apply fail_mono in Ht].
  destruct (IH _ (mkpst m' (q_errs s) (q_rest s)) I' He) as (ns & F & A). exists (n :: ns). split; [constructor; [now apply Hlk|exact F]|]. now constructor.
Qed.

(** Unfolding the loop. *)
Definition group (cs : list Z) (r : list (list Z)) (s : pst) : pst :=
  let s1 := shorts lk (removelast cs) s in
  let last := last cs 0 in
  match char_find last lk with
  | None => pa r (fail (EUndefShort last) s1)
  | Some [] => pa r (fail (EAmbiguous last) s1)
  | Some n =>
    match r with
    | v :: r' => if has_value n s1 then pa r' (set2 read_float n v s1) else pa r (set1 n s1)
    | [] => pa r (set1 n s1)
    end
  end.
Lemma pa_dash r s : pa ([45] :: r) s = pa r s.
Proof. reflexivity. Qed.
Lemma pa_group c cs r s : c <> 45 -> pa ((45 :: c :: cs) :: r) s = group (c :: cs) r s.
Proof.
  intros H. destruct c as [|p|p]; try reflexivity. do 6 (destruct p as [p|p|]; try reflexivity). contradiction.
Qed.
Lemma pa_word a r s : hd 0 a <> 45 -> pa (a :: r) s = pa r (mkpst (q_opts s) (q_errs s) (q_rest s ++ [a])).
Proof.
  intros H. destruct a as [|c cs]; [reflexivity|]. cbn [hd] in H. destruct c as [|p|p]; try reflexivity.
  do 6 (destruct p as [p|p|]; try reflexivity). contradiction.
Qed.
Lemma pa_long t r s : pa ((45 :: 45 :: t) :: r) s =
  match strchr 61 t with
  | Some (n, v) => pa r (enter (n, Some v) s)
  | None =>
    match reg_find t (q_opts s) with
    | None => pa r (fail (EUndef t) s)
    | Some o =>
      match o_read o with
      | Some _ => match r with [] => fail (ENeedsValue t) s | v :: r' => pa r' (enter (t, Some v) s) end
      | None => pa r (enter (t, None) s)
      end
    end
  end.
Proof. reflexivity. Qed.
Lemma strchr_some n v : ~ In 61 n -> strchr 61 (n ++ 61 :: v) = Some (n, v).
Proof.
  induction n as [|c n IH]; cbn [app strchr In]; intros H; [reflexivity|].
  destruct (c =? 61) eqn:E; [exfalso; apply H; left; lia|]. rewrite IH by tauto. reflexivity.
Qed.
Lemma strchr_cases t : match strchr 61 t with Some (n, v) => t = n ++ [61] ++ v /\ ~ In 61 n | None => ~ In 61 t end.
Proof.
  induction t as [|c t IH]; cbn [strchr]; [intros []|]. destruct (c =? 61) eqn:E.
  - apply Z.eqb_eq in E. subst c. split; [reflexivity|intros []].
  - apply Z.eqb_neq in E. destruct (strchr 61 t) as [(a, b)|]; cbn [bind].
    + destruct IH as (-> & H). split; [reflexivity|]. cbn. intros [H'|H']; [congruence|tauto].
    + cbn. intros [H'|H']; [congruence|tauto].
Qed.
Lemma strchr_none n : ~ In 61 n -> strchr 61 n = None.
Proof. intros H. pose proof (strchr_cases n) as C. destruct (strchr 61 n) as [(a, b)|]; [|reflexivity]. destruct C as (-> & _). exfalso. apply H. apply in_or_app. right. now left. Qed.

Lemma find_allowed said (s : pst) n v : inv said (q_opts s) -> allowed read_float D (n, v) -> exists o, reg_find n (q_opts s) = Some o /\
  match o_read o, v with None, None | Some _, Some _ => True | _, _ => False end.
Proof.
  intros I (d & Hd & Hn & Ha). cbn [fst snd] in *. destruct (iv_some _ _ I d Hd) as (o & Hf & _ & _ & Hr & _). exists o. rewrite Hn in Hf.
  split; [exact Hf|]. rewrite Hr. now destruct v, (d_read d).
Qed.
Lemma find_has said (s : pst) n v : inv said (q_opts s) -> allowed read_float D (n, v) -> has_value n s = match v with Some _ => true | None => false end.
Proof. intros I Ha. destruct (find_allowed _ _ _ _ I Ha) as (o & Hf & Hm). unfold has_value. rewrite Hf. now destruct (o_read o), v. Qed.

(** A command line with this meaning has this effect. *)
Lemma pa_fwd its : forall parts, Forall2 (says D) its parts -> Forall spelled its -> forall said s, inv said (q_opts s) -> Forall (allowed read_float D) (concat parts) ->
  exists m', pa (line its) s = mkpst m' (q_errs s) (q_rest s ++ words its) /\ inv (said ++ concat parts) m'.
Proof.
  induction its as [|i its IH]; intros parts HS HP said s I HA.
  - inversion HS; subst. exists (q_opts s). cbn. rewrite !app_nil_r. split; [now destruct s|exact I].
  - inversion HS as [|? p ? parts' S1 S2]; subst. inversion HP as [|? ? P1 P2]; subst. cbn [concat] in *. apply Forall_app in HA. destruct HA as (A1 & A2).
    assert (Step : forall m1 w, pa (line (i :: its)) s = pa (line its) (mkpst m1 (q_errs s) (q_rest s ++ w)) -> w = words [i] -> inv (said ++ p) m1 ->
      exists m', pa (line (i :: its)) s = mkpst m' (q_errs s) (q_rest s ++ words (i :: its)) /\ inv (said ++ p ++ concat parts') m').
    { intros m1 w E Ew I1. destruct (IH parts' S2 P2 (said ++ p) (mkpst m1 (q_errs s) (q_rest s ++ w)) I1 A2) as (m' & E' & I'). exists m'.
      rewrite E, E'. cbn [q_errs q_rest]. rewrite app_assoc. split; [|exact I']. f_equal. rewrite Ew, <- app_assoc. f_equal. cbn. now rewrite app_nil_r. }
    assert (One : forall e, p = [e] -> words [i] = [] -> pa (line (i :: its)) s = pa (line its) (enter e s) ->
      exists m', pa (line (i :: its)) s = mkpst m' (q_errs s) (q_rest s ++ words (i :: its)) /\ inv (said ++ p ++ concat parts') m').
    { intros e -> Hw E. inversion A1; subst. destruct (enter_spec said s e I) as [(_ & m1 & E1 & I1)|(Hno & _)]; [|contradiction].
      apply (Step m1 []); [|now rewrite Hw|exact I1]. rewrite E, E1, app_nil_r. reflexivity. }
    assert (Grp : forall cs ns c n v, Forall2 (long D) cs ns -> long D c n -> hd 0 (cs ++ [c]) <> 45 -> p = flags ns ++ [(n, v)] -> words [i] = [] ->
      line (i :: its) = ([45] ++ cs ++ [c]) :: match v with Some t => t :: line its | None => line its end ->
      exists m', pa (line (i :: its)) s = mkpst m' (q_errs s) (q_rest s ++ words (i :: its)) /\ inv (said ++ p ++ concat parts') m').
    { intros cs ns c n v F L Hh Hp Hw El. rewrite Hp in A1. apply Forall_app in A1. destruct A1 as (B1 & B2). inversion B2 as [|? ? B3 _]; subst x l.
      destruct (shorts_fwd cs ns F said s I B1) as (m1 & E1 & I1).
      destruct (enter_spec _ (mkpst m1 (q_errs s) (q_rest s)) (n, v) I1) as [(_ & m2 & E2 & I2)|(Hno & _)]; [|contradiction].
      apply (Step m2 []); [|now rewrite Hw|rewrite Hp, app_assoc; exact I2]. rewrite El, app_nil_r.
      assert (Hne : exists c0 cs0, cs ++ [c] = c0 :: cs0). { destruct cs; cbn; eauto. } destruct Hne as (c0 & cs0 & E0).
      cbn [app]. rewrite E0 in *. cbn [hd] in Hh. rewrite (pa_group _ _ _ _ Hh), <- E0. unfold group. rewrite removelast_last, last_last, E1, (proj2 (Hlk c n) L).
      pose proof (find_has _ (mkpst m1 (q_errs s) (q_rest s)) n v I1 B3) as Hv. unfold enter in E2. cbn [fst snd q_errs q_rest] in E2.
      destruct n as [|a n]; [now apply long_ne in L|]. destruct v as [v|].
      - cbn [q_errs q_rest] in *. rewrite Hv, E2. reflexivity.
      - destruct (line its) eqn:El2; [|rewrite Hv]; rewrite E2; reflexivity. }
    destruct i as [n v|n v|n|cs|cs c v|w|]; cbn [spelled] in P1.
    + inversion S1; subst. apply (One (n, Some v)); auto. cbn [line flat_map text app]. rewrite pa_long. fold (line its).
      rewrite (strchr_some n v P1). reflexivity.
    + inversion S1; subst. apply (One (n, Some v)); auto. inversion A1; subst. destruct (find_allowed _ _ _ _ I H1) as (o & Hf & Ho).
      cbn [line flat_map text app]. rewrite pa_long. fold (line its). rewrite (strchr_none n P1), Hf. now destruct (o_read o).
    + inversion S1; subst. apply (One (n, None)); auto. inversion A1; subst. destruct (find_allowed _ _ _ _ I H1) as (o & Hf & Ho).
      cbn [line flat_map text app]. rewrite pa_long. fold (line its). rewrite (strchr_none n P1), Hf. now destruct (o_read o).
    + inversion S1 as [| | |? ns F| | |]; subst. destruct P1 as (Hne & Hh).
      destruct (exists_last Hne) as (cs0 & c & ->). apply Forall2_app_inv_l in F. destruct F as (ns0 & ns1 & F0 & F1 & ->).
      inversion F1 as [|? n ? ? F2 F3]; subst. inversion F3; subst.
      apply (Grp cs0 ns0 c n None); auto. unfold flags. now rewrite map_app.
    + inversion S1 as [| | | |? ns ? n ? F L| |]; subst. apply (Grp cs ns c n (Some v)); auto.
    + inversion S1; subst. apply (Step (q_opts s) [w]); [|reflexivity|now rewrite app_nil_r]. cbn [line flat_map text app]. now rewrite (pa_word _ _ _ P1).
    + inversion S1; subst. apply (Step (q_opts s) []); [|reflexivity|now rewrite app_nil_r]. rewrite app_nil_r. cbn [line flat_map text app]. rewrite pa_dash. now destruct s.
Qed.
Lemma arg_cases (a : list Z) : (exists t, a = 45 :: 45 :: t) \/ a = [45] \/ (exists c cs, a = 45 :: c :: cs /\ c <> 45) \/ hd 0 a <> 45.
Proof.
  destruct a as [|c a]; [right; right; right; cbn; lia|]. destruct (Z.eq_dec c 45) as [->|H]; [|right; right; right; exact H].
  destruct a as [|c a]; [right; now left|]. destruct (Z.eq_dec c 45) as [->|H]; [left; eauto|]. right; right; left. eauto.
Qed.
Lemma more (s s1 s2 : pst) : (exists t, q_errs s1 = q_errs s ++ t) -> (exists t, q_errs s2 = q_errs s1 ++ t) -> exists t, q_errs s2 = q_errs s ++ t.
Proof. intros (a & Ha) (b & Hb). exists (a ++ b). now rewrite Hb, Ha, app_assoc. Qed.
Lemma more_fail er (s : pst) : exists t, q_errs (fail er s) = q_errs s ++ t.
Proof. eexists. reflexivity. Qed.
Lemma set1_enter n (s : pst) : set1 n s = enter (n, None) s.
Proof. reflexivity. Qed.
Lemma set2_enter n v (s : pst) : set2 read_float n v s = enter (n, Some v) s.
Proof. reflexivity. Qed.
Lemma pa_mono k : forall args s, (length args <= k)%nat -> exists t, q_errs (pa args s) = q_errs s ++ t.
Proof.
  induction k as [|k IH]; intros args s Hk.
  - destruct args; [|cbn in Hk; lia]. exists []. now rewrite app_nil_r.
  - destruct args as [|a r]; [exists []; now rewrite app_nil_r|]. cbn [length] in Hk.
    assert (IH' : forall s', exists t, q_errs (pa r s') = q_errs s' ++ t) by (intros; apply IH; lia).
    assert (IHt : forall v r' s', r = v :: r' -> exists t, q_errs (pa r' s') = q_errs s' ++ t) by (intros v r' s' ->; cbn in Hk; apply IH; lia).
    destruct (arg_cases a) as [(t & ->)|[->|[(c & cs & -> & Hc)|Hw]]].
    + rewrite pa_long. destruct (strchr 61 t) as [(n, v)|]; [eapply more; [apply enter_mono|apply IH']|].
      destruct (reg_find t (q_opts s)) as [o|]; [|eapply more; [apply (more_fail (EUndef t))|apply IH']].
      destruct (o_read o); [|eapply more; [apply enter_mono|apply IH']]. destruct r as [|v r']; [apply more_fail|]. eapply more; [apply enter_mono|]. now apply (IHt v).
    + apply IH'.
    + rewrite (pa_group _ _ _ _ Hc). unfold group. set (s1 := shorts _ _ _). set (la := last _ _).
      assert (H1 : exists t, q_errs s1 = q_errs s ++ t) by apply shorts_mono. eapply more; [exact H1|].
      destruct (char_find la lk) as [[|x n]|]; try (eapply more; [apply more_fail|apply IH']).
      destruct r as [|v r']; [rewrite set1_enter; eapply more; [apply enter_mono|apply IH']|].
      destruct (has_value _ s1); rewrite ?set1_enter, ?set2_enter; (eapply more; [apply enter_mono|]); [now apply (IHt v)|apply IH'].
    + rewrite (pa_word _ _ _ Hw). destruct (IH' (mkpst (q_opts s) (q_errs s) (q_rest s ++ [a]))) as (t & Ht). exists t. exact Ht.
Qed.
(** Without errors the arguments are a command line. *)
Lemma pa_bwd k : forall args said s, (length args <= k)%nat -> inv said (q_opts s) -> q_errs (pa args s) = [] ->
  exists its parts, args = line its /\ Forall spelled its /\ Forall2 (says D) its parts /\ Forall (allowed read_float D) (concat parts).
Proof.
  induction k as [|k IH]; intros args said s Hk I He.
  - destruct args; [|cbn in Hk; lia]. exists [], []. repeat split; constructor.
  - destruct args as [|a r]; [exists [], []; repeat split; constructor|]. cbn [length] in Hk.
    assert (Hno : forall r' er (s1 : pst), q_errs (pa r' (fail er s1)) = [] -> False).
    { intros r' er s1 H. destruct (pa_mono _ r' (fail er s1) (le_n _)) as (t & Ht). rewrite H in Ht. symmetry in Ht. apply app_eq_nil in Ht. destruct Ht as (Ht & _).
      now apply fail_mono in Ht. }
    assert (Go : forall i p r' said' s', a :: r = text i ++ r' -> (length r' <= k)%nat -> spelled i -> says D i p -> Forall (allowed read_float D) p -> inv said' (q_opts s') -> q_errs (pa r' s') = [] ->
      exists its parts, a :: r = line its /\ Forall spelled its /\ Forall2 (says D) its parts /\ Forall (allowed read_float D) (concat parts)).
    { intros i p r' said' s' El Hl Hs Hsay Hall I' He'. destruct (IH r' said' s' Hl I' He') as (its & parts & -> & B & C & E).
      exists (i :: its), (p :: parts). split; [exact El|]. split; [now constructor|]. split; [now constructor|]. cbn. apply Forall_app. auto. }
    assert (Ent : forall i p e r' said' (s' : pst), a :: r = text i ++ r' -> (length r' <= k)%nat -> spelled i -> says D i (p ++ [e]) -> Forall (allowed read_float D) p -> inv said' (q_opts s') -> q_errs (pa r' (enter e s')) = [] ->
      exists its parts, a :: r = line its /\ Forall spelled its /\ Forall2 (says D) its parts /\ Forall (allowed read_float D) (concat parts)).
    { intros i p e r' said' s' El Hl Hs Hsay Hall I' He'. destruct (enter_spec said' s' e I') as [(Ha & m' & E & I2)|(_ & er & E)]; rewrite E in He'; [|now apply Hno in He'].
      apply (Go i (p ++ [e]) r' (said' ++ [e]) (mkpst m' (q_errs s') (q_rest s'))); auto. apply Forall_app. auto. }
    destruct (arg_cases a) as [(t & ->)|[->|[(c & cs & -> & Hc)|Hw]]].
    + rewrite pa_long in He. pose proof (strchr_cases t) as Ct. destruct (strchr 61 t) as [(n, v)|].
      * destruct Ct as (-> & Hn). apply (Ent (Assign n v) [] (n, Some v) r said s); auto; [lia|constructor].
      * destruct (reg_find t (q_opts s)) as [o|]; [|now apply Hno in He]. destruct (o_read o).
        -- destruct r as [|v r']; [now apply fail_mono in He|]. cbn in Hk. apply (Ent (Give t v) [] (t, Some v) r' said s); auto; [lia|constructor].
        -- apply (Ent (Mark t) [] (t, None) r said s); auto; [lia|constructor].
    + rewrite pa_dash in He. apply (Go Dash [] r said s); auto; [lia|exact Logic.I|constructor].
    + rewrite (pa_group _ _ _ _ Hc) in He. unfold group in He.
      destruct (@exists_last _ (c :: cs)) as (cs0 & la & Ecs); [discriminate|]. rewrite Ecs, removelast_last, last_last in He.
      assert (Hh : hd 0 (cs0 ++ [la]) <> 45) by (rewrite <- Ecs; exact Hc).
      assert (H1 : q_errs (shorts lk cs0 s) = []).
      { assert (Hm : forall r' s', (exists t, q_errs s' = q_errs (shorts lk cs0 s) ++ t) -> q_errs (pa r' s') = [] -> q_errs (shorts lk cs0 s) = []).
        { intros r' s' Ht H. destruct (more _ _ _ Ht (pa_mono _ r' s' (le_n _))) as (t & E). rewrite H in E. symmetry in E. now apply app_eq_nil in E. }
        destruct (char_find la lk) as [[|x n]|]; try (eapply Hm; [|exact He]; apply more_fail).
        destruct r as [|v r']; [eapply Hm; [|exact He]; rewrite set1_enter; apply enter_mono|].
        destruct (has_value _ _); (eapply Hm; [|exact He]); rewrite ?set1_enter, ?set2_enter; apply enter_mono. }
      destruct (shorts_bwd cs0 said s I H1) as (ns & F & A). destruct (shorts_fwd cs0 ns F said s I A) as (m1 & E1 & I1). rewrite E1 in He.
      destruct (char_find la lk) as [n|] eqn:El; [|now apply Hno in He]. destruct n as [|x n]; [now apply Hno in He|]. apply Hlk in El.
      assert (Plain : q_errs (pa r (enter (x :: n, None) (mkpst m1 (q_errs s) (q_rest s)))) = [] ->
        exists its parts, (45 :: c :: cs) :: r = line its /\ Forall spelled its /\ Forall2 (says D) its parts /\ Forall (allowed read_float D) (concat parts)).
      { intros H. apply (Ent (Marks (c :: cs)) (flags ns) (x :: n, None) r (said ++ flags ns) (mkpst m1 (q_errs s) (q_rest s))); auto; [lia| |].
        - split; [discriminate|exact Hc].
        - rewrite Ecs. change [(x :: n, @None (list Z))] with (flags [x :: n]). unfold flags. rewrite <- map_app. constructor. apply Forall2_app; [exact F|]. constructor; [exact El|constructor]. }
      destruct r as [|v r']; [now apply Plain|]. cbn in Hk. destruct (has_value _ _); [|now apply Plain].
      apply (Ent (Short cs0 la v) (flags ns) (x :: n, Some v) r' (said ++ flags ns) (mkpst m1 (q_errs s) (q_rest s))); auto; [|lia|].
      * cbn [text app]. now rewrite <- Ecs.
      * now constructor.
    + rewrite (pa_word _ _ _ Hw) in He. apply (Go (Word a) [] r said (mkpst (q_opts s) (q_errs s) (q_rest s ++ [a]))); auto; try lia; constructor.
Qed.
(** Options that are missing. *)
Lemma missing_iff said m : inv said m -> missing m = [] <-> complete D said.
Proof.
  intros I. unfold missing. split.
  - intros H d Hd Hneed Hr. destruct (iv_some _ _ I d Hd) as (o & Hf & _ & H2 & H3 & H4 & _). apply H4. destruct (o_has o) eqn:Eh; [reflexivity|]. exfalso.
    apply reg_find_some in Hf. apply map_eq_nil in H.
    assert (Hin : In (d_name d, o) (filter (fun p => match o_read (snd p) with Some _ => o_need (snd p) && negb (o_has (snd p)) | None => false end) m)).
    { apply filter_In. split; [exact Hf|]. cbn. rewrite H3, H2, Hneed, Eh. now destruct (d_read d). }
    rewrite H in Hin. contradiction.
  - intros H. match goal with |- map _ (filter ?f m) = [] => assert (F : filter f m = []) end; [|now rewrite F].
    match goal with |- ?l = [] => destruct l as [|p rs] eqn:E; [reflexivity|] end. exfalso.
    assert (Hin : In p (p :: rs)) by now left. rewrite <- E in Hin. apply filter_In in Hin. destruct Hin as (Hin & Hp). destruct p as [n o]. cbn [snd] in Hp.
    assert (Hf : reg_find n m = Some o) by (apply reg_find_unique; [apply I|exact Hin]). destruct (iv_only _ _ I _ _ Hf) as (d & Hd & Hn).
    destruct (iv_some _ _ I d Hd) as (o' & Hf' & _ & H2 & H3 & H4 & _). rewrite Hn, Hf in Hf'. injection Hf' as <-.
    destruct (o_read o) as [r|]; [|discriminate]. apply andb_true_iff in Hp. destruct Hp as (P1 & P2).
    assert (Hm : o_has o = true) by (apply H4, H; [exact Hd|congruence|congruence]). rewrite Hm in P2. discriminate.
Qed.
End P.

(* ------------------------------------------------------------------- parse *)
Section Q.
Context {R : Type}.
Variable read_float : list Z -> option R.
Lemma command_parse (D : list (decl R)) m prog args said ws : unambiguous D -> adds D [] = Some m -> command read_float D args said ws ->
  exists ok s, parse read_float m (prog :: args) = (ok, s) /\ q_rest s = ws /\ inv read_float D said (q_opts s) /\ (ok = true <-> complete D said).
Proof.
  intros HD Em (its & parts & -> & HP & HS & -> & HA & ->). destruct (lookup_start D HD m Em) as (lk & El & Hlk).
  destruct (pa_fwd read_float D HD lk Hlk its parts HS HP [] (mkpst m [] []) (inv_start read_float D m Em) HA) as (m' & E & I).
  unfold parse. rewrite El, E. cbn [q_errs q_opts q_rest app]. eexists _, _. split; [reflexivity|]. split; [reflexivity|]. split; [exact I|].
  rewrite <- (missing_iff _ _ _ _ I). cbn [q_opts]. destruct (missing m'); split; congruence.
Qed.
Lemma parse_command (D : list (decl R)) m argv s : adds D [] = Some m -> parse read_float m argv = (true, s) ->
  exists prog args said ws, argv = prog :: args /\ unambiguous D /\ command read_float D args said ws /\ complete D said.
Proof.
  intros Em E. destruct argv as [|prog args]; [discriminate|].
  assert (HD : unambiguous D).
  { pose proof (adds_spec D [] (NoDup_nil _)) as H. rewrite Em in H. destruct H as (H1 & _ & _ & H4). split; [exact H1|].
    unfold parse in E. destruct (lookup_of m []) as [lk|] eqn:El; [|discriminate]. destruct (lookup_distinct m [] lk El) as (_ & B).
    intros d d' Hd Hd' Hne Hne' Hq Hz. apply (B (d_name d) (fresh d) (d_name d') (fresh d')); auto; apply H4; right; eauto. }
  destruct (lookup_start D HD m Em) as (lk & El & Hlk). unfold parse in E. rewrite El in E. cbn zeta in E. injection E as E _.
  destruct (q_errs (parse_args read_float lk args (mkpst m [] [])) ++ missing _) eqn:Ee in E; [|discriminate]. apply app_eq_nil in Ee. destruct Ee as (Ee & Em2).
  destruct (pa_bwd read_float D HD lk Hlk _ args [] (mkpst m [] []) (le_n _) (inv_start read_float D m Em) Ee) as (its & parts & Ea & HP & HS & HA).
  exists prog, args, (concat parts), (words its). split; [reflexivity|]. split; [exact HD|]. split; [exists its, parts; auto 10|].
  destruct (pa_fwd read_float D HD lk Hlk its parts HS HP [] (mkpst m [] []) (inv_start read_float D m Em) HA) as (m' & E' & I).
  rewrite <- Ea in E'. rewrite E' in Em2. cbn [q_opts] in Em2. now apply (missing_iff _ _ _ _ I).
Qed.
(** What the program sees. *)
Lemma inv_exist D said (m : opts R) n : inv read_float D said m -> (exists d, In d D /\ d_name d = n) ->
  exists b, exist n m = Some b /\ (b = true <-> mentioned said n).
Proof.
  intros I (d & Hd & <-). destruct (iv_some _ _ _ _ I d Hd) as (o & Hf & _ & _ & _ & H & _). exists (o_has o). unfold exist. rewrite Hf. auto.
Qed.
Lemma inv_got D said (m : opts R) n d r : inv read_float D said m -> In d D -> d_name d = n -> d_read d = Some r ->
  exists x, final read_float D said n x /\ got m n x.
Proof.
  intros I Hd <- Hr. destruct (iv_some _ _ _ _ I d Hd) as (o & Hf & _ & _ & H3 & _ & H5). exists (o_val o). split; [now apply (H5 r)|].
  unfold got, get_s, get_i, get_f. rewrite Hf. cbn [bind]. rewrite H3, Hr. now destruct (o_val o).
Qed.
Lemma final_fun D said n x y : NoDup (map d_name D) -> final read_float D said n x -> final read_float D said n y -> x = y.
Proof.
  intros HD (d & r & Hd & Hn & Hr & H) (d' & r' & Hd' & Hn' & Hr' & H').
  assert (d' = d).
  { apply (nodup_inj d_name D); auto; congruence. }
  subst d'. rewrite Hr in Hr'. injection Hr' as <-.
  assert (Sym : forall pre v post, said = pre ++ (n, Some v) :: post -> mentioned said n) by (intros pre v post ->; exists (Some v); apply in_elt).
  destruct H as [(Hm & ->)|(pre & v & post & E & Hp & Hv)], H' as [(Hm' & ->)|(pre' & v' & post' & E' & Hp' & Hv')]; [reflexivity|now apply Sym in E'|now apply Sym in E|].
  assert (v = v').
  { rewrite E in E'. clear - E' Hp Hp'. revert pre' E'. induction pre as [|p pre IH]; intros [|p' pre'] E'; cbn in E'.
    - now injection E'.
    - exfalso. injection E' as _ E'. apply Hp. rewrite E'. exists (Some v'). apply in_elt.
    - exfalso. injection E' as _ E'. apply Hp'. rewrite <- E'. exists (Some v). apply in_elt.
    - injection E' as _ E'. now apply IH in E'. }
  subst v'. apply read_iff in Hv, Hv'. congruence.
Qed.
End Q.

(* ----------------------------------------- what can be read back in any case *)
Section S.
Context {R : Type}.
Variable read_float : list Z -> option R.
Variable D : list (decl R).
Definition typed (r : option reader) (x : val R) : Prop :=
  match r, x with
  | Some RString, VS _ | Some (ROneOf _), VS _ | Some RInt, VI _ | Some RFloat, VF _ | None, _ => True
  | _, _ => False
  end.
Definition sane (m : opts R) : Prop :=
  forall d, In d D -> exists o, reg_find (d_name d) m = Some o /\ o_read o = d_read d /\ typed (o_read o) (o_val o).
Lemma read_typed r v x : read read_float r v = Some x -> typed (Some r) x.
Proof. destruct r as [|alts| |]; cbn; [|destruct (existsb _ _)|destruct (read_int v)|destruct (read_float v)]; cbn; intros H; try discriminate; now inversion H. Qed.
Lemma sane_put m n o o' : sane m -> reg_find n m = Some o -> o_read o' = o_read o -> typed (o_read o') (o_val o') -> sane (put n o' m).
Proof.
  intros H Hf Hr Ht d Hd. assert (Hin : In n (map fst m)) by (apply reg_find_some in Hf; apply in_map_iff; now exists (n, o)).
  rewrite (put_find _ _ _ _ Hin). destruct (H d Hd) as (o1 & H1 & H2 & H3). destruct (str_eqb n (d_name d)) eqn:E; [|eauto].
  apply str_eqb_eq in E. subst n. rewrite Hf in H1. injection H1 as <-. exists o'. split; [reflexivity|]. split; [congruence|exact Ht].
Qed.
Lemma sane_set1 n s : sane (q_opts s) -> sane (q_opts (set1 n s)).
Proof.
  intros H. unfold set1. destruct (reg_find n (q_opts s)) as [o|] eqn:E; [|exact H]. destruct (o_read o) eqn:Er; [exact H|]. cbn [q_opts].
  apply (sane_put _ _ o); auto; cbn; rewrite ?Er; exact I.
Qed.
Lemma sane_set2 n v s : sane (q_opts s) -> sane (q_opts (set2 read_float n v s)).
Proof.
  intros H. unfold set2. destruct (reg_find n (q_opts s)) as [o|] eqn:E; [|exact H]. destruct (o_read o) as [r|] eqn:Er; [|exact H].
  destruct (read read_float r v) as [x|] eqn:Ex; [|exact H]. cbn [q_opts]. apply (sane_put _ _ o); auto; cbn; rewrite ?Er; try reflexivity; now apply (read_typed _ v).
Qed.
Lemma sane_shorts lk cs : forall s, sane (q_opts s) -> sane (q_opts (shorts lk cs s)).
Proof. induction cs as [|c cs IH]; intros s H; cbn [shorts]; [exact H|]. apply IH. destruct (char_find c lk) as [[|a n]|]; [exact H|now apply sane_set1|exact H]. Qed.
Lemma sane_args lk k : forall args s, (length args <= k)%nat -> sane (q_opts s) -> sane (q_opts (parse_args read_float lk args s)).
Proof.
  induction k as [|k IH]; intros args s Hk H.
  - destruct args; [exact H|cbn in Hk; lia].
  - destruct args as [|a r]; [exact H|]. cbn [length] in Hk. destruct (arg_cases a) as [(t & ->)|[->|[(c & cs & -> & Hc)|Hw]]].
    + rewrite pa_long. unfold enter. cbn [fst snd]. destruct (strchr 61 t) as [(n, v)|]; [apply IH; [lia|]; now apply sane_set2|].
      destruct (reg_find t (q_opts s)) as [o|]; [|apply IH; [lia|exact H]]. destruct (o_read o); [|apply IH; [lia|]; now apply sane_set1].
      destruct r as [|v r']; [exact H|]. cbn in Hk. apply IH; [lia|]. now apply sane_set2.
    + rewrite pa_dash. apply IH; [lia|exact H].
    + rewrite (pa_group _ _ _ _ _ _ Hc). unfold group. set (s1 := shorts _ _ _). assert (H1 : sane (q_opts s1)) by now apply sane_shorts.
      destruct (char_find _ lk) as [[|x n]|]; [apply IH; [lia|exact H1]| |apply IH; [lia|exact H1]].
      destruct r as [|v r']; [apply IH; [cbn; lia|]; now apply sane_set1|]. cbn in Hk. destruct (has_value _ s1); apply IH; try (cbn; lia); [now apply sane_set2|now apply sane_set1].
    + rewrite (pa_word _ _ _ _ _ Hw). apply IH; [lia|exact H].
Qed.
Lemma sane_parse m argv : adds D [] = Some m -> (forall d, In d D -> typed (d_read d) (d_def d)) -> sane (q_opts (snd (parse read_float m argv))).
Proof.
  intros Em Ht. pose proof (adds_spec D [] (NoDup_nil _)) as A. rewrite Em in A. destruct A as (_ & _ & A3 & A4).
  assert (H : sane m).
  { intros d Hd. exists (fresh d). split; [apply reg_find_unique; [exact A3|]; apply A4; right; eauto|]. split; [reflexivity|]. now apply Ht. }
  unfold parse. destruct argv as [|p args]; [exact H|]. destruct (lookup_of m []) as [lk|c]; [|exact H]. cbn [snd q_opts]. now apply (sane_args lk _ args (mkpst m [] []) (le_n _)).
Qed.
Lemma sane_exist m d : sane m -> In d D -> exists b, exist (d_name d) m = Some b.
Proof. intros H Hd. destruct (H d Hd) as (o & Hf & _). unfold exist. rewrite Hf. cbn. eauto. Qed.
Lemma sane_get m d : sane m -> In d D ->
  match d_read d with
  | Some RString | Some (ROneOf _) => exists s, get_s (d_name d) m = Some s
  | Some RInt => exists z, get_i (d_name d) m = Some z
  | Some RFloat => exists f, get_f (d_name d) m = Some f
  | None => True
  end.
Proof.
  intros H Hd. destruct (H d Hd) as (o & Hf & Hr & Ht). unfold get_s, get_i, get_f. rewrite Hf. cbn [bind]. rewrite Hr in *.
  destruct (d_read d) as [[|alts| |]|]; [..|exact I]; cbn in Ht; destruct (o_val o); try contradiction; eauto.
Qed.
(** What is read back is the value. *)
Lemma final_s said m d s : inv read_float D said m -> In d D -> get_s (d_name d) m = Some s -> final read_float D said (d_name d) (VS s).
Proof.
  intros I Hd G. unfold get_s in G. destruct (iv_some _ _ _ _ I d Hd) as (o & Hf & _ & _ & H3 & _ & H5). rewrite Hf in G. cbn [bind] in G. rewrite H3 in G.
  destruct (d_read d) as [r|]; [|discriminate]. destruct (o_val o) eqn:Ev; try discriminate. injection G as ->. now apply (H5 r).
Qed.
Lemma final_i said m d z : inv read_float D said m -> In d D -> get_i (d_name d) m = Some z -> final read_float D said (d_name d) (VI z).
Proof.
  intros I Hd G. unfold get_i in G. destruct (iv_some _ _ _ _ I d Hd) as (o & Hf & _ & _ & H3 & _ & H5). rewrite Hf in G. cbn [bind] in G. rewrite H3 in G.
  destruct (d_read d) as [r|]; [|discriminate]. destruct (o_val o) eqn:Ev; try discriminate. injection G as ->. now apply (H5 r).
Qed.
Lemma final_f said m d f : inv read_float D said m -> In d D -> get_f (d_name d) m = Some f -> final read_float D said (d_name d) (VF f).
Proof.
  intros I Hd G. unfold get_f in G. destruct (iv_some _ _ _ _ I d Hd) as (o & Hf & _ & _ & H3 & _ & H5). rewrite Hf in G. cbn [bind] in G. rewrite H3 in G.
  destruct (d_read d) as [r|]; [|discriminate]. destruct (o_val o) eqn:Ev; try discriminate. injection G as ->. now apply (H5 r).
Qed.
End S.

(* ---------------------------------------------------------------- the settings *)
Lemma strip_first s : first_word s (strip s).
Proof.
  unfold strip. assert (B : forall c, is_blank c = true <-> blank c) by (intros c; unfold is_blank, blank; rewrite orb_true_iff, !Z.eqb_eq; tauto).
  unfold find_if_not. pose proof (find_if_spec (fun c => negb (is_blank c)) s) as H1. destruct (find_if (fun c => negb (is_blank c)) s) as [pre s1]. cbn [snd].
  pose proof (find_if_spec is_blank s1) as H2. destruct (find_if is_blank s1) as [w rest]. cbn [fst]. destruct H1 as (-> & P1 & P2), H2 as (-> & Q1 & Q2).
  exists pre, rest. split; [reflexivity|]. split; [|split; [|split]].
  - eapply Forall_impl; [|exact P1]. cbn. intros c Hc. apply B. now apply negb_false_iff.
  - eapply Forall_impl; [|exact Q1]. cbn. intros c Hc. rewrite <- B. congruence.
  - destruct Q2 as [->|(c & r & -> & Hc)]; [now left|right]. exists c, r. split; [reflexivity|]. now apply B.
  - intros ->. destruct Q2 as [->|(c & r & -> & Hc)]; [reflexivity|]. cbn [app] in P2. destruct P2 as [P2|(c' & r' & P2 & Hc')]; [discriminate|].
    injection P2 as -> ->. rewrite Hc in Hc'. discriminate.
Qed.
Lemma first_word_fun s w w' : first_word s w -> first_word s w' -> w = w'.
Proof.
  intros (pre & rest & E & Hp & Hw & Hr & He) (pre' & rest' & E' & Hp' & Hw' & Hr' & He').
  assert (K : forall pre pre' x x', pre ++ x = pre' ++ x' -> Forall blank pre -> Forall blank pre' ->
    (x = [] \/ exists c r, x = c :: r /\ ~ blank c) -> (x' = [] \/ exists c r, x' = c :: r /\ ~ blank c) -> x = x').
  { clear. induction pre as [|p pre IH]; intros [|p' pre'] x x' E H H' Hx Hx'; cbn [app] in E.
    - exact E.
    - exfalso. inversion H'; subst. destruct Hx as [Hx|(c & r & Hx & Hc)]; [discriminate|]. injection Hx as <- _. contradiction.
    - exfalso. inversion H; subst. destruct Hx' as [Hx'|(c & r & Hx' & Hc)]; [discriminate|]. injection Hx' as <- _. contradiction.
    - injection E as _ E. inversion H; inversion H'; subst. now apply (IH pre'). }
  assert (S1 : w ++ rest = [] \/ exists c r, w ++ rest = c :: r /\ ~ blank c).
  { destruct w as [|c w]; [left; cbn; auto|right]. exists c, (w ++ rest). split; [reflexivity|]. now inversion Hw. }
  assert (S2 : w' ++ rest' = [] \/ exists c r, w' ++ rest' = c :: r /\ ~ blank c).
  { destruct w' as [|c w']; [left; cbn; auto|right]. exists c, (w' ++ rest'). split; [reflexivity|]. now inversion Hw'. }
  subst s. specialize (K pre pre' _ _ E' Hp Hp' S1 S2). clear - K Hw Hw' Hr Hr'. revert w' K Hw'.
  induction w as [|c w IH]; intros [|c' w'] K Hw'; cbn [app] in K.
  - reflexivity.
  - exfalso. subst rest. destruct Hr as [Hr|(d & r & Hr & Hd)]; [discriminate|]. injection Hr as <- _. inversion Hw'; contradiction.
  - exfalso. subst rest'. destruct Hr' as [Hr'|(d & r & Hr' & Hd)]; [discriminate|]. injection Hr' as <- _. inversion Hw; contradiction.
  - injection K as <- K. inversion Hw; inversion Hw'; subst. f_equal. now apply IH.
Qed.
Lemma setting_strip p a b : pieces 61 p [a; b] -> forall x, setting p x <-> x = (strip a, strip b).
Proof.
  intros Hp x. split.
  - intros (a' & b' & Hp' & H1 & H2). assert (E := pieces_fun _ _ _ Hp' _ Hp). injection E as -> ->. destruct x as [n v]. cbn in *.
    rewrite (first_word_fun _ _ _ H1 (strip_first a)), (first_word_fun _ _ _ H2 (strip_first b)). reflexivity.
  - intros ->. exists a, b. split; [exact Hp|]. split; apply strip_first.
Qed.
Lemma settings_of_spec parts : exists l ok, settings_of parts = Some (l, ok) /\
  forall l' (ok' : bool), (if ok' then Forall2 setting parts l'
    else exists pre bad post, parts = pre ++ bad :: post /\ Forall2 setting pre l' /\ forall a b, ~ pieces 61 bad [a; b]) <-> l' = l /\ ok' = ok.
Proof.
  induction parts as [|p parts IH]; cbn [settings_of].
  - exists [], true. split; [reflexivity|]. intros l' [|].
    + split; [intros H; now inversion H|intros (-> & _); constructor].
    + split; [intros (pre & bad & post & E & _); now apply app_cons_not_nil in E|intros (_ & E); discriminate].
  - destruct (str_split_spec 61 p) as (ps & Es & Hps). rewrite Es. cbn [bind].
    assert (Bad : (forall a b, ~ pieces 61 p [a; b]) -> forall l' (ok' : bool), (if ok' then Forall2 setting (p :: parts) l'
      else exists pre bad post, p :: parts = pre ++ bad :: post /\ Forall2 setting pre l' /\ forall a b, ~ pieces 61 bad [a; b]) <-> l' = [] /\ ok' = false).
    { intros Hb l' [|].
      - split; [|intros (_ & E); discriminate]. intros H. inversion H as [|? ? ? ? (a & b & Hab & _)]; subst. now apply Hb in Hab.
      - split.
        + intros (pre & bad & post & E & F & _). split; [|reflexivity]. destruct pre as [|q pre]; [now inversion F|]. injection E as <- _.
          inversion F as [|? ? ? ? (a & b & Hab & _)]; subst. now apply Hb in Hab.
        + intros (-> & _). exists [], p, parts. split; [reflexivity|]. split; [constructor|exact Hb]. }
    assert (Bad' : (forall a b, ps <> [a; b]) -> forall a b, ~ pieces 61 p [a; b]).
    { intros H a b Hab. apply (H a b). exact (pieces_fun _ _ _ Hps _ Hab). }
    destruct ps as [|a [|b [|c ps]]]; try (exists [], false; split; [reflexivity|]; apply Bad, Bad'; discriminate).
    destruct IH as (l & ok & E & H). rewrite E. cbn [bind]. exists ((strip a, strip b) :: l), ok. split; [reflexivity|]. intros l' ok'.
    split.
    + destruct ok'.
      * intros F. inversion F as [|? x ? l1 F1 F2]; subst. apply (setting_strip _ _ _ Hps) in F1. subst x. destruct (proj1 (H l1 true) F2) as (-> & ->). auto.
      * intros (pre & bad & post & E' & F & Hb). destruct pre as [|q pre]; cbn [app] in E'; injection E' as <- E'; [now apply Hb in Hps|].
        inversion F as [|? x ? l1 F1 F2]; subst l'. apply (setting_strip _ _ _ Hps) in F1. subst x.
        destruct (proj1 (H l1 false)) as (-> & ->); [exists pre, bad, post; auto|auto].
    + intros (-> & ->). assert (G := proj2 (H l ok) (conj eq_refl eq_refl)). destruct ok.
      * constructor; [now apply (setting_strip _ _ _ Hps)|exact G].
      * destruct G as (pre & bad & post & -> & F & Hb). exists (p :: pre), bad, post. split; [reflexivity|]. split; [|exact Hb]. constructor; [now apply (setting_strip _ _ _ Hps)|exact F].
Qed.
Lemma params_spec s : exists l ok, params_of s = Some (l, ok) /\ forall l' ok', settings s l' ok' <-> l' = l /\ ok' = ok.
Proof.
  assert (E : params_of s = do parts <- str_split 59 s; settings_of parts) by (now destruct s). rewrite E.
  destruct (str_split_spec 59 s) as (ps & Es & Hps). rewrite Es. cbn [bind]. destruct (settings_of_spec ps) as (l & ok & El & H).
  exists l, ok. split; [exact El|]. intros l' ok'. rewrite <- H. unfold settings. split.
  - intros (parts & Hp & G). rewrite (pieces_fun _ _ _ Hps _ Hp). exact G.
  - intros G. exists ps. auto.
Qed.
