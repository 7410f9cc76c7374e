(** A JSON text without its line breaks means the same; no line of it is the marker. *)
From Coq Require Import String Sorted.
From Verif Require Import M_Base M_Str M_Text S_Text P_Str P_Parse M_Save M_Json S_Json P_Json P_Json2.

Definition joined (t : list Z) : list Z := filter (fun c => negb (c =? 10)) t.
Lemma joined_app a b : joined (a ++ b) = joined a ++ joined b. Proof. apply filter_app. Qed.
Lemma joined_id t : Forall (fun c => c <> 10) t -> joined t = t.
Proof. unfold joined. induction 1 as [|c t H _ IH]; cbn; [reflexivity|]. rewrite (proj2 (Z.eqb_neq _ _) H). cbn. now rewrite IH. Qed.
Lemma joined_cons c t : c <> 10 -> joined (c :: t) = c :: joined t.
Proof. intros H. unfold joined. cbn. now rewrite (proj2 (Z.eqb_neq _ _) H). Qed.
Lemma joined_blanks a : blanks a -> blanks (joined a).
Proof. intros H. unfold blanks, joined. induction H; cbn; [constructor|]. destruct (negb _); [constructor|]; auto. Qed.
Definition quiet (c : Z) : Prop := c <> 10 /\ c <> 109.
Lemma hex4_no_nl h u : hex4_value h u -> Forall (fun c => c <> 10) h.
Proof. intros []. repeat constructor; unfold hex_value in *; lia. Qed.
Lemma string_no_nl t s : string_text t s -> Forall (fun c => c <> 10) t.
Proof.
  induction 1 as [|c t s H1 H2 H3 _ IH|e c t s H1 _ IH|h u b t s H1 H2 H3 _ IH|h g hi lo b t s H1 H2 H3 H4 H5 _ IH].
  - constructor.
  - constructor; [lia|exact IH].
  - constructor; [lia|]. constructor; [|exact IH]. unfold escapes in H1. cbn in H1. intuition congruence.
  - constructor; [lia|]. constructor; [lia|]. apply Forall_app. split; [eapply hex4_no_nl; eassumption|exact IH].
  - constructor; [lia|]. constructor; [lia|]. apply Forall_app. split; [eapply hex4_no_nl; eassumption|]. constructor; [lia|]. constructor; [lia|].
    apply Forall_app. split; [eapply hex4_no_nl; eassumption|exact IH].
Qed.
Lemma digit_quiet c : digit_char c -> quiet c. Proof. unfold digit_char, quiet. lia. Qed.
Lemma digits_quiet l : Forall digit_char l -> Forall quiet l. Proof. apply Forall_impl. apply digit_quiet. Qed.
Lemma sign_quiet b : Forall quiet (S_Json.sign b). Proof. destruct b; repeat constructor; unfold quiet; lia. Qed.
Lemma frac_quiet fr : Forall digit_char fr -> Forall quiet (frac_text fr).
Proof. intros H. destruct fr as [|f fr]; [constructor|]. constructor; [unfold quiet; lia|]. now apply digits_quiet. Qed.
Lemma exp_quiet et x : exp_text et x -> Forall quiet et.
Proof. intros []; [constructor|..]; repeat (constructor; [unfold quiet; lia|]); now apply digits_quiet. Qed.
Lemma quiet_no_nl t : Forall quiet t -> Forall (fun c => c <> 10) t. Proof. apply Forall_impl. unfold quiet. tauto. Qed.

(** [calm b t]: no m at the start of a line; [b] says whether the text starts a line. *)
Fixpoint calm (b : bool) (t : list Z) : bool :=
  match t with [] => true | c :: r => negb (b && (c =? 109)) && calm (c =? 10) r end.
Lemma calm_weak b t : calm true t = true -> calm b t = true.
Proof. destruct t as [|c r]; [auto|]. cbn. destruct b; [auto|]. cbn. now destruct (negb (c =? 109)). Qed.
Lemma calm_inside t : Forall (fun c => c <> 10) t -> forall r, calm false r = true -> calm false (t ++ r) = true.
Proof. induction 1 as [|c t H _ IH]; intros r Hr; [exact Hr|]. cbn. rewrite (proj2 (Z.eqb_neq _ _) H). auto. Qed.
Lemma calm_quiet c r : quiet c -> calm false r = true -> calm true (c :: r) = true.
Proof. intros (H1 & H2) Hr. cbn. now rewrite (proj2 (Z.eqb_neq _ _) H1), (proj2 (Z.eqb_neq _ _) H2). Qed.
Lemma calm_blanks a r : blanks a -> calm true r = true -> calm true (a ++ r) = true.
Proof.
  intros H Hr. induction H as [|c a Hc _ IH]; [exact Hr|]. cbn [app calm]. rewrite (proj2 (Z.eqb_neq c 109)) by lia. cbn. now apply calm_weak.
Qed.
Lemma calm_word t r : t <> [] -> Forall quiet t -> calm true r = true -> calm true (t ++ r) = true.
Proof.
  intros N H Hr. destruct H as [|c t Hc Ht]; [congruence|]. cbn [app]. apply calm_quiet; [exact Hc|]. apply calm_inside; [now apply quiet_no_nl|now apply calm_weak].
Qed.

Section P.
Context {D : Type}.
Variable read_double : list Z -> option D.
Local Notation json := (json D).
Local Notation number_text := (number_text read_double).
Local Notation value_text := (value_text read_double).
Local Notation elements_text := (elements_text read_double).
Local Notation members_text := (members_text read_double).
Lemma number_quiet t v : number_text t v -> Forall quiet t /\ t <> [].
Proof.
  intros [neg ds z Hi _ _|neg ds fr et x d Hi Hf He _ _]; pose proof (int_text_ne _ Hi) as Hne; destruct Hi as (Hi & _); (split; [|destruct neg, ds; cbn; congruence]).
  - apply Forall_app. split; [apply sign_quiet|now apply digits_quiet].
  - repeat (apply Forall_app; split); [apply sign_quiet|now apply digits_quiet|now apply frac_quiet|eapply exp_quiet; eassumption].
Qed.
Ltac jn := repeat first [rewrite joined_app | rewrite joined_cons by (try assumption; lia)].
Lemma joined_ok :
  (forall n v t, value_text n v t -> value_text n v (joined t)) /\
  (forall n l u, elements_text n l u -> elements_text n l (joined u)) /\
  (forall n ms u, members_text n ms u -> members_text n ms (joined u)).
Proof.
  apply (texts_ind D read_double).
  - intros n. change (joined (bytes "null")) with (bytes "null"). constructor.
  - intros n. change (joined (bytes "true")) with (bytes "true"). constructor.
  - intros n. change (joined (bytes "false")) with (bytes "false"). constructor.
  - intros n v t H. rewrite joined_id; [now constructor|]. apply quiet_no_nl. now apply number_quiet in H.
  - intros n t s H. jn. rewrite (joined_id t) by (eapply string_no_nl; exact H). change (joined [34]) with [34]. now constructor.
  - intros n w H. jn. change (joined [93]) with [93]. apply vt_empty_array. now apply joined_blanks.
  - intros n l t _ H. jn. change (joined [93]) with [93]. now apply vt_array.
  - intros n w H. jn. change (joined [125]) with [125]. apply vt_empty_object. now apply joined_blanks.
  - intros n ms m t _ H Ho. jn. change (joined [125]) with [125]. now apply vt_object with ms.
  - intros n v a t b Ha Hb _ H. jn. apply et_one; auto using joined_blanks.
  - intros n v a t b l u Ha Hb _ H _ H2. jn. apply et_more; auto using joined_blanks.
  - intros n k kt v a b c t d Ha Hb Hc Hd Hk _ H. jn. rewrite (joined_id kt) by (eapply string_no_nl; exact Hk). apply mt_one; auto using joined_blanks.
  - intros n k kt v a b c t d l u Ha Hb Hc Hd Hk _ H _ H2. jn. rewrite (joined_id kt) by (eapply string_no_nl; exact Hk). apply mt_more; auto using joined_blanks.
Qed.
Lemma quoted_calm t s r : string_text t s -> calm true r = true -> calm true (34 :: t ++ 34 :: r) = true.
Proof.
  intros H Hr. apply calm_quiet; [unfold quiet; lia|]. apply calm_inside; [eapply string_no_nl; exact H|]. apply calm_weak, calm_quiet; [unfold quiet; lia|now apply calm_weak].
Qed.
Ltac qt := (apply calm_quiet; [unfold quiet; lia|apply calm_weak]).
Lemma calm_ok :
  (forall n v t, value_text n v t -> forall r, calm true r = true -> calm true (t ++ r) = true) /\
  (forall n l u, elements_text n l u -> forall r, calm true r = true -> calm true (u ++ r) = true) /\
  (forall n ms u, members_text n ms u -> forall r, calm true r = true -> calm true (u ++ r) = true).
Proof.
  apply (texts_ind D read_double).
  - intros n r Hr. apply calm_word; auto; [discriminate|]. repeat constructor; discriminate.
  - intros n r Hr. apply calm_word; auto; [discriminate|]. repeat constructor; discriminate.
  - intros n r Hr. apply calm_word; auto; [discriminate|]. repeat constructor; discriminate.
  - intros n v t H r Hr. apply number_quiet in H as (H & N). now apply calm_word.
  - intros n t s H r Hr. cbn [app]. rewrite <- app_assoc. cbn [app]. now apply quoted_calm with s.
  - intros n w H r Hr. cbn [app]. rewrite <- app_assoc. cbn [app]. qt. apply calm_blanks; [exact H|]. now qt.
  - intros n l t _ H r Hr. cbn [app]. rewrite <- app_assoc. cbn [app]. qt. apply H. now qt.
  - intros n w H r Hr. cbn [app]. rewrite <- app_assoc. cbn [app]. qt. apply calm_blanks; [exact H|]. now qt.
  - intros n ms m t _ H _ r Hr. cbn [app]. rewrite <- app_assoc. cbn [app]. qt. apply H. now qt.
  - intros n v a t b Ha Hb _ H r Hr. rewrite <- !app_assoc. apply calm_blanks; [exact Ha|]. apply H. now apply calm_blanks.
  - intros n v a t b l u Ha Hb _ H _ H2 r Hr. rewrite <- !app_assoc. cbn [app]. apply calm_blanks; [exact Ha|]. apply H. apply calm_blanks; [exact Hb|]. qt. now apply H2.
  - intros n k kt v a b c t d Ha Hb Hc Hd Hk _ H r Hr. rewrite <- !app_assoc. cbn [app]. rewrite <- !app_assoc. cbn [app]. rewrite <- !app_assoc. cbn [app]. rewrite <- !app_assoc.
    apply calm_blanks; [exact Ha|]. apply quoted_calm with k; [exact Hk|]. apply calm_blanks; [exact Hb|]. qt. apply calm_blanks; [exact Hc|]. apply H. now apply calm_blanks.
  - intros n k kt v a b c t d l u Ha Hb Hc Hd Hk _ H _ H2 r Hr. rewrite <- !app_assoc. cbn [app]. rewrite <- !app_assoc. cbn [app]. rewrite <- !app_assoc. cbn [app]. rewrite <- !app_assoc. cbn [app].
    apply calm_blanks; [exact Ha|]. apply quoted_calm with k; [exact Hk|]. apply calm_blanks; [exact Hb|]. qt. apply calm_blanks; [exact Hc|]. apply H. apply calm_blanks; [exact Hd|]. qt. now apply H2.
Qed.
End P.

(** The lines of a text. *)
Lemma lines_of t : forall b, calm b t = true -> exists ls last,
  t = concat (map (fun l => l ++ [10]) ls) ++ last /\ joined t = concat ls ++ last /\
  Forall (fun l => ~ In 10 l) ls /\ ~ In 10 last /\
  (match ls ++ [last] with l :: r => (b = true -> hd 0 l <> 109) /\ Forall (fun l => hd 0 l <> 109) r | [] => True end).
Proof.
  induction t as [|c t IH]; intros b C.
  - exists [], []. cbn. repeat split; auto. intros _. lia.
  - cbn [calm] in C. apply andb_true_iff in C as [C1 C2]. destruct (IH _ C2) as (ls & last & E & J & F & N & M). destruct (Z.eqb_spec c 10) as [->|Hc].
    + exists ([] :: ls), last. split; [cbn; now rewrite E at 1|]. split; [cbn; exact J|]. split; [constructor; [intros []|exact F]|].
      split; [exact N|]. cbn [app]. split; [cbn; lia|]. destruct (ls ++ [last]) as [|l r] eqn:Q; [constructor|]. destruct M as (M1 & M2). constructor; auto.
    + assert (H109 : b = true -> c <> 109). { intros ->. cbn in C1. intros ->. discriminate. }
      destruct ls as [|l ls].
      * exists [], (c :: last). cbn in E, J, M |- *. rewrite (proj2 (Z.eqb_neq _ _) Hc). cbn. rewrite J, E at 1. repeat split; auto. intros [|]; [congruence|auto].
      * exists ((c :: l) :: ls), last. cbn [map concat app] in *. rewrite joined_cons by exact Hc. rewrite J. split; [cbn; now rewrite E at 1|]. split; [reflexivity|].
        inversion F as [|? ? F1 F2]; subst. split; [constructor; [intros [|]; [congruence|auto]|exact F2]|]. split; [exact N|].
        destruct M as (M1 & M2). split; [exact H109|exact M2].
Qed.
Lemma lines_ok t : calm true t = true -> exists ls, t ++ [10] = concat (map (fun l => l ++ [10]) ls) /\ joined t = concat ls /\
  Forall (fun l => ~ In 10 l /\ l <> bytes "model parameters:") ls.
Proof.
  intros C. destruct (lines_of t true C) as (ls & last & E & J & F & N & M). exists (ls ++ [last]). rewrite map_app, !concat_app. cbn [map concat]. rewrite !app_nil_r.
  split; [rewrite E at 1; now rewrite <- app_assoc|]. split; [exact J|].
  assert (H : Forall (fun l => hd 0 l <> 109) (ls ++ [last])). { destruct (ls ++ [last]); constructor; [now apply M|apply M]. }
  assert (G : Forall (fun l => ~ In 10 l) (ls ++ [last])). { apply Forall_app. auto. }
  apply Forall_forall. intros l Hl. split; [now apply (proj1 (Forall_forall _ _) G)|]. intros ->. apply (proj1 (Forall_forall _ _) H) in Hl. now apply Hl.
Qed.
