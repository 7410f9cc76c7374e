(** The reader reads every JSON text as what it denotes. *)
From Coq Require Import String Sorted.
From Verif Require Import M_Base M_Str M_Text S_Text P_Str P_Parse M_Save M_Json S_Json P_Json.

(* ------------------------------------------------------------------------- maps *)
Lemma key_lt_name a : forall b, key_lt a b = true <-> name_lt a b.
Proof.
  induction a as [|x a IH]; intros [|y b]; cbn; try (split; [discriminate|tauto]); [tauto|].
  destruct (Z.ltb_spec x y); [tauto|]. destruct (Z.ltb_spec y x); [split; [discriminate|lia]|]. rewrite IH. split; [intros; right; split; [lia|assumption]|intros [|[_ ?]]; [lia|assumption]].
Qed.
Lemma name_lt_irrefl a : ~ name_lt a a.
Proof. induction a; cbn; [tauto|]. intros [|[_ ?]]; [lia|tauto]. Qed.
Lemma name_lt_trans a : forall b c, name_lt a b -> name_lt b c -> name_lt a c.
Proof.
  induction a as [|x a IH]; intros [|y b] [|z c]; cbn; try tauto. intros [H|[-> H]] [H'|[<- H']]; try (left; lia). right. split; [reflexivity|]. eauto.
Qed.
Lemma name_lt_total a : forall b, name_lt a b \/ a = b \/ name_lt b a.
Proof.
  induction a as [|x a IH]; intros [|y b]; cbn; [tauto|tauto|tauto|]. destruct (Z.lt_trichotomy x y) as [H|[->|H]]; [tauto| |tauto].
  destruct (IH b) as [H|[->|H]]; tauto.
Qed.
Section Map.
Context {A : Type}.
Local Notation entry := (list Z * A)%type.
Local Notation Sorted := (StronglySorted (fun p q : entry => name_lt (fst p) (fst q))).
Lemma set_fst k (v : A) m p : In p (obj_set k v m) -> fst p = k \/ exists q, In q m /\ fst q = fst p.
Proof.
  induction m as [|[a w] m IH]; cbn; [intros [<-|[]]; now left|]. destruct (key_lt a k).
  - cbn. intros [<-|H]; [right; eauto|]. destruct (IH H) as [|(q & ? & ?)]; [tauto|right; eauto].
  - destruct (str_eqb a k) eqn:E; cbn; intros [<-|H]; cbn; eauto.
Qed.
Lemma set_sorted k (v : A) m : Sorted m -> Sorted (obj_set k v m).
Proof.
  induction 1 as [|[a w] m Hs IH Hf]; cbn; [repeat constructor|]. destruct (key_lt a k) eqn:L.
  - constructor; [exact IH|]. apply Forall_forall. intros p Hp. cbn. destruct (set_fst _ _ _ _ Hp) as [->|(q & Hq & <-)]; [now apply key_lt_name|].
    now apply (proj1 (Forall_forall _ _) Hf) in Hq.
  - destruct (str_eqb a k) eqn:E.
    + constructor; [exact Hs|]. eapply Forall_impl; [|exact Hf]. now cbn.
    + assert (K : name_lt k a). { destruct (name_lt_total k a) as [H|[->|H]]; [exact H| |apply key_lt_name in H; congruence]. rewrite (proj2 (str_eqb_eq a a) eq_refl) in E. discriminate. }
      constructor; [constructor; assumption|]. constructor; [exact K|]. eapply Forall_impl; [|exact Hf]. cbn. intros p Hp. eapply name_lt_trans; eassumption.
Qed.
Lemma str_refl k : str_eqb k k = true. Proof. now apply str_eqb_eq. Qed.
Lemma str_ne a b : a <> b -> str_eqb a b = false. Proof. intros H. destruct (str_eqb a b) eqn:E; [apply str_eqb_eq in E; congruence|reflexivity]. Qed.
Lemma get_set k (v : A) m k' : Sorted m -> obj_get k' (obj_set k v m) = if str_eqb k k' then Some v else obj_get k' m.
Proof.
  induction 1 as [|[a w] m Hs IH Hf]; cbn; [reflexivity|]. destruct (key_lt a k) eqn:L; cbn.
  - rewrite IH. destruct (str_eqb a k') eqn:E; [|reflexivity]. apply str_eqb_eq in E as ->. destruct (str_eqb k k') eqn:E; [|reflexivity].
    apply str_eqb_eq in E as ->. apply key_lt_name, name_lt_irrefl in L. destruct L.
  - destruct (str_eqb a k) eqn:E; cbn; [|reflexivity]. apply str_eqb_eq in E as ->. destruct (str_eqb k k'); reflexivity.
Qed.
Lemma get_none k (m : list entry) : Forall (fun q => name_lt k (fst q)) m -> obj_get k m = None.
Proof. induction 1 as [|[a w] m H _ IH]; cbn; [reflexivity|]. rewrite str_ne; [exact IH|]. intros ->. now apply name_lt_irrefl in H. Qed.
Lemma get_in k (v : A) m : obj_get k m = Some v -> In (k, v) m.
Proof. induction m as [|[a w] m IH]; cbn; [discriminate|]. destruct (str_eqb a k) eqn:E; [|auto]. apply str_eqb_eq in E as ->. intros [= ->]. now left. Qed.
Lemma map_unique (m : list entry) : forall m', Sorted m -> Sorted m' -> (forall k, obj_get k m = obj_get k m') -> m = m'.
Proof.
  induction m as [|[a v] m IH]; intros [|[b w] m'] H H' G.
  - reflexivity.
  - specialize (G b). cbn in G. rewrite str_refl in G. discriminate.
  - specialize (G a). cbn in G. rewrite str_refl in G. discriminate.
  - inversion H as [|? ? Hs Hf]; subst. inversion H' as [|? ? Hs' Hf']; subst. cbn in Hf, Hf'.
    assert (a = b) as <-.
    { destruct (name_lt_total a b) as [L|[E|L]]; [|exact E|]; exfalso.
      - pose proof (G a) as Ga. cbn in Ga. rewrite str_refl in Ga. rewrite str_ne in Ga by (intros ->; now apply name_lt_irrefl in L).
        rewrite get_none in Ga; [discriminate|]. eapply Forall_impl; [|exact Hf']. intros q Hq. eapply name_lt_trans; eassumption.
      - pose proof (G b) as Gb. cbn in Gb. rewrite str_refl in Gb. rewrite str_ne in Gb by (intros ->; now apply name_lt_irrefl in L).
        rewrite get_none in Gb; [discriminate|]. eapply Forall_impl; [|exact Hf]. intros q Hq. eapply name_lt_trans; eassumption. }
    pose proof (G a) as Ga. cbn in Ga. rewrite str_refl in Ga. injection Ga as ->. f_equal. apply IH; auto.
    intros k. destruct (str_eqb a k) eqn:E.
    + apply str_eqb_eq in E as <-. now rewrite !get_none.
    + specialize (G k). cbn in G. now rewrite E in G.
Qed.
Definition set_all (ms m : list entry) : list entry := fold_left (fun m p => obj_set (fst p) (snd p) m) ms m.
Lemma set_all_sorted ms : forall m, Sorted m -> Sorted (set_all ms m).
Proof. induction ms as [|[k v] ms IH]; intros m H; [exact H|]. apply IH. now apply set_sorted. Qed.
Lemma set_all_get ms : forall m k, Sorted m -> obj_get k (set_all ms m) = match last_of k ms with Some v => Some v | None => obj_get k m end.
Proof.
  induction ms as [|[a v] ms IH]; intros m k H; [reflexivity|]. cbn [set_all fold_left last_of fst snd]. fold (set_all ms (obj_set a v m)).
  rewrite IH by now apply set_sorted. rewrite get_set by exact H. destruct (last_of k ms); [reflexivity|]. destruct (str_eqb a k); reflexivity.
Qed.
Lemma object_of_set ms m : object_of ms m -> set_all ms [] = m.
Proof.
  intros (Hs & G). apply map_unique; [apply set_all_sorted; constructor|exact Hs|]. intros k. rewrite set_all_get by constructor. rewrite G. cbn. now destruct (last_of k ms).
Qed.
Lemma object_of_sorted m : Sorted m -> object_of m m.
Proof.
  intros H. split; [exact H|]. intros k. induction H as [|[a v] m Hs IH Hf]; cbn; [reflexivity|]. rewrite IH. destruct (str_eqb a k) eqn:E.
  - apply str_eqb_eq in E as ->. rewrite <- IH, get_none by exact Hf. reflexivity.
  - destruct (last_of k m); reflexivity.
Qed.
End Map.

Section P.
Context {D : Type}.
Variable show : D -> list Z.
Variable read_double : list Z -> option D.
Local Notation json := (json D).
Local Notation decode_number := (decode_number read_double).
Local Notation read_value := (read_value read_double).
Local Notation read_object := (read_object read_double).
Local Notation read_array := (read_array read_double).
Local Notation number_text := (number_text read_double).
Local Notation value_text := (value_text read_double).
Local Notation elements_text := (elements_text read_double).
Local Notation members_text := (members_text read_double).

(** The token at the start of a value. *)
Lemma token_char c r tk : is_ws c = false -> read_token (c :: r) = tk -> forall a, blanks a -> read_token (a ++ c :: r) = tk.
Proof. intros W H a Ha. rewrite token_blanks; auto. Qed.
Lemma next_char c a r t r' : blanks a -> is_ws c = false -> read_token (c :: r) = (t, r') -> t <> TComment -> next_token (a ++ c :: r) = Some (t, r').
Proof. intros Ha W H N. apply next_simple; [|exact N]. rewrite (token_char c r _ W H a Ha). reflexivity. Qed.
Lemma value_first n v t rest : value_text n v t -> num_end rest -> no_ws (t ++ rest) /\ starts 93 (t ++ rest) = false.
Proof. intros H Hr. destruct H; try (split; reflexivity). destruct (token_number _ _ _ _ H Hr) as (? & ? & _). auto. Qed.
Lemma num_end_blanks a r : blanks a -> num_end r -> num_end (a ++ r).
Proof. intros H Hr. destruct H as [|c a Hc _]; [exact Hr|]. cbn. unfold digit_char. lia. Qed.
Lemma blanks_nil : blanks []. Proof. constructor. Qed.
Hint Resolve blanks_nil : core.

Scheme value_ind := Minimality for S_Json.value_text Sort Prop
  with elements_ind := Minimality for S_Json.elements_text Sort Prop
  with members_ind := Minimality for S_Json.members_text Sort Prop.
Combined Scheme texts_ind from value_ind, elements_ind, members_ind.

Definition Value (n : nat) (v : json) (t : list Z) : Prop :=
  forall fuel depth a rest, blanks a -> (is_number v -> num_end rest) -> depth + Z.of_nat n <= 1000 -> (length t <= fuel)%nat ->
    read_value fuel depth (a ++ t ++ rest) = Some (Ok v rest).
Definition Elements (n : nat) (l : list json) (u : list Z) : Prop :=
  exists a u0, u = a ++ u0 /\ blanks a /\ (forall rest, no_ws (u0 ++ 93 :: rest) /\ starts 93 (u0 ++ 93 :: rest) = false) /\
  forall fuel depth acc a rest, blanks a -> depth + Z.of_nat n <= 1000 -> (length u0 < fuel)%nat ->
    read_array fuel depth acc (a ++ u0 ++ 93 :: rest) = Some (Ok (Arr (acc ++ l)) rest).
Definition Members (n : nat) (ms : list (list Z * json)) (u : list Z) : Prop :=
  forall fuel depth name m rest, depth + Z.of_nat n <= 1000 -> (length u < fuel)%nat ->
    read_object fuel depth name m (u ++ 125 :: rest) = Some (Ok (Obj (set_all ms m)) rest).

Lemma depth_ok depth n : depth + Z.of_nat (S n) <= 1000 -> (1000 <=? depth) = false.
Proof. intros. apply Z.leb_gt. lia. Qed.
Ltac simple_value :=
  let H := fresh in let L := fresh in
  intros fuel depth a rest Ha Hr H L; destruct fuel as [|f]; [exfalso; revert L; repeat rewrite !app_length || cbn; lia|]; cbn [M_Json.read_value]; rewrite (depth_ok _ _ H).
Ltac next c := erewrite (next_char c); [|eassumption|reflexivity|reflexivity|discriminate]; cbn [bind].

Lemma texts_ok :
  (forall n v t, value_text n v t -> Value n v t) /\
  (forall n l u, elements_text n l u -> Elements n l u) /\
  (forall n ms u, members_text n ms u -> Members n ms u).
Proof.
  apply texts_ind.
  - intros n. simple_value. change (bytes "null") with [110; 117; 108; 108] in *. cbn [app]. next 110. reflexivity.
  - intros n. simple_value. change (bytes "true") with [116; 114; 117; 101] in *. cbn [app]. next 116. reflexivity.
  - intros n. simple_value. change (bytes "false") with [102; 97; 108; 115; 101] in *. cbn [app]. next 102. reflexivity.
  - intros n v t Hn fuel depth a rest Ha Hr' H L. assert (Hr : num_end rest) by (apply Hr'; inversion Hn; subst; unfold integer; try destruct (_ <=? _); exact I). destruct (token_number _ _ _ _ Hn Hr) as (W & _ & T). destruct fuel as [|f].
    { exfalso. destruct t; [|cbn in L; lia]. cbn in T. destruct rest as [|c r]; [discriminate|]. 
      inversion Hn as [neg ds z Hi|neg ds fr et x d Hi]; subst; pose proof (int_text_ne _ Hi); destruct neg, ds; try discriminate; congruence. }
    cbn [M_Json.read_value]. rewrite (depth_ok _ _ H). rewrite (next_simple _ (TNum t) rest); [|now rewrite token_blanks|discriminate]. cbn [bind].
    now rewrite (decode_number_ok _ _ _ Hn).
  - intros n t s Hs. simple_value. rewrite <- app_comm_cons, <- app_assoc.
    change ([34] ++ rest) with (34 :: rest). rewrite (next_simple _ (TStr t) rest); [|rewrite token_blanks by (try exact I; auto; reflexivity); eapply token_string; exact Hs|discriminate].
    cbn [bind]. rewrite (decode_ok _ _ Hs). reflexivity.
  - intros n w Hw. simple_value. rewrite <- app_comm_cons, <- app_assoc. next 91. cbn [app].
    rewrite (skip_blanks w (93 :: rest) Hw eq_refl). reflexivity.
  - intros n l t _ (b & u & -> & Hb & Hu & E). simple_value. rewrite <- app_comm_cons, <- !app_assoc. next 91. cbn [app].
    destruct (Hu rest) as (W & S93). rewrite (skip_blanks b (u ++ 93 :: rest) Hb W), S93.
    apply (E f (depth + 1) [] [] rest); [auto|lia|]. cbn in H0. rewrite !app_length in H0. cbn in H0. lia.
  - intros n w Hw. simple_value. rewrite <- app_comm_cons, <- app_assoc. next 123. destruct f as [|f]; [cbn in H0; rewrite app_length in H0; cbn in H0; lia|].
    cbn [M_Json.read_object app]. next 125. reflexivity.
  - intros n ms m t _ E Ho. simple_value. rewrite <- app_comm_cons, <- !app_assoc. next 123. cbn [app].
    rewrite E; [|lia|cbn in H0; rewrite app_length in H0; cbn in H0; lia]. now rewrite (object_of_set _ _ Ho).
  - intros n v a t b Ha Hb Hv E. exists a, (t ++ b). repeat split; auto.
    + rewrite <- app_assoc. eapply value_first; [exact Hv|]. apply num_end_blanks; [exact Hb|]. cbn. unfold digit_char. lia.
    + rewrite <- app_assoc. eapply value_first; [exact Hv|]. apply num_end_blanks; [exact Hb|]. cbn. unfold digit_char. lia.
    + intros fuel depth acc a' rest Ha' H L. rewrite app_length in L. destruct fuel as [|f]; [lia|]. cbn [M_Json.read_array]. rewrite <- app_assoc.
      rewrite E; [|auto|intros _; apply num_end_blanks; [exact Hb|cbn; unfold digit_char; lia]|exact H|lia]. cbn [bind]. next 93. reflexivity.
  - intros n v a t b l u Ha Hb Hv E _ (a2 & u2 & -> & Ha2 & _ & E2). exists a, (t ++ b ++ 44 :: a2 ++ u2). repeat split; auto.
    + rewrite <- !app_assoc. eapply value_first; [exact Hv|]. apply num_end_blanks; [exact Hb|]. cbn. unfold digit_char. lia.
    + rewrite <- !app_assoc. eapply value_first; [exact Hv|]. apply num_end_blanks; [exact Hb|]. cbn. unfold digit_char. lia.
    + intros fuel depth acc a' rest Ha' H L. rewrite !app_length in L. cbn [length] in L. rewrite app_length in L. destruct fuel as [|f]; [lia|]. cbn [M_Json.read_array].
      rewrite <- !app_assoc. cbn [app]. rewrite <- !app_assoc.
      rewrite E; [|auto|intros _; apply num_end_blanks; [exact Hb|cbn; unfold digit_char; lia]|exact H|lia]. cbn [bind]. next 44.
      rewrite E2; [|exact Ha2|exact H|lia]. now rewrite <- app_assoc.
  - intros n k kt v a b c t d Ha Hb Hc Hd Hk Hv E fuel depth name m rest H L. rewrite !app_length in L. cbn [length] in L. rewrite !app_length in L. cbn [length] in L. rewrite !app_length in L. cbn [length] in L. rewrite !app_length in L.
    destruct fuel as [|f]; [lia|]. cbn [M_Json.read_object]. rewrite <- app_assoc. cbn [app]. rewrite <- app_assoc. cbn [app].
    rewrite (next_simple _ (TStr kt) ((b ++ 58 :: c ++ t ++ d) ++ 125 :: rest)); [|rewrite token_blanks by (try exact I; auto; reflexivity); eapply token_string; exact Hk|discriminate].
    cbn [bind]. rewrite (decode_ok _ _ Hk). rewrite <- app_assoc. cbn [app]. rewrite (token_char 58 _ _ eq_refl eq_refl b Hb). cbn.
    rewrite <- !app_assoc. rewrite E; [|exact Hc|intros _; apply num_end_blanks; [exact Hd|cbn; unfold digit_char; lia]|exact H|lia]. cbn [bind].
    rewrite (token_char 125 _ _ eq_refl eq_refl d Hd). reflexivity.
  - intros n k kt v a b c t d l u Ha Hb Hc Hd Hk Hv E _ E2 fuel depth name m rest H L. rewrite !app_length in L. cbn [length] in L. rewrite !app_length in L. cbn [length] in L. rewrite !app_length in L. cbn [length] in L. rewrite !app_length in L.
    cbn [length] in L.
    destruct fuel as [|f]; [lia|]. cbn [M_Json.read_object]. rewrite <- app_assoc. cbn [app]. rewrite <- app_assoc. cbn [app].
    rewrite (next_simple _ (TStr kt) ((b ++ 58 :: c ++ t ++ d ++ 44 :: u) ++ 125 :: rest)); [|rewrite token_blanks by (try exact I; auto; reflexivity); eapply token_string; exact Hk|discriminate].
    cbn [bind]. rewrite (decode_ok _ _ Hk). rewrite <- app_assoc. cbn [app]. rewrite (token_char 58 _ _ eq_refl eq_refl b Hb). cbn.
    rewrite <- !app_assoc. cbn [app]. rewrite E; [|exact Hc|intros _; apply num_end_blanks; [exact Hd|cbn; unfold digit_char; lia]|exact H|lia]. cbn [bind].
    rewrite (token_char 44 _ _ eq_refl eq_refl d Hd). cbn. rewrite E2; [reflexivity|exact H|lia].
Qed.
Lemma parse_ok n v t a b slack : (n <= 1000)%nat -> value_text n v t -> blanks a -> (is_number v -> num_end (b ++ slack)) ->
  parse read_double (a ++ t ++ b) slack = Some (Ok v (b ++ slack)).
Proof.
  intros Hn H Ha Hb. unfold parse. rewrite <- !app_assoc. apply (proj1 texts_ok _ _ _ H); [exact Ha|exact Hb|lia|]. rewrite !app_length. lia.
Qed.
End P.
