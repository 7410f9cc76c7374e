(** Proofs about the C interface and lsol_c. *)
From Coq Require Import String Lia.
From Verif Require Import M_Base M_Num M_Expr M_Text M_Str S_Text S_Str M_Cmd S_Cmd M_Capi S_Capi.
Local Open Scope list_scope.
Local Open Scope Z_scope.

Section P.
Context {R MD IT W : Type}.
Variable N : num R.
Variable L : library R MD IT W.

Lemma nth1 {A} (h : list A) x r : nth_error (h ++ x :: r) (length h) = Some x.
Proof. rewrite nth_error_app2 by lia. now rewrite Nat.sub_diag. Qed.
Lemma nth2 {A} (h : list A) x y r : nth_error (h ++ x :: y :: r) (S (length h)) = Some y.
Proof. rewrite nth_error_app2 by lia. replace (S (length h) - length h)%nat with 1%nat by lia. reflexivity. Qed.
Lemma poke1 (h : list (option (obj MD IT))) o x r : poke (length h) o (h ++ x :: r) = h ++ o :: r.
Proof. induction h; cbn; [reflexivity|]. now rewrite IHh. Qed.
Lemma poke2 (h : list (option (obj MD IT))) o x y r : poke (S (length h)) o (h ++ x :: y :: r) = h ++ x :: o :: r.
Proof. induction h as [|z h IH]; cbn; [reflexivity|]. cbn in IH. now rewrite IH. Qed.

(** The settings of --params, on the model itself. *)
Fixpoint setd (m : MD) (l : list (list Z * list Z)) (co : bool) : option (MD * (Z + Z)) :=
  match l with
  | [] => Some (m, if co then inr 0 else inl 4)
  | (n, v) :: r => match l_set L n v m with SetOk m' => setd m' r co | SetInvalid m' => Some (m', inr 4) | SetThrows => None end
  end.
Lemma set_all_eq l co h w : forall m, set_all L (Some (length h)) l co (mkst (h ++ [Some (OModel m)]) w) =
  match setd m l co with None => Exn | Some (m', r) => Ret r (mkst (h ++ [Some (OModel m')]) w) end.
Proof.
  induction l as [|(n, v) l IH]; intros m; [reflexivity|]. cbn [set_all setd]. unfold sol_set_model_parameter, model_at, at_. cbn [s_heap].
  rewrite nth1. destruct (l_set L n v m); cbn [seq]; [| |reflexivity]; unfold store; cbn [s_heap s_world]; rewrite poke1; [|reflexivity]. apply IH.
Qed.
Lemma set_eq h m n v w : sol_set_model_parameter L (Some (length h)) n v (mkst (h ++ [Some (OModel m)]) w) =
  match l_set L n v m with
  | SetOk m' => Ret 0 (mkst (h ++ [Some (OModel m')]) w) | SetInvalid m' => Ret 4 (mkst (h ++ [Some (OModel m')]) w) | SetThrows => Exn end.
Proof.
  unfold sol_set_model_parameter, model_at, at_, store. cbn [s_heap s_world]. rewrite nth1. destruct (l_set L n v m); rewrite ?poke1; reflexivity.
Qed.
Lemma setd_direct l co : forall m, set_direct L m l co =
  match setd m l co with None => None | Some (m', inr 0) => Some (inl m') | Some (_, _) => Some (inr 4) end.
Proof.
  induction l as [|(n, v) l IH]; intros m; cbn [set_direct setd]; [now destruct co|]. destruct (l_set L n v m); auto.
Qed.
Lemma setd_code l co : forall m, match setd m l co with Some (_, inl c) => c = 4 /\ co = false | Some (_, inr c) => c = 0 /\ co = true \/ c = 4 | None => True end.
Proof. induction l as [|(n, v) l IH]; intros m; cbn [setd]; [destruct co; auto|]. destruct (l_set L n v m); cbn; auto. apply IH. Qed.
Lemma setd_accepted l co m' : forall m, setd m l co = Some (m', if co then inr 0 else inl 4) <-> accepted L m l m'.
Proof.
  induction l as [|(n, v) l IH]; intros m; cbn [setd].
  - split; [intros E; injection E as ->; constructor|]. intros A. inversion A. reflexivity.
  - destruct (l_set L n v m) as [m1|m1|] eqn:E.
    + rewrite IH. split; intros A; [econstructor; eassumption|]. inversion A; subst. congruence.
    + split; [destruct co; discriminate|]. intros A. inversion A; subst. congruence.
    + split; [discriminate|]. intros A. inversion A; subst. congruence.
Qed.
(** lsol_c's train as a function of the library. *)
Definition train_result (a : args) (h : list (option (obj MD IT))) (w : W) : res MD IT W (Z * list R) :=
  match source_model L a w with
  | None => Ret (4, []) (mkst h w)
  | Some m =>
    match setd m (a_settings a) (a_complete a) with
    | None => Exn
    | Some (m1, inl c) => Ret (c, []) (mkst (h ++ [Some (OModel m1)]) w)
    | Some (m1, inr c) =>
      if c =? 0 then
        let '(c, i) := l_add L (a_input a) (a_format a) (a_pass a) (l_iter L (a_batch a) (a_buf a)) w in
        if c =? 0 then
          match l_train L m1 i w with
          | None => Exn
          | Some (err, m2, _) =>
            match a_output a with
            | None => Ret (0, [err]) (mkst (h ++ [None; None]) w)
            | Some path => let '(c, w') := l_save L m2 path w in Ret (c, [err]) (mkst (h ++ [None; None]) w')
            end
          end
        else Ret (c, []) (mkst (h ++ [None; None]) w)
      else Ret (c, []) (mkst (h ++ [None]) w)
    end
  end.
Ltac run := unfold sol_create_iter, sol_load_data, sol_train, sol_test, sol_save_model, sol_release_model, sol_release_iter, sol_set_model_parameter, alloc, store, free, model_at, iter_at, at_;
  repeat (progress (cbn [seq s_heap s_world app length]; rewrite ?nth1, ?nth2, ?poke1, ?poke2, ?app_length, ?Nat.add_1_r, <- ?app_assoc)).
Lemma lsol_train_eq a h w : lsol_train L a (mkst h w) = train_result a h w.
Proof.
  unfold lsol_train, train_result, source_model.
  assert (C : forall m, seq (alloc (OModel m) (mkst h w)) (fun model s1 =>
    let ret := match model with None => 4 | Some _ => 0 end in
    seq (if ret =? 0 then set_all L model (a_settings a) (a_complete a) s1 else Ret (inr ret) s1) (fun r s2 =>
    match r with
    | inl code => Ret (code, []) s2
    | inr ret =>
      seq (if ret =? 0 then
             seq (sol_create_iter L (a_batch a) (a_buf a) s2) (fun h s3 =>
             seq (sol_load_data L h (a_input a) (a_format a) (a_pass a) s3) (fun ret s4 => Ret (h, ret) s4))
           else Ret (None, ret) s2) (fun '(iter, ret) s3 =>
      seq (if ret =? 0 then
             seq (sol_train L model iter s3) (fun accu s4 =>
             match a_output a with
             | Some path => seq (sol_save_model L model path s4) (fun ret s5 => Ret (ret, [accu]) s5)
             | None => Ret (ret, [accu]) s4
             end)
           else Ret (ret, []) s3) (fun '(ret, out) s4 =>
      seq (sol_release_model model s4) (fun _ s5 =>
      seq (sol_release_iter iter s5) (fun _ s6 => Ret (ret, out) s6))))
    end)) =
    match setd m (a_settings a) (a_complete a) with
    | None => Exn
    | Some (m1, inl c) => Ret (c, []) (mkst (h ++ [Some (OModel m1)]) w)
    | Some (m1, inr c) =>
      if c =? 0 then
        let '(c, i) := l_add L (a_input a) (a_format a) (a_pass a) (l_iter L (a_batch a) (a_buf a)) w in
        if c =? 0 then
          match l_train L m1 i w with
          | None => Exn
          | Some (err, m2, _) =>
            match a_output a with
            | None => Ret (0, [err]) (mkst (h ++ [None; None]) w)
            | Some path => let '(c, w') := l_save L m2 path w in Ret (c, [err]) (mkst (h ++ [None; None]) w')
            end
          end
        else Ret (c, []) (mkst (h ++ [None; None]) w)
      else Ret (c, []) (mkst (h ++ [None]) w)
    end).
  { intros m. unfold alloc at 1. cbn [seq s_heap s_world]. cbv zeta. change (0 =? 0) with true. cbv iota. rewrite set_all_eq.
    destruct (setd m (a_settings a) (a_complete a)) as [[m1 [c|c]]|]; [reflexivity| |reflexivity]. cbn [seq]. destruct (c =? 0) eqn:Ec.
    - run. destruct (l_add L _ _ _ _ w) as [c1 i]. run. destruct (c1 =? 0) eqn:E1.
      + apply Z.eqb_eq in E1. subst c1. run. destruct (l_train L m1 i w) as [[[err m2] i2]|]; [|reflexivity]. run. destruct (a_output a) as [path|].
        * run. destruct (l_save L m2 path w) as [c2 w2]. run. reflexivity.
        * run. reflexivity.
      + run. reflexivity.
    - run. rewrite Ec. run. reflexivity. }
  destruct (a_model a) as [path|].
  - unfold sol_restore_model. cbn [s_world]. destruct (l_load L path w) as [m|]; [apply C|reflexivity].
  - destruct (a_algo a) as [|x al]; [reflexivity|]. unfold sol_create_model. destruct (l_create L (x :: al) (a_classes a)) as [m|]; [apply C|reflexivity].
Qed.
Definition test_result (a : args) (h : list (option (obj MD IT))) (w : W) : res MD IT W (Z * list R) :=
  match a_model a with
  | None => Ret (4, []) (mkst h w)
  | Some path =>
    match l_load L path w with
    | None => match a_filter a with None => Ret (4, []) (mkst h w) | Some _ => Bad end
    | Some m =>
      match (match a_filter a with None => SetOk m | Some f => l_set L (bytes "filter") f m end) with
      | SetThrows => Exn
      | SetInvalid _ => Ret (4, []) (mkst (h ++ [None]) w)
      | SetOk m1 =>
        let '(c, i) := l_add L (a_input a) (a_format a) 1 (l_iter L (a_batch a) (a_buf a)) w in
        if c =? 0 then
          match l_test L m1 i (a_output a) w with
          | None => Exn
          | Some (err, _, _, w') => Ret (0, [err]) (mkst (h ++ [None; None]) w')
          end
        else Ret (c, []) (mkst (h ++ [None; None]) w)
      end
    end
  end.
Lemma lsol_test_eq a h w : lsol_test L a (mkst h w) = test_result a h w.
Proof.
  unfold lsol_test, test_result. destruct (a_model a) as [path|]; [|reflexivity]. unfold sol_restore_model. cbn [s_world].
  destruct (l_load L path w) as [m|]; [|destruct (a_filter a); reflexivity]. unfold alloc at 1. cbn [seq s_heap s_world]. cbv zeta.
  assert (C : forall m1, seq (if 0 =? 0 then
           seq (sol_create_iter L (a_batch a) (a_buf a) (mkst (h ++ [Some (OModel m1)]) w)) (fun h0 s3 =>
           seq (sol_load_data L h0 (a_input a) (a_format a) 1 s3) (fun ret s4 => Ret (h0, ret) s4))
         else Ret (None, 0) (mkst (h ++ [Some (OModel m1)]) w)) (fun '(iter, ret) s3 =>
    seq (if ret =? 0 then seq (sol_test L (Some (length h)) iter (a_output a) s3) (fun accu s4 => Ret (ret, [accu]) s4)
         else Ret (ret, []) s3) (fun '(ret, out) s4 =>
    seq (sol_release_model (Some (length h)) s4) (fun _ s5 =>
    seq (sol_release_iter iter s5) (fun _ s6 => Ret (ret, out) s6)))) =
    let '(c, i) := l_add L (a_input a) (a_format a) 1 (l_iter L (a_batch a) (a_buf a)) w in
        if c =? 0 then
          match l_test L m1 i (a_output a) w with
          | None => Exn
          | Some (err, _, _, w') => Ret (0, [err]) (mkst (h ++ [None; None]) w')
          end
        else Ret (c, []) (mkst (h ++ [None; None]) w)).
  { intros m1. change (0 =? 0) with true. cbv iota. run. destruct (l_add L _ _ _ _ w) as [c1 i]. run. destruct (c1 =? 0) eqn:E1.
    - apply Z.eqb_eq in E1. subst c1. run. destruct (l_test L m1 i (a_output a) w) as [[[[err m2] i2] w2]|]; [|reflexivity]. run. reflexivity.
    - run. reflexivity. }
  destruct (a_filter a) as [f|].
  - rewrite set_eq. destruct (l_set L (bytes "filter") f m) as [m1|m1|]; [| |reflexivity]; cbn [seq].
    + apply C.
    + change (4 =? 0) with false. cbv iota. cbn [seq]. change (4 =? 0) with false. cbv iota. run. reflexivity.
  - cbn [seq]. apply C.
Qed.

(* ------------------------------------------------------------- clients *)
Definition tidy (e : env) (s : st MD IT W) : Prop :=
  (forall v a, e v = Some a -> exists o, nth_error (s_heap s) a = Some (Some o)) /\
  (forall u v a, e u = Some a -> e v = Some a -> u = v).
Lemma nth_poke (l : list (option (obj MD IT))) o : forall a b, nth_error (poke a o l) b = if Nat.eqb b a then (match nth_error l a with Some _ => Some o | None => None end) else nth_error l b.
Proof.
  induction l as [|x l IH]; intros [|a] [|b]; cbn; try reflexivity.
  - now destruct (Nat.eqb b a).
  - apply IH.
Qed.
Lemma live_poke (l : list (option (obj MD IT))) o : forall a x, nth_error l a = Some (Some x) ->
  length (filter (fun o => match o with Some _ => true | None => false end) l) =
  (match o with Some _ => 0 | None => 1 end + length (filter (fun o => match o with Some _ => true | None => false end) (poke a o l)))%nat.
Proof.
  induction l as [|y l IH]; intros [|a] x E; cbn in E; try discriminate.
  - injection E as ->. cbn. destruct o; reflexivity.
  - specialize (IH a x E). cbn [poke filter]. destruct y; cbn [length]; destruct o; cbn in *; lia.
Qed.
Lemma bind_same e v h : bind_var e v h v = h.
Proof. unfold bind_var. now rewrite Nat.eqb_refl. Qed.
Lemma bind_other e v h u : u <> v -> bind_var e v h u = e u.
Proof. intros H. unfold bind_var. destruct (Nat.eqb_spec u v); congruence. Qed.
Lemma tidy_null e v s : tidy e s -> tidy (bind_var e v None) s.
Proof.
  intros (A & B). unfold tidy, bind_var. split.
  - intros u a. destruct (Nat.eqb_spec u v); [discriminate|]. apply A.
  - intros u u' a. destruct (Nat.eqb_spec u v); [discriminate|]. destruct (Nat.eqb_spec u' v); [discriminate|]. apply B.
Qed.
Lemma tidy_alloc e v o (s : st MD IT W) : tidy e s -> tidy (bind_var e v (Some (length (s_heap s)))) (mkst (s_heap s ++ [Some o]) (s_world s)).
Proof.
  intros (A & B). assert (Lt : forall u a, e u = Some a -> (a < length (s_heap s))%nat).
  { intros u a E. destruct (A u a E) as (x & X). apply nth_error_Some. congruence. }
  unfold tidy, bind_var. cbn [s_heap]. split.
  - intros u a. destruct (Nat.eqb_spec u v).
    + intros E. injection E as <-. exists o. apply nth1.
    + intros E. rewrite nth_error_app1 by eauto. eauto.
  - intros u u' a. destruct (Nat.eqb_spec u v), (Nat.eqb_spec u' v); subst; auto.
    + intros E E'. injection E as <-. apply Lt in E'. lia.
    + intros E' E. injection E as <-. apply Lt in E'. lia.
    + apply B.
Qed.
Lemma tidy_store e h o (s : st MD IT W) : tidy e s -> tidy e (store h o s).
Proof.
  intros (A & B). split; [|exact B]. intros v a E. destruct (A v a E) as (x & X). destruct h as [b|]; [|eauto]. cbn [store s_heap]. rewrite nth_poke.
  destruct (Nat.eqb_spec a b); [|eauto]. subst. rewrite X. eauto.
Qed.
Lemma tidy_world e h w w' : tidy e (mkst h w : st MD IT W) -> tidy e (mkst h w').
Proof. exact (fun H => H). Qed.
Lemma tidy_free e v (s : st MD IT W) : tidy e s -> tidy (bind_var e v None) (free (e v) s).
Proof.
  intros T. destruct (e v) as [b|] eqn:Ev; [|now apply tidy_null]. destruct T as (A & B). split.
  - intros u a. unfold bind_var. destruct (Nat.eqb_spec u v); [discriminate|]. intros E. destruct (A u a E) as (x & X). exists x.
    cbn [free s_heap]. rewrite nth_poke. destruct (Nat.eqb_spec a b); [|exact X]. subst. elim n. eapply B; eassumption.
  - intros u u' a. unfold bind_var. destruct (Nat.eqb_spec u v); [discriminate|]. destruct (Nat.eqb_spec u' v); [discriminate|]. apply B.
Qed.
Ltac calls := unfold sol_create_iter, sol_create_model, sol_restore_model, sol_load_data, sol_train, sol_test, sol_save_model, sol_release_model, sol_release_iter, sol_set_model_parameter, alloc.
Ltac cases := repeat match goal with
  | H : seq ?r _ = Ret _ _ |- _ => destruct r eqn:?; cbn [seq] in H; try discriminate H
  | H : context [match ?x with _ => _ end] |- _ => match type of H with _ = Ret _ _ => destruct x eqn:?; try discriminate H end
  end.
Lemma exec1_tidy c e s e' s' : tidy e s -> ~ copies c -> exec1 L c e s = Ret e' s' -> tidy e' s'.
Proof.
  intros T C E. destruct c; cbn [exec1] in E; [..|now elim C]; revert E; calls; intros E; cases; cbn [seq] in E;
    repeat match goal with H : Ret _ _ = Ret _ _ |- _ => injection H as ? ?; subst end;
    auto using tidy_null, tidy_alloc, tidy_store, tidy_free; try (apply tidy_store, tidy_store; exact T).
  all: match goal with H : ?f ?v = Some ?n |- tidy (bind_var ?f ?v None) _ => pose proof (tidy_free f v s' T) as Q; rewrite H in Q; exact Q
       | H : ?f ?v = Some ?n |- tidy (bind_var ?f ?v None) {| s_heap := poke _ _ (s_heap ?s) |} => pose proof (tidy_free f v s T) as Q; rewrite H in Q; exact Q end.
Qed.
Lemma model_sees (e : env) (s : st MD IT W) v : (exists m, model_at (e v) s = Some m) <-> sees_model e s v.
Proof.
  unfold sees_model, sees, model_at, at_. split.
  - intros (m & E). destruct (e v) as [a|]; [|discriminate]. destruct (nth_error (s_heap s) a) as [[[m'|i]|]|] eqn:X; try discriminate. exists m', a. auto.
  - intros (m & a & -> & ->). eauto.
Qed.
Lemma iter_sees (e : env) (s : st MD IT W) v : (exists i, iter_at (e v) s = Some i) <-> sees_iter e s v.
Proof.
  unfold sees_iter, sees, iter_at, at_. split.
  - intros (m & E). destruct (e v) as [a|]; [|discriminate]. destruct (nth_error (s_heap s) a) as [[[m'|i]|]|] eqn:X; try discriminate. exists i, a. auto.
  - intros (m & a & -> & ->). eauto.
Qed.
Lemma exec1_defined c e s : exec1 L c e s <> Bad <-> proper e s c.
Proof.
  assert (M : forall v (x : res MD IT W env) y, (match model_at (e v) s with Some m => y m | None => Bad end <> Bad -> sees_model e s v)
     /\ (sees_model e s v -> (forall m, y m <> Bad) -> match model_at (e v) s with Some m => y m | None => @Bad MD IT W env end <> Bad)).
  { intros v _ y. rewrite <- model_sees. split; [destruct (model_at (e v) s); [eauto|intros H; now elim H]|]. intros (m & ->) H. apply H. }
  assert (O : forall k : nat, (forall v : nat, None = Some v -> False)) by discriminate.
  destruct c; unfold proper; cbn [exec1 as_model as_iter released_model released_iter]; calls.
  - cbn [seq]. split; [|discriminate]. intros _. repeat split; discriminate.
  - split; [|destruct (l_create L name classes); discriminate]. intros _. repeat split; discriminate.
  - split; [|destruct (l_load L path (s_world s)); discriminate]. intros _. repeat split; discriminate.
  - split.
    + intros H. split; [discriminate|]. split; [discriminate|]. split; [discriminate|]. intros u E. injection E as <-.
      rewrite <- iter_sees. destruct (e v) as [a|]; [right|now left]. destruct (iter_at (Some a) s); [eauto|now elim H].
    + intros (_ & _ & _ & H). specialize (H v eq_refl). rewrite <- iter_sees in H. destruct (e v) as [a|]; [|discriminate].
      destruct H as [H|(i & ->)]; discriminate.
  - split.
    + intros H. split; [discriminate|]. split; [discriminate|]. split; [|discriminate]. intros u E. injection E as <-.
      rewrite <- model_sees. destruct (e v) as [a|]; [right|now left]. destruct (model_at (Some a) s); [eauto|now elim H].
    + intros (_ & _ & H & _). specialize (H v eq_refl). rewrite <- model_sees in H. destruct (e v) as [a|]; [|discriminate].
      destruct H as [H|(i & ->)]; discriminate.
  - split.
    + intros H. split; [discriminate|]. split; [|split; discriminate]. intros u E. injection E as <-. rewrite <- iter_sees. destruct (iter_at (e v) s); [eauto|now elim H].
    + intros (_ & H & _). specialize (H v eq_refl). rewrite <- iter_sees in H. destruct H as (i & ->). destruct (l_add L _ _ _ _ _). discriminate.
  - split.
    + intros H. split; [|repeat split; discriminate]. intros u E. injection E as <-. rewrite <- model_sees. destruct (model_at (e v) s); [eauto|now elim H].
    + intros (H & _). specialize (H v eq_refl). rewrite <- model_sees in H. destruct H as (i & ->). destruct (l_set L _ _ _); discriminate.
  - split.
    + intros H. split; [|split; [|split; discriminate]]; intros u E; injection E as <-.
      * rewrite <- model_sees. destruct (model_at (e v) s); [eauto|now elim H].
      * rewrite <- iter_sees. destruct (model_at (e v) s); [|now elim H]. destruct (iter_at (e i) s); [eauto|now elim H].
    + intros (H & H' & _). specialize (H v eq_refl). specialize (H' i eq_refl). rewrite <- model_sees in H. rewrite <- iter_sees in H'.
      destruct H as (x & ->), H' as (y & ->). destruct (l_train L _ _ _) as [[[] ]|]; discriminate.
  - split.
    + intros H. split; [|split; [|split; discriminate]]; intros u E; injection E as <-.
      * rewrite <- model_sees. destruct (model_at (e v) s); [eauto|now elim H].
      * rewrite <- iter_sees. destruct (model_at (e v) s); [|now elim H]. destruct (iter_at (e i) s); [eauto|now elim H].
    + intros (H & H' & _). specialize (H v eq_refl). specialize (H' i eq_refl). rewrite <- model_sees in H. rewrite <- iter_sees in H'.
      destruct H as (x & ->), H' as (y & ->). destruct (l_test L _ _ _ _) as [[[[] ] ]|]; discriminate.
  - split.
    + intros H. split; [|repeat split; discriminate]. intros u E. injection E as <-. rewrite <- model_sees. destruct (model_at (e v) s); [eauto|now elim H].
    + intros (H & _). specialize (H v eq_refl). rewrite <- model_sees in H. destruct H as (i & ->). destruct (l_save L _ _ _); discriminate.
  - split; [|discriminate]. intros _. repeat split; discriminate.
Qed.
(** Other variables see what they saw. *)
Lemma poke_sees e (s : st MD IT W) u b v x o (w : W) : tidy e s -> u <> v -> e u = Some b -> sees e s v o -> sees e (mkst (poke b x (s_heap s)) w) v o.
Proof.
  intros T Hu Hb (a & Ea & Na). exists a. split; [exact Ea|]. cbn [s_heap]. rewrite nth_poke. destruct (Nat.eqb_spec a b); [|exact Na].
  subst. elim Hu. eapply (proj2 T); eassumption.
Qed.
Lemma store_sees e (s : st MD IT W) u v x o : tidy e s -> u <> v -> sees e s v o -> sees e (store (e u) x s) v o.
Proof. intros T Hu H. destruct (e u) as [b|] eqn:Eb; [|exact H]. eapply poke_sees; eassumption. Qed.
Lemma bind_sees e (s : st MD IT W) u v h o : u <> v -> sees e s v o -> sees (bind_var e u h) s v o.
Proof. intros Hu (a & Ea & Na). exists a. split; [|exact Na]. rewrite bind_other; auto. Qed.
Lemma alloc_sees e (s : st MD IT W) v o x (w : W) : sees e s v o -> sees e (mkst (s_heap s ++ [x]) w) v o.
Proof. intros (a & Ea & Na). exists a. split; [exact Ea|]. cbn [s_heap]. rewrite nth_error_app1; [exact Na|]. apply nth_error_Some. congruence. Qed.
Lemma exec1_frame c e s e' s' v o : tidy e s -> ~ copies c -> exec1 L c e s = Ret e' s' -> ~ mentions c v -> sees e s v o -> sees e' s' v o.
Proof.
  intros T C E M H.
  assert (Nv : forall u, (targets c = Some u \/ as_model c = Some u \/ as_iter c = Some u \/ released_model c = Some u \/ released_iter c = Some u) -> u <> v).
  { intros u Hu ->. apply M. unfold mentions. tauto. }
  destruct c; cbn [exec1] in E; [..|now elim C]; cbn [targets as_model as_iter released_model released_iter] in Nv; revert E; calls; intros E; cases; cbn [seq] in E;
    repeat match goal with H : Ret _ _ = Ret _ _ |- _ => injection H as ? ?; subst end;
    repeat first [assumption | apply bind_sees; [apply Nv; tauto|] | apply alloc_sees | (apply store_sees; [now repeat apply tidy_store|apply Nv; tauto|])
      | (eapply poke_sees; [eassumption|apply Nv|eassumption|]; [tauto|])].
Qed.
(** How many objects there are. *)
Definition accounted (e : env) (s : st MD IT W) : Prop :=
  exists vs, NoDup vs /\ (forall v, In v vs <-> e v <> None) /\ live s = length vs.
Lemma acc_null e s v : e v = None -> accounted e s -> accounted (bind_var e v None) s.
Proof.
  intros E (vs & A & B & C). exists vs. split; [exact A|]. split; [|exact C]. intros u. unfold bind_var. destruct (Nat.eqb_spec u v); [|apply B].
  subst. rewrite B, E. tauto.
Qed.
Lemma acc_alloc e s v o a (w : W) : e v = None -> accounted e s -> accounted (bind_var e v (Some a)) (mkst (s_heap s ++ [Some o]) w).
Proof.
  intros E (vs & A & B & C). exists (v :: vs). split; [constructor; [rewrite B, E; tauto|exact A]|]. split.
  - intros u. cbn [In]. unfold bind_var. destruct (Nat.eqb_spec u v) as [->|Hn]; [split; [discriminate|auto]|]. rewrite B. intuition congruence.
  - unfold live in *. cbn [s_heap]. rewrite filter_app, app_length, C. cbn. lia.
Qed.
Lemma acc_store e s h o : (exists x, at_ h s = Some x) -> accounted e s -> accounted e (store h o s).
Proof.
  intros (x & X) (vs & A & B & C). exists vs. split; [exact A|]. split; [exact B|]. rewrite <- C. destruct h as [a|]; [|reflexivity].
  unfold live. cbn [store s_heap at_] in *. destruct (nth_error (s_heap s) a) as [[y|]|] eqn:Y; try discriminate. rewrite (live_poke (s_heap s) (Some o) a y Y). reflexivity.
Qed.
Lemma acc_free e s v a : e v = Some a -> (exists x, at_ (Some a) s = Some x) -> accounted e s ->
  accounted (bind_var e v None) (mkst (poke a None (s_heap s)) (s_world s)).
Proof.
  intros E (x & X) (vs & A & B & C). assert (I : In v vs) by (apply B; congruence). destruct (in_split _ _ I) as (l1 & l2 & ->).
  exists (l1 ++ l2). split; [eapply NoDup_remove_1; exact A|]. split.
  - intros u. unfold bind_var. destruct (Nat.eqb_spec u v) as [->|Hn].
    + split; [intros H; now apply NoDup_remove_2 in A|intros H; now elim H].
    + rewrite <- B. rewrite !in_app_iff. cbn [In]. intuition congruence.
  - unfold live in *. cbn [at_ s_heap] in *. destruct (nth_error (s_heap s) a) as [[y|]|] eqn:Y; try discriminate. rewrite (live_poke (s_heap s) None a y Y) in C.
    rewrite app_length in *. cbn [length] in C. lia.
Qed.
Lemma exec1_acc c e s e' s' : ~ copies c -> (forall v, targets c = Some v -> e v = None) -> exec1 L c e s = Ret e' s' -> accounted e s -> accounted e' s'.
Proof.
  intros C Tg E H.
  assert (Am : forall h (s : st MD IT W) m, model_at h s = Some m -> exists x, at_ h s = Some x) by (unfold model_at; intros h s0 m Q; destruct (at_ h s0); [eauto|discriminate]).
  assert (Ai : forall h (s : st MD IT W) i, iter_at h s = Some i -> exists x, at_ h s = Some x) by (unfold iter_at; intros h s0 m Q; destruct (at_ h s0); [eauto|discriminate]).
  assert (As : forall h h' (s : st MD IT W) o, (exists x, at_ h s = Some x) -> exists x, at_ h (store h' o s) = Some x).
  { intros h h' s0 o (x & X). destruct h as [a|]; [|discriminate]. destruct h' as [b|]; [|eauto]. cbn [store at_ s_heap] in *. rewrite nth_poke.
    destruct (Nat.eqb_spec a b); [|eauto]. subst. destruct (nth_error (s_heap s0) b); [eauto|discriminate]. }
  destruct c; cbn [exec1] in E; [..|now elim C]; cbn [targets] in Tg; revert E; calls; intros E; cases; cbn [seq] in E;
    repeat match goal with H : Ret _ _ = Ret _ _ |- _ => injection H as ? ?; subst end;
    repeat first [assumption | apply acc_alloc; [now apply Tg|] | apply acc_null; [first [assumption|now apply Tg]|] | apply acc_free; [eassumption|eauto|]
      | (apply acc_store; [solve [eauto]|])].
  all: apply acc_store; [change (exists x, at_ (e' i) (store (e' v) (OModel m0) s) = Some x)|apply acc_store]; eauto.
Qed.
End P.
