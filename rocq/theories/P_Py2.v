(** Proofs for M_Py: programs. *)
From Coq Require Import String.
From Verif Require Import M_Base M_Num M_Expr M_Text M_Str M_Cmd M_Capi P_Capi M_Py S_Py P_Py.
Local Open Scope list_scope.
Local Open Scope Z_scope.

Section P.
Context {R MD W C : Type}.
Variable N : num R.
Variable Y : pylib R MD W C.
Variable py_int : list Z -> option Z.
Notation L := (py_library N Y).
Notation state := (st (model MD) (list reader) W).
Notation heap := (list (option (obj (model MD) (list reader)))).

Lemma run1_keeps p o s alive v o' s' a' : holds o s -> run1 N Y py_int p o s alive = Goes v o' s' a' ->
  holds o' s' /\ ((match p with PLoad _ => o_model o = None | _ => True end) -> forall h0, owns h0 o s -> owns h0 o' s').
Proof.
  intros ((i & Ei) & Hm) E.
  assert (Same : forall x : value R C, Goes x o s alive = Goes v o' s' a' -> holds o' s' /\ ((match p with PLoad _ => o_model o = None | _ => True end) -> forall h0, owns h0 o s -> owns h0 o' s')).
  { intros x F. injection F as _ <- <- _. split; [split; eauto|auto]. }
  destruct p as [l| |h|d n|d|d| |path|path|k]; cbn [run1] in E.
  - destruct Hm as [Hn|(m & Em)].
    + unfold set_params in E. rewrite Hn in E. destruct l; cbn in E; eapply Same; exact E.
    + destruct (set_cases N Y l o s m Em) as [F|(s1 & m' & F & A & B & K)]; [rewrite F in E; discriminate|].
      assert (G : holds o s1 /\ (True -> forall h0, owns h0 o s -> owns h0 o s1)) by (split; [eapply holds_intro; eauto|intros _; apply K]).
      destruct F as [F|F]; rewrite F in E; cbn in E; injection E as _ <- <- _; exact G.
  - unfold get_params in E. destruct (model_at (o_model o) s); [|discriminate]. cbn in E. eapply Same; exact E.
  - destruct Hm as [Hn|(m & Em)].
    + unfold inspect_learning in E. rewrite Hn in E. cbn in E. eapply Same; exact E.
    + destruct (inspect_some h o s m Em) as (s1 & F & A & B & K). rewrite F in E. cbn in E. injection E as _ <- <- _.
      split; [eapply holds_intro; eauto|intros _; apply K].
  - destruct Hm as [Hn|(m & Em)]; [unfold fit in E; rewrite Hn in E; cbn in E; eapply Same; exact E|].
    destruct (fit_cases N Y alive d n o s m i Em Ei) as [F|[(s1 & F & A & B & K)|[(e & s1 & m' & F & A & K & B)|(F & _)]]]; rewrite F in E; cbn in E; try discriminate;
      injection E as _ <- <- _; (split; [|intros _; apply K]).
    + eapply holds_intro; eauto.
    + destruct B as [B|(j & w & _ & B)]; eapply holds_intro; eauto.
  - destruct Hm as [Hn|(m & Em)]; [unfold score in E; rewrite Hn in E; cbn in E; eapply Same; exact E|].
    destruct (score_cases N Y alive d o s m i Em Ei) as [F|[(s1 & F & A & B & K)|[(e & s1 & m' & F & A & B & K)|(F & _)]]]; rewrite F in E; cbn in E; try discriminate;
      injection E as _ <- <- _; (split; [|intros _; apply K]); eapply holds_intro; eauto.
  - destruct Hm as [Hn|(m & Em)]; [unfold predict in E; rewrite Hn in E; cbn in E; eapply Same; exact E|].
    destruct (predict_cases N Y alive d o s m i Em Ei) as [F|[(s1 & F & A & B & K)|[(e & s1 & m' & F & A & B & K)|(F & _)]]]; rewrite F in E; cbn in E; try discriminate;
      injection E as _ <- <- _; (split; [|intros _; apply K]); eapply holds_intro; eauto.
  - unfold name in E. destruct (o_algo o) as [t|k t|]; [|destruct (alive k)|]; try discriminate; cbn in E; eapply Same; exact E.
  - destruct Hm as [Hn|(m & Em)]; [unfold save in E; rewrite Hn in E; cbn in E; eapply Same; exact E|].
    destruct (handle_of _ _ _ Em) as (a & Ea). unfold save, sol_save_model in E. rewrite Em in E. rewrite Ea in E. cbn [l_save py_library] in E.
    destruct (y_save Y (fst m) path (s_world s)) as [c w]. cbn in E. injection E as _ <- <- _. split; [split; [exists i; exact Ei|right; exists m; exact Em]|]. intros _ h0 H0. exact H0.
  - destruct (load_cases N Y py_int path o s i Ei) as (o1 & s1 & F & Eo & B & D & K).
    assert (G : holds o1 s1) by (split; [eauto|destruct D as [|(m & Dm & _)]; eauto]).
    destruct F as [F|(b & F)]; rewrite F in E; cbn in E; injection E as _ <- <- _; split; auto.
  - injection E as <- <- <- <-. split; [split; eauto|auto].
Qed.
Lemma run_keeps h0 l : forall o s alive v o' s' a' vs, holds o s -> owns h0 o s -> no_reload (run1 N Y py_int) l o s alive ->
  run N Y py_int l o s alive = (Goes v o' s' a', vs) -> holds o' s' /\ owns h0 o' s'.
Proof.
  induction l as [|p l IH]; intros o s alive v o' s' a' vs H O Nr E; cbn [run] in E.
  - injection E as _ <- <- _ _. auto.
  - cbn [no_reload] in Nr. destruct Nr as (Np & Nr). destruct (run1 N Y py_int p o s alive) as [v1 o1 s1 a1| |] eqn:E1; try discriminate E.
    destruct (run1_keeps _ _ _ _ _ _ _ _ H E1) as (H1 & O1). destruct (run N Y py_int l o1 s1 a1) as [x vs1] eqn:E2. injection E as -> <-.
    eapply IH; [exact H1|apply O1; assumption|eapply Nr; reflexivity|exact E2].
Qed.
(** Releasing the object. *)
Lemma dealloc_ok h0 o (s : state) : holds o s -> owns h0 o s -> exists s', dealloc o s = Ret tt s' /\ same_objects (s_heap s') h0 /\ s_world s' = s_world s.
Proof.
  intros ((i & Ei) & Hm) (A & B & D & E). apply iter_is in Ei. unfold dealloc, sol_release_iter. destruct (o_iter o) as [a|] eqn:Ea; [|discriminate Ei].
  rewrite (proj2 (iter_is _ _ _) Ei). cbn [M_Capi.seq].
  assert (Da := D a (or_intror eq_refl)).
  destruct Hm as [Hn|(m & Em)].
  - rewrite Hn. cbn [sol_release_model M_Capi.seq]. eexists. split; [reflexivity|]. split; [|reflexivity].
    intros b x. cbn [free s_heap]. rewrite nth_poke. destruct (Nat.eqb_spec b a) as [->|Hb].
    + split; [destruct (nth_error (s_heap s) a); discriminate|]. intros H. assert (a < length h0)%nat by (apply nth_error_Some; congruence). lia.
    + split; intros H.
      * destruct (B b x H) as [Lt|[F|F]]; [|rewrite Hn in F; discriminate|congruence]. rewrite <- A by exact Lt. exact H.
      * rewrite A by (apply nth_error_Some; congruence). exact H.
  - destruct (handle_of _ _ _ Em) as (c & Ec). apply model_is in Em. rewrite Ec in *. assert (Dc := D c (or_introl eq_refl)).
    assert (Nc : c <> a) by (intros ->; congruence).
    assert (Em1 : at_ (Some c) (free (Some a) s) = Some (OModel m)).
    { unfold at_ in *. cbn [free s_heap]. rewrite nth_poke. destruct (Nat.eqb_spec c a); [contradiction|exact Em]. }
    unfold sol_release_model. rewrite (proj2 (model_is _ _ _) Em1). cbn [M_Capi.seq]. eexists. split; [reflexivity|]. split; [|reflexivity].
    intros b x. cbn [free s_heap]. rewrite nth_poke. destruct (Nat.eqb_spec b c) as [->|Hc].
    + split; [destruct (nth_error (poke a None (s_heap s)) c); discriminate|]. intros H. assert (c < length h0)%nat by (apply nth_error_Some; congruence). lia.
    + rewrite nth_poke. destruct (Nat.eqb_spec b a) as [->|Hb].
      * split; [destruct (nth_error (s_heap s) a); discriminate|]. intros H. assert (a < length h0)%nat by (apply nth_error_Some; congruence). lia.
      * split; intros H.
        -- destruct (B b x H) as [Lt|[F|F]]; [|congruence|congruence]. rewrite <- A by exact Lt. exact H.
        -- rewrite A by (apply nth_error_Some; congruence). exact H.
Qed.
(** After __cinit__. *)
Lemma cinit_cases algo classes batch buf verbose ps (s : state) :
  match cinit N Y algo classes batch buf verbose ps s with
  | PRet _ o s1 => holds o s1 /\ owns (s_heap s) o s1 /\ iter_at (o_iter o) s1 = Some [] /\ s_world s1 = s_world s /\
      (forall m, model_at (o_model o) s1 = Some m -> snd m = CDefault \/ snd m = CNone) /\
      match o_algo o with Literal _ => True | Buffer k t => algo = Some (k, t) | Freed => False end
  | PRaise _ s1 => same_objects (s_heap s1) (s_heap s) /\ s_world s1 = s_world s
  | PCrash => True
  | PBad => False
  end.
Proof.
  destruct s as [h w]. cbn [s_heap s_world].
  assert (Bare : forall al c, holds (mksol None (Some (length h)) al c verbose) (mkst (h ++ [Some (OIter [])]) w : state) /\ owns h (mksol None (Some (length h)) al c verbose) (mkst (h ++ [Some (OIter [])]) w : state) /\
    iter_at (Some (length h)) (mkst (h ++ [Some (OIter [])]) w : state) = Some []).
  { intros al c. assert (I : iter_at (Some (length h)) (mkst (h ++ [Some (OIter [])]) w : state) = Some []) by (apply iter_is; unfold at_; cbn [s_heap]; now rewrite nth_app_new).
    split; [split; [cbn; eauto|now left]|]. split; [|exact I]. split; [|split; [|split]]; cbn [s_heap o_model o_iter].
    - intros a Ha. now rewrite nth_error_app1.
    - intros a x H. assert (a < length (h ++ [Some (OIter [])]))%nat by (apply nth_error_Some; congruence). rewrite app_length in *. cbn in *.
      destruct (Nat.lt_ge_cases a (length h)); [auto|]. right. right. f_equal. lia.
    - intros a [F|F]; [discriminate|]. injection F as <-. lia.
    - rewrite app_length. lia. }
  destruct algo as [(k, al)|].
  - rewrite (cinit_some N Y). destruct (y_create Y al classes) as [m|].
    + destruct (psetd Y m ps) as [(m', [])|]; [| |exact I].
      * set (s1 := mkst (h ++ [Some (OModel (m', first_callback verbose)); Some (OIter [])]) w : state).
        assert (Mo : model_at (Some (length h)) s1 = Some (m', first_callback verbose)) by (apply model_is; unfold at_; cbn [s_heap s1]; now rewrite nth1).
        assert (It : iter_at (Some (S (length h))) s1 = Some []) by (apply iter_is; unfold at_; cbn [s_heap s1]; now rewrite nth2).
        cbn [o_model o_iter o_algo]. split; [split; cbn; eauto|]. split; [|split; [exact It|split; [reflexivity|split; [|reflexivity]]]].
        -- split; [|split; [|split]]; cbn [s_heap s1 o_model o_iter].
           ++ intros a Ha. now rewrite nth_error_app1.
           ++ intros a x H. assert (a < length (h ++ [Some (OModel (m', first_callback verbose)); Some (OIter [])]))%nat by (apply nth_error_Some; congruence).
              rewrite app_length in *. cbn in *. destruct (Nat.lt_ge_cases a (length h)); [auto|]. right. destruct (Nat.eq_dec a (length h)) as [->|]; [auto|]. right. f_equal. lia.
           ++ intros a [F|F]; injection F as <-; lia.
           ++ rewrite app_length. lia.
        -- intros m0 E0. rewrite Mo in E0. injection E0 as <-. cbn. destruct verbose; auto.
      * cbn [s_heap s_world]. split; [|reflexivity]. intros a x. destruct (Nat.lt_ge_cases a (length h)) as [Lt|Ge].
        -- rewrite nth_error_app1 by exact Lt. tauto.
        -- rewrite nth_error_app2 by exact Ge. split; intros H.
           ++ destruct (a - length h)%nat as [|j]; cbn in H; [discriminate|destruct j; discriminate].
           ++ assert (a < length h)%nat by (apply nth_error_Some; congruence). lia.
    + destruct ps.
      * destruct (Bare (Buffer k al) classes) as (A & B & D). cbn [o_model o_iter o_algo s_heap s_world]. split; [exact A|]. split; [exact B|]. split; [exact D|].
        split; [reflexivity|]. split; [discriminate|reflexivity].
      * cbn [s_heap s_world]. split; [intros a x; tauto|reflexivity].
  - rewrite (cinit_none N Y). destruct (Bare (Literal (bytes "none")) (-1)) as (A & B & D). cbn [o_model o_iter o_algo s_heap s_world]. split; [exact A|]. split; [exact B|]. split; [exact D|].
    split; [reflexivity|]. split; [discriminate|exact I].
Qed.

(* ---------------------------------------------------------------- safety *)
Definition sinv (has fresh : bool) (k0 : option nat) (hs : list nat) (alive : nat -> bool) (o : sol) (s : state) : Prop :=
  iter_at (o_iter o) s = Some [] /\
  (o_model o = None \/ exists m, model_at (o_model o) s = Some m /\ forall k, snd m = CObject k -> In k hs) /\
  (forall k, In k hs -> alive k = true) /\
  (fresh = true -> (has = true -> o_model o <> None) /\ match o_algo o with Literal _ => True | Buffer k _ => k0 = Some k /\ alive k = true | Freed => False end).
Lemma run1_safe has fresh k0 hs alive p r o s : never_refuses Y -> sinv has fresh k0 hs alive o s -> careful has fresh k0 hs alive (p :: r) ->
  match run1 N Y py_int p o s alive with
  | Undefined => False
  | Crashed => True
  | Goes v o' s' a' => exists fresh' hs', sinv has fresh' k0 hs' a' o' s' /\ careful has fresh' k0 hs' a' r
  end.
Proof.
  intros NR (Ei & Hm & Hh & Hf) Ca.
  assert (Now : careful has fresh k0 hs alive r -> exists fresh' hs', sinv has fresh' k0 hs' alive o s /\ careful has fresh' k0 hs' alive r)
    by (intros Cr; exists fresh, hs; split; [repeat split; assumption || apply Hf; assumption|exact Cr]).
  assert (Next : forall s1 m1 m, careful has fresh k0 hs alive r -> model_at (o_model o) s = Some m -> (forall k, snd m = CObject k -> In k hs) ->
    model_at (o_model o) s1 = Some m1 -> snd m1 = snd m -> iter_at (o_iter o) s1 = Some [] ->
    exists fresh' hs', sinv has fresh' k0 hs' alive o s1 /\ careful has fresh' k0 hs' alive r).
  { intros s1 m1 m Cr Em Hk Em1 Es Ei1. exists fresh, hs. split; [|exact Cr]. split; [exact Ei1|]. split; [right; exists m1; split; [exact Em1|rewrite Es; exact Hk]|].
    split; [exact Hh|exact Hf]. }
  assert (Cb : forall m, (forall k, snd m = CObject k -> In k hs) -> callable alive (snd (m : model MD)) = true).
  { intros [m c] H. cbn in *. destruct c; try reflexivity. cbn. apply Hh, H. reflexivity. }
  destruct p as [l| |h|d n|d|d| |path|path|k]; cbn [run1 careful] in *.
  - destruct Hm as [Hn|(m & Em & Hk)].
    + unfold set_params. rewrite Hn. destruct l; cbn; now apply Now.
    + destruct (set_cases N Y l o s m Em) as [F|(s1 & m' & F & A & B & K)]; [now rewrite F|].
      destruct F as [F|F]; rewrite F; cbn; eapply Next; eauto.
  - destruct Ca as (-> & -> & Cr). destruct (Hf eq_refl) as (Hn & _). destruct Hm as [Hn'|(m & Em & _)]; [destruct (Hn eq_refl Hn')|].
    unfold get_params. rewrite Em. cbn. now apply Now.
  - destruct Hm as [Hn|(m & Em & Hk)].
    + unfold inspect_learning. rewrite Hn. cbn. destruct h as [| |k]; [now apply Now|now apply Now|]. destruct Ca as (Al & Cr).
      exists fresh, (k :: hs). split; [|exact Cr]. split; [exact Ei|]. split; [now left|]. split; [intros j [<-|I]; auto|exact Hf].
    + destruct (inspect_some h o s m Em) as (s1 & F & A & B & K). rewrite F. cbn.
      destruct h as [| |k].
      * exists fresh, hs. split; [|exact Ca]. split; [now apply B|]. split; [right; eexists; split; [exact A|discriminate]|]. split; assumption.
      * exists fresh, hs. split; [|exact Ca]. split; [now apply B|]. split; [right; eexists; split; [exact A|discriminate]|]. split; assumption.
      * destruct Ca as (Al & Cr). exists fresh, (k :: hs). split; [|exact Cr]. split; [now apply B|].
        split; [right; eexists; split; [exact A|cbn; intros j [= ->]; now left]|]. split; [intros j [<-|I]; auto|exact Hf].
  - destruct Ca as (Ld & Cr). destruct Hm as [Hn|(m & Em & Hk)]; [unfold fit; rewrite Hn; cbn; now apply Now|].
    destruct (fit_cases N Y alive d n o s m [] Em Ei) as [F|[(s1 & F & A & B & K)|[(e & s1 & m' & F & A & K & B)|(F & Bd)]]]; rewrite F; cbn; [exact I| | |].
    + eapply Next; eauto.
    + destruct B as [B|(j & w & Er & _)]; [|destruct (NR _ _ _ _ Er)]. eapply Next; eauto.
    + apply Bd. auto.
  - destruct Ca as (Ld & Cr). destruct Hm as [Hn|(m & Em & Hk)]; [unfold score; rewrite Hn; cbn; now apply Now|].
    destruct (score_cases N Y alive d o s m [] Em Ei) as [F|[(s1 & F & A & B & K)|[(e & s1 & m' & F & A & B & K)|(F & Bd)]]]; rewrite F; cbn; [exact I| | |].
    + eapply Next; eauto.
    + eapply Next; eauto.
    + apply Bd. auto.
  - destruct Ca as (Ld & Cr). destruct Hm as [Hn|(m & Em & Hk)]; [unfold predict; rewrite Hn; cbn; now apply Now|].
    destruct (predict_cases N Y alive d o s m [] Em Ei) as [F|[(s1 & F & A & B & K)|[(e & s1 & m' & F & A & B & K)|(F & Bd)]]]; rewrite F; cbn; [exact I| | |].
    + eapply Next; eauto.
    + eapply Next; eauto.
    + apply Bd. auto.
  - destruct Ca as (-> & Cr). destruct (Hf eq_refl) as (_ & Ha). unfold name. destruct (o_algo o) as [t|k t|]; [|destruct Ha as (_ & Ha); rewrite Ha|contradiction]; cbn; now apply Now.
  - destruct Hm as [Hn|(m & Em & Hk)]; [unfold save; rewrite Hn; cbn; now apply Now|].
    destruct (handle_of _ _ _ Em) as (a & Ea). unfold save, sol_save_model. rewrite Em. rewrite Ea. cbn [l_save py_library].
    destruct (y_save Y (fst m) path (s_world s)) as [c w]. cbn. exists fresh, hs. split; [|exact Ca]. split; [exact Ei|]. split; [right; exists m; split; [exact Em|exact Hk]|]. split; assumption.
  - destruct (load_cases N Y py_int path o s [] Ei) as (o1 & s1 & F & Eo & B & D & K).
    assert (G : exists fresh' hs', sinv has fresh' k0 hs' alive o1 s1 /\ careful has fresh' k0 hs' alive r).
    { exists false, hs. split; [|exact Ca]. split; [exact B|]. split; [destruct D as [D|(m & Dm & Dc)]; [now left|]|].
      - right. exists m. split; [exact Dm|]. intros k Hk. destruct Dc; congruence.
      - split; [exact Hh|discriminate]. }
    destruct F as [F|(b & F)]; rewrite F; cbn; exact G.
  - destruct Ca as (Nk & Nk0 & Cr). exists fresh, hs. split; [|exact Cr]. split; [exact Ei|]. split; [exact Hm|]. split.
    + intros j I. destruct (Nat.eqb_spec j k) as [->|]; [contradiction|now apply Hh].
    + intros Fr. destruct (Hf Fr) as (A & B). split; [exact A|]. destruct (o_algo o) as [t|j t|]; try exact B. destruct B as (B1 & B2). split; [exact B1|].
      destruct (Nat.eqb_spec j k) as [->|]; [congruence|exact B2].
Qed.
Lemma run_safe has k0 l : never_refuses Y -> forall fresh hs alive o s, sinv has fresh k0 hs alive o s -> careful has fresh k0 hs alive l ->
  fst (run N Y py_int l o s alive) <> Undefined.
Proof.
  intros NR. induction l as [|p l IH]; intros fresh hs alive o s I Ca; cbn [run].
  - discriminate.
  - assert (H := run1_safe _ _ _ _ _ _ _ _ _ NR I Ca). destruct (run1 N Y py_int p o s alive) as [v o1 s1 a1| |]; [|discriminate|contradiction].
    destruct H as (fresh' & hs' & I' & Ca'). specialize (IH _ _ _ _ _ I' Ca'). destruct (run N Y py_int l o1 s1 a1). exact IH.
Qed.
End P.
