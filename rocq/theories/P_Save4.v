(** Proofs about saving and loading, part 4: the round trip. *)
From Coq Require Import String QArith.
From Verif Require Import M_Base M_Num M_Expr M_Loss M_Online M_Olm M_OlmSel M_Heap M_Algs M_Text S_Text P_Parse P_PrintG
  M_Str P_Str S_Online P_Predict P_SafeOlm M_Save S_Save P_Save P_Save2 P_Save3.
Local Open Scope string_scope.
Local Open Scope list_scope.
Local Open Scope Z_scope.

Section P.
Context {R : Type}.
Variable N : num R.
Variable pr : R -> printed.
Variable strtof : Z -> Z -> option R.
Variable json_write : info -> list Z.
Variable json_parse : list Z -> option info.
Local Notation zero := (zero N).
Local Notation one := (one N).
Local Notation rb := (reads_back pr strtof).

Lemma blocks_ok k (e : state_of (R:=R) k) n d : extras_shape k e n d -> Z.of_nat n <= 2147483647 -> Forall block_ok (extra_blocks k e).
Proof.
  intros [_ B] Hn. destruct k; cbn [extra_blocks] in *;
    repeat match goal with H : Forall _ (_ :: _) |- _ => inversion H; clear H; subst end;
    repeat (constructor; [cbn [block_ok]; try split; try (repeat constructor); try lia|]); try constructor.
Qed.
Lemma nonempty_len d (vs : list (list R)) : (1 <= d)%nat -> Forall (fun v => length v = d) vs -> Forall (fun v => v <> []) vs.
Proof. intros H. apply Forall_impl. intros v L ->. cbn in L. lia. Qed.
Lemma F2_len {A B} (P : A -> B -> Prop) a b : Forall2 P a b -> length a = length b.
Proof. induction 1; cbn; congruence. Qed.
Lemma concat_lines (ls : list (list Z)) : (length ls <= length (concat (map (fun l => l ++ [10%Z]) ls)))%nat.
Proof. induction ls; cbn; [lia|]. rewrite !app_length. cbn. lia. Qed.

(** Loading depends on the texts of the settings only. *)
Lemma scan_digits (neg : bool) ds : ds <> [] -> Forall digit_char ds ->
  fst (scan_float ((if neg then [45] else []) ++ ds)) = Some ((if neg then -1 else 1) * dec_value ds, 0).
Proof.
  intros Hn H. pose proof (scan_text neg ds [] [] 0 [] Hn H (Forall_nil _) ex_none I) as E. cbn [frac_text app] in E. rewrite app_nil_r in E. rewrite E.
  cbn [fst]. reflexivity.
Qed.
Lemma print_digits z : -999999 <= z <= 999999 -> exists ds, print_d z = Some ((if z <? 0 then [45] else []) ++ ds) /\ ds <> [] /\ Forall digit_char ds /\ dec_value ds = Z.abs z.
Proof.
  intros H. unfold print_d. destruct (Z.ltb_spec z 0).
  - destruct (dec_digits_ok 20 (- z)) as (ds & E & Hne & Hd & Hv); [change (10 ^ Z.of_nat 20) with 100000000000000000000; lia|lia|]. exists ds. rewrite E. repeat split; auto. lia.
  - destruct (dec_digits_ok 20 z) as (ds & E & Hne & Hd & Hv); [change (10 ^ Z.of_nat 20) with 100000000000000000000; lia|lia|]. exists ds. rewrite E. repeat split; auto. lia.
Qed.
Lemma same_real v v' : same_setting v v' -> as_real strtof v' = as_real strtof v.
Proof.
  intros [->|(d & z & -> & -> & B & H)]; [reflexivity|]. cbn [as_real]. destruct H as [H|(H & ->)].
  - destruct (print_digits z B) as (ds & E & Hne & Hd & Hv). assert (T : text_of (PNum d) = (if z <? 0 then [45] else []) ++ ds) by congruence. rewrite T. pose proof (scan_digits (z <? 0) ds Hne Hd) as S.
    destruct (scan_float _) as [o q]. cbn [fst] in S. subst o. f_equal. rewrite Hv. destruct (Z.ltb_spec z 0); lia.
  - rewrite H. reflexivity.
Qed.
Lemma same_int v v' : same_setting v v' -> as_int v' = as_int v.
Proof.
  intros [->|(d & z & -> & -> & B & H)]; [reflexivity|]. cbn [as_int]. destruct H as [H|(H & ->)].
  - rewrite (stoll_ok _ z H) by lia. reflexivity.
  - rewrite H. reflexivity.
Qed.
Lemma same_param {A} (conv : jval -> option A) ok name dflt l l' : (forall v v', same_setting v v' -> conv v' = conv v) ->
  (forall name, same_option (member name l) (member name l')) -> param conv ok name dflt l' = param conv ok name dflt l.
Proof.
  intros C H. unfold param. specialize (H (bytes name)). destruct (member _ l), (member _ l'); cbn in H; try contradiction; [|reflexivity]. now rewrite (C _ _ H).
Qed.
Lemma same_info d d' : same_settings d d' -> set_info N strtof d' = set_info N strtof d.
Proof.
  intros (E1 & E2 & E3 & E4 & E5 & L & M). unfold set_info. rewrite E1, E2, E3, E4, E5.
  assert (PR : forall ok name dflt, param (as_real strtof) ok name dflt (i_online d') = param (as_real strtof) ok name dflt (i_online d))
    by (intros; apply same_param; [exact same_real|exact M]).
  assert (PI : forall ok name dflt, param as_int ok name dflt (i_online d') = param as_int ok name dflt (i_online d))
    by (intros; apply same_param; [exact same_int|exact M]).
  assert (LA : match i_lambda d' with None => Some zero | Some v => as_real strtof v end = match i_lambda d with None => Some zero | Some v => as_real strtof v end).
  { destruct (i_lambda d), (i_lambda d'); cbn in L; try contradiction; [now apply same_real|reflexivity]. }
  assert (LK : forall name lam b, load_kind N strtof name (i_online d') lam b = load_kind N strtof name (i_online d) lam b).
  { intros name lam b. unfold load_kind. rewrite !PR, !PI. pose proof (M (bytes "B")) as HB.
    destruct (member (bytes "B") (i_online d)), (member (bytes "B") (i_online d')); cbn in HB; try contradiction; [now rewrite (same_int _ _ HB)|reflexivity]. }
  assert (CM : forall n : nat, match member (bytes "cost_margin") (i_online d') with
                  | None => Some None
                  | Some v => if negb (n =? 1)%nat then None else do m <- as_real strtof v; if positive N m then Some (Some m) else None end =
                match member (bytes "cost_margin") (i_online d) with
                  | None => Some None
                  | Some v => if negb (n =? 1)%nat then None else do m <- as_real strtof v; if positive N m then Some (Some m) else None end).
  { intros n. pose proof (M (bytes "cost_margin")) as HC. destruct (member (bytes "cost_margin") (i_online d)), (member (bytes "cost_margin") (i_online d')); cbn in HC; try contradiction; [now rewrite (same_real _ _ HC)|reflexivity]. }
  assert (LZ : match member (bytes "lazy_update") (i_online d') with Some (JStr s) => str_eqb s (bytes "true") | _ => false end =
               match member (bytes "lazy_update") (i_online d) with Some (JStr s) => str_eqb s (bytes "true") | _ => false end).
  { pose proof (M (bytes "lazy_update")) as HC. clear CM. destruct (member (bytes "lazy_update") (i_online d)), (member (bytes "lazy_update") (i_online d')); cbn in HC; try contradiction; [|reflexivity].
    destruct HC as [->|(? & ? & -> & -> & _)]; reflexivity. }
  assert (ST : forall (k : kind (R:=R)) t e, set_time N k t (i_online d') e = set_time N k t (i_online d) e).
  { intros k t e. destruct k; try reflexivity. cbn [set_time]. apply PI. }
  cbv zeta. rewrite LA. destruct (i_cls d <? 2); [reflexivity|]. destruct (negb _); [reflexivity|].
  destruct (match i_lambda d with None => _ | _ => _ end) as [lam|]; cbn [bind]; [|reflexivity]. rewrite !PR. destruct (param _ _ _ _ _) as [b0|]; cbn [bind]; [|reflexivity].
  rewrite LK. destruct (load_kind _ _ _ _ _ _) as [k|]; cbn [bind]; [|reflexivity]. destruct (load_loss _ _ _) as [loss|]; cbn [bind]; [|reflexivity].
  destruct (load_norm _ _) as [nk|]; cbn [bind]; [|reflexivity].
  destruct (match k with KFOFS _ _ => _ | _ => _ end) as [eta|]; cbn [bind]; [|reflexivity].
  destruct (param _ _ _ _ _) as [act|]; cbn [bind]; [|reflexivity]. rewrite CM.
  destruct (match member (bytes "cost_margin") _ with None => _ | _ => _ end) as [cost|]; cbn [bind]; [|reflexivity].
  rewrite !PI, LZ. destruct (param _ _ _ _ _) as [dim|]; cbn [bind]; [|reflexivity]. destruct (param _ _ _ _ _) as [t|]; cbn [bind]; [|reflexivity].
  destruct (a_grow _ _ _ _) as [[c1 e1]|]; cbn [bind]; [|reflexivity]. now rewrite ST.
Qed.
Lemma set_extra_shape k (e : state_of (R:=R) k) n d xs : extras_shape k e n d -> length xs = vec_count k n -> Forall (fun v => length v = d) xs ->
  extras_shape k (set_extra k xs e) n d.
Proof.
  intros S L F. pose proof (set_extra_ok pr strtof k e n d xs S L) as Ex. split; [now rewrite Ex|].
  apply shape_extras in S. destruct k; cbn [extra_blocks set_extra vec_count fst snd s_vecs] in *; repeat constructor; auto.
  - destruct xs; cbn in *; lia.
  - destruct S as [[S1 _] _]. rewrite map_length in *. rewrite S1, combine_length, firstn_length, skipn_length. lia.
  - destruct S as [[S1 _] _]. rewrite map_length in *. rewrite S1, combine_length, firstn_length, skipn_length. lia.
  - destruct S as [[S1 _] _]. rewrite map_length in *. rewrite S1, combine_length, firstn_length, skipn_length. lia.
  - destruct S as [[S1 _] _]. rewrite map_length in *. rewrite S1, combine_length, firstn_length, skipn_length. lia.
  - destruct S as [[S1 _] _]. rewrite S1, firstn_length. lia.
  - destruct S as [[S1 _] _]. rewrite S1, skipn_length. lia.
Qed.
Lemma reload p nk k c e ws' xs' fuel : savable N pr strtof p nk k c e ->
  json_ok json_write json_parse (get_info N pr p nk k c e) ->
  Forall2 (Forall2 rb) (c_ws c) ws' -> Forall2 (Forall2 rb) (extras k e) xs' ->
  (length (json_write (get_info N pr p nk k c e)) < fuel)%nat ->
  exists text e', save N pr json_write p nk k c e = Some text /\
    load N strtof json_parse fuel text = Some (Loaded (mkmodel (reset_thresh N k) nk (reloaded_core N k c ws') e')) /\
    extras (reset_thresh N k) e' = xs' /\ restored_rest N k (c_iter c) e e' /\
    extras_shape (reset_thresh N k) e' (length (c_ws c)) (c_dim c).
Proof.
  intros Sv (ls & d' & Jw & Jl & Jp & Js) Fw Fx Hf.
  destruct (set_info_ok N pr strtof p nk k c e Sv) as (e2 & Si & S2 & T2). set (k' := reset_thresh N k) in *.
  destruct Sv as [W Ex Dm It Cl _ _ _ _ _ _ _ _ _]. destruct W as (Hd & Hne & Hw & _).
  match type of Si with context [reloaded_core N k c ?w] => set (ws0 := w) in * end.
  assert (S0 : Forall2 same_size ws0 (c_ws c)).
  { apply (all_len (c_dim c)); auto.
    - unfold ws0, linear_update_dim. cbn [c_dim]. destruct (Nat.ltb_spec 1 (c_dim c)); cbn [c_ws set_dim set_ws].
      + apply Forall_forall. intros v Hv. apply in_map_iff in Hv as (u & <- & Hu). apply repeat_spec in Hu. subst u. rewrite (grow_length 1 (c_dim c)); auto.
      + apply Forall_forall. intros v Hv. apply repeat_spec in Hv. subst v. cbn. lia.
    - unfold ws0, linear_update_dim. cbn [c_dim]. destruct (1 <? c_dim c)%nat; cbn [c_ws set_dim set_ws]; now rewrite ?map_length, repeat_length. }
  assert (SX : Forall2 same_size (extras k' e2) (extras k e)).
  { apply (all_len (c_dim c)); [apply Ex|apply S2|]. erewrite !extras_count by eassumption. apply vec_count_reset. }
  destruct (write_blocks_ok N pr strtof (extra_blocks k e) xs' (extras k' e2) []) as (x & Wx & Rx); auto.
  { eapply blocks_ok; [exact Ex|lia]. } { eapply nonempty_len; [exact Hd|apply Ex]. }
  destruct (write_vecs_ok N pr strtof (bytes "weight") [] (c_ws c) 0 ws' ws0 x) as (w & Ww & Rw); auto; try lia.
  { repeat constructor. } { eapply nonempty_len; [exact Hd|exact Hw]. }
  unfold save, get_param. rewrite Ww. cbn [bind]. rewrite Wx. cbn [bind].
  eexists. exists (set_extra k' xs' e2). split; [reflexivity|]. unfold load.
  change (marker_info ++ [c_nl] ++ json_write (get_info N pr p nk k c e) ++ marker_param ++ [c_nl] ++ w ++ x)
    with (marker_info ++ 10 :: (json_write (get_info N pr p nk k c e) ++ marker_param ++ [c_nl] ++ w ++ x)).
  rewrite getline_ok by (vm_compute; intuition discriminate).
  replace (str_eqb marker_info marker_info) with true by reflexivity. cbn [negb].
  rewrite Jw in *. rewrite load_loop_ok; [|pose proof (concat_lines ls); lia|exact Jl].
  cbn [app bind]. change marker_param with (bytes "model parameters:"). rewrite Jp, (same_info _ _ Js), Si. cbn [m_kind m_core m_state m_norm].
  unfold set_param. cbn [c_ws reloaded_core]. rewrite Rw. rewrite app_nil_r in Rx. unfold extras in Rx. rewrite Rx.
  split; [reflexivity|].
  assert (Lx : length xs' = vec_count k' (length (c_ws c))). { rewrite <- (F2_len _ _ _ Fx). erewrite extras_count by eassumption. unfold k'. now rewrite vec_count_reset. }
  split; [eapply (set_extra_ok pr strtof); [exact S2|exact Lx]|]. split.
  2:{ apply set_extra_shape; auto. apply proj1 in Ex. clear -Ex Fx. revert Ex. induction Fx as [|v u vs us Hv _ IH]; intros F; constructor; inversion F; subst; auto.
      now rewrite <- (F2_len _ _ _ Hv). }
  - destruct k; cbn [reset_thresh k' restored_rest set_extra snd] in *; auto.
Qed.

(** The weights alone decide the scores. *)
Lemma reloaded_predict k c ws x : predict N (reloaded_core N k c ws) x = predict N (set_ws c ws) x.
Proof. reflexivity. Qed.

(** A document without the closing line is read for ever. *)
Lemma find_if_split p (l : list Z) : forall a b, find_if p l = (a, b) -> l = a ++ b.
Proof.
  induction l as [|x r IH]; cbn; intros a b H; [now inversion H|]. destruct (p x); [now inversion H|].
  destruct (find_if p r) as [u v]. inversion H; subst. cbn. f_equal. now apply IH.
Qed.
Lemma load_loop_stuck fuel : forall doc file, (forall a b, file <> a ++ marker_param ++ b) ->
  load_loop fuel doc file = None.
Proof.
  induction fuel as [|f IH]; intros doc file H; cbn [load_loop]; [reflexivity|].
  destruct (getline file) as [line rest] eqn:G. unfold getline in G.
  destruct (find_if (fun c => c =? c_nl)%Z file) as [a b] eqn:Q. inversion G; subst; clear G.
  apply find_if_split in Q. destruct (str_eqb line marker_param) eqn:E.
  - apply str_eqb_eq in E. exfalso. subst line. now apply (H [] b).
  - apply IH. intros u v T. destruct b as [|x b]; cbn in T; [destruct u; discriminate|].
    apply (H (line ++ x :: u) v). rewrite Q, T, <- app_assoc. reflexivity.
Qed.
End P.
