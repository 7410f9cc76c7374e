(** Proofs about the JSON library, part 7: the documents of models that can be saved. *)
From Coq Require Import String QArith.
From Verif Require Import M_Base M_Num M_Expr M_Loss M_Online M_Olm M_OlmSel M_Heap M_Algs M_Text S_Text M_Str S_Online M_Save S_Save M_Json S_Json P_Json6.
Local Open Scope string_scope.
Local Open Scope list_scope.
Local Open Scope Z_scope.

Section P.
Context {R : Type}.
Variable N : num R.
Variable pr : R -> printed.
Variable strtof : Z -> Z -> option R.

Lemma jnum_ok x : exact pr strtof x -> jval_ok (jnum pr x).
Proof. intros (d & E & H & _). unfold jnum. now rewrite E. Qed.
Lemma chars (s : list Z) : Forall (fun c => 0 <? c = true /\ c <? 256 = true) s -> Forall (fun c => 0 < c < 256) s.
Proof. apply Forall_impl. intros c. rewrite !Z.ltb_lt. tauto. Qed.
Lemma bytes_ok (s : list Z) : Forall (fun c => 0 <? c = true /\ c <? 256 = true) s -> Forall byte s.
Proof. intros H. eapply Forall_impl; [|exact (chars s H)]. unfold byte. lia. Qed.
Lemma info_ok_get p nk k c e : savable N pr strtof p nk k c e -> info_ok (get_info N pr p nk k c e).
Proof.
  intros [Wf _ Dim It (Cl1 & Cl2) _ Pk Rl (B0 & _) Et Ac Co _ Al]. constructor; cbn [get_info i_model i_loss i_cls i_clf i_norm i_lambda i_online].
  - split; apply bytes_ok; [destruct k|destruct (c_loss c)]; repeat constructor.
  - assert (0 <= Z.of_nat (length (c_ws c))) by lia. unfold int32. split; [destruct (Z.eqb_spec (Z.of_nat (length (c_ws c))) 1); lia|]. split; [lia|]. destruct nk; cbn; lia.
  - destruct k; cbn [reg_lambda option_map]; auto; cbn [reals_of] in Rl;
      repeat match goal with H : Forall _ (_ :: _) |- _ => inversion H; clear H; subst end; now apply jnum_ok.
  - apply Forall_app. split.
    + unfold online_info. repeat (apply Forall_app; split).
      * repeat (constructor; [split; [apply chars; repeat constructor|cbn [snd jval_ok]; try lia]|]); [now apply jnum_ok| |constructor].
        destruct (c_lazy c); apply bytes_ok; repeat constructor.
      * destruct (n_le N (one N) (c_active c)) eqn:E; constructor; [|constructor]. split; [apply chars; repeat constructor|]. now apply jnum_ok, Ac.
      * destruct (c_cost c) as [m|] eqn:E; constructor; [|constructor]. split; [apply chars; repeat constructor|]. now apply jnum_ok, (Co m).
    + destruct k; cbn [own_info reals_of params_ok keeps_eta] in *;
        repeat match goal with H : Forall _ (_ :: _) |- _ => inversion H; clear H; subst end;
        repeat (constructor; [split; [apply chars; repeat constructor|cbn [snd jval_ok]; try (now apply jnum_ok); try (now apply jnum_ok, Et); try (unfold is_i32 in *; lia)]|]); constructor.
  - unfold online_info. destruct (n_le N (one N) (c_active c)), (c_cost c), k; cbn [own_info app map fst];
      repeat (constructor; [cbn [In]; intuition discriminate|]); constructor.
Qed.
End P.
