From Coq Require Import String Lia.
From Verif Require Import M_Base M_Text M_Str P_Str M_Num M_Expr M_Loss M_Online M_Filter M_Save M_Param S_Param P_Param P_Param2 P_Param3 Props_Param M_Info S_Info.
Local Open Scope string_scope.
Local Open Scope list_scope.
Local Open Scope Z_scope.

(** Lists with names, compared by computation. *)
Fixpoint nodupb (l : list string) : bool := match l with [] => true | x :: r => negb (existsb (String.eqb x) r) && nodupb r end.
Lemma nodupb_ok l : nodupb l = true -> NoDup l.
Proof.
  induction l as [|x r IH]; cbn [nodupb]; [constructor|]. rewrite andb_true_iff, negb_true_iff. intros (H & Hr). constructor; [|auto].
  intros Hin. enough (existsb (String.eqb x) r = true) by congruence. apply existsb_exists. exists x. split; [exact Hin|apply String.eqb_refl].
Qed.
Fixpoint look {A} (n : string) (l : list (string * A)) : option A :=
  match l with [] => None | (k, v) :: r => if String.eqb k n then Some v else look n r end.
Lemma look_in {A} n (v : A) l : look n l = Some v -> In (n, v) l.
Proof. induction l as [|(k, w) r IH]; cbn [look]; [discriminate|]. destruct (String.eqb_spec k n) as [->|]; [intros E; injection E as ->; now left|right; auto]. Qed.
Lemma incl_keys {A} (a b : list (string * A)) : map (fun x => look (fst x) b) a = map (fun x => Some (snd x)) a -> incl a b.
Proof.
  induction a as [|(n, v) r IH]; intros E x H; [destruct H|]. cbn [map fst snd] in E. injection E as E1 E2. destruct H as [<-|H]; [now apply look_in|now apply IH].
Qed.

Section P.
Context {R : Type}.
Variable N : num R.
Variable show : R -> list Z.
Notation flat k classes c := (walk "" (JObject (model_info N k classes c))).

Lemma flat_spec k classes c : NoDup (map fst (flat k classes c)) /\ forall n v, In (n, v) (flat k classes c) <-> reports N k classes c n v.
Proof.
  set (rs := [MBias; MActive; MCost; MEta; MEta0; MPower; MC; Ma; Mphi; Mr; Mdelta; Msigma; Mrou; Malpha; MBinv; Msp1; Mlambda; Mthresh; Mt0; MFlam]).
  set (told := flat_map (fun m => match shown N k c m with Some n => [(n, LReal (f_r c m))] | None => [] end) rs ++
    flat_map (fun m => map (fun n => (n, LInt (f_z c m))) (int_names k m)) [MIter; Mk; Mp; MB] ++
    [("dim", LInt (f_dim c)); ("lazy_update", LStr (bytes (if f_lazy c then "true" else "false"))); ("model", LStr (bytes (cls_name k)));
     ("cls_num", LInt classes); ("clf_num", LInt (clf_of classes)); ("loss", LStr (match f_loss c with Some (_, l) => loss_name l | None => [] end));
     ("norm", LInt (norm_code (f_norm c)))]).
  assert (T : forall n v, In (n, v) told <-> reports N k classes c n v).
  { intros n v. unfold told. rewrite !in_app_iff, !in_flat_map. split.
    - intros [(m & _ & H)|[(m & H1 & H)|H]].
      + destruct (shown N k c m) as [x|] eqn:E; [|destruct H]. destruct H as [H|[]]. injection H as <- <-. now constructor.
      + apply in_map_iff in H. destruct H as (x & E & H). injection E as <- <-. constructor; [exact H|]. intros ->. cbn in H1. intuition discriminate.
      + cbn [In] in H. repeat (destruct H as [H|H]; [injection H as <- <-|]); [constructor..|destruct H].
    - intros H. destruct H as [m n E|m n E Hm| | | | | | |].
      + left. exists m. split; [destruct m; unfold rs; cbn; tauto|]. rewrite E. now left.
      + right. left. exists m. split; [destruct m; cbn; tauto|]. apply in_map_iff. eauto.
      + right. right. now left.
      + right. right. right. now left.
      + right. right. do 2 right. now left.
      + right. right. do 3 right. now left.
      + right. right. do 4 right. now left.
      + right. right. do 5 right. now left.
      + right. right. do 6 right. now left. }
  assert (E : NoDup (map fst (flat k classes c)) /\ incl (flat k classes c) told /\ incl told (flat k classes c)).
  { clear T. unfold told, rs, model_info, info_online, info_model, shown. clear told rs.
    generalize (match f_loss c with Some (_, l) => loss_name l | None => [] end) as lo.
    destruct (n_le N (one N) (f_r c MActive)), (f_cost c), (f_lazy c); destruct k; intros lo;
      (split; [apply nodupb_ok; vm_compute; reflexivity|split; apply incl_keys; vm_compute; reflexivity]). }
  destruct E as (E1 & E2 & E3). split; [exact E1|]. intros n v. rewrite <- T. split; [apply E2|apply E3].
Qed.
End P.
