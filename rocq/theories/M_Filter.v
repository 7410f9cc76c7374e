(** Loading a list of selected features: Model::LoadPreSelFeatures (src/sol/model/model.cc:327-367).
    The filter itself is M_Online.filter_features. *)
From Verif Require Import M_Base M_Text M_Str.

(** std::stoi(value, &sz), model.cc:82, 344 (base 10): value and number of characters used.  [Rejected]
    is std::invalid_argument (no digits), [Thrown] is std::out_of_range (not an int). *)
Definition stoi (s : list Z) : parsed (Z * nat) :=
  then_ (stoll s) (fun vs =>
    if (-2147483648 <=? fst vs) && (fst vs <=? 2147483647) then Parsed vs else Thrown).

(** while (getline(in_file, line)), model.cc:338: the lines without their newline; a last line without
    newline counts unless it is empty. *)
Fixpoint get_lines (cur : list Z) (file : list Z) : list (list Z) :=
  match file with
  | [] => match cur with [] => [] | _ => [rev cur] end
  | c :: r => if c =? c_nl then rev cur :: get_lines [] r else get_lines (c :: cur) r
  end.

(** What the call leaves: a selection (sel_feat_flags_ with max_index_ + 1 entries), a status that is
    not Status_OK, an exception of stoi, or undefined behaviour.  In the cases [SelStatus] and [SelThrow]
    no filter is loaded any more: max_index_ was set to 0 first, model.cc:328-329. *)
Inductive selected : Type :=
| SelOk (flags : list bool)
| SelStatus (io : bool)      (** true: Status_IO_Error, false: Status_Invalid_Format *)
| SelThrow (range : bool)    (** false: std::invalid_argument, true: std::out_of_range *)
| SelUB.

(** for (index_t i : indexes) sel_feat_flags_[i] = 1, model.cc:362-364; [None]: outside the vector. *)
Fixpoint set_flags (idx : list Z) (flags : list bool) : option (list bool) :=
  match idx with
  | [] => Some flags
  | i :: r =>
    if i <? Z.of_nat (length flags) then do f' <- wr flags (Z.to_nat i) true; set_flags r f' else None
  end.
(** model.cc:355-364.  max_element of an empty range is its end, which is dereferenced.  max_index_ + 1
    is computed in index_t (32 bits). *)
Definition build_flags (idx : list Z) : selected :=
  match idx with
  | [] => SelUB
  | i :: r =>
    let max_index := fold_left Z.max r i in
    match set_flags idx (repeat false (Z.to_nat (u32 (max_index + 1)))) with
    | Some fl => SelOk fl
    | None => SelUB
    end
  end.

(** The loop of model.cc:338-352 over the lines; '#' is 35. *)
Fixpoint sel_lines (ls : list (list Z)) (idx : list Z) : selected :=
  match ls with
  | [] => build_flags idx
  | line :: r =>
    if starts 35 (snd (find_if_not is_blank line)) then sel_lines r idx
    else
      match stoi line with
      | Rejected => SelThrow false
      | Thrown => SelThrow true
      | Parsed vs =>
        let index := u32 (fst vs) in
        if index <=? 0 then SelStatus false else sel_lines r (idx ++ [index])
      end
  end.
(** The whole function; [None] is a file that cannot be opened. *)
Definition load_presel (file : option (list Z)) : selected :=
  match file with
  | None => SelStatus true
  | Some f => sel_lines (get_lines [] f) []
  end.
