(** The loss functions, src/sol/loss/*.cc.  Scores and gradients are lists with one element per
    classifier (cls_num).  [None] is an out-of-range access (a label that is not a class). *)
From Verif Require Import M_Base M_Num M_Expr.

(** The registered losses: bool_loss.cc:31,54,84; hinge_loss.cc:40,93,164;
    logistic_loss.cc:42,94,169; square_loss.cc:29. *)
Inductive loss_kind : Set :=
| LBool | LMaxBool | LUniBool
| LHinge | LMaxHinge | LUniHinge
| LLogistic | LMaxLogistic | LUniLogistic
| LSquare.

(** Type flags BC, MC, HINGE and BOOL of each loss (constructors in include/sol/loss/*.h and
    Loss::Type, loss.h:25-36); the square loss is registered with RG (square_loss.h:17). *)
Definition loss_is_binary (k : loss_kind) : bool :=
  match k with LBool | LHinge | LLogistic => true | _ => false end.
Definition loss_is_multi (k : loss_kind) : bool :=
  match k with
  | LMaxBool | LUniBool | LMaxHinge | LUniHinge | LMaxLogistic | LUniLogistic => true
  | _ => false
  end.

Section Loss.
Context {R : Type}.
Variable N : num R.
Local Notation zero := (zero N).
Local Notation one := (one N).

(** Array access with a signed index (label_t), e.g. predict[label], hinge_loss.cc:46. *)
Definition rdz {A} (l : list A) (i : Z) : option A :=
  if i <? 0 then None else rd l (Z.to_nat i).
Definition wrz {A} (l : list A) (i : Z) (v : A) : option (list A) :=
  if i <? 0 then None else wr l (Z.to_nat i) v.

(** Loss::Sign, loss.h:38. *)
Definition sign (x : R) : Z := if n_le N zero x then 1 else -1.

(** std::max_element(first, last) - first: the first position whose element is not smaller than
    any other (used in online_linear_model.cc:112,125 and hinge_loss.cc:49).  0 when empty. *)
Fixpoint max_from (best : R) (bpos pos : nat) (l : list R) : nat :=
  match l with
  | [] => bpos
  | x :: r => if n_lt N best x then max_from x pos (S pos) r else max_from best bpos (S pos) r
  end.
Definition max_element (l : list R) : nat :=
  match l with [] => O | x :: r => max_from x 0 1 r end.

(** Result of gradient(): the loss, the gradients (an output parameter, unchanged where the code
    does not write it), margin_ and the value stored through the captured pointer by a margin
    handler. *)
Record lres := mklres { l_loss : R; l_grad : list R; l_margin : R; l_vt : option R }.

(** A margin handler: gradient array to (margin, stored value); cw.cc:68-81, eccw.cc:69-82. *)
Definition handler := option (list R -> option (R * R)).

(** for (i < cls_num) gradient[i] = 0, e.g. hinge_loss.cc:70. *)
Definition zeros (g : list R) : list R := map (fun _ => zero) g.

(** gradient[rival] = a; gradient[label] = b on a cleared array, e.g. hinge_loss.cc:85-87. *)
Definition two_grad (g : list R) (rival label : Z) (a b : R) : option (list R) :=
  do g1 <- wrz (zeros g) rival a; wrz g1 label b.

(** The rival class, hinge_loss.cc:45-51,60-66 and logistic_loss.cc:47-53,69-75: the predicted
    class if it is wrong, else the best class when the own score is replaced by -FLT_MAX. *)
Definition rival (label : Z) (predict : list R) (plabel : Z) : option Z :=
  if plabel =? label then
    do p' <- wrz predict label (n_opp N (n_fmax N));
    Some (Z.of_nat (max_element p'))
  else Some plabel.

(** The hinge value (std::max)(0.0f, v), hinge_loss.cc:21,31,52,75,82. *)
Definition hinge_of (v : R) : R := std_max N zero v.

(** The logistic value of z, logistic_loss.cc:18-23,56-62,112-118. *)
Definition logistic_of (z : R) : R :=
  if n_lt N (n_int N 100) z then z
  else if n_lt N z (n_opp N (n_int N 100)) then zero
  else n_log N (n_add N one (n_exp N z)).

(** Sum and number of scores not below the own score, hinge_loss.cc:116-125 and
    logistic_loss.cc:125-134: starts at (0, 1e-12), adds, then removes the own class. *)
Fixpoint false_scan (own : R) (predict : list R) (acc : R * R) : R * R :=
  match predict with
  | [] => acc
  | p :: r =>
    false_scan own r
      (if n_le N own p then (n_add N (fst acc) p, n_add N (snd acc) one) else acc)
  end.
Definition false_stats (own : R) (predict : list R) : R * R :=
  let acc := false_scan own predict (zero, n_lit N 1 (-12)) in
  (n_sub N (fst acc) own, n_sub N (snd acc) one).

(** gradient[i] = alpha where predict[label] <= predict[i], else 0; hinge_loss.cc:130-136,
    151-157, logistic_loss.cc:140-146,156-162, bool_loss.cc:73-78. *)
Definition uniform_grad (own alpha : R) (predict : list R) : list R :=
  map (fun p => if n_le N own p then alpha else zero) predict.

(** Loss::gradient of every loss.  bool_loss.cc:19-29,38-52,61-82; hinge_loss.cc:24-38,56-91,
    112-162; logistic_loss.cc:26-40,65-92,121-167; square_loss.cc:22-27.
    Binary losses use *predict and *gradient only. *)
Definition gradient (k : loss_kind) (h : handler) (label : Z) (predict : list R) (plabel : Z)
  (g : list R) (margin : R) : option lres :=
  match k with
  | LBool =>
    let loss := if plabel =? label then zero else one in
    do g' <- wr g 0 (if n_lt N zero loss then n_int N (- label) else zero);
    Some (mklres loss g' margin None)
  | LMaxBool =>
    let loss := if plabel =? label then zero else one in
    if n_lt N zero loss then
      do g' <- two_grad g plabel label one (n_opp N one);
      Some (mklres loss g' margin None)
    else Some (mklres loss g margin None)
  | LUniBool =>
    let loss := if plabel =? label then zero else one in
    if n_lt N zero loss then
      do own <- rdz predict label;
      let false_num := u64 (Z.of_nat (length (filter (n_le N own) predict)) - 1) in
      let alpha := n_div N one (n_int N false_num) in
      do g' <- wrz (uniform_grad own alpha predict) label (n_opp N one);
      Some (mklres loss g' margin None)
    else Some (mklres loss g margin None)
  | LHinge =>
    do p <- rd predict 0;
    do (g1, margin1, vt) <-
      match h with
      | None => Some (g, margin, None)
      | Some f =>
        do g1 <- wr g 0 one;
        do (m, v) <- f g1; Some (g1, m, Some v)
      end;
    let loss := hinge_of (n_sub N margin1 (n_mul N p (n_int N label))) in
    do g' <- wr g1 0 (if n_lt N zero loss then n_int N (- label) else zero);
    Some (mklres loss g' margin1 vt)
  | LMaxHinge =>
    do rv <- rival label predict plabel;
    do own <- rdz predict label;
    do riv <- rdz predict rv;
    match h with
    | Some f =>
      do g1 <- two_grad g rv label one (n_opp N one);
      do (m, v) <- f g1;
      let loss := hinge_of (n_add N (n_sub N m own) riv) in
      if n_le N loss zero then
        do g2 <- wrz g1 rv zero;
        do g3 <- wrz g2 label zero;
        Some (mklres loss g3 m (Some v))
      else Some (mklres loss g1 m (Some v))
    | None =>
      let loss := hinge_of (n_add N (n_sub N margin own) riv) in
      if n_lt N zero loss then
        do g' <- two_grad g rv label one (n_opp N one);
        Some (mklres loss g' margin None)
      else Some (mklres loss g margin None)
    end
  | LUniHinge =>
    do own <- rdz predict label;
    let '(false_predict, false_num) := false_stats own predict in
    let alpha := n_div N one false_num in
    (* hinge_loss.cc:140,148 declare an inner variable named loss, so the outer one stays 0 *)
    let outer_loss := zero in
    match h with
    | Some f =>
      do g1 <- wrz (uniform_grad own alpha predict) label (n_opp N one);
      do (m, v) <- f g1;
      let loss := hinge_of (n_add N (n_sub N m own) (n_mul N false_predict alpha)) in
      Some (mklres outer_loss (if n_le N loss zero then zeros g1 else g1) m (Some v))
    | None =>
      let loss := hinge_of (n_add N (n_sub N margin own) (n_mul N false_predict alpha)) in
      if n_lt N zero loss then
        do g1 <- wrz (uniform_grad own alpha predict) label (n_opp N one);
        Some (mklres outer_loss g1 margin None)
      else Some (mklres outer_loss g margin None)
    end
  | LLogistic =>
    do p <- rd predict 0;
    let z := n_mul N (n_opp N p) (n_int N label) in
    do g' <- wr g 0
      (if n_lt N (n_int N 100) z then n_int N (- label)
       else if n_lt N z (n_opp N (n_int N 100)) then zero
       else n_div N (n_int N (- label)) (n_add N one (n_exp N (n_opp N z))));
    Some (mklres (logistic_of z) g' margin None)
  | LMaxLogistic =>
    do rv <- rival label predict plabel;
    do riv <- rdz predict rv;
    do own <- rdz predict label;
    let z := n_sub N riv own in
    if n_lt N (n_int N 100) z then
      do g' <- two_grad g rv label one (n_opp N one);
      Some (mklres z g' margin None)
    else if n_lt N z (n_opp N (n_int N 100)) then
      do g' <- two_grad g rv label zero zero;
      Some (mklres zero g' margin None)
    else
      let a := n_div N one (n_add N one (n_exp N (n_opp N z))) in
      do g1 <- wrz (zeros g) rv a;
      do a' <- rdz g1 rv;
      do g' <- wrz g1 label (n_opp N a');
      Some (mklres (n_log N (n_add N one (n_exp N z))) g' margin None)
  | LUniLogistic =>
    do own <- rdz predict label;
    let '(false_predict, false_num) := false_stats own predict in
    let z := n_sub N (n_div N false_predict false_num) own in
    if n_lt N (n_int N 100) z then
      do g' <- wrz (uniform_grad own (n_div N one false_num) predict) label (n_opp N one);
      Some (mklres z g' margin None)
    else if n_lt N z (n_opp N (n_int N 100)) then
      Some (mklres zero (zeros g) margin None)
    else
      let alpha := n_div N one (n_add N one (n_exp N (n_opp N z))) in
      let beta := n_div N alpha false_num in
      do g' <- wrz (uniform_grad own beta predict) label (n_opp N alpha);
      Some (mklres (n_log N (n_add N one (n_exp N z))) g' margin None)
  | LSquare =>
    do p <- rd predict 0;
    let d := n_sub N p (n_int N label) in
    do g' <- wr g 0 d;
    Some (mklres (n_mul N (n_mul N d d) (n_lit N 5 (-1))) g' margin None)
  end.

(** Loss::loss (evaluation without gradient).  bool_loss.cc:14-17,33-36,56-59;
    hinge_loss.cc:19-22,42-54,95-110; logistic_loss.cc:15-24,44-63,97-119; square_loss.cc:17-20. *)
Definition loss_value (k : loss_kind) (label : Z) (predict : list R) (plabel : Z) (margin : R)
  : option R :=
  match k with
  | LBool | LMaxBool | LUniBool => Some (if plabel =? label then zero else one)
  | LHinge =>
    do p <- rd predict 0; Some (hinge_of (n_sub N margin (n_mul N p (n_int N label))))
  | LMaxHinge =>
    do rv <- rival label predict plabel;
    do own <- rdz predict label;
    do riv <- rdz predict rv;
    Some (hinge_of (n_add N (n_sub N margin own) riv))
  | LUniHinge =>
    do own <- rdz predict label;
    let '(fp, fn) := false_stats own predict in
    Some (hinge_of (n_add N (n_sub N margin own) (n_div N fp fn)))
  | LLogistic =>
    do p <- rd predict 0; Some (logistic_of (n_mul N (n_opp N p) (n_int N label)))
  | LMaxLogistic =>
    do rv <- rival label predict plabel;
    do riv <- rdz predict rv;
    do own <- rdz predict label;
    Some (logistic_of (n_sub N riv own))
  | LUniLogistic =>
    do own <- rdz predict label;
    let '(fp, fn) := false_stats own predict in
    Some (logistic_of (n_sub N (n_div N fp fn) own))
  | LSquare =>
    do p <- rd predict 0;
    let d := n_sub N p (n_int N label) in
    Some (n_mul N (n_mul N d d) (n_lit N 5 (-1)))
  end.
End Loss.
Arguments mklres {R}. Arguments l_loss {R}. Arguments l_grad {R}. Arguments l_margin {R}. Arguments l_vt {R}.
