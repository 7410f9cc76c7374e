(** The feature-selection models: PET (ogd.cc), FOFS (fofs.cc), SOFS (arow.cc), AdaFOBOS_OFS
    (ada_fobos.cc), AdaRDA_OFS (ada_rda.cc).  The budget B is static_cast<index_t>(lambda()) for
    PET, SOFS and the OFS models, B_ for FOFS; it is a parameter of the model here.
    The heap (M_Heap) works on the score array shifted by one: "abs_w.data() + 1". *)
From Verif Require Import M_Base M_Num M_Expr M_Loss M_Online M_Olm M_Heap.

Section Sel.
Context {R : Type}.
Variable N : num R.
Local Notation zero := (zero N).
Local Notation one := (one N).
Local Notation "a +! b" := (n_add N a b) (at level 50, left associativity).
Local Notation "a -! b" := (n_sub N a b) (at level 50, left associativity).
Local Notation "a *! b" := (n_mul N a b) (at level 40, left associativity).
Local Notation "a /! b" := (n_div N a b) (at level 40, left associativity).

(** MinHeap keeps large scores (op::smaller), MaxHeap small ones (op::larger), heap.h:241-242,
    operator.h:126-138. *)
Definition cmp_min (a b : R) : bool := n_lt N a b.
Definition cmp_max (a b : R) : bool := n_lt N b a.

(** w(c)[ret_idx] = 0 for all classes, ogd.cc:223-225 etc. *)
Definition zero_at (i : nat) (ws : list (list R)) : option (list (list R)) :=
  mapM (fun w => wr w i zero) ws.

(** The selection loop over all features, ogd.cc:219-228, fofs.cc:84-93: an id that is rejected or
    evicted loses its weights and its score. *)
Fixpoint offer_scores (ids : list nat) (h : heap) (scores : list R) (ws : list (list R))
  : option (heap * list R * list (list R)) :=
  match ids with
  | [] => Some (h, scores, ws)
  | i :: r =>
    do (h', ret) <- update_heap cmp_min (skipn 1 scores) h i;
    match ret with
    | None => offer_scores r h' scores ws
    | Some j =>
      do ws' <- zero_at (j + 1) ws;
      do scores' <- wr scores (j + 1) zero;
      offer_scores r h' scores' ws'
    end
  end.

(** The selection loop of the second-order models over the ids given, arow.cc:226-235,
    ada_fobos.cc:232-241, ada_rda.cc:261-270, 283-291; scores are not changed. *)
Fixpoint offer_ids (cmp : R -> R -> bool) (values : list R) (ids : list Z) (h : heap)
  (ws : list (list R)) : option (heap * list (list R)) :=
  match ids with
  | [] => Some (h, ws)
  | i :: r =>
    if i <? 0 then None
    else
      do (h', ret) <- update_heap cmp values h (Z.to_nat i);
      match ret with
      | None => offer_ids cmp values r h' ws
      | Some j => do ws' <- zero_at (j + 1) ws; offer_ids cmp values r h' ws'
      end
  end.

(** Sum of absolute weights over the classes at the example's features, ogd.cc:211-214,
    fofs.cc:76-79. *)
Fixpoint add_abs (x : list (Z * R)) (ws : list (list R)) (ab : list R) : option (list R) :=
  match ws with
  | [] => Some ab
  | w :: r => do ab' <- calc (n_add N) ab (eL1 N (eslice w x)); add_abs x r ab'
  end.
Definition abs_scores (x : list (Z * R)) (ws : list (list R)) (ab : list R) : option (list R) :=
  match ws with
  | [] => None
  | w :: r => do ab' <- calc assign ab (eL1 N (eslice w x)); add_abs x r ab'
  end.
(** The same over all features at BeginTrain, ogd.cc:194-198, fofs.cc:46-50. *)
Fixpoint add_abs_all (ws : list (list R)) (ab : list R) : option (list R) :=
  match ws with
  | [] => Some ab
  | w :: r => do ab' <- calc (n_add N) ab (eL1 N (EDense w)); add_abs_all r ab'
  end.

(** State of PET and FOFS: abs_weights_ and min_heap_, ogd.h:92-94. *)
Definition sel1 : Type := list R * heap.

(** PET::update_dim, ogd.cc:232-241, FOFS::update_dim, fofs.cc:96-105.  The elements of abs_w below
    dim_ that a resize from a smaller size leaves unspecified are 0 here (BeginTrain overwrites
    them before use). *)
Definition sel1_grow (d : nat) (c : core) (s : sel1) : option (core * sel1) :=
  if (c_dim c <? d)%nat
  then
    let '(ab, h) := s in
    let ab' := firstn (c_dim c) (ab ++ repeat zero (c_dim c)) ++ repeat zero (d - c_dim c) in
    do h' <- heap_set_N h (d - 1);
    Some (linear_update_dim N d c, (ab', h'))
  else Some (c, s).

(** BeginTrain, ogd.cc:184-201, fofs.cc:34-53. *)
Definition sel1_begin (B : nat) (c : core) (s : sel1) : option (core * sel1) :=
  match B with
  | O => Some (c, s)
  | _ =>
    do (c1, s1) <- (if (c_dim c <? B + 1)%nat then sel1_grow (B + 1) c s else Some (c, s));
    do ab <- add_abs_all (c_ws c1) (repeat zero (c_dim c1));
    do h <- heap_init cmp_min (c_dim c1 - 1) B (skipn 1 ab);
    Some (c1, (ab, h))
  end.

(** The selection part of Update, ogd.cc:206-229, fofs.cc:73-94. *)
Definition sel1_select (B : nat) (p : point R) (c : core) (s : sel1) : option (core * sel1) :=
  match B with
  | O => Some (c, s)
  | _ =>
    let '(ab, h) := s in
    do ab1 <- abs_scores (feats p) (c_ws c) ab;
    do h1 <- build_heap cmp_min (skipn 1 ab1) h;
    do (h2, ab2, ws) <- offer_scores (seq 0 (c_dim c - 1)) h1 ab1 (c_ws c);
    Some (set_ws c ws, (ab2, h2))
  end.

(** PET, ogd.cc:172-241. *)
Definition pet (eta0 power_t : R) (B : nat) : alg sel1 :=
  mkalg sel1_grow (sel1_begin B) reg_begin_none prep_none margin_none
    (fun p loss c s => do c1 <- ogd_update N eta0 power_t p loss c; sel1_select B p c1 s)
    reg_end_none end_none.

(** One class of FOFS::Update, fofs.cc:60-71; norm_coeff_ and momentum_ are those of
    BeginTrain, fofs.cc:36-37. *)
Definition fofs_step (lam eta bias : R) (x : list (Z * R)) (g : R) (w : list R)
  : option (list R) :=
  let norm_coeff := one /! n_sqrt N lam in
  let momentum := one -! lam *! eta in
  do w0 <- calc (n_mul N) w (EScalar momentum);
  do w1 <- grad_step N eta bias x g w0;
  do n <- norm2 N (EDense w1);
  let coeff := norm_coeff /! n_sqrt N n in
  if n_lt N coeff one then calc (n_mul N) w1 (EScalar coeff) else Some w1.
(** FOFS::Update, fofs.cc:55-95. *)
Definition fofs_update (lam : R) (B : nat) (p : point R) (loss : R) (c : core) (s : sel1)
  : option (core * sel1) :=
  do ws <- each_class N (fofs_step lam (c_eta c) (bias_eta N c) (feats p)) (c_g c) (c_ws c);
  sel1_select B p (set_ws c ws) s.
(** FOFS, fofs.cc:15-105. *)
Definition fofs (lam : R) (B : nat) : alg sel1 :=
  mkalg sel1_grow (sel1_begin B) reg_begin_none prep_none margin_none (fofs_update lam B)
    reg_end_none end_none.

(** State of the second-order selection models: the confidence vectors (Sigmas_ or H_), their sum
    over the classes (Sigma_sum_, H_sum_; unused for one class, where it is an alias of the only
    vector, arow.cc:118-122) and the heap. *)
Record sel2 := mksel2 { s_vecs : list (list R); s_sum : list R; s_heap : heap }.

(** What the heap sees: what Sigma_sum_ / H_sum_ point to, without the bias, arow.cc:153, 249. *)
Definition sel2_scores (s : sel2) : list R :=
  match s_vecs s with [v] => v | _ => s_sum s end.

(** update_dim, arow.cc:238-251, ada_fobos.cc:244-257, ada_rda.cc:297-310; [a] is the initial
    confidence (1 or delta_), the sum starts at clf_num * a. *)
Definition sel2_grow (a : R) (d : nat) (c : core) (s : sel2) : option (core * sel2) :=
  if (c_dim c <? d)%nat
  then
    let sum' :=
      match s_vecs s with
      | [_] => s_sum s
      | _ => firstn (c_dim c) (s_sum s ++ repeat zero (c_dim c))
             ++ repeat (n_int N (Z.of_nat (clf_num c)) *! a) (d - c_dim c)
      end in
    do (c', vs) <- sigma_grow N a d c (s_vecs s);
    do h' <- heap_set_N (s_heap s) (d - 1);
    Some (c', mksel2 vs sum' h')
  else Some (c, s).

(** Sigma_sum_ = 0; Sigma_sum_ += Sigma(i) (through the pointer), arow.cc:148-151. *)
Fixpoint add_vecs (vs : list (list R)) (acc : list R) : option (list R) :=
  match vs with
  | [] => Some acc
  | v :: r => do acc' <- calc (n_add N) acc (EDense v); add_vecs r acc'
  end.
(** BeginTrain, arow.cc:137-155, ada_fobos.cc:152-170, ada_rda.cc:178-196; [cmp] is cmp_max for
    SOFS and cmp_min for the others; [grow] is the model's update_dim. *)
Definition sel2_begin (cmp : R -> R -> bool) (a : R) (B : nat) (c : core) (s : sel2)
  : option (core * sel2) :=
  match B with
  | O => Some (c, s)
  | _ =>
    do (c1, s1) <- (if (c_dim c <? B + 1)%nat then sel2_grow a (B + 1) c s else Some (c, s));
    do sum <- match s_vecs s1 with
              | [_] => Some (s_sum s1)
              | vs => add_vecs vs (repeat zero (c_dim c1))
              end;
    let s2 := mksel2 (s_vecs s1) sum (s_heap s1) in
    do h <- heap_init cmp (c_dim c1 - 1) B (skipn 1 (sel2_scores s2));
    Some (c1, mksel2 (s_vecs s1) sum h)
  end.

(** After a score changed: if the feature is in the heap, AdjustHeap(pos, B - 1),
    arow.cc:196-199, 219-222. *)
Definition readjust (cmp : R -> R -> bool) (B : nat) (values : list R) (idx : Z) (h : heap)
  : option heap :=
  do pos <- rdz (h_id2pos h) (idx - 1);
  if (pos <? B)%nat then adjust_heap cmp values h pos (B - 1) else Some h.

(** The per-feature loop with one classifier: new confidence, then heap; arow.cc:191-200,
    ada_fobos.cc:187-198, ada_rda.cc:213-224.  [f old xv] is the new confidence. *)
Fixpoint feature_loop (cmp : R -> R -> bool) (f : R -> R -> R) (B : nat) (x : list (Z * R))
  (v : list R) (h : heap) : option (list R * heap) :=
  match x with
  | [] => Some (v, h)
  | (i, xv) :: r =>
    do old <- rd v (Z.to_nat i);
    do v' <- wr v (Z.to_nat i) (f old xv);
    do h' <- readjust cmp B (skipn 1 v') i h;
    feature_loop cmp f B r v' h'
  end.
(** The per-feature loop with several classifiers: the sum is recomputed,
    arow.cc:212-223, ada_fobos.cc:209-220, ada_rda.cc:235-246. *)
Fixpoint sum_at (i : nat) (vs : list (list R)) (acc : R) : option R :=
  match vs with
  | [] => Some acc
  | v :: r => do y <- rd v i; sum_at i r (acc +! y)
  end.
Fixpoint sum_loop (cmp : R -> R -> bool) (B : nat) (idx : list Z) (vs : list (list R))
  (sum : list R) (h : heap) : option (list R * heap) :=
  match idx with
  | [] => Some (sum, h)
  | i :: r =>
    do t <- sum_at (Z.to_nat i) vs zero;
    do sum' <- wr sum (Z.to_nat i) t;
    do h' <- readjust cmp B (skipn 1 sum') i h;
    sum_loop cmp B r vs sum' h'
  end.

(** The confidence part of Update, arow.cc:184-224, ada_fobos.cc:179-221, ada_rda.cc:205-247.
    [bias0 g] changes the bias confidence, [feat g] one feature's confidence (one classifier),
    [whole g] a whole vector (several classifiers). *)
Definition sel2_confidence (cmp : R -> R -> bool) (bias0 : R -> R -> R)
  (feat : R -> R -> R -> R) (whole : R -> list R -> option (list R)) (B : nat) (x : list (Z * R))
  (gs : list R) (s : sel2) : option sel2 :=
  match s_vecs s, gs with
  | [v], g :: _ =>
    do v1 <- upd0 (bias0 g) v;
    do (v2, h) <- feature_loop cmp (feat g) B x v1 (s_heap s);
    Some (mksel2 [v2] (s_sum s) h)
  | vs, _ =>
    do vs' <- each_class N whole gs vs;
    do (sum, h) <- sum_loop cmp B (map fst x) vs' (s_sum s) (s_heap s);
    Some (mksel2 vs' sum h)
  end.

(** The truncation loop over the example's features, arow.cc:226-235 etc. *)
Definition sel2_truncate (cmp : R -> R -> bool) (p : point R) (c : core) (s : sel2)
  : option (core * sel2) :=
  do (h, ws) <- offer_ids cmp (skipn 1 (sel2_scores s)) (map (fun i => i - 1) (p_idx p)) (s_heap s)
                  (c_ws c);
  Some (set_ws c ws, mksel2 (s_vecs s) (s_sum s) h).

(** "if (g(0) == 0) return" for one classifier, arow.cc:187, ada_fobos.cc:182, ada_rda.cc:208. *)
Definition single_zero (c : core) : bool :=
  match c_ws c, c_g c with [_], g :: _ => n_eq N g zero | _, _ => false end.

(** The weight loop of SOFS::Update, arow.cc:177-183 (weights and Sigma of the same class). *)
Definition sofs_weights (x : list (Z * R)) (c : core) (Ss : list (list R)) : option core :=
  do (ws, _) <- each_class2 N
      (fun g w Sg => do w' <- sigma_w_step N (c_eta c) (bias_eta N c) x g w Sg; Some (w', Sg))
      (c_g c) (c_ws c) Ss;
  Some (set_ws c ws).
(** SOFS::Update, arow.cc:157-236. *)
Definition sofs_update (r : R) (B : nat) (p : point R) (loss : R) (c : core) (s : sel2)
  : option (core * sel2) :=
  match B with
  | O => do (c', vs) <- arow_update N r p loss c (s_vecs s);
         Some (c', mksel2 vs (s_sum s) (s_heap s))
  | _ =>
    do eta <- arow_eta N r (feats p) loss c (s_vecs s);
    let c1 := set_eta c eta in
    do c2 <- sofs_weights (feats p) c1 (s_vecs s);
    if single_zero c2 then Some (c2, s)
    else
      do s1 <- sel2_confidence cmp_max
                 (fun g v => v /! (one +! v *! (g *! g /! r)))
                 (fun g v xv => v /! (one +! v *! xv *! xv *! (g *! g /! r)))
                 (fun g v => arow_sigma N r (feats p) g v) B (feats p) (c_g c2) s;
      sel2_truncate cmp_max p c2 s1
  end.
(** SOFS, arow.cc:115-251. *)
Definition sofs (r : R) (B : nat) : alg sel2 :=
  mkalg (sel2_grow one) (sel2_begin cmp_max one B) reg_begin_none prep_none margin_none
    (sofs_update r B) reg_end_none end_none.

(** The confidence functions of the two adaptive models, ada_fobos.cc:184-192, 203-205. *)
Definition ada_confidence (delta : R) (B : nat) (p : point R) (gs : list R) (s : sel2)
  : option sel2 :=
  sel2_confidence cmp_min
    (fun g h => n_sqrt N ((h -! delta) *! (h -! delta) +! g *! g) +! delta)
    (fun g h xv => let h1 := h -! delta in n_sqrt N (h1 *! h1 +! g *! g *! xv *! xv) +! delta)
    (fun g h => ada_H N delta (feats p) g h) B (feats p) gs s.
(** The weight loop of AdaFOBOS_OFS::Update, ada_fobos.cc:223-229. *)
Definition ada_ofs_weights (x : list (Z * R)) (c : core) (Hs : list (list R)) : option core :=
  do (ws, _) <- each_class2 N
      (fun g w H => do w' <- ada_w_step N (c_eta c) (bias_eta N c) x g w H; Some (w', H))
      (c_g c) (c_ws c) Hs;
  Some (set_ws c ws).
(** AdaFOBOS_OFS::Update, ada_fobos.cc:172-242. *)
Definition ada_fobos_ofs_update (delta : R) (B : nat) (p : point R) (loss : R) (c : core)
  (s : sel2) : option (core * sel2) :=
  match B with
  | O => do (c', vs) <- ada_fobos_update N delta p loss c (s_vecs s);
         Some (c', mksel2 vs (s_sum s) (s_heap s))
  | _ =>
    if single_zero c then Some (c, s)
    else
      do s1 <- ada_confidence delta B p (c_g c) s;
      do c2 <- ada_ofs_weights (feats p) c (s_vecs s1);
      sel2_truncate cmp_min p c2 s1
  end.
(** AdaFOBOS_OFS, ada_fobos.cc:130-257. *)
Definition ada_fobos_ofs (delta : R) (B : nat) : alg sel2 :=
  mkalg (sel2_grow delta) (sel2_begin cmp_min delta B) reg_begin_none prep_none margin_none
    (ada_fobos_ofs_update delta B) reg_end_none end_none.

(** AdaRDA_OFS: in addition ut_ per class, ada_rda.h:37. *)
Definition sel2u : Type := sel2 * list (list R).
(** The weight loop of AdaRDA_OFS::Update, ada_rda.cc:249-258. *)
Definition ada_rda_ofs_weights (x : list (Z * R)) (c : core) (Hs : list (list R))
  (ut : list (list R)) : option (core * list (list R)) :=
  do (ws, Hu) <- each_class2 N
      (fun g w Hu =>
         do u' <- ut_step N x g (snd Hu);
         do w' <- ada_rda_assign N (c_eta c) (c_b0 c) (eslice u' x) w (fst Hu);
         Some (w', (fst Hu, u')))
      (c_g c) (c_ws c) (combine Hs ut);
  Some (set_ws c ws, map snd Hu).
(** AdaRDA_OFS::Update, ada_rda.cc:198-271. *)
Definition ada_rda_ofs_update (delta : R) (B : nat) (p : point R) (loss : R) (c : core)
  (su : sel2u) : option (core * sel2u) :=
  let '(s, ut) := su in
  match B with
  | O => do (c', Hu) <- ada_rda_update N delta p loss c (combine (s_vecs s) ut);
         Some (c', (mksel2 (map fst Hu) (s_sum s) (s_heap s), map snd Hu))
  | _ =>
    if single_zero c then Some (c, su)
    else
      do s1 <- ada_confidence delta B p (c_g c) s;
      do (c2, ut') <- ada_rda_ofs_weights (feats p) c (s_vecs s1) ut;
      do (c3, s2) <- sel2_truncate cmp_min p c2 s1;
      Some (c3, (s2, ut'))
  end.
(** AdaRDA_OFS::EndTrain, ada_rda.cc:273-295. *)
Definition ada_rda_ofs_end (B : nat) (c : core) (su : sel2u) : option (core * sel2u) :=
  let '(s, ut) := su in
  do ws <- zip_class
      (fun w Hu => ada_rda_assign N (c_eta c) (c_b0 c) (EDense (snd Hu)) w (fst Hu))
      (c_ws c) (combine (s_vecs s) ut);
  match B with
  | O => Some (set_updated (set_ws c ws) false, su)
  | _ =>
    do (h, ws') <- offer_ids cmp_min (skipn 1 (sel2_scores s))
                     (map Z.of_nat (seq 0 (c_dim c - 1))) (s_heap s) ws;
    Some (set_updated (set_ws c ws') false, (mksel2 (s_vecs s) (s_sum s) h, ut))
  end.
(** AdaRDA_OFS::update_dim, ada_rda.cc:297-310 and 77-90. *)
Definition ada_rda_ofs_grow (delta : R) (d : nat) (c : core) (su : sel2u) : option (core * sel2u) :=
  let '(s, ut) := su in
  do (c', s') <- sel2_grow delta d c s;
  Some (c', (s', if (c_dim c <? d)%nat then map (grow (c_dim c) d zero) ut else ut)).
(** AdaRDA_OFS, ada_rda.cc:156-310. *)
Definition ada_rda_ofs (delta : R) (B : nat) : alg sel2u :=
  mkalg (ada_rda_ofs_grow delta)
    (fun c su =>
       do (c', s') <- sel2_begin cmp_min delta B c (fst su);
       Some (c', (s', if (c_dim c <? c_dim c')%nat
                      then map (grow (c_dim c) (c_dim c') zero) (snd su) else snd su)))
    reg_begin_none prep_none margin_none (ada_rda_ofs_update delta B) reg_end_none
    (ada_rda_ofs_end B).
End Sel.
Arguments mksel2 {R}. Arguments s_vecs {R}. Arguments s_sum {R}. Arguments s_heap {R}.
