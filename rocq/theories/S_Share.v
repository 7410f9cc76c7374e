(** What shared vectors and points should be: objects that live forever and are referred to, as in a
    language with references and a garbage collector.  No counters, nothing is deleted. *)
From Verif Require Import M_Base M_Vector M_Share.

Section Spec.
Context {A : Type} (zero : A).

(** Vectors, pairs of references to vectors, and the variables. *)
Record gst : Type := mkgst {
  gv : list (vec A); gs : list (option nat * option nat);
  gve : list (option (option nat)); gse : list (option (option nat * Z))
}.
Definition gvar (v : nat) (g : gst) : option (option nat) := match nth_error (gve g) v with Some (Some h) => Some h | _ => None end.
Definition gpoint (s : nat) (g : gst) : option (option nat * Z) := match nth_error (gse g) s with Some (Some h) => Some h | _ => None end.
Definition gpair (s : nat) (g : gst) : option (nat * (option nat * option nat)) :=
  do (h, _) <- gpoint s g; match h with None => None | Some b => do f <- nth_error (gs g) b; Some (b, f) end.
(** The vector a place refers to, and making it refer to another one. *)
Definition refers (p : place) (g : gst) : option (option nat) :=
  match p with
  | Var v => gvar v g
  | Idx s => do (_, f) <- gpair s g; Some (fst f)
  | Val s => do (_, f) <- gpair s g; Some (snd f)
  end.
Definition redirect (p : place) (h : option nat) (g : gst) : option gst :=
  match p with
  | Var v => do _ <- gvar v g; Some (mkgst (gv g) (gs g) (upd v (Some h) (gve g)) (gse g))
  | Idx s => do (b, f) <- gpair s g; Some (mkgst (gv g) (upd b (h, snd f) (gs g)) (gve g) (gse g))
  | Val s => do (b, f) <- gpair s g; Some (mkgst (gv g) (upd b (fst f, h) (gs g)) (gve g) (gse g))
  end.
Definition set_gv (l : list (vec A)) (g : gst) : gst := mkgst l (gs g) (gve g) (gse g).
Definition set_gs (l : list (option nat * option nat)) (g : gst) : gst := mkgst (gv g) l (gve g) (gse g).
Definition set_gve (l : list (option (option nat))) (g : gst) : gst := mkgst (gv g) (gs g) l (gse g).
Definition set_gse (l : list (option (option nat * Z))) (g : gst) : gst := mkgst (gv g) (gs g) (gve g) l.

Definition have (p : place) (g : gst) : option (gst * nat) :=
  do h <- refers p g;
  match h with
  | Some b => Some (g, b)
  | None => do g1 <- redirect p (Some (length (gv g))) (set_gv (gv g ++ [vec_empty]) g); Some (g1, length (gv g))
  end.
Definition change (b : nat) (o : vop A) (g : gst) : option gst :=
  do x <- nth_error (gv g) b; do x1 <- vec_step zero x o; Some (set_gv (upd b x1 (gv g)) g).
Definition apply_v (p : place) (o : vop A) (g : gst) : option gst :=
  match o with
  | VResize _ | VPush _ | VClear | VReserve _ => do (g1, b) <- have p g; change b o g1
  | VPop => do h <- refers p g; match h with None => Some g | Some b => change b o g end
  | VSet _ _ | VSlice _ _ => do h <- refers p g; match h with None => None | Some b => change b o g end
  end.
Definition gsize (p : place) (g : gst) : option nat :=
  do h <- refers p g; match h with None => Some O | Some b => do x <- nth_error (gv g) b; Some (v_size x) end.
Definition gget (p : place) (i : nat) (g : gst) : option A :=
  do h <- refers p g; match h with None => None | Some b => do x <- nth_error (gv g) b; vec_get i x end.
Definition gcopy (dst src : place) (n : nat) (g : gst) : option gst :=
  do hd <- refers dst g; do hs <- refers src g;
  match hd, hs with
  | Some d, Some s =>
    do xd <- nth_error (gv g) d; do xs <- nth_error (gv g) s;
    if (n <=? length (v_store xs))%nat && (n <=? length (v_store xd))%nat
    then Some (set_gv (upd d (mkvec (firstn n (v_store xs) ++ skipn n (v_store xd)) (v_size xd)) (gv g)) g)
    else None
  | _, _ => None
  end.
Definition have_s (s : nat) (g : gst) : option gst :=
  do (h, l) <- gpoint s g;
  match h with
  | Some _ => Some g
  | None => Some (set_gse (upd s (Some (Some (length (gs g)), l)) (gse g)) (set_gs (gs g ++ [(None, None)]) g))
  end.
Definition both (s : nat) (o : vop A) (g : gst) : option gst :=
  do g1 <- have_s s g; do g2 <- apply_v (Idx s) o g1; apply_v (Val s) o g2.
Definition gsize_s (s : nat) (g : gst) : option nat :=
  do (h, _) <- gpoint s g; match h with None => Some O | Some _ => gsize (Val s) g end.
Definition unused_v (v : nat) (g : gst) : option unit := match nth_error (gve g) v with Some None => Some tt | _ => None end.
Definition unused_s (s : nat) (g : gst) : option unit := match nth_error (gse g) s with Some None => Some tt | _ => None end.

Definition gstep (o : sop A) (g : gst) : option (gst * obs A) :=
  match o with
  | VNew v => do _ <- unused_v v g; Some (set_gve (upd v (Some None) (gve g)) g, Nothing)
  | VCopy v p => do _ <- unused_v v g; do h <- refers p g; Some (set_gve (upd v (Some h) (gve g)) g, Nothing)
  | VDrop v => do _ <- gvar v g; Some (set_gve (upd v None (gve g)) g, Nothing)
  | VAssign p q => do _ <- refers p g; do h <- refers q g; do g1 <- redirect p h g; Some (g1, Nothing)
  | VMut p o => do g1 <- apply_v p o g; Some (g1, Nothing)
  | VGet p i => do a <- gget p i g; Some (g, Elem a)
  | VSize p => do n <- gsize p g; Some (g, Number n)
  | PNew s => do _ <- unused_s s g; Some (set_gse (upd s (Some (None, 0)) (gse g)) g, Nothing)
  | PCopy s r => do _ <- unused_s s g; do x <- gpoint r g; Some (set_gse (upd s (Some x) (gse g)) g, Nothing)
  | PDrop s => do _ <- gpoint s g; Some (set_gse (upd s None (gse g)) g, Nothing)
  | PAssign s r => do _ <- gpoint s g; do x <- gpoint r g; Some (set_gse (upd s (Some x) (gse g)) g, Nothing)
  | PLabel s l => do (h, _) <- gpoint s g; Some (set_gse (upd s (Some (h, l)) (gse g)) g, Nothing)
  | PAdd s i x =>
    do n <- gsize_s s g; do g1 <- both s (VResize (S n)) g;
    do g2 <- apply_v (Idx s) (VSet n i) g1; do g3 <- apply_v (Val s) (VSet n x) g2; Some (g3, Nothing)
  | PResize s n => do g1 <- both s (VResize n) g; Some (g1, Nothing)
  | PReserve s n => do g1 <- both s (VReserve n) g; Some (g1, Nothing)
  | PClear s => do g1 <- both s (VResize O) g; do (h, _) <- gpoint s g1; Some (set_gse (upd s (Some (h, 0)) (gse g1)) g1, Nothing)
  | PClone s d =>
    do (_, l) <- gpoint s g; do (hd, _) <- gpoint d g;
    let g0 := set_gse (upd d (Some (hd, l)) (gse g)) g in
    do n0 <- gsize_s s g0; do g1 <- both d (VReserve n0) g0;
    do n1 <- gsize_s s g1; do g2 <- both d (VResize n1) g1;
    do n2 <- gsize_s s g2; do g3 <- gcopy (Idx d) (Idx s) n2 g2;
    do n3 <- gsize_s s g3; do g4 <- gcopy (Val d) (Val s) n3 g3; Some (g4, Nothing)
  | PSize s => do n <- gsize_s s g; Some (g, Number n)
  | PGetLabel s => do (_, l) <- gpoint s g; Some (g, Label l)
  end.
Fixpoint grun (os : list (sop A)) (g : gst) : option (gst * list (obs A)) :=
  match os with
  | [] => Some (g, [])
  | o :: r => do (g1, a) <- gstep o g; do (g2, l) <- grun r g1; Some (g2, a :: l)
  end.
Definition gstart (nv ns : nat) : gst := mkgst [] [] (repeat None nv) (repeat None ns).

(** The operations that work on the point [d] only; they may read others. *)
Definition local (d : nat) (o : sop A) : Prop :=
  match o with
  | VMut (Idx s) _ | VMut (Val s) _ | PLabel s _ | PAdd s _ _ | PResize s _ | PReserve s _ | PClear s | PClone _ s => s = d
  | VGet _ _ | VSize _ | PSize _ | PGetLabel _ => True
  | _ => False
  end.
(** Everything that can be asked of the features of a point, and its label. *)
Definition shows (s : nat) (t : st A) (s' : nat) (t' : st A) : Prop :=
  size_s s t = size_s s' t' /\ size_v (Idx s) t = size_v (Idx s') t' /\
  forall i, get_v (Idx s) i t = get_v (Idx s') i t' /\ get_v (Val s) i t = get_v (Val s') i t'.
Definition label_of (s : nat) (t : st A) : option Z := do (_, l) <- svar s t; Some l.

(** How many handles refer to a block. *)
Definition one (b : nat) (h : option nat) : Z := match h with Some a => if Nat.eqb a b then 1 else 0 | None => 0 end.
Fixpoint total {X} (f : X -> Z) (l : list X) : Z := match l with [] => 0 | x :: r => f x + total f r end.
Definition vrefs (t : st A) (b : nat) : Z :=
  total (fun x => match x with Some h => one b h | None => 0 end) (ve t) +
  total (fun x => match x with Some (_, (i, v)) => one b i + one b v | None => 0 end) (sb t).
Definition srefs (t : st A) (b : nat) : Z := total (fun x => match x with Some (h, _) => one b h | None => 0 end) (se t).
(** The counters are exact, and a block is deleted exactly when nothing refers to it. *)
Definition exact {X} (m : heap X) (refs : nat -> Z) : Prop :=
  forall b, match hget b m with Some (c, _) => c = refs b /\ 0 < c | None => refs b = 0 end.
End Spec.
Arguments gst : clear implicits.
