(** The JSON library with which models are saved and loaded: Reader (external/json/jsoncpp.cpp:225-945),
    StyledStreamWriter (4459-4670) and the part of Value they need (a document as a tree), and what Model::Save
    and Model::Load put into and take from a document (src/sol/model/model.cc:160-280).
    Bytes are 0..255.  Not modelled: comments kept with a value, offsets, error texts and the recovery after an
    error (923-939; nothing of it can be seen, as model.cc:201 only asks whether parsing succeeded).
    Documents are shorter than 2^31 bytes. *)
From Coq Require Import String.
From Verif Require Import M_Base M_Str M_Text S_Text M_Online M_Save.

(** Json::Value by type; the members of an object are sorted by name (std::map, CZString::operator< 2573-2585). *)
Inductive json (D : Type) : Type :=
| Null | Bool (b : bool) | Int (z : Z) | UInt (z : Z) | Real (d : D) | Str (s : list Z)
| Arr (l : list (json D)) | Obj (m : list (list Z * json D)).
Arguments Null {D}. Arguments Bool {D}. Arguments Int {D}. Arguments UInt {D}. Arguments Real {D}. Arguments Str {D}.
Arguments Arr {D}. Arguments Obj {D}.

(** memcmp of the common length, then the lengths, 2573-2585. *)
Fixpoint key_lt (a b : list Z) : bool :=
  match a, b with
  | _, [] => false
  | [], _ :: _ => true
  | x :: a, y :: b => if x <? y then true else if y <? x then false else key_lt a b
  end.
(** value[key] = v: resolveReference, 3318-3332. *)
Fixpoint obj_set {A} (key : list Z) (v : A) (m : list (list Z * A)) : list (list Z * A) :=
  match m with
  | [] => [(key, v)]
  | (k, w) :: r => if key_lt k key then (k, w) :: obj_set key v r
                   else if str_eqb k key then (k, v) :: r else (key, v) :: m
  end.
(** find, 3341-3352. *)
Fixpoint obj_get {A} (key : list Z) (m : list (list Z * A)) : option A :=
  match m with
  | [] => None
  | (k, w) :: r => if str_eqb k key then Some w else obj_get key r
  end.

(* ------------------------------------------------------------------ the reader *)
(** skipSpaces, 513-521. *)
Definition is_ws (c : Z) : bool := (c =? 32) || (c =? 9) || (c =? 13) || (c =? 10).
Definition skip_spaces (l : list Z) : list Z := snd (find_if_not is_ws l).
(** match, 523-530. *)
Fixpoint match_word (w l : list Z) : option (list Z) :=
  match w, l with
  | [], _ => Some l
  | x :: w, y :: l => if x =? y then match_word w l else None
  | _ :: _, [] => None
  end.
(** readCStyleComment and readCppStyleComment, 586-606.  At the end *current_ is the 0 behind the text. *)
Fixpoint c_comment (l : list Z) : option (list Z) :=
  match l with
  | [] => None
  | c :: r => if (c =? 42) && starts 47 r then Some (tl r) else c_comment r
  end.
Fixpoint cpp_comment (l : list Z) : list Z :=
  match l with
  | [] => []
  | c :: r => if c =? 10 then r else if c =? 13 then (if starts 10 r then tl r else r) else cpp_comment r
  end.
(** readComment, 532-552, after the first slash. *)
Definition read_comment (l : list Z) : option (list Z) :=
  match l with
  | c :: r => if c =? 42 then c_comment r else if c =? 47 then Some (cpp_comment r) else None
  | [] => None
  end.
(** readNumber, 608-624, after the first character: what belongs to the number, and the rest. *)
Definition read_number (l : list Z) : list Z * list Z :=
  let '(a, l1) := find_if_not is_digit l in
  let '(b, l2) := if starts 46 l1 then let '(x, y) := find_if_not is_digit (tl l1) in (46 :: x, y) else ([], l1) in
  let '(c, l3) :=
    match l2 with
    | e :: r =>
      if (e =? 101) || (e =? 69) then
        let '(sg, r) := match r with s :: q => if (s =? 43) || (s =? 45) then ([s], q) else ([], r) | [] => ([], r) end in
        let '(x, y) := find_if_not is_digit r in (e :: sg ++ x, y)
      else ([], l2)
    | [] => ([], l2)
    end in
  (a ++ b ++ c, l3).
(** readString, 626-636, after the first quote: what is before the closing quote, and the rest. *)
Fixpoint read_string (l : list Z) : option (list Z * list Z) :=
  match l with
  | [] => None
  | c :: r =>
    if c =? 92 then
      match r with
      | [] => None
      | d :: r' => do (t, k) <- read_string r'; Some (c :: d :: t, k)
      end
    else if c =? 34 then Some ([], r)
    else do (t, k) <- read_string r; Some (c :: t, k)
  end.
(** Tokens, readToken 443-511.  A number comes with its text, a string with the text between the quotes. *)
Inductive token := TObjBegin | TObjEnd | TArrBegin | TArrEnd | TStr (t : list Z) | TNum (t : list Z) | TTrue | TFalse
                 | TNull | TSep | TColon | TComment | TEnd | TError.
Definition read_token (l : list Z) : token * list Z :=
  match skip_spaces l with
  | [] => (TEnd, [])
  | c :: r =>
    if c =? 123 then (TObjBegin, r) else if c =? 125 then (TObjEnd, r)
    else if c =? 91 then (TArrBegin, r) else if c =? 93 then (TArrEnd, r)
    else if c =? 34 then match read_string r with Some (t, k) => (TStr t, k) | None => (TError, []) end
    else if c =? 47 then match read_comment r with Some k => (TComment, k) | None => (TError, []) end
    else if is_digit c || (c =? 45) then let '(t, k) := read_number r in (TNum (c :: t), k)
    else if c =? 116 then match match_word (bytes "rue") r with Some k => (TTrue, k) | None => (TError, r) end
    else if c =? 102 then match match_word (bytes "alse") r with Some k => (TFalse, k) | None => (TError, r) end
    else if c =? 110 then match match_word (bytes "ull") r with Some k => (TNull, k) | None => (TError, r) end
    else if c =? 44 then (TSep, r) else if c =? 58 then (TColon, r)
    else if c =? 0 then (TEnd, r) else (TError, r)
  end.
(** skipCommentTokens, 433-441: comments are allowed (239-243).  [None]: the loop has not ended (excluded by
    a theorem). *)
Fixpoint skip_comments (fuel : nat) (l : list Z) : option (token * list Z) :=
  match fuel with
  | O => None
  | S f => match read_token l with (TComment, r) => skip_comments f r | tr => Some tr end
  end.
Definition next_token (l : list Z) : option (token * list Z) := skip_comments (S (length l)) l.

(** codePointToUTF8, 99-125. *)
Definition utf8 (cp : Z) : list Z :=
  if cp <=? 127 then [cp]
  else if cp <=? 2047 then [Z.lor 192 (Z.land 31 (Z.shiftr cp 6)); Z.lor 128 (Z.land 63 cp)]
  else if cp <=? 65535 then
    [Z.lor 224 (Z.land 15 (Z.shiftr cp 12)); Z.lor 128 (Z.land 63 (Z.shiftr cp 6)); Z.lor 128 (Z.land 63 cp)]
  else if cp <=? 1114111 then
    [Z.lor 240 (Z.land 7 (Z.shiftr cp 18)); Z.lor 128 (Z.land 63 (Z.shiftr cp 12));
     Z.lor 128 (Z.land 63 (Z.shiftr cp 6)); Z.lor 128 (Z.land 63 cp)]
  else [].
(** decodeUnicodeEscapeSequence, 887-911. *)
Definition hex (c : Z) : option Z :=
  if (48 <=? c) && (c <=? 57) then Some (c - 48)
  else if (97 <=? c) && (c <=? 102) then Some (c - 97 + 10)
  else if (65 <=? c) && (c <=? 70) then Some (c - 65 + 10) else None.
Definition hex4 (a b c d : Z) : option Z :=
  do a <- hex a; do b <- hex b; do c <- hex c; do d <- hex d; Some (((a * 16 + b) * 16 + c) * 16 + d).
Definition escape (e : Z) : option Z :=
  if e =? 34 then Some 34 else if e =? 47 then Some 47 else if e =? 92 then Some 92 else if e =? 98 then Some 8
  else if e =? 102 then Some 12 else if e =? 110 then Some 10 else if e =? 114 then Some 13
  else if e =? 116 then Some 9 else None.
(** decodeString, 810-861, with decodeUnicodeCodePoint, 863-885.  [None]: an error. *)
Fixpoint decode_string (l : list Z) : option (list Z) :=
  match l with
  | [] => Some []
  | c :: r =>
    if c =? 34 then Some []
    else if c =? 92 then
      match r with
      | [] => None
      | e :: r1 =>
        if e =? 117 then
          match r1 with
          | h1 :: h2 :: h3 :: h4 :: r2 =>
            do u <- hex4 h1 h2 h3 h4;
            if (55296 <=? u) && (u <=? 56319) then
              match r2 with
              | b :: v :: g1 :: g2 :: g3 :: g4 :: r3 =>
                if (b =? 92) && (v =? 117) then
                  do w <- hex4 g1 g2 g3 g4; do t <- decode_string r3;
                  Some (utf8 (65536 + Z.shiftl (Z.land u 1023) 10 + Z.land w 1023) ++ t)
                else None
              | _ => None
              end
            else do t <- decode_string r2; Some (utf8 u ++ t)
          | _ => None
          end
        else do x <- escape e; do t <- decode_string r1; Some (x :: t)
      end
    else do t <- decode_string r; Some (c :: t)
  end.
(** The loop of decodeNumber, 755-771.  [None]: decodeDouble is called. *)
Fixpoint number_loop (max : Z) (l : list Z) (value : Z) : option Z :=
  match l with
  | [] => Some value
  | c :: r =>
    if negb (is_digit c) then None
    else
      let d := c - 48 in
      if (max / 10 <=? value) && ((max / 10 <? value) || negb (length r =? 0)%nat || (max mod 10 <? d)) then None
      else number_loop max r (value * 10 + d)
  end.

(** Reading goes on with a value, has failed, or has thrown an exception. *)
Inductive outcome (A : Type) := Ok (a : A) (rest : list Z) | Fail | Throw.
Arguments Ok {A}. Arguments Fail {A}. Arguments Throw {A}.

Section Json.
Context {D : Type}.
(** valueToString(double), 3989-4022: "%g", null, -1e+9999 or 1e+9999. *)
Variable show : D -> list Z.
(** istringstream(text) >> value for a double, 788-798. *)
Variable read_double : list Z -> option D.
Local Notation json := (json D).

(** decodeNumber, 738-777. *)
Definition decode_number (t : list Z) : option json :=
  let neg := starts 45 t in
  let l := if neg then tl t else t in
  let max := if neg then 9223372036854775808 else 18446744073709551615 in
  match number_loop max l 0 with
  | Some v =>
    Some (if neg && (v =? max) then Int (-9223372036854775808) else if neg then Int (- v)
          else if v <=? 2147483647 then Int v else UInt v)
  | None => do d <- read_double t; Some (Real d)
  end.

Definition of_option (o : option json) (rest : list Z) : outcome json :=
  match o with Some v => Ok v rest | None => Fail end.
(** readValue 354-431, readObject 638-690, readArray 692-727; [depth] is stackDepth_g.  [None]: fuel exhausted
    (excluded by a theorem). *)
Fixpoint read_value (fuel : nat) (depth : Z) (l : list Z) : option (outcome json) :=
  match fuel with
  | O => None
  | S f =>
    if 1000 <=? depth then Some Throw
    else
      do (t, r) <- next_token l;
      match t with
      | TObjBegin => read_object f (depth + 1) [] [] r
      | TArrBegin =>
        if starts 93 (skip_spaces r) then Some (Ok (Arr []) (tl (skip_spaces r)))
        else read_array f (depth + 1) [] (skip_spaces r)
      | TNum s => Some (of_option (decode_number s) r)
      | TStr s => Some (of_option (option_map Str (decode_string s)) r)
      | TTrue => Some (Ok (Bool true) r)
      | TFalse => Some (Ok (Bool false) r)
      | TNull => Some (Ok Null r)
      | _ => Some Fail
      end
  end
(** One round of the loop 645-686; [name] is the name of the member before. *)
with read_object (fuel : nat) (depth : Z) (name : list Z) (m : list (list Z * json)) (l : list Z) : option (outcome json) :=
  match fuel with
  | O => None
  | S f =>
    do (t, r) <- next_token l;
    match t with
    | TObjEnd => if (length name =? 0)%nat then Some (Ok (Obj m) r) else Some Fail
    | TStr s =>
      match decode_string s with
      | None => Some Fail
      | Some name =>
        match read_token r with
        | (TColon, r) =>
          do o <- read_value f depth r;
          match o with
          | Ok v r =>
            let m := obj_set name v m in
            match read_token r with
            | (TObjEnd, r) => Some (Ok (Obj m) r)
            | (TSep, r) => read_object f depth name m r
            | (TComment, r) =>
              do (t, r) <- next_token r;
              match t with TObjEnd => Some (Ok (Obj m) r) | _ => read_object f depth name m r end
            | _ => Some Fail
            end
          | Fail => Some Fail
          | Throw => Some Throw
          end
        | _ => Some Fail
        end
      end
    | _ => Some Fail
    end
  end
(** One round of the loop 704-725; [acc] are the elements before. *)
with read_array (fuel : nat) (depth : Z) (acc : list json) (l : list Z) : option (outcome json) :=
  match fuel with
  | O => None
  | S f =>
    do o <- read_value f depth l;
    match o with
    | Ok v r =>
      do (t, r) <- next_token r;
      match t with
      | TSep => read_array f depth (acc ++ [v]) r
      | TArrEnd => Some (Ok (Arr (acc ++ [v])) r)
      | _ => Some Fail
      end
    | Fail => Some Fail
    | Throw => Some Throw
    end
  end.

(** Reader::parse(document, root), 292-300 and 315-352: the text is copied from data() to data() + capacity(), so
    that the bytes [slack] behind the end of the document are parsed as well.  What follows the value is only
    looked at for comments. *)
Definition parse (doc slack : list Z) : option (outcome json) :=
  let l := doc ++ slack in read_value (2 + 2 * length l) 0 l.

(* ------------------------------------------------------------------ the writer *)
(** isControlCharacter, 128; bytes from 128 on are negative chars. *)
Definition is_control (c : Z) : bool := (0 <? c) && (c <=? 31).
Definition hex_digit (n : Z) : Z := if n <? 10 then 48 + n else 55 + n.
(** The switch in valueToQuotedStringN (4121-4158) and valueToQuotedString (4043-4082, where 0 does not occur). *)
Definition quote_char (c : Z) : list Z :=
  if c =? 34 then [92; 34] else if c =? 92 then [92; 92] else if c =? 8 then [92; 98] else if c =? 12 then [92; 102]
  else if c =? 10 then [92; 110] else if c =? 13 then [92; 114] else if c =? 9 then [92; 116]
  else if is_control c || (c =? 0) then [92; 117; 48; 48; hex_digit (c / 16); hex_digit (c mod 16)]
  else [c].
Definition special (c : Z) : bool := existsb (Z.eqb c) [34; 92; 8; 12; 10; 13; 9] || is_control c || (c =? 0).
(** valueToQuotedStringN, 4103-4162. *)
Definition quoted (s : list Z) : list Z :=
  if existsb special s then 34 :: concat (map quote_char s) ++ [34] else 34 :: s ++ [34].
(** name.c_str() in valueToQuotedString(name.c_str()), 4030-4086, 4516: up to the first 0. *)
Definition c_str (s : list Z) : list Z := fst (find_if (fun c => c =? 0) s).

(** StyledStreamWriter: what is written, the number of tabs in indentString_, indented_, addChildValues_,
    childValues_ (json.h:1998-2012). *)
Record writer := mkwriter { w_out : list Z; w_tabs : nat; w_indented : bool; w_add : bool; w_child : list (list Z) }.
Definition emit (t : list Z) (s : writer) := mkwriter (w_out s ++ t) (w_tabs s) (w_indented s) (w_add s) (w_child s).
Definition set_indented (b : bool) (s : writer) := mkwriter (w_out s) (w_tabs s) b (w_add s) (w_child s).
Definition set_add (b : bool) (s : writer) := mkwriter (w_out s) (w_tabs s) (w_indented s) b (w_child s).
Definition set_child (l : list (list Z)) (s : writer) := mkwriter (w_out s) (w_tabs s) (w_indented s) (w_add s) l.
(** pushValue, 4610-4615. *)
Definition push_value (t : list Z) (s : writer) : writer :=
  if w_add s then set_child (w_child s ++ [t]) s else emit t s.
(** writeIndent, 4617-4623. *)
Definition write_indent (s : writer) : writer := emit (10 :: repeat 9 (w_tabs s)) s.
(** writeWithIndent, 4625-4629. *)
Definition write_with_indent (t : list Z) (s : writer) : writer :=
  set_indented false (emit t (if w_indented s then s else write_indent s)).
(** indent and unindent, 4631-4636. *)
Definition indent (s : writer) := mkwriter (w_out s) (S (w_tabs s)) (w_indented s) (w_add s) (w_child s).
Definition unindent (s : writer) := mkwriter (w_out s) (pred (w_tabs s)) (w_indented s) (w_add s) (w_child s).
(** writeCommentAfterValueOnSameLine, 4654-4663, without comments (before a value, 4638: nothing). *)
Definition after_value (s : writer) : writer := set_indented false s.

Definition is_container (v : json) : bool := match v with Arr (_ :: _) | Obj (_ :: _) => true | _ => false end.
(** The loops of writeArrayValue, isMultineArray and writeValue, for a given writeValue. *)
Section Loops.
Variable wv : json -> writer -> option writer.
(** 4597-4603: each element on its own; the texts go to childValues_. *)
Fixpoint fill (l : list json) (s : writer) : option writer :=
  match l with [] => Some s | v :: r => do s <- wv v s; fill r s end.
(** 4550-4567 without childValues_. *)
Fixpoint write_elements (l : list json) (s : writer) : option writer :=
  match l with
  | [] => None
  | v :: r =>
    do s <- wv v (set_indented true (if w_indented s then s else write_indent s));
    match r with
    | [] => Some (after_value (set_indented false s))
    | _ => write_elements r (after_value (emit [44] (set_indented false s)))
    end
  end.
(** 4517-4532, 4518 the loop. *)
Fixpoint write_members (m : list (list Z * json)) (s : writer) : option writer :=
  match m with
  | [] => None
  | (k, v) :: r =>
    do s <- wv v (emit (bytes " : ") (write_with_indent (quoted (c_str k)) s));
    match r with
    | [] => Some (after_value s)
    | _ => write_members r (after_value (emit [44] s))
    end
  end.
End Loops.
(** 4550-4567 with childValues_. *)
Fixpoint write_texts (l : list (list Z)) (s : writer) : option writer :=
  match l with
  | [] => None
  | [t] => Some (after_value (write_with_indent t s))
  | t :: r => write_texts r (after_value (emit [44] (write_with_indent t s)))
  end.
(** 4574-4577. *)
Fixpoint join_texts (l : list (list Z)) : list Z :=
  match l with [] => [] | [t] => t | t :: r => t ++ 44 :: 32 :: join_texts r end.
(** writeValue, 4479-4537; writeArrayValue, 4539-4581; isMultineArray, 4583-4608. *)
Fixpoint write_value (v : json) (s : writer) : option writer :=
  match v with
  | Null => Some (push_value (bytes "null") s)
  | Int z | UInt z => do t <- print_d z; Some (push_value t s)
  | Real d => Some (push_value (show d) s)
  | Str x => Some (push_value (quoted x) s)
  | Bool b => Some (push_value (if b then bytes "true" else bytes "false") s)
  | Arr [] => Some (push_value (bytes "[]") s)
  | Arr l =>
    let size := u32 (Z.of_nat (length l)) in
    let s := set_child [] s in
    do (multi, s) <-
      (if (74 <=? u32 (size * 3)) || existsb is_container l then Some (true, s)
       else
         do s <- fill write_value l (set_add true s);
         let len := fold_left (fun a t => u32 (a + Z.of_nat (length t))) (w_child s) (u32 (4 + (size - 1) * 2)) in
         Some (74 <=? len, set_add false s));
    if multi then
      let s := indent (write_with_indent [91] s) in
      do s <- (match w_child s with [] => write_elements write_value l s | ts => write_texts ts s end);
      Some (write_with_indent [93] (unindent s))
    else Some (emit (91 :: 32 :: join_texts (w_child s) ++ [32; 93]) s)
  | Obj [] => Some (push_value (bytes "{}") s)
  | Obj m =>
    do s <- write_members write_value m (indent (write_with_indent [123] s));
    Some (write_with_indent [125] (unindent s))
  end.
(** write, 4465-4477. *)
Definition write (v : json) : option (list Z) :=
  do s <- write_value v (mkwriter [] 0 true false []); Some (w_out (after_value s) ++ [10]).
End Json.

(* ------------------------------------------------------------- Save and Load *)
(** A double is known by the six digits it is printed with (M_Save.jval): [show6] prints it and [read6] reads
    the text of such a number.  Simplified: a text with more than six digits, which show6 does not write, is not
    rounded. *)
Definition show6 (d : dec6) : list Z := print_g6 (d_neg d) (d_sig d) (d_ex d).
Fixpoint scale6 (fuel : nat) (m e : Z) : Z * Z :=
  match fuel with O => (m, e) | S f => if m <? 100000 then scale6 f (m * 10) (e - 1) else (m, e) end.
Definition read6 (t : list Z) : option dec6 :=
  match scan_float t with
  | (Some (m, e), _) =>
    if m =? 0 then Some (mkdec6 false 0 0)
    else let '(sig, x) := scale6 6 (Z.abs m) e in Some (mkdec6 (m <? 0) sig (x + 5))
  | (None, _) => None
  end.
Definition of_jval (v : jval) : json dec6 :=
  match v with JInt z => Int z | JNum d => Real d | JStr s => Str s | JNull => Null end.
(** asString of a member (2949-2971) as far as M_Save distinguishes the texts; [None]: not a scalar. *)
Definition to_jval (v : json dec6) : option jval :=
  match v with
  | Null => Some JNull
  | Bool b => Some (JStr (if b then bytes "true" else bytes "false"))
  | Int z | UInt z => Some (JInt z)
  | Real d => Some (JNum d)
  | Str s => Some (JStr s)
  | Arr _ | Obj _ => None
  end.
(** GetModelInfo (model.cc:236-247, regularizer.cc:28-30, online_model.cc:201-213 and the classes): assignments to
    root[name], root["regularizer"]["lambda"] and root["online"][name]. *)
Definition document (d : info) : json dec6 :=
  let m := obj_set (bytes "model") (Str (i_model d)) [] in
  let m := obj_set (bytes "cls_num") (Int (i_cls d)) m in
  let m := obj_set (bytes "clf_num") (Int (i_clf d)) m in
  let m := obj_set (bytes "loss") (Str (i_loss d)) m in
  let m := obj_set (bytes "norm") (Int (i_norm d)) m in
  let m := match i_lambda d with
           | Some v => obj_set (bytes "regularizer") (Obj [(bytes "lambda", of_jval v)]) m
           | None => m
           end in
  Obj (obj_set (bytes "online") (Obj (fold_left (fun m '(k, v) => obj_set k (of_jval v) m) (i_online d) [])) m).
(** What Load (model.cc:206-207) and SetModelInfo (model.cc:249-282, online_model.cc:215-236) read from a document.
    Simplified: [None] for documents that GetModelInfo cannot produce: no object, other types of these
    members, no "online", more settings of the regularizer than "lambda". *)
Definition settings (m : list (list Z * json dec6)) : option (list (list Z * jval)) :=
  mapM (fun '(k, v) => do x <- to_jval v; Some (k, x)) m.
Definition of_document (v : json dec6) : option info :=
  match v with
  | Obj m =>
    match obj_get (bytes "model") m, obj_get (bytes "cls_num") m, obj_get (bytes "clf_num") m, obj_get (bytes "loss") m,
          obj_get (bytes "norm") m, obj_get (bytes "online") m with
    | Some (Str model), Some (Int cls), Some (Int clf), Some (Str loss), Some (Int norm), Some (Obj online) =>
      do online <- settings online;
      match obj_get (bytes "regularizer") m with
      | None => Some (mkinfo model cls clf loss norm None online)
      | Some (Obj [(n, v)]) =>
        if str_eqb n (bytes "lambda") then do x <- to_jval v; Some (mkinfo model cls clf loss norm (Some x) online) else None
      | Some _ => None
      end
    | _, _, _, _, _, _ => None
    end
  | _ => None
  end.
(** writer.write(out_file, root), model.cc:168-170, and reader.parse(model_info.str(), root), 199-204. *)
Definition write_info (d : info) : list Z := match write show6 (document d) with Some t => t | None => [] end.
Definition parse_info (slack doc : list Z) : option info :=
  match parse read6 doc slack with Some (Ok v _) => of_document v | _ => None end.
