(** Model of src/utils/mtev_logic.c and of the parser src/utils/mtev-logic-leg.c generated from src/utils/mtev-logic.leg.
    Bytes are numbers.  Doubles (with strtod, %g, the conversion from int64_t and the comparison) and PCRE are parameters.
    Allocation succeeds.  Debug logging is left out. *)
From Coq Require Import Arith NArith ZArith List Bool.
Import ListNotations.
Local Open Scope N_scope.

Definition bytes := list N.

(** mtev_logic_pred_op_t, mtev_logic.c:200-210 *)
Inductive pop := NE | EQ | LT | LE | GT | GE | RE | NRE | EXISTS.
(** the literal on the right of a predicate as mtev_logic_ast_var (mtev_logic.c:424-439) makes it: its type, and value.s *)
Inductive rtype := RString | RInt | RDouble.
Record right := Right { rty : rtype; rtext : bytes }.
(** mtev_logic_pred_t and mtev_logic_node_t, mtev_logic.c:268-281; [Null] is a NULL pointer *)
Inductive lop := LAnd | LOr | LNot.
Inductive node :=
| Null
| Pred (op : pop) (left : bytes) (r : right)          (* exists has no right; it is ignored there *)
| Oper (op : lop) (elems : list node).

(** * Evaluation *)

(** up to the first NUL: what a C string holds (strlen, strndup: mtev_logic.c:150, 164, 373, 436) *)
Fixpoint cstr (l : bytes) : bytes := match l with [] => [] | c :: l => if c =? 0 then [] else c :: cstr l end.
(** isspace and isdigit as strtoll (mtev_logic.c:438, 550) uses them in the C locale *)
Definition is_space (c : N) : bool := (c =? 32) || ((9 <=? c) && (c <=? 13)).
Definition is_digit (c : N) : bool := (48 <=? c) && (c <=? 57).
Fixpoint skip_space (l : bytes) : bytes := match l with c :: t => if is_space c then skip_space t else l | [] => [] end.
Fixpoint digits (acc : N) (l : bytes) : N * bytes :=
  match l with c :: t => if is_digit c then digits (acc * 10 + (c - 48)) t else (acc, l) | [] => (acc, []) end.
(** strtoll's optional sign, mtev_logic.c:438, 550 *)
Definition split_sign (t : bytes) : bool * bytes :=
  match t with c :: u => if c =? 45 then (true, u) else if c =? 43 then (false, u) else (false, t) | [] => (false, t) end.
(** strtoll(s, &endptr, 10) in the C locale (mtev_logic.c:438, 550): the value and what endptr points to *)
Definition strtoll (s : bytes) : Z * bytes :=
  let t := skip_space s in
  let (neg, u) := split_sign t in
  match u with
  | c :: _ =>
      if is_digit c then
        let (n, r) := digits 0 u in
        let v := if neg then (- Z.of_N n)%Z else Z.of_N n in
        (Z.max (- 2 ^ 63) (Z.min (2 ^ 63 - 1) v), r)
      else (0%Z, s)
  | [] => (0%Z, s)
  end.
(** snprintf of an int64_t, mtev_logic.c:124 *)
Fixpoint dec (f : nat) (n : N) (acc : bytes) : bytes :=
  match f with
  | O => acc
  | S f => let acc := (48 + n mod 10) :: acc in if n / 10 =? 0 then acc else dec f (n / 10) acc
  end.
Definition show_int (z : Z) : bytes := (if (z <? 0)%Z then [45] else []) ++ dec 20 (Z.abs_N z) [].

Inductive vty := VString | VInt | VDouble.
(** outcomes: a truth value, mtevAssert failing, or undefined behaviour (NULL, uninitialised or foreign memory used) *)
Inductive outcome := Val (b : bool) | Abort | Ub.

Section E.
Variable D : Type.
Variable dzero : D.
Variable strtod : bytes -> D * bytes.            (* value and what endptr points to *)
Variable of_int : Z -> D.
Variable dcmp : D -> D -> option comparison.     (* None: unordered *)
Variable fmtg : D -> bytes.                      (* "%g" *)
Variable re_match : bytes -> bytes -> bool.      (* pcre_exec(pattern, subject) >= 0 *)

(** struct mtev_logic_var_t, mtev_logic.c:90-102: [vs] is value.s, the bytes that may be read through it *)
Record var := Var { ty : vty; vs : option bytes; s_len : nat; vl : Z; vn : D; internal : bytes; free_s : bool }.
(** mtev_logic.c:505 *)
Definition var0 : var := Var VString None 0 0 dzero (repeat 0 40) false.
(** mtev_logic_var_set_stringn, mtev_logic.c:137-146, set_string :148-151 *)
Definition set_stringn (v : var) (s : option bytes) (len : nat) : var := Var VString s len (vl v) (vn v) (internal v) false.
Definition set_string (v : var) (s : option bytes) : option var :=
  match s with
  | None => Some (set_stringn v None 0)
  | Some m => if existsb (N.eqb 0) m then Some (set_stringn v s (length (cstr m))) else None
  end.
(** mtev_logic_var_set_stringn_copy, mtev_logic.c:153-171; [None]: reading past [s] *)
Definition set_stringn_copy (v : var) (s : bytes) (len : nat) : option var :=
  if (len <? 40)%nat then
    if (length s <? len)%nat then None
    else let i := firstn len s ++ N.of_nat len :: skipn (S len) (internal v) in
         Some (Var VString (Some i) len (vl v) (vn v) i false)
  else
    if (length s <? len)%nat && negb (existsb (N.eqb 0) s) then None
    else Some (Var VString (Some (cstr (firstn len s) ++ [0])) len (vl v) (vn v) (internal v) true).
(** mtev_logic_var_set_int64, set_double, mtev_logic.c:178-198 *)
Definition set_int64 (v : var) (l : Z) : var := Var VInt (if free_s v then None else vs v) (s_len v) l (vn v) (internal v) false.
Definition set_double (v : var) (n : D) : var := Var VDouble (if free_s v then None else vs v) (s_len v) (vl v) n (internal v) false.

(** mtev_logic_var_tostring, mtev_logic.c:113-135: what may be read at the result, and *rlen *)
Definition tostring (v : var) : option bytes * nat :=
  match vs v, s_len v, ty v with
  | _, _, VString => (vs v, s_len v)
  | Some m, S n, _ => (vs v, s_len v)
  | _, _, VInt => (Some (show_int (vl v) ++ [0]), length (show_int (vl v)))
  | _, _, VDouble => (Some (fmtg (vn v) ++ [0]), length (fmtg (vn v)))
  end.
(** strlen (mtev_logic.c:522), when there is a NUL in what may be read *)
Definition strlen (m : bytes) : option nat := if existsb (N.eqb 0) m then Some (length (cstr m)) else None.
(** memcmp, mtev_logic.c:497 *)
Fixpoint memcmp (l r : bytes) : Z :=
  match l, r with
  | a :: l, b :: r => if a =? b then memcmp l r else (Z.of_N a - Z.of_N b)%Z
  | _, _ => 0%Z
  end.
(** the conversion of a size_t to int, mtev_logic.c:496 *)
Definition to_int (z : Z) : Z := (let m := z mod 2 ^ 32 in if m <? 2 ^ 31 then m else m - 2 ^ 32)%Z.
(** strllcmp, mtev_logic.c:495-499; [None]: reading past an end *)
Definition strllcmp (l : bytes) (ls : nat) (r : bytes) (rs : nat) : option Z :=
  if (ls =? rs)%nat then
    if (length l <? ls)%nat || (length r <? rs)%nat then None else Some (memcmp (firstn ls l) (firstn rs r))
  else Some (to_int (Z.of_nat ls - Z.of_nat rs)).

(** the comparisons of mtev_logic.c:525-530 *)
Definition cmp_z (op : pop) (c : Z) : bool :=
  match op with
  | EQ => (c =? 0)%Z | NE => negb (c =? 0)%Z | GE => (0 <=? c)%Z | GT => (0 <? c)%Z | LE => (c <=? 0)%Z | LT => (c <? 0)%Z
  | _ => false
  end.
(** DOMATCH, mtev_logic.c:566-576 *)
Definition domatch (op : pop) (c : option comparison) : outcome :=
  match op with
  | EQ => Val (match c with Some Eq => true | _ => false end)
  | NE => Val (match c with Some Eq => false | _ => true end)
  | GE => Val (match c with Some Eq | Some Gt => true | _ => false end)
  | GT => Val (match c with Some Gt => true | _ => false end)
  | LE => Val (match c with Some Eq | Some Lt => true | _ => false end)
  | LT => Val (match c with Some Lt => true | _ => false end)
  | _ => Abort
  end.
(** mtev_logic_exec_predicate, mtev_logic.c:500-594; [lookup] yields its result and the variable it filled in *)
Definition exec_predicate (lookup : bytes -> bool * var) (op : pop) (left : bytes) (r : right) : outcome :=
  let (found, lhs) := lookup left in
  match op with
  | EXISTS => Val found
  | _ =>
      if negb found || (match ty lhs, vs lhs with VString, None => true | _, _ => false end)
      then Val (match op with NE | NRE => true | _ => false end)
      else match rty r with
      | RString =>
          match tostring lhs with
          | (None, _) => Ub
          | (Some lval, lhs_len) =>
              match (if (4096 <=? lhs_len)%nat then strlen lval else Some lhs_len) with
              | None => Ub
              | Some lhs_len =>
                  match op with
                  | RE | NRE =>
                      if (length lval <? lhs_len)%nat then Ub
                      else let hit := re_match (rtext r) (firstn lhs_len lval) in
                           Val (match op with RE => hit | _ => negb hit end)
                  | _ => match strllcmp lval lhs_len (rtext r ++ [0]) (length (rtext r)) with
                         | None => Ub
                         | Some c => Val (cmp_z op c)
                         end
                  end
              end
          end
      | _ =>
          let conv :=
            match ty lhs with
            | VString =>
                match vs lhs with
                | None => None
                | Some m =>
                    if (128 <=? s_len lhs)%nat || (length m <? s_len lhs)%nat then None      (* ntcopy uninitialised, or read past the end *)
                    else let nt := cstr (firstn (s_len lhs) m) in
                         match strtoll nt with
                         | (v, []) => Some (VInt, v, vn lhs)
                         | (v, _) => match strtod nt with (n, []) => Some (VDouble, v, n) | (n, _) => Some (VString, v, n) end
                         end
                end
            | t => Some (t, vl lhs, vn lhs)
            end in
          match conv with
          | None => Ub
          | Some (VString, _, _) => Val false
          | Some (t, l, n) =>
              match t, rty r with
              | VInt, RInt => domatch op (Some (Z.compare l (fst (strtoll (rtext r)))))
              | _, _ => domatch op (dcmp (match t with VDouble => n | _ => of_int l end)
                                         (match rty r with RDouble => fst (strtod (rtext r)) | _ => of_int (fst (strtoll (rtext r))) end))
              end
          end
      end
  end.

(** mtev_logic_exec_node, mtev_logic.c:595-612, mtev_logic_exec :627-630 *)
Fixpoint exec_node (lookup : bytes -> bool * var) (n : node) : outcome :=
  match n with
  | Null => Ub
  | Pred op l r => exec_predicate lookup op l r
  | Oper LNot es => match es with [] => Ub | e :: _ => match exec_node lookup e with Val b => Val (negb b) | o => o end end
  | Oper LAnd es =>
      (fix all (es : list node) : outcome :=
         match es with [] => Val true | e :: es => match exec_node lookup e with Val true => all es | o => o end end) es
  | Oper LOr es =>
      (fix any (es : list node) : outcome :=
         match es with [] => Val false | e :: es => match exec_node lookup e with Val false => any es | o => o end end) es
  end.
End E.

(** mtev_logic_node_has_predicate, mtev_logic.c:614-625; [None]: NULL dereferenced *)
Fixpoint has_predicate (n : node) (lval : bytes) : option bool :=
  match n with
  | Null => None
  | Pred _ l _ => Some (if list_eq_dec N.eq_dec l lval then true else false)
  | Oper _ es =>
      (fix any (es : list node) : option bool :=
         match es with [] => Some false | e :: es => match has_predicate e lval with Some false => any es | o => o end end) es
  end.

(** * Parsing.  A rule gets the bytes not yet consumed and the number [m] of bytes of the input not yet read by YY_INPUT
    (mtev_logic.c:257-266): matching at a place reads up to and including the byte there. *)
Definition see (l : bytes) (m : nat) : nat := match l with [] => m | _ :: t => Nat.min m (length t) end.
(** result of a rule: what it matched and the bytes left, or failure; and the unread count *)
Definition res (A : Type) : Type := (option (A * bytes) * nat)%type.

(** yymatchChar, yymatchClass, mtev-logic-leg.c:142-153, 172-185 *)
Definition chr (f : N -> bool) (l : bytes) (m : nat) : res N :=
  (match l with c :: t => if f c then Some (c, t) else None | [] => None end, see l m).
(** yymatchString, mtev-logic-leg.c:155-170 *)
Fixpoint str (s : bytes) (l : bytes) (m : nat) : res unit :=
  match s with
  | [] => (Some (tt, l), m)
  | c :: s => match chr (N.eqb c) l m with (Some (_, t), m) => str s t m | (None, m) => (None, m) end
  end.
(** a class repeated, mtev-logic-leg.c:760-763, 852-855 *)
Fixpoint many (f : N -> bool) (l : bytes) (m : nat) : bytes * bytes * nat :=
  match l with
  | [] => ([], [], m)
  | c :: t => if f c then let '(r, l', m') := many f t (see l m) in (c :: r, l', m') else ([], l, see l m)
  end.
(** the classes of mtev-logic-leg.c:729, 740, 706 *)
Definition ident_start (c : N) : bool := ((65 <=? c) && (c <=? 90)) || ((97 <=? c) && (c <=? 122)) || (c =? 95).
Definition ident_cont (c : N) : bool := ident_start c || is_digit c || (c =? 46).
Definition is_octal (c : N) : bool := (48 <=? c) && (c <=? 55).
(** the escape letters, quotes and backslash of mtev-logic.leg:42 *)
Definition is_esc (c : N) : bool := existsb (N.eqb c) [97; 98; 101; 102; 110; 114; 116; 118; 39; 34; 92].

(** Space*, EndOfLine: mtev-logic-leg.c:674-701, 935-944, mtev-logic.leg:58-60 *)
Fixpoint sp (l : bytes) (m : nat) : bytes * nat :=
  match l with
  | [] => ([], m)
  | c :: t =>
      if (c =? 32) || (c =? 9) || (c =? 10) then sp t (see l m)
      else if c =? 13 then
        match t with
        | d :: t' => if d =? 10 then sp t' (see t (see l m)) else sp t (see t (see l m))
        | [] => ([], see l m)
        end
      else (l, see l m)
  end.
(** Char: mtev-logic-leg.c:702-724, mtev-logic.leg:42-46; what was matched *)
Definition char (l : bytes) (m : nat) : res bytes :=
  let m := see l m in
  match l with
  | [] => (None, m)
  | 92 :: t =>
      let m := see t m in
      match t with
      | [] => (None, m)
      | d :: t1 =>
          if is_esc d then (Some ([92; d], t1), m)
          else if is_octal d then
            let m := see t1 m in
            match t1 with
            | e :: t2 =>
                if is_octal e then
                  if d <=? 51 then
                    let m := see t2 m in
                    match t2 with
                    | g :: t3 => if is_octal g then (Some ([92; d; e; g], t3), m) else (Some ([92; d; e], t2), m)
                    | [] => (Some ([92; d; e], t2), m)
                    end
                  else (Some ([92; d; e], t2), m)
                else (Some ([92; d], t1), m)
            | [] => (Some ([92; d], t1), m)
            end
          else if d =? 45 then (Some ([92; d], t1), m)
          else (None, m)
      end
  | c :: t => (Some ([c], t), m)
  end.
(** the inside of a literal: mtev-logic-leg.c:802-807, 822-827 *)
Fixpoint inside (f : nat) (q : N) (l : bytes) (m : nat) : bytes * bytes * nat :=
  match f with
  | O => ([], l, m)
  | S f =>
      match l with
      | [] => ([], [], m)
      | c :: _ =>
          if c =? q then ([], l, see l m)
          else match char l m with
               | (Some (u, t), m) => let '(r, l', m') := inside f q t m in (u ++ r, l', m')
               | (None, m) => ([], l, m)
               end
      end
  end.
(** Literal: mtev-logic-leg.c:792-842, mtev-logic.leg:39-40; the text between the quotes *)
Definition literal (l : bytes) (m : nat) : res bytes :=
  match chr (fun c => (c =? 39) || (c =? 34)) l m with
  | (None, m) => (None, m)
  | (Some (q, t), m) =>
      let '(r, t, m) := inside (S (length t)) q t m in
      match chr (N.eqb q) t m with
      | (None, m) => (None, m)
      | (Some (_, t), m) => (Some (r, t), m)
      end
  end.
(** mtev_logic_ast_strndup_unescape, mtev_logic.c:376-423 *)
Fixpoint unescape (f : nat) (l : bytes) : bytes :=
  match f with
  | O => []
  | S f =>
      match l with
      | [] => []
      | 92 :: t =>
          match t with
          | [] => []
          | d :: t1 =>
              match d with
              | 97 => 7 :: unescape f t1 | 98 => 8 :: unescape f t1 | 101 => 27 :: unescape f t1 | 102 => 12 :: unescape f t1
              | 110 => 10 :: unescape f t1 | 114 => 13 :: unescape f t1 | 116 => 9 :: unescape f t1 | 118 => 11 :: unescape f t1
              | 39 => 39 :: unescape f t1 | 34 => 34 :: unescape f t1 | 92 => 92 :: unescape f t1
              | _ =>
                  if is_octal d then
                    match t1 with
                    | e :: t2 =>
                        if is_octal e then
                          match t2 with
                          | g :: t3 =>
                              if (d <=? 51) && is_octal g then (((d - 48) * 8 + (e - 48)) * 8 + (g - 48)) mod 256 :: unescape f t3
                              else ((d - 48) * 8 + (e - 48)) :: unescape f t2
                          | [] => ((d - 48) * 8 + (e - 48)) :: unescape f t2
                          end
                        else (d - 48) :: unescape f t1
                    | [] => (d - 48) :: unescape f t1
                    end
                  else unescape f t
              end
          end
      | c :: t => c :: unescape f t
      end
  end.
(** the C string a literal denotes: strndup of the text, and strlen of the result (mtev_logic.c:378, 436) *)
Definition meaning (raw : bytes) : bytes := cstr (unescape (S (length raw)) (cstr raw)).

(** Identifier: mtev-logic-leg.c:843-867 *)
Definition identifier (l : bytes) (m : nat) : res bytes :=
  match chr ident_start l m with
  | (None, m) => (None, m)
  | (Some (c, t), m) => let '(r, t, m) := many ident_cont t m in (Some (c :: r, t), m)
  end.
(** LeftLiteral: mtev-logic-leg.c:900-912, mtev-logic.leg:27-28 *)
Definition left_literal (l : bytes) (m : nat) : res bytes :=
  match identifier l m with
  | (Some r, m) => (Some r, m)
  | (None, m) => match literal l m with (Some (r, t), m) => (Some (meaning r, t), m) | (None, m) => (None, m) end
  end.
(** [0-9]+, mtev-logic-leg.c:759-763 *)
Definition digits1 (l : bytes) (m : nat) : res bytes :=
  match chr is_digit l m with
  | (None, m) => (None, m)
  | (Some (c, t), m) => let '(r, t, m) := many is_digit t m in (Some (c :: r, t), m)
  end.
(** mtev-logic-leg.c:756 *)
Definition is_sign (c : N) : bool := (c =? 43) || (c =? 45).
(** [-+]?, ('.' [0-9]+)? and ('e' [-+] [0-9]+)?: mtev-logic-leg.c:756-758, 764-770, 772-778; what was matched, possibly nothing *)
Definition opt_sign (l : bytes) (m : nat) : bytes * bytes * nat :=
  match chr is_sign l m with (Some (c, t), m) => ([c], t, m) | (None, m) => ([], l, m) end.
Definition opt_frac (l : bytes) (m : nat) : bytes * bytes * nat :=
  match chr (N.eqb 46) l m with
  | (Some (_, t), m) => match digits1 t m with (Some (r, t), m) => (46 :: r, t, m) | (None, m) => ([], l, m) end
  | (None, m) => ([], l, m)
  end.
Definition opt_exp (l : bytes) (m : nat) : bytes * bytes * nat :=
  match chr (N.eqb 101) l m with
  | (Some (_, t), m) =>
      match chr is_sign t m with
      | (Some (c, t), m) => match digits1 t m with (Some (r, t), m) => (101 :: c :: r, t, m) | (None, m) => ([], l, m) end
      | (None, m) => ([], l, m)
      end
  | (None, m) => ([], l, m)
  end.
(** Numeric: mtev-logic-leg.c:747-791, mtev-logic.leg:37 *)
Definition numeric (l : bytes) (m : nat) : res bytes :=
  let '(sg, l, m) := opt_sign l m in
  match digits1 l m with
  | (None, m) => (None, m)
  | (Some (d, l), m) =>
      let '(fr, l, m) := opt_frac l m in
      let '(ex, l, m) := opt_exp l m in
      (Some (sg ++ d ++ fr ++ ex, l), m)
  end.
(** RightLiteral: mtev-logic-leg.c:868-880, mtev-logic.leg:30-31 *)
Definition right_literal (l : bytes) (m : nat) : res right :=
  match literal l m with
  | (Some (r, t), m) => (Some (Right RString (meaning r), t), m)
  | (None, m) => match numeric l m with
                 | (Some (r, t), m) => (Some (Right (if existsb (N.eqb 46) r then RDouble else RInt) r, t), m)
                 | (None, m) => (None, m)
                 end
  end.
(** Op: mtev-logic-leg.c:881-899, mtev-logic.leg:48-55 *)
Definition operator (l : bytes) (m : nat) : res pop :=
  let m := see l m in
  match l with
  | 61 :: t => (Some (EQ, t), m)
  | 33 :: t => let m := see t m in
               match t with 61 :: t => (Some (NE, t), m) | 126 :: t => (Some (NRE, t), m) | _ => (None, m) end
  | 126 :: t => (Some (RE, t), m)
  | 60 :: t => let m := see t m in match t with 61 :: t => (Some (LE, t), m) | _ => (Some (LT, t), m) end
  | 62 :: t => let m := see t m in match t with 61 :: t => (Some (GE, t), m) | _ => (Some (GT, t), m) end
  | _ => (None, m)
  end.

Section P.
Variable re_ok : bytes -> bool.                  (* pcre_compile succeeds *)
(** mtev_logic_ast_node_predicate, mtev_logic.c:314-343 *)
Definition mk_pred (l : bytes) (op : pop) (r : right) : node :=
  match op with RE | NRE => if re_ok (rtext r) then Pred op l r else Null | _ => Pred op l r end.
(** the second alternative of Predicate, mtev-logic-leg.c:1000 *)
Definition exists_pred (l : bytes) (m : nat) : res node :=
  match str [101; 120; 105; 115; 116; 115] l m with
  | (None, m) => (None, m)
  | (Some (_, l), m) =>
      let (l, m) := sp l m in
      match chr (N.eqb 40) l m with
      | (None, m) => (None, m)
      | (Some (_, l), m) =>
          let (l, m) := sp l m in
          match left_literal l m with
          | (None, m) => (None, m)
          | (Some (i, l), m) =>
              let (l, m) := sp l m in
              match chr (N.eqb 41) l m with
              | (None, m) => (None, m)
              | (Some (_, l), m) => (Some (mk_pred i EXISTS (Right RInt []), l), m)
              end
          end
      end
  end.
(** Predicate: mtev-logic-leg.c:996-1008, mtev-logic.leg:15-18 *)
Definition predicate (l : bytes) (m : nat) : res node :=
  let first :=
    match left_literal l m with
    | (None, m) => (None, m)
    | (Some (i, l), m) =>
        let (l, m) := sp l m in
        match operator l m with
        | (None, m) => (None, m)
        | (Some (op, l), m) =>
            let (l, m) := sp l m in
            match right_literal l m with
            | (None, m) => (None, m)
            | (Some (r, l), m) => (Some (mk_pred i op r, l), m)
            end
        end
    end in
  match first with
  | (Some x, m) => (Some x, m)
  | (None, m) => exists_pred l m
  end.
(** NotExpr, AndExpr, OrExpr around their arguments: mtev-logic-leg.c:969-995 *)
Definition call (name : bytes) (args : bytes -> nat -> res (list node)) (o : lop) (l : bytes) (m : nat) : res node :=
  match str name l m with
  | (None, m) => (None, m)
  | (Some (_, l), m) =>
      let (l, m) := sp l m in
      match chr (N.eqb 40) l m with
      | (None, m) => (None, m)
      | (Some (_, l), m) =>
          let (l, m) := sp l m in
          match args l m with
          | (None, m) => (None, m)
          | (Some (es, l), m) =>
              let (l, m) := sp l m in
              match chr (N.eqb 41) l m with
              | (None, m) => (None, m)
              | (Some (_, l), m) => let (l, m) := sp l m in (Some (Oper o es, l), m)
              end
          end
      end
  end.
(** ArgsSingle, mtev-logic-leg.c:945-953 *)
Definition args1 (st : bytes -> nat -> res node) (l : bytes) (m : nat) : res (list node) :=
  match st l m with
  | (None, m) => (None, m)
  | (Some (e, l), m) => let (l, m) := sp l m in (Some ([e], l), m)
  end.
(** the repetition in ArgsMultiple, mtev-logic-leg.c:925-928 *)
Fixpoint more (f : nat) (st : bytes -> nat -> res node) (l : bytes) (m : nat) : list node * bytes * nat :=
  match f with
  | O => ([], l, m)
  | S f =>
      match chr (N.eqb 44) l m with
      | (None, m) => ([], l, m)
      | (Some (_, t), m) =>
          let (t, m) := sp t m in
          match st t m with
          | (None, m) => ([], l, m)
          | (Some (e, t), m) => let '(es, t, m) := more f st t m in (e :: es, t, m)
          end
      end
  end.
(** ArgsMultiple, mtev-logic-leg.c:922-934 *)
Definition args (f : nat) (st : bytes -> nat -> res node) (l : bytes) (m : nat) : res (list node) :=
  match st l m with
  | (None, m) => (None, m)
  | (Some (e, l), m) =>
      let (l, m) := sp l m in
      let '(es, l, m) := more f st l m in (Some (e :: es, l), m)
  end.
(** Statement, and Expression which differs in its actions only: mtev-logic-leg.c:954-968, 1009-1023; the fuel bounds the nesting *)
Fixpoint statement (f : nat) (l : bytes) (m : nat) : res node :=
  match f with
  | O => (None, m)
  | S f =>
      match predicate l m with
      | (Some x, m) => (Some x, m)
      | (None, m) =>
          match call [110; 111; 116] (args1 (statement f)) LNot l m with
          | (Some x, m) => (Some x, m)
          | (None, m) =>
              match call [97; 110; 100] (args f (statement f)) LAnd l m with
              | (Some x, m) => (Some x, m)
              | (None, m) => call [111; 114] (args f (statement f)) LOr l m
              end
          end
      end
  end.
(** while(yyparse(&ctx)), mtev_logic.c:456-458: the root last set and the unread count *)
Fixpoint expressions (f : nat) (root : node) (l : bytes) (m : nat) : node * nat :=
  match f with
  | O => (root, m)
  | S f => match statement (S (length l)) l m with
           | (Some (e, l), m) => expressions f e l m
           | (None, m) => (root, m)
           end
  end.
(** mtev_logic_parse, mtev_logic.c:447-468: the root of the tree returned, or NULL returned for an error *)
Definition parse (input : bytes) : option node :=
  let (root, m) := expressions (S (length input)) Null input (length input) in
  if (m =? 0)%nat then Some root else None.
End P.
