(** What logic expressions and their values mean, apart from how they are evaluated and parsed. *)
From Coq Require Import Arith NArith ZArith List Bool.
From Verif Require Import Logic.Model.
Import ListNotations.
Local Open Scope N_scope.

(** * Values *)
(** what a program may say about a name when asked: nothing, a string that is NULL, or a value *)
Inductive answer (D : Type) := Missing | NoString | Str (s : bytes) | Int (z : Z) | Dbl (d : D).
Arguments Missing {D}. Arguments NoString {D}. Arguments Str {D}. Arguments Int {D}. Arguments Dbl {D}.

(** shorter strings come first, strings of a length in dictionary order *)
Fixpoint lex (l r : bytes) : comparison :=
  match l, r with
  | [], [] => Eq
  | [], _ => Lt
  | _, [] => Gt
  | a :: l, b :: r => match N.compare a b with Eq => lex l r | c => c end
  end.
Definition shortlex (l r : bytes) : comparison :=
  match Nat.compare (length l) (length r) with Eq => lex l r | c => c end.

(** an ordered outcome, or an unordered one *)
Definition decide (op : pop) (c : option comparison) : bool :=
  match op, c with
  | NE, Some Eq => false | NE, _ => true
  | EQ, Some Eq | LE, Some Eq | GE, Some Eq | LE, Some Lt | LT, Some Lt | GE, Some Gt | GT, Some Gt => true
  | _, _ => false
  end.
Definition is_re (op : pop) : bool := match op with RE | NRE => true | _ => false end.

Section V.
Variable D : Type.
Variable strtod : bytes -> D * bytes.
Variable of_int : Z -> D.
Variable dcmp : D -> D -> option comparison.
Variable fmtg : D -> bytes.
Variable re_match : bytes -> bytes -> bool.

(** a value as text and as a number *)
Definition text (a : answer D) : bytes :=
  match a with Str s => s | Int z => show_int z | Dbl d => fmtg d | _ => [] end.
Inductive num := Zn (z : Z) | Dn (d : D).
Definition number (a : answer D) : option num :=
  match a with
  | Str s => match strtoll (cstr s), strtod (cstr s) with
             | (z, []), _ => Some (Zn z)
             | _, (d, []) => Some (Dn d)
             | _, _ => None
             end
  | Int z => Some (Zn z) | Dbl d => Some (Dn d)
  | _ => None
  end.
Definition rnumber (r : right) : num := match rty r with RDouble => Dn (fst (strtod (rtext r))) | _ => Zn (fst (strtoll (rtext r))) end.
Definition ncompare (a b : num) : option comparison :=
  match a, b with
  | Zn a, Zn b => Some (Z.compare a b)
  | _, _ => let d n := match n with Zn z => of_int z | Dn d => d end in dcmp (d a) (d b)
  end.
(** does [name op literal] hold when the name's answer is [a]?  [None]: the program is aborted *)
Definition holds (op : pop) (a : answer D) (r : right) : option bool :=
  match op, a with
  | EXISTS, Missing => Some false
  | EXISTS, _ => Some true
  | _, Missing | _, NoString => Some (match op with NE | NRE => true | _ => false end)
  | _, _ =>
      match rty r with
      | RString => Some (match op with
                         | RE => re_match (rtext r) (text a)
                         | NRE => negb (re_match (rtext r) (text a))
                         | _ => decide op (Some (shortlex (text a) (rtext r)))
                         end)
      | _ => match number a with
             | None => Some false
             | Some n => if is_re op then None else Some (decide op (ncompare n (rnumber r)))
             end
      end
  end.

(** how a lookup function gives an answer: by a setter call on a variable, whatever was stored in it before; but a number
    must not follow a string that the variable did not allocate *)
Definition nonul (s : bytes) : Prop := ~ In 0 s.
Inductive gives : answer D -> bool * var D -> Prop :=
| gives_missing : forall v, gives Missing (false, v)
| gives_null : forall v n, gives NoString (true, set_stringn D v None n)
| gives_stringn : forall v s ext, (length s < 4096)%nat -> gives (Str s) (true, set_stringn D v (Some (s ++ ext)) (length s))
| gives_string : forall v s ext v', nonul s -> set_string D v (Some (s ++ 0 :: ext)) = Some v' -> gives (Str s) (true, v')
| gives_copy : forall v s ext v', (length s < 40)%nat \/ nonul s ->
    set_stringn_copy D v (s ++ ext) (length s) = Some v' -> gives (Str s) (true, v')
| gives_int : forall v z, vs D v = None \/ free_s D v = true -> gives (Int z) (true, set_int64 D v z)
| gives_double : forall v d, vs D v = None \/ free_s D v = true -> (length (fmtg d) < 4096)%nat -> gives (Dbl d) (true, set_double D v d).

(** the program has answered within the limits of the numeric conversion *)
Definition small (a : answer D) (r : right) : Prop :=
  match a with
  | Str s => (Z.of_nat (length s) < 2 ^ 31)%Z /\ (rty r <> RString -> (length s < 128)%nat)
  | _ => True
  end /\ (Z.of_nat (length (rtext r)) < 2 ^ 31)%Z.
End V.

(** * Formulas *)
(** the truth of a tree, given the truth of its predicates *)
Fixpoint truth (h : pop -> bytes -> right -> bool) (n : node) : bool :=
  match n with
  | Null => false
  | Pred op l r => h op l r
  | Oper LAnd es => forallb (truth h) es
  | Oper LOr es => existsb (truth h) es
  | Oper LNot es => match es with e :: _ => negb (truth h e) | [] => false end
  end.
(** a tree without NULL, where not has one argument *)
Fixpoint sound (n : node) : Prop :=
  match n with
  | Null => False
  | Pred _ _ _ => True
  | Oper o es => (match o with LNot => length es = 1%nat | _ => True end) /\ (fix all es := match es with [] => True | e :: es => sound e /\ all es end) es
  end.
(** a predicate occurs in a tree *)
Fixpoint occurs (op : pop) (l : bytes) (r : right) (n : node) : Prop :=
  match n with
  | Null => False
  | Pred op' l' r' => op = op' /\ l = l' /\ r = r'
  | Oper _ es => (fix any es := match es with [] => False | e :: es => occurs op l r e \/ any es end) es
  end.

(** * Texts *)
Definition ws (w : bytes) : Prop := Forall (fun c => c = 32 \/ c = 9 \/ c = 10 \/ c = 13) w.
(** the characters of names and numbers *)
Definition decimal (c : N) : bool := (48 <=? c) && (c <=? 57).
Definition first_char (c : N) : bool := ((65 <=? c) && (c <=? 90)) || ((97 <=? c) && (c <=? 122)) || (c =? 95).
Definition next_char (c : N) : bool := first_char c || decimal c || (c =? 46).
Definition octal (c : N) : bool := (48 <=? c) && (c <=? 55).
(** what a backslash and a letter, quote or backslash stand for *)
Definition letters : list (N * N) :=
  [(97, 7); (98, 8); (101, 27); (102, 12); (110, 10); (114, 13); (116, 9); (118, 11); (39, 39); (34, 34); (92, 92)].
(** in a literal a backslash is followed by an escape letter, a quote, a backslash, an octal digit or a minus sign *)
Definition escapable (d : N) : bool := existsb (N.eqb d) (map fst letters) || octal d || (d =? 45).
Fixpoint okraw (q : N) (raw : bytes) : bool :=
  match raw with
  | [] => true
  | c :: t => negb (c =? q) &&
      (if c =? 92 then match t with d :: t => escapable d && okraw q t | [] => false end else okraw q t)
  end.
(** the bytes a literal stands for, up to its first NUL: letters, one to three octal digits (three only up to 377), and a
    backslash that is dropped in front of anything else *)
Inductive denotes : bytes -> bytes -> Prop :=
| d_end : denotes [] []
| d_plain : forall c r v, c <> 92 -> denotes r v -> denotes (c :: r) (c :: v)
| d_letter : forall d x r v, In (d, x) letters -> denotes r v -> denotes (92 :: d :: r) (x :: v)
| d_octal3 : forall a b c r v, octal a = true -> octal b = true -> octal c = true -> a < 52 -> denotes r v ->
    denotes (92 :: a :: b :: c :: r) ((64 * (a - 48) + 8 * (b - 48) + (c - 48)) :: v)
| d_octal2 : forall a b r v, octal a = true -> octal b = true -> (52 <= a \/ match r with c :: _ => octal c = false | [] => True end) ->
    denotes r v -> denotes (92 :: a :: b :: r) ((8 * (a - 48) + (b - 48)) :: v)
| d_octal1 : forall a r v, octal a = true -> match r with c :: _ => octal c = false | [] => True end ->
    denotes r v -> denotes (92 :: a :: r) ((a - 48) :: v)
| d_other : forall c r v, c <> 92 -> octal c = false -> ~ In c (map fst letters) -> denotes r v -> denotes (92 :: c :: r) (c :: v)
| d_lone : denotes [92] [].
Definition quoted (raw t : bytes) : Prop := exists q, (q = 39 \/ q = 34) /\ okraw q raw = true /\ t = q :: raw ++ [q].
Definition name (x t : bytes) : Prop :=
  (exists c r, t = c :: r /\ first_char c = true /\ forallb next_char r = true /\ x = t) \/
  (exists raw, quoted raw t /\ x = meaning raw).
Definition digs (t : bytes) : Prop := t <> [] /\ forallb decimal t = true.
Definition numeral (t : bytes) : Prop :=
  exists sg d fr ex, t = sg ++ d ++ fr ++ ex /\
    (sg = [] \/ sg = [43] \/ sg = [45]) /\ digs d /\
    (fr = [] \/ exists r, fr = 46 :: r /\ digs r) /\
    (ex = [] \/ exists c r, ex = 101 :: c :: r /\ (c = 43 \/ c = 45) /\ digs r).
Definition value (v : right) (t : bytes) : Prop :=
  (exists raw, quoted raw t /\ v = Right RString (meaning raw)) \/
  (numeral t /\ v = Right (if existsb (N.eqb 46) t then RDouble else RInt) t).
Inductive optext : pop -> bytes -> Prop :=
| o_eq : optext EQ [61] | o_ne : optext NE [33; 61] | o_re : optext RE [126] | o_nre : optext NRE [33; 126]
| o_le : optext LE [60; 61] | o_ge : optext GE [62; 61] | o_lt : optext LT [60] | o_gt : optext GT [62].
Inductive opname : lop -> bytes -> Prop := n_and : opname LAnd [97; 110; 100] | n_or : opname LOr [111; 114].
Definition compound (n : node) : Prop := match n with Oper _ _ => True | _ => False end.

Section G.
Variable re_ok : bytes -> bool.
(** texts of predicates, of expressions, and of the arguments after the first *)
Inductive ptext : node -> bytes -> Prop :=
| p_cmp : forall x tx w1 op to w2 v tv, name x tx -> ws w1 -> optext op to -> ws w2 -> value v tv ->
    ptext (mk_pred re_ok x op v) (tx ++ w1 ++ to ++ w2 ++ tv)
| p_exists : forall x tx w1 w2 w3, name x tx -> ws w1 -> ws w2 -> ws w3 ->
    ptext (Pred EXISTS x (Right RInt [])) ([101; 120; 105; 115; 116; 115] ++ w1 ++ 40 :: w2 ++ tx ++ w3 ++ [41]).
Inductive etext : node -> bytes -> Prop :=
| e_pred : forall n t, ptext n t -> etext n t
| e_not : forall n t w1 w2 w3, etext n t -> ws w1 -> ws w2 -> ws w3 ->
    etext (Oper LNot [n]) ([110; 111; 116] ++ w1 ++ 40 :: w2 ++ t ++ w3 ++ [41])
| e_op : forall o to n t ns ts w1 w2 w3, opname o to -> etext n t -> atext ns ts -> ws w1 -> ws w2 -> ws w3 ->
    etext (Oper o (n :: ns)) (to ++ w1 ++ 40 :: w2 ++ t ++ w3 ++ ts ++ [41])
with atext : list node -> bytes -> Prop :=
| a_nil : forall w, ws w -> atext [] w
| a_cons : forall n t ns ts w1 w2, ws w1 -> etext n t -> ws w2 -> (w2 <> [] -> compound n) -> atext ns ts ->
    atext (n :: ns) (44 :: w1 ++ t ++ w2 ++ ts).
End G.

(** a literal text for a string: quotes and backslashes escaped, control characters in octal *)
Definition escape1 (c : N) : bytes :=
  if (c =? 39) || (c =? 34) || (c =? 92) then [92; c]
  else if c <? 32 then [92; 48 + c / 64; 48 + c / 8 mod 8; 48 + c mod 8]
  else [c].
Definition escape (s : bytes) : bytes := flat_map escape1 s.
