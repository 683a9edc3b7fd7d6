(** What JSON texts mean (RFC 8259), and what the users of the parser rely on. *)
From Coq Require Import NArith ZArith List Bool.
From Verif Require Import Json.Model.
Import ListNotations.
Local Open Scope N_scope.

(** * JSON values *)
Inductive value :=
| Null
| Boolean (b : bool)
| Integer (z : Z)
| Double (d : N)
| Text (s : bytes)
| List (l : list value)
| Map (l : list (bytes * value)).

(** The number an integer object stands for: o_ioverflow says which field holds it. *)
Definition number_of (i : Z) (o : ovf) (w : Z) : Z :=
  match o with
  | Ov_int => i
  | Ov_int64 => if (w <? 2 ^ 63)%Z then w else (w - 2 ^ 64)%Z
  | Ov_uint64 => w
  end.

(** The value of an object. *)
Fixpoint meaning (v : jv) : value :=
  match v with
  | JNull => Null
  | JBool b => Boolean b
  | JInt i o w => Integer (number_of i o w)
  | JDbl d => Double d
  | JStr s => Text s
  | JArr l => List (map meaning l)
  | JObj l => Map (map (fun e => (fst e, meaning (snd e))) l)
  end.

(** * JSON texts *)

(** Parts of the grammar that can be left out of it. *)
Inductive feature :=
| Upper_hex        (* a 16 bit escape with capital digits *)
| Form_feed        (* \f *)
| Surrogates       (* a pair of 16 bit escapes for one character *)
| Nul_escape       (* the escape of the character 0 *)
| Upper_exponent   (* 1E5 *)
| Big_integer.     (* below -2^63 or above 2^64 - 1 *)
Definition all (f : feature) : Prop := True.
Definition none (f : feature) : Prop := False.

Definition blank (c : N) : Prop := c = 32 \/ c = 9 \/ c = 10 \/ c = 13.
Definition ws (s : bytes) : Prop := Forall blank s.

Section Grammar.
Variable e : env.              (* only for the doubles denoted by decimal texts *)
Variable allow : feature -> Prop.

(** a hexadecimal digit and its value *)
Inductive hex : N -> N -> Prop :=
| hex_dec : forall v, v < 10 -> hex (48 + v) v
| hex_low : forall v, 10 <= v < 16 -> hex (87 + v) v
| hex_up : forall v, 10 <= v < 16 -> allow Upper_hex -> hex (55 + v) v.

Definition hex4 (a b c d : N) (u : N) : Prop :=
  exists x y z w, hex a x /\ hex b y /\ hex c z /\ hex d w /\ u = x * 4096 + y * 256 + z * 16 + w.

Definition utf8 (u : N) : bytes :=
  if u <? 128 then [u]
  else if u <? 2048 then [192 + u / 64; 128 + u mod 64]
  else if u <? 65536 then [224 + u / 4096; 128 + (u / 64) mod 64; 128 + u mod 64]
  else [240 + u / 262144; 128 + (u / 4096) mod 64; 128 + (u / 64) mod 64; 128 + u mod 64].

(** the inside of a string, and the characters it stands for *)
Inductive chars : bytes -> bytes -> Prop :=
| chars_nil : chars [] []
| chars_plain : forall c s d, 32 <= c < 256 -> c <> 34 -> c <> 92 ->
    chars s d -> chars (c :: s) (c :: d)
| chars_short : forall x y s d,
    In (x, y) [(34, 34); (92, 92); (47, 47); (98, 8); (110, 10); (114, 13); (116, 9)] ->
    chars s d -> chars (92 :: x :: s) (y :: d)
| chars_ff : forall s d, allow Form_feed -> chars s d -> chars (92 :: 102 :: s) (12 :: d)
| chars_hex : forall h1 h2 h3 h4 u s d, hex4 h1 h2 h3 h4 u ->
    (u < 55296 \/ 57344 <= u) -> (u = 0 -> allow Nul_escape) ->
    chars s d -> chars (92 :: 117 :: h1 :: h2 :: h3 :: h4 :: s) (utf8 u ++ d)
| chars_pair : forall h1 h2 h3 h4 hi l1 l2 l3 l4 lo s d, allow Surrogates ->
    hex4 h1 h2 h3 h4 hi -> 55296 <= hi < 56320 -> hex4 l1 l2 l3 l4 lo -> 56320 <= lo < 57344 ->
    chars s d ->
    chars (92 :: 117 :: h1 :: h2 :: h3 :: h4 :: 92 :: 117 :: l1 :: l2 :: l3 :: l4 :: s)
          (utf8 (65536 + (hi - 55296) * 1024 + (lo - 56320)) ++ d).

(** a natural number without leading zeros *)
Inductive natural : bytes -> N -> Prop :=
| nat_digit : forall d, d < 10 -> natural [48 + d] d
| nat_more : forall s n d, natural s n -> n <> 0 -> d < 10 -> natural (s ++ [48 + d]) (10 * n + d).

Inductive integer : bytes -> Z -> Prop :=
| int_pos : forall s n, natural s n -> integer s (Z.of_N n)
| int_neg : forall s n, natural s n -> integer (45 :: s) (- Z.of_N n).

Definition digits (s : bytes) : Prop := s <> [] /\ Forall (fun c => 48 <= c <= 57) s.

(** a fraction, an exponent, or both *)
Inductive decimal_tail : bytes -> Prop :=
| dt_frac : forall s, digits s -> decimal_tail (46 :: s)
| dt_exp : forall E sg s, (E = 101 \/ (E = 69 /\ allow Upper_exponent)) ->
    (sg = [] \/ sg = [43] \/ sg = [45]) -> digits s -> decimal_tail (E :: sg ++ s)
| dt_both : forall f E sg s, digits f -> (E = 101 \/ E = 69) ->
    (sg = [] \/ sg = [43] \/ sg = [45]) -> digits s -> decimal_tail (46 :: f ++ E :: sg ++ s).

(** of several members of the same name the last one counts *)
Fixpoint last_wins (l : list (bytes * value)) : list (bytes * value) :=
  match l with
  | [] => []
  | m :: l' =>
      if existsb (fun m' => if list_eq_dec N.eq_dec (fst m') (fst m) then true else false) l'
      then last_wins l' else m :: last_wins l'
  end.

(** a value, nested at most n deep *)
Inductive json : nat -> bytes -> value -> Prop :=
| j_null : forall n, json n [110; 117; 108; 108] Null
| j_true : forall n, json n [116; 114; 117; 101] (Boolean true)
| j_false : forall n, json n [102; 97; 108; 115; 101] (Boolean false)
| j_int : forall n s z, integer s z ->
    ((- 2 ^ 63 <= z < 2 ^ 64)%Z \/ allow Big_integer) -> json n s (Integer z)
| j_dbl : forall n s z t d, integer s z -> decimal_tail t -> scan_lf e (s ++ t) = Some d ->
    json n (s ++ t) (Double d)
| j_str : forall n s d, chars s d -> json n ([34] ++ s ++ [34]) (Text d)
| j_arr0 : forall n w, ws w -> json n ([91] ++ w ++ [93]) (List [])
| j_arr : forall n s l, elements n s l -> json (S n) ([91] ++ s ++ [93]) (List l)
| j_obj0 : forall n w, ws w -> json n ([123] ++ w ++ [125]) (Map [])
| j_obj : forall n s l, members n s l -> json (S n) ([123] ++ s ++ [125]) (Map (last_wins l))
with elements : nat -> bytes -> list value -> Prop :=
| el_one : forall n w1 s w2 v, ws w1 -> json n s v -> ws w2 -> elements n (w1 ++ s ++ w2) [v]
| el_more : forall n w1 s w2 v r l, ws w1 -> json n s v -> ws w2 -> elements n r l ->
    elements n (w1 ++ s ++ w2 ++ [44] ++ r) (v :: l)
with members : nat -> bytes -> list (bytes * value) -> Prop :=
| me_one : forall n w1 ks k w2 w3 s w4 v,
    ws w1 -> chars ks k -> ws w2 -> ws w3 -> json n s v -> ws w4 ->
    members n (w1 ++ [34] ++ ks ++ [34] ++ w2 ++ [58] ++ w3 ++ s ++ w4) [(k, v)]
| me_more : forall n w1 ks k w2 w3 s w4 v r l,
    ws w1 -> chars ks k -> ws w2 -> ws w3 -> json n s v -> ws w4 -> members n r l ->
    members n (w1 ++ [34] ++ ks ++ [34] ++ w2 ++ [58] ++ w3 ++ s ++ w4 ++ [44] ++ r) ((k, v) :: l).

Definition container (v : value) : Prop :=
  match v with List _ | Map _ => True | _ => False end.

(** a document: an array or object with white space around it, nested at most
    n deep *)
Definition document (n : nat) (s : bytes) (v : value) : Prop :=
  exists w1 b w2, s = w1 ++ b ++ w2 /\ ws w1 /\ json n b v /\ ws w2 /\ container v.
End Grammar.

(** * Results of the parser *)

(** A complete object with the given value, and what is left unread. *)
Definition gives (r : result) (rest : bytes) (v : value) : Prop :=
  exists t o, r = Ret t (Some o) rest /\ err t = E_success /\ meaning o = v.

(** sscanf "%d" stores some int. *)
Definition env_ok (e : env) : Prop :=
  forall z, (- 2 ^ 31 <= scan_d_wide e z < 2 ^ 31)%Z.

(** Objects as the API builds them: C strings without NUL, numbers of their
    types, member names distinct. *)
Fixpoint built (e : env) (v : jv) : Prop :=
  match v with
  | JNull | JBool _ => True
  | JInt i o w => (- 2 ^ 31 <= i < 2 ^ 31)%Z /\ (0 <= w < 2 ^ 64)%Z
  | JDbl d =>
      (* finite, printed as printf prints "%lf", and read back as itself *)
      not_finite e d = false /\
      exists s z f, print_lf e d = s ++ 46 :: f /\ integer s z /\ digits f
                    /\ scan_lf e (print_lf e d) = Some d
  | JStr s => Forall (fun c => 0 < c < 256) s
  | JArr l => fold_right (fun x p => built e x /\ p) True l
  | JObj l =>
      NoDup (map fst l) /\
      fold_right (fun m p => Forall (fun c => 0 < c < 256) (fst m) /\ built e (snd m) /\ p) True l
  end.

(** How deep an object is nested: an element is one deeper than its container. *)
Fixpoint nesting (v : jv) : nat :=
  match v with
  | JArr (x :: l) => S (fold_right (fun y n => Nat.max (nesting y) n) 0%nat (x :: l))
  | JObj (x :: l) => S (fold_right (fun y n => Nat.max (nesting (snd y)) n) 0%nat (x :: l))
  | _ => 0%nat
  end.

(** * Feeding a document in pieces *)

(** Call the parser on one piece after the other for as long as it asks for
    more, as the callers of mtev_json_tokener_parse_ex do. *)
Fixpoint feed (e : env) (t : tok) (pieces : list bytes) : result :=
  match pieces with
  | [] => Wrong
  | [p] => parse_ex e true t p
  | p :: ps =>
      match parse_ex e true t p with
      | Ret t' None rest => match err t' with E_continue => feed e t' ps | _ => Ret t' None rest end
      | r => r
      end
  end.

(** * Any use of a parser *)
Inductive call :=
| Chunk (s : bytes)         (* parse_ex of the len characters s *)
| CString (s : bytes)       (* parse_ex, len -1, of the string s *)
| Reset.
Definition do_call (e : env) (t : tok) (c : call) : option tok :=
  match c with
  | Chunk s => match parse_ex e true t s with Ret t' _ _ => Some t' | Wrong => None end
  | CString s => match parse_ex e false t (s ++ [0]) with Ret t' _ _ => Some t' | Wrong => None end
  | Reset => Some (tok_reset t)
  end.
Fixpoint do_calls (e : env) (t : tok) (l : list call) : option tok :=
  match l with
  | [] => Some t
  | c :: l' => match do_call e t c with Some t' => do_calls e t' l' | None => None end
  end.
