(** The binary formats, on their own. *)
From Coq Require Import ZArith NArith List Bool Ascii String.
From Verif.Pack Require Import Model.
Import ListNotations.
Local Open Scope Z_scope.

Definition ch (a : ascii) : N := N_of_ascii a.
Definition bs (s : string) : bytes := map N_of_ascii (list_ascii_of_string s).
Definition octets (b : bytes) : Prop := Forall (fun c => (c < 256)%N) b.

(** The number that bytes stand for, most significant first. *)
Definition big_value (b : bytes) : Z := fold_left (fun a x => 256 * a + Z.of_N x) b 0.
(** In a byte order. *)
Definition in_order (big : bool) (b : bytes) (z : Z) : Prop := octets b /\ big_value (if big then b else rev b) = z.

(** Integer codes: letter, smallest and largest value, bytes. *)
Inductive int_kind : N -> Z -> Z -> nat -> Prop :=
| k_char : int_kind (ch "c") (-128) 127 1
| k_byte : int_kind (ch "b") 0 255 1
| k_short : int_kind (ch "h") (-32768) 32767 2
| k_ushort : int_kind (ch "H") 0 65535 2
| k_int : int_kind (ch "i") (-2147483648) 2147483647 4
| k_uint : int_kind (ch "I") 0 4294967295 4
| k_long : int_kind (ch "l") (-9223372036854775808) 9223372036854775807 8
| k_ulong : int_kind (ch "L") 0 18446744073709551615 8.
(** Strings with their length in front: letter, bytes of the length, longest. *)
Inductive str_kind : N -> nat -> Z -> Prop :=
| k_p : str_kind (ch "p") 1 256
| k_P : str_kind (ch "P") 2 32768
| k_a : str_kind (ch "a") 4 2147483648.

Section Lua.
Context (F : floats) (host_big : bool).
(** In byte order [big], code [c] makes [b] out of [v], which reads back as [w]. *)
Inductive encodes (big : bool) : N -> val F -> val F -> bytes -> Prop :=
| e_int c lo hi n x z b : int_kind c lo hi n -> trunc F x = Some z -> lo <= z <= hi ->
    List.length b = n -> in_order big b (z mod 2 ^ (8 * Z.of_nat n)) ->
    encodes big c (Num x) (Num (of_int F z)) b
| e_double c x : c = ch "d" \/ c = ch "n" ->
    encodes big c (Num x) (Num x) (if Bool.eqb big host_big then dput F x else rev (dput F x))
| e_float x : encodes big (ch "f") (Num x) (Num (fget F (fput F x))) (if Bool.eqb big host_big then fput F x else rev (fput F x))
| e_str c n m s b : str_kind c n m -> Z.of_nat (List.length s) < m ->
    List.length b = n -> in_order big b (Z.of_nat (List.length s)) ->
    encodes big c (Str s) (Str s) (b ++ s)
| e_zstr s : ~ In 0%N s -> encodes big (ch "z") (Str s) (Str s) (s ++ [0%N]).
(** A sequence of codes. *)
Inductive packs : bool -> list N -> list (val F) -> list (val F) -> bytes -> Prop :=
| p_nil big : packs big [] [] [] []
| p_blank big c cs vs ws b : c = ch " " \/ c = ch "," -> packs big cs vs ws b -> packs big (c :: cs) vs ws b
| p_little big cs vs ws b : packs false cs vs ws b -> packs big (ch "<" :: cs) vs ws b
| p_big big cs vs ws b : packs true cs vs ws b -> packs big (ch ">" :: cs) vs ws b
| p_native big cs vs ws b : packs host_big cs vs ws b -> packs big (ch "=" :: cs) vs ws b
| p_item big c cs v vs w ws b b' : encodes big c v w b -> packs big cs vs ws b' ->
    packs big (c :: cs) (v :: vs) (w :: ws) (b ++ b').
End Lua.

(** The byte order after some codes. *)
Fixpoint order_after (host big : bool) (cs : list N) : bool :=
  match cs with
  | [] => big
  | c :: cs => order_after host (if (c =? ch "<")%N then false else if (c =? ch ">")%N then true else if (c =? ch "=")%N then host else big) cs
  end.

(** A format as text: codes, each with a count or without. *)
Definition a_digit (c : N) : Prop := (48 <= c <= 57)%N.
Inductive decimal : bytes -> Z -> Prop :=
| d_one c : a_digit c -> decimal [c] (Z.of_N c - 48)
| d_more d k c : decimal d k -> a_digit c -> decimal (d ++ [c]) (10 * k + (Z.of_N c - 48)).
Definition no_digit_first (r : bytes) : Prop := match r with [] => True | x :: _ => ~ a_digit x end.
Inductive format : bytes -> list (N * option Z) -> Prop :=
| f_nil : format [] []
| f_plain c r l : c <> 0%N -> no_digit_first r -> format r l -> format (c :: r) ((c, None) :: l)
| f_count c d k r l : c <> 0%N -> decimal d k -> no_digit_first r -> format r l -> format (c :: d ++ r) ((c, Some k) :: l).
(** The codes written out. *)
Definition times (i : N * option Z) : list N := repeat (fst i) (Z.to_nat (match snd i with Some k => k | None => 1 end)).
Definition spelt (l : list (N * option Z)) : list N := flat_map times l.
Definition small_counts (m : Z) (l : list (N * option Z)) : Prop :=
  Forall (fun i => match snd i with Some k => k <= m | None => True end) l.
(** The letters that mean something. *)
Definition letters : bytes := bs "zpPaAfdncbhHiIlL<>= ,".
(** A machine's doubles keep their bytes. *)
Definition machine (F : floats) : Prop :=
  (forall x, List.length (dput F x) = 8%nat /\ dget F (dput F x) = x) /\ (forall x, List.length (fput F x) = 4%nat).
