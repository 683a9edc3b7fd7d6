(** What a request head and a query string mean, stated on their text. *)
From Coq Require Import NArith ZArith List Bool.
From Verif.Head Require Import Model.
Import ListNotations.
Local Open Scope nat_scope.

(** ** Request heads (RFC 7230 section 3, with obs-fold) *)

(** no NUL *)
Definition clean (l : bytes) : Prop := ~ In 0%N l.
(** no line end inside *)
Definition one_line (l : bytes) : Prop := forall a b, l <> a ++ 13%N :: 10%N :: b.
(** the text of lines, and of a head: each line with its CRLF, and an empty line *)
Fixpoint text (ls : list bytes) : bytes :=
  match ls with
  | [] => []
  | l :: r => l ++ 13%N :: 10%N :: text r
  end.
Definition head (ls : list bytes) : bytes := text ls ++ [13%N; 10%N].

(** spaces and tabs *)
Definition blanks (w : bytes) : Prop := Forall (fun c => c = 32%N \/ c = 9%N) w.
Definition starts_blank (l : bytes) : Prop := exists c r, l = c :: r /\ (c = 32%N \/ c = 9%N).
Definition ends_blank (l : bytes) : Prop := exists c r, l = r ++ [c] /\ (c = 32%N \/ c = 9%N).
(** the same letter, [c] being the small one *)
Definition small (c d : N) : Prop :=
  (c = d /\ ~ (65 <= d <= 90)%N) \/ ((65 <= d <= 90)%N /\ c = (d + 32)%N).

(** The lines that state one header: a name in any case, a colon, the value;
    and lines that continue it. *)
Inductive field : bytes -> bytes -> list bytes -> Prop :=
| field_line name written w1 w2 v :
    Forall2 small name written ->
    ~ In 58%N written -> ~ starts_blank written -> ~ ends_blank written ->
    (written = [] -> w1 = []) ->
    blanks w1 -> blanks w2 -> ~ starts_blank v ->
    field name v [written ++ w1 ++ 58%N :: w2 ++ v]
| field_fold name v ls w v2 :
    field name v ls -> w <> [] -> blanks w -> ~ starts_blank v2 ->
    field name (v ++ 32%N :: v2) (ls ++ [w ++ v2]).
(** the lines of all the headers *)
Inductive fields_of : list (bytes * bytes) -> list bytes -> Prop :=
| fields_nil : fields_of [] []
| fields_cons n v ls hs rs : field n v ls -> fields_of hs rs -> fields_of ((n, v) :: hs) (ls ++ rs).

(** the value of the last header with this name *)
Inductive last_value (n : bytes) : list (bytes * bytes) -> option bytes -> Prop :=
| last_none hs : (forall v, ~ In (n, v) hs) -> last_value n hs None
| last_some a v b : (forall v', ~ In (n, v') b) -> last_value n (a ++ (n, v) :: b) (Some v).

(** a text within a text *)
Definition within (needle l : bytes) : Prop := exists a b, l = a ++ needle ++ b.
(** is the word mentioned in a header of this name? *)
Definition mentions (hs : list (bytes * bytes)) (name word : bytes) : Prop :=
  exists v, In (name, v) hs /\ within word v.

(** ** Framing (RFC 7230 section 3.3.3) *)

(** the number written by decimal digits *)
Inductive decimal : bytes -> Z -> Prop :=
| dec_one d : (48 <= d <= 57)%N -> decimal [d] (Z.of_N d - 48)
| dec_more l n d : decimal l n -> (48 <= d <= 57)%N -> decimal (l ++ [d]) (10 * n + (Z.of_N d - 48)).
(** equal up to case *)
Definition same_word (a b : bytes) : Prop := exists s, Forall2 small s a /\ Forall2 small s b.

(** ** URL encoding *)

(** a hexadecimal digit of a value, of either case *)
Definition is_hex (v : N) (c : N) : Prop :=
  (v < 10 /\ c = 48 + v)%N \/ (10 <= v < 16 /\ c = 97 + (v - 10))%N \/ (10 <= v < 16 /\ c = 65 + (v - 10))%N.
(** [w] is a way to write [s]: each byte as itself (unless it is % or +), a
    space as +, any byte as % and two digits *)
Inductive encodes : bytes -> bytes -> Prop :=
| enc_nil : encodes [] []
| enc_self c s w : c <> 37%N -> c <> 43%N -> encodes s w -> encodes (c :: s) (c :: w)
| enc_plus s w : encodes s w -> encodes (32%N :: s) (43%N :: w)
| enc_hex hi lo a b s w : (hi < 16)%N -> (lo < 16)%N -> is_hex hi a -> is_hex lo b ->
    encodes s w -> encodes ((16 * hi + lo)%N :: s) (37%N :: a :: b :: w).

(** a parameter, with a value or without, as a piece of a query string *)
Inductive piece : bytes * option bytes -> bytes -> Prop :=
| piece_bare k w : encodes k w -> ~ In 38%N w -> ~ In 61%N w -> w <> [] -> piece (k, None) w
| piece_value k v w x : encodes k w -> ~ In 38%N w -> ~ In 61%N w ->
    encodes v x -> ~ In 38%N x -> piece (k, Some v) (w ++ 61%N :: x).
(** the pieces with ampersands between them, any number *)
Inductive query : list (bytes * option bytes) -> bytes -> Prop :=
| query_nil : query [] []
| query_amp ps q : query ps q -> query ps (38%N :: q)
| query_last p w : piece p w -> query [p] w
| query_cons p ps w q : piece p w -> query ps q -> query (p :: ps) (w ++ 38%N :: q).

(** the first parameter of this name *)
Inductive first_value (k : bytes) : list (bytes * option bytes) -> option bytes -> Prop :=
| first_none ps : (forall v, ~ In (k, v) ps) -> first_value k ps None
| first_some a v b : (forall v', ~ In (k, v') a) -> first_value k (a ++ (k, v) :: b) v.

(** what any text stands for: as above, and a % that two digits do not follow
    stands for itself *)
Definition two_digits (w : bytes) : Prop :=
  exists hi lo a b r, w = a :: b :: r /\ (hi < 16)%N /\ (lo < 16)%N /\ is_hex hi a /\ is_hex lo b.
Inductive means : bytes -> bytes -> Prop :=
| mean_nil : means [] []
| mean_self c s w : c <> 37%N -> c <> 43%N -> means s w -> means (c :: s) (c :: w)
| mean_plus s w : means s w -> means (32%N :: s) (43%N :: w)
| mean_hex hi lo a b s w : (hi < 16)%N -> (lo < 16)%N -> is_hex hi a -> is_hex lo b ->
    means s w -> means ((16 * hi + lo)%N :: s) (37%N :: a :: b :: w)
| mean_stray s w : ~ two_digits w -> means s w -> means (37%N :: s) (37%N :: w).

(** parameters that are C strings *)
Definition nul_free (p : bytes * option bytes) : Prop :=
  clean (fst p) /\ match snd p with Some v => clean v | None => True end.

(** ** Connections *)

(** line ends sent before a request *)
Fixpoint crlfs (n : nat) : bytes :=
  match n with O => [] | S n => 13%N :: 10%N :: crlfs n end.
(** lines of a head: not empty, without line end inside; and without NUL *)
Definition lines (ls : list bytes) : Prop := ls <> [] /\ Forall (fun l => one_line l /\ l <> []) ls.
Definition lines_ok (ls : list bytes) : Prop := Forall (fun l => clean l /\ one_line l) ls.
(** how many reads find bytes *)
Definition readies (ans : list answer) : nat :=
  List.length (filter (fun a => match a with Ready _ => true | _ => false end) ans).
(** two reads that deliver [d1] and [d2]; then nothing, [m] times *)
Definition two_reads (d1 d2 : bytes) (m : nat) : list answer :=
  Ready (List.length d1 - 1) :: Ready (List.length d2 - 1) :: repeat Again m.
(** the bytes left over *)
Definition pending (l : list blk) (unread : bytes) : bytes := List.concat (map data l) ++ unread.
