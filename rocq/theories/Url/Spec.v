(** Independent specifications: RFC 3986 percent-encoding and HTML entity escaping. *)
From Coq Require Import ZArith NArith List Bool.
Import ListNotations.
Open Scope N_scope.

Definition is_byte (x : N) : Prop := x < 256.
Definition bytes (l : list N) : Prop := Forall is_byte l.

(** RFC 3986 section 2.3: ALPHA / DIGIT / "-" / "." / "_" / "~" *)
Definition unreserved (c : N) : Prop :=
  65 <= c <= 90 \/ 97 <= c <= 122 \/ 48 <= c <= 57 \/ c = 45 \/ c = 46 \/ c = 95 \/ c = 126.

(** hexadecimal digit [c] of value [v], either case *)
Definition hexdigit (c v : N) : Prop :=
  (c = 48 + v /\ v < 10) \/ (c = 55 + v /\ 10 <= v < 16) \/ (c = 87 + v /\ 10 <= v < 16).

(** [pct_decodes txt l]: [txt] is a percent-encoding of [l]. *)
Inductive pct_decodes : list N -> list N -> Prop :=
| PNil : pct_decodes [] []
| PLit c t l : unreserved c -> pct_decodes t l -> pct_decodes (c :: t) (c :: l)
| PPct a b x y t l : hexdigit a x -> hexdigit b y -> pct_decodes t l ->
    pct_decodes (37 :: a :: b :: t) (16 * x + y :: l).

(** upper-case digit *)
Definition updigit (v : N) : N := if v <? 10 then 48 + v else 55 + v.

(** [pct_encodes l txt]: the canonical encoding (literals exactly for unreserved bytes,
    upper-case digits otherwise). *)
Inductive pct_encodes : list N -> list N -> Prop :=
| ENil : pct_encodes [] []
| ELit c l t : unreserved c -> pct_encodes l t -> pct_encodes (c :: l) (c :: t)
| EPct c l t : ~ unreserved c -> pct_encodes l t ->
    pct_encodes (c :: l) (37 :: updigit (c / 16) :: updigit (c mod 16) :: t).

(** [n] bytes of memory from address [a] *)
Fixpoint block (m : Z -> N) (a : Z) (n : nat) : list N :=
  match n with O => [] | S k => m a :: block m (a + 1)%Z k end.

(** byte ranges [a, a+n) and [b, b+k) do not meet *)
Definition disjoint (a n b k : Z) : Prop := (a + n <= b \/ b + k <= a)%Z.

(** The source text up to its first NUL *)
Fixpoint cstring (l : list N) : list N :=
  match l with [] => [] | c :: r => if c =? 0 then [] else c :: cstring r end.

(** Strict HTML unescaping: every '&' must start one of the five entities. *)
Inductive html_unescapes : list N -> list N -> Prop :=
| HNil : html_unescapes [] []
| HLit c t l : c <> 38 -> html_unescapes t l -> html_unescapes (c :: t) (c :: l)
| HLt t l : html_unescapes t l -> html_unescapes ([38;108;116;59] ++ t) (60 :: l)
| HGt t l : html_unescapes t l -> html_unescapes ([38;103;116;59] ++ t) (62 :: l)
| HAmp t l : html_unescapes t l -> html_unescapes ([38;97;109;112;59] ++ t) (38 :: l)
| HQuot t l : html_unescapes t l -> html_unescapes ([38;35;51;52;59] ++ t) (34 :: l)
| HApos t l : html_unescapes t l -> html_unescapes ([38;35;51;57;59] ++ t) (39 :: l).

(** characters with a meaning in HTML text or attribute values *)
Definition html_active (c : N) : Prop := c = 60 \/ c = 62 \/ c = 34 \/ c = 39.
