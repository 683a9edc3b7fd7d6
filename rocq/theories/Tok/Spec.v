(** The command line syntax, as documented in src/mtev_tokenizer.h, independently of the scanner. *)
From Coq Require Import Arith NArith ZArith List Bool.
Import ListNotations.
Local Open Scope N_scope.

Definition white (c : N) : Prop := In c [9; 10; 13; 32].

(** the C escapes inside double quotes: backslash, letter |-> byte *)
Definition escapes : list (N * N) :=
  [(32, 32); (34, 34); (110, 10); (114, 13); (116, 9); (97, 7); (98, 8); (118, 11); (102, 12); (48, 0); (92, 92)].

(** [dq_body e w]: the text e between double quotes stands for w *)
Inductive dq_body : list N -> list N -> Prop :=
  | db_nil : dq_body [] []
  | db_plain c e w : c <> 34 -> c <> 92 -> c <> 0 -> dq_body e w -> dq_body (c :: e) (c :: w)
  | db_escape c v e w : In (c, v) escapes -> dq_body e w -> dq_body (92 :: c :: e) (v :: w)
  | db_other c e w : c <> 0 -> (forall v, ~ In (c, v) escapes) -> dq_body e w ->
                     dq_body (92 :: c :: e) (92 :: c :: w).

(** [dq_open e lone]: e has no closing double quote; [lone] when it ends in a lone backslash *)
Inductive dq_open : list N -> bool -> Prop :=
  | do_nil : dq_open [] false
  | do_lone : dq_open [92] true
  | do_plain c e b : c <> 34 -> c <> 92 -> c <> 0 -> dq_open e b -> dq_open (c :: e) b
  | do_escape c e b : c <> 0 -> dq_open e b -> dq_open (92 :: c :: e) b.

(** a quoted word; inside single quotes any character except the quote *)
Inductive quoted : list N -> list N -> Prop :=
  | q_single w : ~ In 39 w -> ~ In 0 w -> quoted (39 :: w ++ [39]) w
  | q_double e w : dq_body e w -> quoted (34 :: e ++ [34]) w.

(** the rest of an unquoted word after its first character: spaces are escaped, other backslashes
    stand for themselves *)
Inductive bare_tail : list N -> list N -> Prop :=
  | bt_nil : bare_tail [] []
  | bt_char c e w : ~ white c -> c <> 92 -> c <> 0 -> bare_tail e w -> bare_tail (c :: e) (c :: w)
  | bt_space e w : bare_tail e w -> bare_tail (92 :: 32 :: e) (32 :: w)
  | bt_last : bare_tail [92] [92]
  | bt_backslash c e w : c <> 32 -> bare_tail (c :: e) w -> bare_tail (92 :: c :: e) (92 :: w).

Inductive bare : list N -> list N -> Prop :=
  | b_word c e w : ~ white c -> c <> 34 -> c <> 39 -> c <> 0 -> bare_tail e w -> bare (c :: e) (c :: w).

(** an unquoted word ends at white space or the end of the line; a backslash would escape a space *)
Definition ends (e l : list N) : Prop :=
  l = [] \/ exists c l', l = c :: l' /\ white c /\ (c = 32 -> last (tl e) 0 <> 92).

Inductive verdict := Good | Silent | Reported.

(** [parse s ws v]: the line s consists of the words ws and, unless v is [Good], an opening quote
    without a closing one: [Reported] and [Silent] are the two kinds of it *)
Inductive parse : list N -> list (list N) -> verdict -> Prop :=
  | p_end : parse [] [] Good
  | p_white c l ws v : white c -> parse l ws v -> parse (c :: l) ws v
  | p_quoted e w l ws v : quoted e w -> parse l ws v -> parse (e ++ l) (w :: ws) v
  | p_bare e w l ws v : bare e w -> ends e l -> parse l ws v -> parse (e ++ l) (w :: ws) v
  | p_lone_quote : parse [39] [] Reported
  | p_open_single c b : ~ In 39 (c :: b) -> ~ In 0 (c :: b) -> parse (39 :: c :: b) [] Silent
  | p_open_double b : dq_open b false -> parse (34 :: b) [] Reported
  | p_open_double_lone b : dq_open b true -> parse (34 :: b) [] Silent.
