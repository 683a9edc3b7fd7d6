(** Independent specification of base64 (RFC 4648 section 4): each group of 24 bits is
    cut in four 6-bit indexes; a final group of 8 or 16 bits is extended with zero bits
    and the missing characters are '='. *)
From Coq Require Import NArith List Bool.
Import ListNotations.
Open Scope N_scope.

Definition is_byte (x : N) : Prop := x < 256.
Definition bytes (l : list N) : Prop := Forall is_byte l.

(** the base 64 alphabet: A-Z a-z 0-9 + / *)
Definition letter (v : N) : N :=
  if v <? 26 then 65 + v
  else if v <? 52 then 97 + (v - 26)
  else if v <? 62 then 48 + (v - 52)
  else if v =? 62 then 43 else 47.

(** index [k] (0 = most significant) of a 24-bit group *)
Definition six (w k : N) : N := w / 2 ^ (6 * (3 - k)) mod 64.

Fixpoint rfc4648_base64 (l : list N) : list N :=
  match l with
  | [] => []
  | [a] => let w := a * 65536 in [letter (six w 0); letter (six w 1); 61; 61]
  | [a; b] => let w := a * 65536 + b * 256 in [letter (six w 0); letter (six w 1); letter (six w 2); 61]
  | a :: b :: c :: r =>
      let w := a * 65536 + b * 256 + c in
      letter (six w 0) :: letter (six w 1) :: letter (six w 2) :: letter (six w 3) :: rfc4648_base64 r
  end.

(** white space in the C locale *)
Definition blank (c : N) : bool := (c =? 32) || ((9 <=? c) && (c <=? 13)).

(** the URL-safe alphabet folded on the standard one *)
Definition fold_url (c : N) : N := if c =? 45 then 43 else if c =? 95 then 47 else c.

(** significant characters of a text *)
Definition significant (txt : list N) : list N :=
  map fold_url (filter (fun c => negb (blank c)) txt).

(** members of the two alphabets *)
Definition is_letter64 (c : N) : Prop := exists v, v < 64 /\ fold_url c = letter v.
