(** RFC 4122 text form: 8-4-4-4-12 hexadecimal digits, two per byte, most significant first. *)
From Coq Require Import NArith List Bool.
Import ListNotations.
Open Scope N_scope.

Definition bytes (l : list N) : Prop := Forall (fun x => x < 256) l.

Definition lower_digit (c v : N) : Prop := (v < 10 /\ c = 48 + v) \/ (10 <= v < 16 /\ c = 87 + v).
Definition upper_digit (c v : N) : Prop := (v < 10 /\ c = 48 + v) \/ (10 <= v < 16 /\ c = 55 + v).
Definition any_digit (c v : N) : Prop := lower_digit c v \/ upper_digit c v.

Inductive item := Byte | Dash.

(** 8-4-4-4-12 digits = 4-2-2-2-6 bytes *)
Definition uuid_shape : list item :=
  [Byte;Byte;Byte;Byte;Dash;Byte;Byte;Dash;Byte;Byte;Dash;Byte;Byte;Dash;Byte;Byte;Byte;Byte;Byte;Byte].

(** [denotes D shape txt u]: the text follows the shape, with digits in style [D], and its
    bytes are [u]. *)
Inductive denotes (D : N -> N -> Prop) : list item -> list N -> list N -> Prop :=
| DNil : denotes D [] [] []
| DByte a b x y sh t u : D a x -> D b y -> denotes D sh t u ->
    denotes D (Byte :: sh) (a :: b :: t) (16 * x + y :: u)
| DDash sh t u : denotes D sh t u -> denotes D (Dash :: sh) (45 :: t) u.

(** ASCII lower-casing *)
Definition lower (c : N) : N := if (65 <=? c) && (c <=? 90) then c + 32 else c.
Definition upper (c : N) : N := if (97 <=? c) && (c <=? 122) then c - 32 else c.
