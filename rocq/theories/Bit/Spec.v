(** What the manual of the bit library promises, by the bits of the arguments. *)
From Coq Require Import List ZArith NArith Bool.
From Verif.Bit Require Import Model.
Import ListNotations.
Open Scope Z_scope.

(** The numbers the library is made for *)
Definition fits (z : Z) : Prop := - 2 ^ 51 <= z < 2 ^ 51.
(** An answer: a signed number of 32 bits with the bits [f] *)
Definition bits (f : Z -> bool) (r : res Z) : Prop :=
  exists z, r = Ok z /\ - 2 ^ 31 <= z < 2 ^ 31 /\ forall k, 0 <= k < 32 -> Z.testbit z k = f k.
(** Equal but for multiples of 2^32 *)
Definition same32 (x y : Z) : Prop := exists q, x = y + q * 2 ^ 32.
(** The value of a hexadecimal digit; capitals or not *)
Definition digit (upper : bool) (c : N) (v : Z) : Prop :=
  (48 <= c <= 57)%N /\ v = Z.of_N c - 48 \/
  (if upper then (65 <= c <= 70)%N /\ v = Z.of_N c - 55 else (97 <= c <= 102)%N /\ v = Z.of_N c - 87).
(** What a row of digits is worth *)
Inductive reads (upper : bool) : list N -> Z -> Prop :=
| R_nil : reads upper [] 0
| R_snoc : forall s c v d, reads upper s v -> digit upper c d -> reads upper (s ++ [c]) (16 * v + d).
