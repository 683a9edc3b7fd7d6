(** The sketch, described without reference to how it is computed. *)
From Coq Require Import Arith NArith List Bool.
Import ListNotations.
Local Open Scope N_scope.

(** bit [j] counted from the left (1 = leftmost) of a 32-bit word *)
Definition bit32 (h j : N) : bool := N.testbit h (32 - j).
(** [r] is the position, counted from 1, of the first 1 among the bits after the leading [b]; 33-b if they are all 0 *)
Definition rank (b h r : N) : Prop :=
  1 <= r <= 33 - b /\
  (forall j, 1 <= j < r -> bit32 h (b + j) = false) /\
  (r < 33 - b -> bit32 h (b + r) = true).
(** the leading [b] bits of a 32-bit word as a number *)
Definition lead (b h : N) : N := h / 2 ^ (32 - b).
(** [v] is the largest rank among the words of [hs] that begin with [i]; 0 if there are none *)
Definition largest (b : N) (hs : list N) (i v : N) : Prop :=
  (forall h r, In h hs -> lead b h = i -> rank b h r -> r <= v) /\
  (v = 0 \/ exists h, In h hs /\ lead b h = i /\ rank b h v).
(** the 32-bit words of the values added *)
Definition words {D} (xxh : D -> N) (l : list D) : list N := map (fun d => xxh d mod 2 ^ 32) l.
(** sum over a list *)
Fixpoint total (f : N -> N) (l : list N) : N := match l with [] => 0 | x :: r => f x + total f r end.
