(** What consistent hashing promises, without reference to how the ring is stored. *)
From Coq Require Import Arith NArith ZArith List Permutation Sorted.
From Verif.Cht Require Import Model.
Import ListNotations.
Local Open Scope N_scope.

(** what qsort with ring_node_cmp does: any permutation in order of pos *)
Definition is_qsort (srt : list rp -> list rp) : Prop :=
  forall l, Permutation l (srt l) /\ StronglySorted (fun a b => pos a <= pos b) (srt l).

(** the points of the circle claimed by nodes: one per node and replica *)
Definition points (H : list N -> N -> N) (nb : N) (w : nat) (ns : list (list N)) : list (N * list N) :=
  flat_map (fun n => map (fun j => (hash H nb n (N.of_nat j), n)) (seq 0 w)) ns.
Definition no_collision (H : list N -> N -> N) (nb : N) (w : nat) (ns : list (list N)) : Prop :=
  NoDup (map fst (points H nb w ns)).

(** [x] is the point responsible for [h]: the nearest at or below, or, when there is none, the
    highest one (the circle wraps) *)
Definition responsible (pts : list (N * list N)) (h : N) (x : N * list N) : Prop :=
  In x pts /\
  ((fst x <= h /\ forall y, In y pts -> fst y <= h -> fst y <= fst x) \/
   ((forall y, In y pts -> h < fst y) /\ forall y, In y pts -> fst y <= fst x)).

(** elements in order of first occurrence *)
Fixpoint firsts (seen l : list nat) : list nat :=
  match l with
  | [] => []
  | x :: r => if existsb (Nat.eqb x) seen then firsts seen r else x :: firsts (x :: seen) r
  end.
(** hash values up to [m] *)
Definition upto (m : N) : list N := map N.of_nat (seq 0 (N.to_nat m + 1)).
(** the name of the node a single lookup gives *)
Definition owner_name (c : cht) (h : N) : option (list N) :=
  match vlookup_h c h 1%Z with Nodes [i] => nth_error (names c) i | _ => None end.
(** the lookup gives node [i] *)
Definition goes_to (c : cht) (i : nat) (h : N) : bool :=
  match vlookup_h c h 1%Z with Nodes [j] => (j =? i)%nat | _ => false end.
