(** What a sort of a linked list must do. *)
From Coq Require Import Arith ZArith List Bool.
Import ListNotations.

(** [chain next p l]: following [next] from [p] visits exactly the nodes [l], then NULL. *)
Fixpoint chain (next : nat -> option nat) (p : option nat) (l : list nat) : Prop :=
  match l with
  | [] => p = None
  | a :: r => p = Some a /\ chain next (next a) r
  end.

(** [compare] is a three-way comparison for the strict weak order "a before b". *)
Definition weak_order (compare : nat -> nat -> Z) : Prop :=
  (forall a b, (compare a b < 0)%Z -> ~ (compare b a < 0)%Z) /\
  (forall a b c, ~ (compare a b < 0)%Z -> ~ (compare b c < 0)%Z -> ~ (compare a c < 0)%Z).

(** no later element compares strictly before an earlier one *)
Fixpoint ordered (compare : nat -> nat -> Z) (l : list nat) : Prop :=
  match l with
  | [] => True
  | a :: r => Forall (fun b => ~ (compare b a < 0)%Z) r /\ ordered compare r
  end.

(** neither compares before the other *)
Definition tied (compare : nat -> nat -> Z) (a b : nat) : bool :=
  negb (Z.ltb (compare a b) 0) && negb (Z.ltb (compare b a) 0).
