(** What users of the semaphore rely on. *)
From Coq Require Import Arith NArith List Bool.
From Verif.Sem Require Import Model.
Import ListNotations.

(** the states of all executions of a semaphore initialised to [v] *)
Inductive reach (v : N) : sys -> Prop :=
| R0 : reach v (init v)
| R1 s c s' : reach v s -> step s c = Some s' -> reach v s'.
(** the counter does not wrap: initial value plus posts stay below 2^32 *)
Definition fits (v : N) (s : sys) : Prop := (v + posted s < 2 ^ 32)%N.
(** wait calls in progress that have not taken a unit yet and are not asleep *)
Definition awake (c : call) : bool := match c with WLock | WTest => true | _ => false end.
Definition number (f : call -> bool) (s : sys) : N := N.of_nat (length (filter f (calls s))).
