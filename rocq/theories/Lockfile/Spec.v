(** Who owns a lock, told by what was seen. *)
From Coq Require Import List Arith.
From Verif.Lockfile Require Import Model.
Import ListNotations.

(** [p] got [f] and since then did not end, close or release any descriptor of [f] *)
Definition owns (h : list ev) (p f : nat) : Prop :=
  exists h1 h2 fd, h = h1 ++ Got p f fd :: h2 /\
    ~ In (Ended p) h2 /\ ~ In (Gave_up p f) h2 /\ forall fd', ~ In (Released p f fd') h2.
(** [p] got [f] with [fd] and since then did not end or release [fd] *)
Definition keeps (h : list ev) (p f fd : nat) : Prop :=
  exists h1 h2, h = h1 ++ Got p f fd :: h2 /\ ~ In (Ended p) h2 /\ ~ In (Released p f fd) h2.
