(** What substring search must return. *)
From Coq Require Import NArith List.
Import ListNotations.

(** the needle occurs in the haystack at offset [p] *)
Definition occurs_at (needle hay : list N) (p : nat) : Prop :=
  exists pre post, hay = pre ++ needle ++ post /\ length pre = p.

Definition first_occurrence (needle hay : list N) (p : nat) : Prop :=
  occurs_at needle hay p /\ forall q, occurs_at needle hay q -> p <= q.
