From Coq Require Import NArith List.
Import ListNotations.

(** [mem] holds the C string [s]: its bytes, a terminator, then anything. *)
Definition holds (mem s : list N) : Prop := ~ In 0%N s /\ exists rest, mem = s ++ 0%N :: rest.
