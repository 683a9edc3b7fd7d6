(** What users of the replacing hash rely on. *)
From Coq Require Import Arith NArith List Bool.
From Verif.Frrh Require Import Model.
Import ListNotations.

(** executions; [P] restricts what the environment does *)
Inductive reach (hashf : list N -> N) (deferred : bool) (P : sys -> choice -> Prop) (n pr : N) : sys -> Prop :=
| R0 : reach hashf deferred P n pr (alloc n pr)
| R1 s c s' : reach hashf deferred P n pr s -> P s c -> step hashf deferred s c = Some s' -> reach hashf deferred P n pr s'.

Definition any (s : sys) (c : choice) : Prop := True.
(** one call at a time *)
Definition alone (s : sys) (c : choice) : Prop :=
  match c with Get _ | Set_ _ _ => Forall (fun c => c = Over) (calls s) | _ => True end.
(** the replacement probability stays at its maximum *)
Definition always (s : sys) (c : choice) : Prop := match c with Adjust p => p = (2 ^ 32 - 1)%N | _ => True end.

(** two keys compete for the same place in a table of [n] *)
Definition rivals (hashf : list N -> N) (n : N) (k k' : list N) : Prop :=
  ((hashf k mod 2 ^ 64) mod n mod 2 ^ 32 = (hashf k' mod 2 ^ 64) mod n mod 2 ^ 32)%N.

(** after the events [l] (newest first) the last store for [k] was [d] and nothing has displaced it since *)
Definition visible (hashf : list N -> N) (n : N) (l : list event) (k d : list N) : Prop :=
  exists i l2 l1, l = l2 ++ EStore i k d :: l1 /\ forall j k' d', In (EStore j k' d') l2 -> ~ rivals hashf n k' k.

(** the number of steps the choices give to call [i] *)
Definition steps_of (i : nat) (cs : list choice) : nat :=
  length (filter (fun c => match c with Go j _ _ => Nat.eqb i j | _ => false end) cs).

(** the gets that looked and the gets that found something *)
Definition looks (l : list event) : nat := length (filter (fun e => match e with ELoad _ _ => true | _ => false end) l).
Definition finds (l : list event) : nat := length (filter (fun e => match e with EGot _ _ (Some _) => true | _ => false end) l).

(** every entry in memory is accounted for: in the table, in the hands of a call, or waiting for release *)
Definition in_hand (c : call) : list nat :=
  match c with SCas _ _ _ e | SDrop _ _ _ e => [e] | SFree _ _ (Some p) => [p] | _ => [] end.
