(** What users of interned strings rely on. *)
From Coq Require Import Arith NArith List Bool.
From Verif.Intern Require Import Model.
Import ListNotations.

(** fewer than 2^32-2 references and calls in progress at any time *)
Definition few (s : sys) : Prop := forall p, (N.of_nat (held s p + length (calls s)) + 2 < 2 ^ 32)%N.

(** the states of all executions whose choices satisfy [P] *)
Inductive reach (P : choice -> Prop) : sys -> Prop :=
| R0 : reach P init
| R1 s c s' : reach P s -> few s -> P c -> step s c = Next s' -> reach P s'.
Definition any (_ : choice) : Prop := True.

(** what is stored under a handle *)
Definition stored (s : sys) (p : nat) : option (list N) := option_map bytes (mem s p).

(** the user calls mtev_intern_str on properly terminated strings of a documented length only *)
Definition strings (c : choice) : Prop :=
  match c with
  | Begin b n => exists str, b = str ++ [0%N] /\ n = true /\ (N.of_nat (length str) < 2 ^ 23 - 1)%N
  | _ => True
  end.
(** the user interns data (no terminator) of a documented length only *)
Definition blobs (c : choice) : Prop :=
  match c with
  | Begin b n => n = false /\ (N.of_nat (length b) < 2 ^ 23)%N
  | _ => True
  end.
(** lengths are as documented, strings and data are mixed freely *)
Definition documented (c : choice) : Prop :=
  match c with
  | Begin b n => (N.of_nat (length b) < 2 ^ 23)%N
  | _ => True
  end.
(** what the caller asked to be interned: the bytes without the terminator *)
Definition asked (b : list N) (n : bool) : list N := firstn (length b - if n then 1 else 0) b.

(** an intern call from beginning to end when it finds nothing and gets memory [q] *)
Definition whole (c : choice) (q : nat) : list choice := c :: repeat (Go 0 q) 6.
