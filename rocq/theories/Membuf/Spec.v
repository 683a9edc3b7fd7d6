(** What is promised of a memory log: a window of the lines written, as they were
    written. *)
From Coq Require Import ZArith NArith Arith List Bool.
From Verif.Membuf Require Import Model.
Import ListNotations.
Local Open Scope nat_scope.

(** A line: its time (sixteen bytes) and its text; the room it takes. *)
Definition message := (bytes * bytes)%type.
Definition room (m : message) : nat := 16 + length (snd m).
Definition rooms (l : list message) : nat := fold_right (fun m s => room m + s) 0 l.
Definition stamped (m : message) : Prop := length (fst m) = 16.
(** The lines from number [i] on, with their numbers. *)
Fixpoint numbered (i : nat) (l : list message) : list (nat * bytes * bytes) :=
  match l with
  | [] => []
  | m :: r => (i, fst m, snd m) :: numbered (S i) r
  end.
Definition from (l : list message) (i : nat) : list (nat * bytes * bytes) := numbered i (skipn i l).
(** The log holds the lines from number [h] on: asked for those after number [a],
    it gives them, or all it has when [a] is outside of what it has. *)
Definition holds (b : membuf) (l : list message) (h : nat) : Prop :=
  h <= length l /\
  forall a, lines_since b a = map Some (from l (if (h <=? a + 1) && (a + 1 <=? length l) then a + 1 else h)).
(** Lines small for the log: at most a quarter of it. *)
Definition small (L S : nat) (l : list message) : Prop :=
  4 * L <= S /\ Forall (fun m => stamped m /\ room m <= L) l.
(** The answers to the writes. *)
Fixpoint answers (b : membuf) (l : list message) : list (option nat) :=
  match l with
  | [] => []
  | m :: r => fst (writev b (fst m) (snd m)) :: answers (snd (writev b (fst m) (snd m))) r
  end.
(** The last lines, [n] of those from [h] on; all for 0. *)
Definition last_lines (l : list message) (h n : nat) : list (nat * bytes * bytes) :=
  from l (if n =? 0 then h else Nat.max h (length l - n)).
