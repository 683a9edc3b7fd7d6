(** Timers, from what was done: a history is a list of calls and runs, newest first. *)
From Coq Require Import ZArith Arith List Bool.
From Verif.Timer Require Import Model.
Import ListNotations.

Definition us (t : timeval) : Z := (sec t * 1000000 + usec t)%Z.
Definition valid (t : timeval) : Prop := (0 <= usec t < 1000000)%Z.
(** Before: by seconds, then by microseconds. *)
Definition tlt (a b : timeval) : Prop := (sec a < sec b)%Z \/ sec a = sec b /\ (usec a < usec b)%Z.

(** The time an event is set to. *)
Fixpoint due (h : list out) (e : nat) : option timeval :=
  match h with
  | [] => None
  | Made x t :: h | Moved x t _ :: h => if x =? e then Some t else due h e
  | _ :: h => due h e
  end.
(** Whether an event is waiting: added and since then neither run nor removed. *)
Fixpoint waiting (h : list out) (e : nat) : bool :=
  match h with
  | [] => false
  | Added x _ :: h | Moved x _ Requeued :: h | Moved x _ Queued :: h => (x =? e) || waiting h e
  | Gone x true :: h | Ran x _ :: h => negb (x =? e) && waiting h e
  | _ :: h => waiting h e
  end.
(** When an event was last put in the queue; when the queue was last swept. *)
Fixpoint since (h : list out) (e : nat) : nat :=
  match h with
  | [] => 0
  | Added x _ :: h | Moved x _ Requeued :: h | Moved x _ Queued :: h => if x =? e then S (length h) else since h e
  | _ :: h => since h e
  end.
Fixpoint swept (h : list out) : nat :=
  match h with [] => 0 | Swept :: h => S (length h) | _ :: h => swept h end.
(** An event is ready if it waits since before the last dispatch ended. *)
Definition ready (h : list out) (e : nat) : Prop := waiting h e = true /\ since h e < swept h.
(** e comes before f: by time, then by the order in which they were put in the queue *)
Definition earlier (h : list out) (e f : nat) : Prop :=
  exists a b, due h e = Some a /\ due h f = Some b /\ (tlt a b \/ a = b /\ since h e < since h f).

(** A client that adds no event that is waiting or being run. *)
Definition fair (h : list out) : Prop := forall e, ~ In (Added e true) h.
(** What an event is involved in. *)
Definition about (o : out) (e : nat) : Prop :=
  match o with Made x _ | Added x _ | Gone x _ | Moved x _ _ | Ran x _ | Freed x => x = e | Swept => False end.

(** What each entry says of the history before it, for a fair client. *)
Definition sound (p : list out) (o : out) : Prop :=
  match o with
  | Ran e now =>
      ready p e /\ (forall f, ready p f -> f <> e -> earlier p e f)
  | Added e _ => waiting p e = false
  | Gone e was => was = waiting p e
  | Moved e _ In_place | Moved e _ Queued => waiting p e = false
  | Moved e _ Requeued => waiting p e = true
  | Freed e => waiting p e = false
  | Made e _ => waiting p e = false
  | Swept => True
  end.
(** The number of runs. *)
Fixpoint runs (d : list out) : nat := match d with [] => 0 | Ran _ _ :: d => S (runs d) | _ :: d => runs d end.
Fixpoint runs_of (e : nat) (d : list out) : nat :=
  match d with [] => 0 | Ran x _ :: d => (if x =? e then 1 else 0) + runs_of e d | _ :: d => runs_of e d end.
(** The clock readings at the runs, newest first. *)
Fixpoint times (d : list out) : list timeval := match d with [] => [] | Ran _ t :: d => t :: times d | _ :: d => times d end.
(** An event is there from its allocation until it is freed. *)
Fixpoint alive (h : list out) (e : nat) : bool :=
  match h with
  | [] => false
  | Made x _ :: h => (x =? e) || alive h e
  | Freed x :: h => negb (x =? e) && alive h e
  | _ :: h => alive h e
  end.
(** What a call leaves in the history. *)
Definition entry (a : act) (o : out) : Prop :=
  match a, o with
  | New e t, Made x u => x = e /\ u = t
  | Add e, Added x _ | Remove e, Gone x _ | Free e, Freed x => x = e
  | Update e t, Moved x u _ => x = e /\ u = t
  | _, _ => False
  end.
(** What a dispatch that runs these events leaves (newest first): for each the run, the
    calls of its callback, and then the event is queued again, or freed. *)
Inductive script (clock : nat -> timeval) (cbs : nat -> callback) : nat -> list nat -> list out -> Prop :=
| script_end k : script clock cbs k [] []
| script_run k e evs c o d :
    Forall2 entry (calls (cbs k)) (rev c) -> entry (if again (cbs k) then Add e else Free e) o ->
    script clock cbs (S k) evs d -> script clock cbs k (e :: evs) (d ++ o :: c ++ [Ran e (clock k)]).
