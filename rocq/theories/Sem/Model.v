(** Model of the counting semaphore of src/utils/mtev_sem.c (built when sem_init does not work, :44-103): any number of
    post, wait and trywait calls proceed by atomic steps in any order.  The pthread mutex admits one holder; the
    condition variable wakes one chosen sleeper per signal if there is one, and sleepers may also wake for no reason. *)
From Coq Require Import Arith NArith List Bool.
Import ListNotations.

(** where a call is; mtev_sem.c:58-90 *)
Inductive call :=
| PLock | PSignal | PInc | PUnlock                 (* post: :59, :60, :61, :62 *)
| WLock | WTest | WUnlock | WSleep                 (* wait: :67 (and waking in :73), :69-70, :71, :73 asleep *)
| TLock | TTest | TUnlock (ok : bool).             (* trywait: :81, :82-83, :84 or :87 *)

(** does the call hold s->lock there *)
Definition holds (c : call) : bool :=
  match c with PSignal | PInc | PUnlock | WTest | WUnlock | TTest | TUnlock _ => true | _ => false end.

(** mtev_sem_t (mtev_sem.h:88-92) with the calls in progress; [posted], [taken], [refused] count executions of :61,
    of :70/:83 and of :87 *)
Record sys := Sys { value : N; calls : list call; posted : N; taken : N; refused : N }.
(** mtev_sem_init, mtev_sem.c:47-56: an int stored in an unsigned int *)
Definition init (v : N) : sys := Sys (v mod 2 ^ 32) [] 0 0 0.

Fixpoint set_nth {A} (i : nat) (v : A) (l : list A) : list A :=
  match l, i with
  | [], _ => []
  | _ :: r, O => v :: r
  | x :: r, S i => x :: set_nth i v r
  end.
Fixpoint remove_nth {A} (i : nat) (l : list A) : list A :=
  match l, i with
  | [], _ => []
  | _ :: r, O => r
  | x :: r, S i => x :: remove_nth i r
  end.
Definition sleeps (c : call) : bool := match c with WSleep => true | _ => false end.
(** the calls after call [i] moved to [c] *)
Definition to (s : sys) (i : nat) (c : call) : sys := Sys (value s) (set_nth i c (calls s)) (posted s) (taken s) (refused s).

(** a call begins, call [i] does its next step (when signalling, [w] is the sleeper woken), or a sleeper wakes up *)
Inductive choice := Post | Wait | Trywait | Go (i w : nat) | Spurious (w : nat).

(** pthread_mutex_lock: possible when nobody holds the lock *)
Definition lock (s : sys) (i : nat) (c : call) : option sys :=
  if existsb holds (calls s) then None else Some (to s i c).
(** pthread_cond_signal: wakes sleeper [w]; without sleepers nothing happens *)
Definition signal (s : sys) (i w : nat) : option sys :=
  if existsb sleeps (calls s) then
    match nth_error (calls s) w with
    | Some WSleep => Some (to (to s w WLock) i PInc)
    | _ => None
    end
  else Some (to s i PInc).
(** decrement of an unsigned int that is not 0, mtev_sem.c:70, 83 *)
Definition take (s : sys) (i : nat) (c : call) : sys :=
  Sys (value s - 1) (set_nth i c (calls s)) (posted s) (taken s + 1) (refused s).
(** return from a call *)
Definition leave (s : sys) (i : nat) : sys := Sys (value s) (remove_nth i (calls s)) (posted s) (taken s) (refused s).

(** mtev_sem.c:58-90 *)
Definition go (s : sys) (i w : nat) (c : call) : option sys :=
  match c with
  | PLock => lock s i PSignal
  | PSignal => signal s i w
  | PInc => Some (Sys ((value s + 1) mod 2 ^ 32) (set_nth i PUnlock (calls s)) (posted s + 1) (taken s) (refused s))
  | PUnlock => Some (leave s i)
  | WLock => lock s i WTest
  | WTest => if (0 <? value s)%N then Some (take s i WUnlock) else Some (to s i WSleep)
  | WUnlock => Some (leave s i)
  | WSleep => None
  | TLock => lock s i TTest
  | TTest => if (0 <? value s)%N then Some (take s i (TUnlock true))
             else Some (Sys (value s) (set_nth i (TUnlock false) (calls s)) (posted s) (taken s) (refused s + 1))
  | TUnlock _ => Some (leave s i)
  end.
Definition begin (s : sys) (c : call) : sys := Sys (value s) (calls s ++ [c]) (posted s) (taken s) (refused s).
Definition step (s : sys) (ch : choice) : option sys :=
  match ch with
  | Post => Some (begin s PLock)
  | Wait => Some (begin s WLock)
  | Trywait => Some (begin s TLock)
  | Go i w => match nth_error (calls s) i with Some c => go s i w c | None => None end
  | Spurious w => match nth_error (calls s) w with Some WSleep => Some (to s w WLock) | _ => None end
  end.
(** a schedule; impossible choices are skipped *)
Fixpoint run (s : sys) (cs : list choice) : sys :=
  match cs with [] => s | c :: r => run (match step s c with Some s' => s' | None => s end) r end.
