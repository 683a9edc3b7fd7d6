(** What users of a job queue rely on, in terms of the jobs put in, the jobs handed to workers and the
    jobs waiting. *)
From Coq Require Import Arith NArith List Bool.
From Verif.Jobq Require Import Model.
Import ListNotations.

(** ** Order *)
Definition job_eq_dec (a b : job) : {a = b} + {a <> b}.
Proof. decide equality; [apply N.eq_dec|apply bool_dec|apply Nat.eq_dec]. Defined.
(** the waiting line of one subqueue after a history (latest event first): a new job joins at the end, or
    at the front under LIFO; only the job at the front may be handed out.  [None]: the history is not possible *)
Fixpoint line (s : N) (h : list ev) : option (list job) :=
  match h with
  | [] => Some []
  | e :: r =>
      match line s r with
      | None => None
      | Some l =>
          match e with
          | Pushed j lf => if (sub j =? s)%N then Some (if lf then j :: l else l ++ [j]) else Some l
          | Popped j => if (sub j =? s)%N
                        then match l with x :: l' => if job_eq_dec x j then Some l' else None | [] => None end
                        else Some l
          end
      end
  end.

(** the jobs put in, handed out, oldest first *)
Fixpoint put_in (h : list ev) : list job :=
  match h with [] => [] | Pushed j _ :: r => put_in r ++ [j] | _ :: r => put_in r end.
Fixpoint handed_out (h : list ev) : list job :=
  match h with [] => [] | Popped j :: r => handed_out r ++ [j] | _ :: r => handed_out r end.
(** those of one subqueue *)
Definition of_sub (s : N) (l : list job) : list job := filter (fun j => (sub j =? s)%N) l.
(** the jobs in the queue, waiting for a worker *)
Definition waiting (s : sys) : list job := flat_map chain (ring (q s)).
(** the jobs waiting in one subqueue *)
Definition waiting_in (n : N) (s : sys) : list job := of_sub n (waiting s).

(** ** Restrictions on schedules *)
(** LIFO is switched off only while no job waits *)
Fixpoint switches_when_drained (s : sys) (cs : list choice) : Prop :=
  match cs with
  | [] => True
  | c :: r => (c = SetLifo false -> lifo (q s) = true -> waiting s = []) /\
              match step s c with Some s' => switches_when_drained s' r | None => True end
  end.
(** LIFO is never set *)
Definition fifo_only (cs : list choice) : Prop := Forall (fun c => c <> SetLifo true) cs.
(** the setting is not touched *)
Definition no_switch (cs : list choice) : Prop := Forall (fun c => match c with SetLifo _ => False | _ => True end) cs.
(** jobs enter by try_enqueue only *)
Definition try_only (cs : list choice) : Prop := Forall (fun c => match c with Enq _ _ => False | _ => True end) cs.
(** the threads that may call dequeue are fewer than 2^32-1 *)
Definition few_workers (w : N) : Prop := (w < 2 ^ 32 - 1)%N.

(** ** Backlog *)
(** real jobs accepted and not yet taken up by a worker: accepted but not in the queue yet, waiting, or
    leaving the queue *)
Definition accepted (p : pc) : list job := match p with EPush j => [j] | _ => [] end.
Definition leaving (p : pc) : list job := match p with DDec j => [j] | _ => [] end.
Definition not_started (s : sys) : nat :=
  length (filter fd (flat_map accepted (calls s) ++ waiting s ++ flat_map leaving (calls s))).

(** ** Fair shares *)
(** the jobs of a subqueue that workers have *)
Definition with_workers (n : N) (s : sys) : list job :=
  of_sub n (flat_map (fun p => match p with DDec j | Working j => [j] | _ => [] end) (calls s)).
(** the share of the workers each subqueue is entitled to, at least one *)
Definition share (s : sys) : N := N.max 1 (conc (q s) / N.of_nat (length (ring (q s)))).
