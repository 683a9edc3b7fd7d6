(** Model of src/eventer/eventer_jobq.c (enqueue, try_enqueue, dequeue, completion) as a transition
    system: any number of calls in progress, each step is one critical section of jobq->lock or
    consumer_lock, or one ck_pr access outside of them, in any order (sequential consistency).
    Simplified: the circular list of subqueues is a list starting at the fixed queue; the ck_hs of
    subqueues is a search of that list; subqueue_count does not wrap (fewer than 2^32 subqueues at once); jobq->concurrency and the default queue's inflight (written
    outside the lock) do not change during one scan; threads, timeouts, cancellation, statistics,
    the completion queue and shutdown are not modelled (shutdown_state = RUNNING). *)
From Coq Require Import Arith NArith List Bool.
Import ListNotations.

(** eventer_job_t, eventer_impl_private.h:97-117: address, whether fd_event is set, subqueue *)
Record job := { jid : nat; fd : bool; sub : N }.
(** eventer_jobsq_t, eventer_impl_private.h:119-125: [chain] are the jobs met from headq along
    next; [tail] is tailq *)
Record sq := { sid : N; infl : N; chain : list job; tail : option nat }.
(** the part of eventer_jobq_t used here, eventer_impl_private.h:127-172; [ring]: the fixed queue and
    its successors; [cur]: position of current_squeue; [tickets]: consumer_jobs *)
Record jq := { ring : list sq; count : N; cur : nat; conc : N; backlog : N; maxbl : N; lifo : bool; tickets : nat }.

(** 2^32, the range of uint32_t *)
Definition M32 : N := 4294967296.
(** ck_pr_inc_32, ck_pr_dec_32, eventer_jobq.c:543, 593, 598 *)
Definition inc32 (x : N) : N := ((x + 1) mod M32)%N.
Definition dec32 (x : N) : N := if (x =? 0)%N then (M32 - 1)%N else (x - 1)%N.

(** replace, drop the i-th element (no counterpart in /repo) *)
Fixpoint set_nth {A} (i : nat) (y : A) (l : list A) : list A :=
  match l, i with [], _ => [] | _ :: r, O => y :: r | x :: r, S i' => x :: set_nth i' y r end.
Fixpoint remove_nth {A} (i : nat) (l : list A) : list A :=
  match l, i with [], _ => [] | _ :: r, O => r | x :: r, S i' => x :: remove_nth i' r end.
(** position of a subqueue in the list: the ck_hs_get of eventer_jobq.c:170-172 *)
Fixpoint find_idx (s : N) (r : list sq) : option nat :=
  match r with [] => None | q :: r' => if (sid q =? s)%N then Some 0 else option_map S (find_idx s r') end.

(** eventer_jobq_get_sq_nolock, eventer_jobq.c:157-184: the queue with the subqueue in it, and its position *)
Definition get_sq (q : jq) (s : N) : jq * nat :=
  if (s =? 0)%N then (q, 0)                                                   (* :159 *)
  else match find_idx s (ring q) with
       | Some i => (q, i)                                                     (* :170-172 *)
       | None =>                                                              (* :173-182 *)
           ({| ring := match ring q with
                       | d :: r => d :: {| sid := s; infl := 0; chain := []; tail := None |} :: r
                       | [] => []
                       end;
               count := (count q + 1)%N;
               cur := if cur q =? 0 then 0 else S (cur q);
               conc := conc q; backlog := backlog q; maxbl := maxbl q; lifo := lifo q; tickets := tickets q |}, 1)
       end.

(** tailq->next = job, eventer_jobq.c:487: what follows the tail is no longer reached; nothing
    changes in the list from headq if the tail is not on it *)
Fixpoint append_after (t : nat) (l : list job) (j : job) : list job :=
  match l with [] => [] | x :: r => if jid x =? t then [x; j] else x :: append_after t r j end.

(** the insertion of eventer_jobq.c:481-494 *)
Definition sq_enq (lf : bool) (j : job) (q : sq) : sq :=
  if lf then {| sid := sid q; infl := infl q; chain := j :: chain q; tail := tail q |}            (* :482-483 *)
  else match tail q with
       | Some t => {| sid := sid q; infl := infl q; chain := append_after t (chain q) j; tail := Some (jid j) |}   (* :487-488 *)
       | None => {| sid := sid q; infl := infl q; chain := [j]; tail := Some (jid j) |}                            (* :492 *)
       end.

(** put a new list of subqueues into the queue (struct update) *)
Definition with_ring (q : jq) (r : list sq) : jq :=
  {| ring := r; count := count q; cur := cur q; conc := conc q; backlog := backlog q; maxbl := maxbl q; lifo := lifo q; tickets := tickets q |}.
Definition with_backlog (q : jq) (b : N) : jq :=
  {| ring := ring q; count := count q; cur := cur q; conc := conc q; backlog := b; maxbl := maxbl q; lifo := lifo q; tickets := tickets q |}.
Definition with_tickets (q : jq) (t : nat) : jq :=
  {| ring := ring q; count := count q; cur := cur q; conc := conc q; backlog := backlog q; maxbl := maxbl q; lifo := lifo q; tickets := t |}.
Definition with_conc (q : jq) (n : N) : jq :=
  {| ring := ring q; count := count q; cur := cur q; conc := n; backlog := backlog q; maxbl := maxbl q; lifo := lifo q; tickets := tickets q |}.
Definition with_lifo (q : jq) (b : bool) : jq :=
  {| ring := ring q; count := count q; cur := cur q; conc := conc q; backlog := backlog q; maxbl := maxbl q; lifo := b; tickets := tickets q |}.

(** the critical section of eventer_jobq_enqueue_internal, eventer_jobq.c:479-495; [None]: the
    subqueue is not there *)
Definition push (q : jq) (j : job) : option jq :=
  let (q', i) := get_sq q (sub j) in
  match nth_error (ring q') i with
  | Some x => Some (with_ring q' (set_nth i (sq_enq (lifo q') j x) (ring q')))
  | None => None
  end.

(** a new round begins, eventer_jobq.c:574-583: the number of the round, the target, whether the loop ends *)
Definition enter (cycles : nat) (t : N) : nat * N * bool :=
  let c := S cycles in
  let '(c, t) := if (c =? 1) && (t =? 0)%N then (2, 1%N) else (c, t) in
  if c =? 1 then (c, (t - 1)%N, false)
  else if c =? 2 then (c, t, false)
  else if c =? 3 then (c, (M32 - 1)%N, false)
  else (c, t, true).

(** the loop of __eventer_jobq_dequeue, eventer_jobq.c:571-592: position of the subqueue whose head is
    taken, and the new current_squeue.  [i]: current_squeue; three rounds at most, so [fuel] does not run out *)
Fixpoint scan (fuel : nat) (r : list sq) (concurrency cnt : N) (start i cycles : nat) (tgt : N) : option nat * nat :=
  match fuel with
  | O => (None, i)
  | S f =>
      let '(cycles, tgt, stop) :=
        if i =? start then enter cycles (concurrency / cnt)%N                 (* :573-584 *)
        else (cycles, tgt, false) in
      if stop then (None, i)
      else
        let nx := S i mod length r in                                         (* :591 *)
        match nth_error r i with
        | None => (None, i)
        | Some q =>
            if match chain q with [] => false | _ => true end && (infl q <? tgt)%N   (* :585 *)
            then (Some i, nx)
            else scan f r concurrency cnt start nx cycles tgt
        end
  end.

(** headq = headq->next, tailq = NULL at the end, inflight + 1, eventer_jobq.c:587-593 *)
Definition sq_deq (q : sq) : sq :=
  {| sid := sid q; infl := inc32 (infl q); chain := List.tl (chain q);
     tail := match List.tl (chain q) with [] => None | _ => tail q end |}.

(** the critical section of __eventer_jobq_dequeue, eventer_jobq.c:561-594 *)
Definition pop (q : jq) : option job * jq :=
  let (f, c) := scan (3 * length (ring q) + 1) (ring q) (conc q) (count q) (cur q) (cur q) 0 0 in
  let mk r := {| ring := r; count := count q; cur := c; conc := conc q; backlog := backlog q; maxbl := maxbl q; lifo := lifo q; tickets := tickets q |} in
  match f with
  | None => (None, mk (ring q))
  | Some i =>
      match nth_error (ring q) i with
      | Some x => match chain x with
                  | j :: _ => (Some j, mk (set_nth i (sq_deq x) (ring q)))
                  | [] => (None, mk (ring q))
                  end
      | None => (None, mk (ring q))
      end
  end.

(** inflight - 1 of the subqueue, eventer_jobq.c:192, 212 *)
Definition sq_dec (q : sq) : sq := {| sid := sid q; infl := dec32 (infl q); chain := chain q; tail := tail q |}.

(** mark_squeue_job_completed, eventer_jobq.c:186-214; [None]: job->squeue has been freed *)
Definition complete (q : jq) (j : job) : option jq :=
  match find_idx (sub j) (ring q) with
  | None => None
  | Some i =>
      match nth_error (ring q) i with
      | None => None
      | Some x =>
          let x' := sq_dec x in
          if (sub j =? 0)%N then Some (with_ring q (set_nth i x' (ring q)))     (* :211-213 *)
          else if (infl x' =? 0)%N && match chain x' with [] => true | _ => false end   (* :193 *)
          then Some {| ring := remove_nth i (ring q); count := (count q - 1)%N;          (* :197-203 *)
                       cur := if cur q =? i then i mod (length (ring q) - 1)            (* :205 *)
                              else if i <? cur q then cur q - 1 else cur q;
                       conc := conc q; backlog := backlog q; maxbl := maxbl q; lifo := lifo q; tickets := tickets q |}
          else Some (with_ring q (set_nth i x' (ring q)))
      end
  end.

(** Where a call stands: the next thing it does.
    [EInc] :525, :543; [ELoad] :518; [ECas] :523; [EPush] :479-495; [ENotify] :498;
    [DWait] :553-559 ([true]: waits, [false]: tries); [DPop] :561-594; [DDec] :598;
    [Working] the job is with the worker, until mark_squeue_job_completed (:863, :219) *)
Inductive pc :=
| EInc (j : job) | ELoad (j : job) | ECas (j : job) (bl : N) | EPush (j : job) | ENotify
| DWait (block : bool) | DPop | DDec (j : job) | Working (j : job).

(** what the history records: insertions with the setting in force, removals, both in the order of jobq->lock *)
Inductive ev := Pushed (j : job) (lf : bool) | Popped (j : job).

(** [fresh]: next unused job address; [workers]: number of consumer threads, each makes one call at a
    time; [hist]: latest first; [refused]: jobs for which try_enqueue returned false;
    [nulls]: dequeue calls that took a ticket and returned NULL *)
Record sys := { q : jq; calls : list pc; fresh : nat; workers : N; hist : list ev; refused : list job; nulls : nat }.

(** what happens next: a client calls eventer_jobq_enqueue or eventer_jobq_try_enqueue with a new job; a
    worker calls dequeue; eventer_jobq_set_lifo; the concurrency changes; the i-th call in progress takes
    a step; the trylock of the i-th call fails (:143, :155) *)
Inductive choice :=
| Enq (f : bool) (s : N) | TryEnq (f : bool) (s : N) | Deq (block : bool) | SetLifo (b : bool) | SetConc (n : N)
| Run (i : nat) | Miss (i : nat).

(** calls made by consumer threads (eventer_jobq_consumer, eventer_jobq.c:853-1040) *)
Definition consumer (p : pc) : bool := match p with DWait _ | DPop | DDec _ | Working _ => true | _ => false end.

(** a function of eventer_jobq.c:501-604 is entered *)
Definition start (s : sys) (p : pc) (fr : nat) : sys :=
  {| q := q s; calls := p :: calls s; fresh := fr; workers := workers s; hist := hist s; refused := refused s; nulls := nulls s |}.
(** the i-th call went on to [p], changing the queue, eventer_jobq.c:501-604 *)
Definition goto (s : sys) (i : nat) (q' : jq) (p : pc) (h : list ev) : sys :=
  {| q := q'; calls := set_nth i p (calls s); fresh := fresh s; workers := workers s; hist := h; refused := refused s; nulls := nulls s |}.
(** the i-th call is over, eventer_jobq.c:501-604 *)
Definition finish (s : sys) (i : nat) (q' : jq) (rf : list job) (n : nat) : sys :=
  {| q := q'; calls := remove_nth i (calls s); fresh := fresh s; workers := workers s; hist := hist s; refused := rf; nulls := n |}.

(** the queue changes and no call moves: eventer_jobq_set_lifo, eventer_jobq.c:1076-1079; changes of concurrency, :833, :838 *)
Definition set_q (s : sys) (q' : jq) : sys :=
  {| q := q'; calls := calls s; fresh := fresh s; workers := workers s; hist := hist s; refused := refused s; nulls := nulls s |}.

(** one step, eventer_jobq.c:112-214, 467-604; [None]: freed memory is used *)
Definition step (s : sys) (c : choice) : option sys :=
  match c with
  | Enq f sb =>                                                               (* :531-545 *)
      let j := {| jid := fresh s; fd := f; sub := sb |} in
      Some (if (conc (q s) =? 0)%N && negb f then s
            else start s (if f then EInc j else EPush j) (S (fresh s)))
  | TryEnq f sb =>                                                            (* :501-529 *)
      let j := {| jid := fresh s; fd := f; sub := sb |} in
      Some (if (conc (q s) =? 0)%N && negb f then s
            else start s (if f then if (maxbl (q s) =? 0)%N then EInc j else ELoad j else EPush j) (S (fresh s)))
  | Deq b =>                                                                  (* :547-550 *)
      Some (if (N.of_nat (length (filter consumer (calls s))) <? workers s)%N then start s (DWait b) (fresh s) else s)
  | SetLifo b => Some (set_q s (with_lifo (q s) b))
  | SetConc n => Some (set_q s (with_conc (q s) n))
  | Miss i =>
      match nth_error (calls s) i with
      | Some (DWait false) => Some (finish s i (q s) (refused s) (nulls s))   (* :557-559 *)
      | _ => Some s
      end
  | Run i =>
      match nth_error (calls s) i with
      | None => Some s
      | Some p =>
          match p with
          | EInc j => Some (goto s i (with_backlog (q s) (inc32 (backlog (q s)))) (EPush j) (hist s))   (* :525, :543 *)
          | ELoad j =>                                                         (* :518-522 *)
              if (maxbl (q s) <=? backlog (q s))%N then Some (finish s i (q s) (j :: refused s) (nulls s))
              else Some (goto s i (q s) (ECas j (backlog (q s))) (hist s))
          | ECas j bl =>                                                       (* :523 *)
              if (backlog (q s) =? bl)%N then Some (goto s i (with_backlog (q s) (inc32 bl)) (EPush j) (hist s))
              else Some (goto s i (q s) (ELoad j) (hist s))
          | EPush j =>                                                         (* :479-495 *)
              match push (q s) j with
              | Some q' => Some (goto s i q' ENotify (Pushed j (lifo (q s)) :: hist s))
              | None => None
              end
          | ENotify => Some (finish s i (with_tickets (q s) (S (tickets (q s)))) (refused s) (nulls s))   (* :116-119 *)
          | DWait b =>                                                         (* :130-139, :144-152 *)
              match tickets (q s) with
              | O => if b then Some s else Some (finish s i (q s) (refused s) (nulls s))
              | S t => Some (goto s i (with_tickets (q s) t) DPop (hist s))
              end
          | DPop =>                                                            (* :561-594 *)
              match pop (q s) with
              | (Some j, q') => Some (goto s i q' (if fd j then DDec j else Working j) (Popped j :: hist s))
              | (None, q') => Some (finish s i q' (refused s) (S (nulls s)))
              end
          | DDec j => Some (goto s i (with_backlog (q s) (dec32 (backlog (q s)))) (Working j) (hist s))   (* :598 *)
          | Working j =>                                                       (* :186-214 *)
              match complete (q s) j with
              | Some q' => Some (finish s i q' (refused s) (nulls s))
              | None => None
              end
          end
      end
  end.

(** right after eventer_jobq_create, eventer_jobq.c:267-391, with a setting and a number of workers *)
Definition init (c mb : N) (lf : bool) (w : N) : sys :=
  {| q := {| ring := [{| sid := 0; infl := 0; chain := []; tail := None |}]; count := 1; cur := 0; conc := c; backlog := 0;
             maxbl := mb; lifo := lf; tickets := 0 |};
     calls := []; fresh := 0; workers := w; hist := []; refused := []; nulls := 0 |}.
(** a schedule: any sequence of steps (eventer_jobq.c:112-214, 467-604) *)
Fixpoint run (s : sys) (cs : list choice) : option sys :=
  match cs with [] => Some s | c :: r => match step s c with Some s' => run s' r | None => None end end.
