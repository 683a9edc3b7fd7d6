(** Model of the timed events of one event loop (src/eventer/eventer_impl.c:102-114,
    1158-1296, src/mtev_defines.h:134-182). *)
From Coq Require Import ZArith Arith List Bool.
Import ListNotations.

(** struct timeval *)
Record timeval := mktv { sec : Z; usec : Z }.
(** mtev_defines.h:134-140 *)
Definition compare_timeval (a b : timeval) : Z :=
  if (sec a <? sec b)%Z then (-1)%Z
  else if (sec b <? sec a)%Z then 1%Z
  else if (usec a <? usec b)%Z then (-1)%Z
  else if (usec b <? usec a)%Z then 1%Z
  else 0%Z.
(** mtev_defines.h:142-155 *)
Definition sub_timeval (a b : timeval) : timeval :=
  let u := (usec a - usec b)%Z in
  let (s, u) := if (u <? 0)%Z then ((sec a - 1)%Z, (u + 1000000)%Z) else (sec a, u) in
  let s := (s - sec b)%Z in
  if (s <? 0)%Z then mktv (s + 1) (u - 1000000) else mktv s u.
(** mtev_defines.h:171-180 *)
Definition add_timeval (a b : timeval) : timeval :=
  let u := (usec a + usec b)%Z in
  if (1000000 <=? u)%Z then mktv (sec a + 1 + sec b) (u - 1000000) else mktv (sec a + sec b) u.
(** eventer_impl.c:102-114 eventer_timecompare *)
Definition timecompare (a b : timeval) : Z :=
  if (sec a <? sec b)%Z then (-1)%Z
  else if (sec a =? sec b)%Z && (usec a <? usec b)%Z then (-1)%Z
  else 1%Z.

(** what was done, for the statements *)
Inductive how := In_place | Requeued | Queued.
Inductive out :=
| Made (e : nat) (t : timeval)
| Added (e : nat) (odd : bool)
| Gone (e : nat) (was : bool)
| Moved (e : nat) (t : timeval) (h : how)
| Ran (e : nat) (now : timeval)
| Freed (e : nat)
| Swept.
(** eventer_impl.c:116-140 the lists of a loop; an event is a number; [current] is what
    eventer_get_this_event gives; [hist] is what was done, newest first *)
Record state := mkstate {
  whence : nat -> timeval; live : nat -> bool;
  timed : list nat; staged : list nat; current : option nat; hist : list out }.
(** eventer_impl.c:657-666 empty lists *)
Definition init : state := mkstate (fun _ => mktv 0 0) (fun _ => false) [] [] None [].

(** helpers: membership by pointer (the index, mtev_skiplist.c:356-368), assignment to a field, eventer_get_this_event() == e (eventer_impl.c:1197) *)
Definition has (e : nat) (l : list nat) : bool := existsb (Nat.eqb e) l.
Definition set {A} (f : nat -> A) (e : nat) (v : A) : nat -> A := fun x => if x =? e then v else f x.
Definition is (c : option nat) (e : nat) : bool := match c with Some x => x =? e | None => false end.
(** mtev_skiplist.c:297-372 mtev_skiplist_insert with eventer_timecompare; None: the
    event is in the index by pointer already, mtevAssert *)
Fixpoint place (w : nat -> timeval) (e : nat) (l : list nat) : list nat :=
  match l with
  | [] => [e]
  | x :: r => if (timecompare (w e) (w x) <? 0)%Z then e :: l else x :: place w e r
  end.
Definition insert (w : nat -> timeval) (e : nat) (l : list nat) : option (list nat) :=
  if has e l then None else Some (place w e l).
(** mtev_skiplist.c:419-438 mtev_skiplist_remove_compare with mtev_compare_voidptr *)
Fixpoint remove (e : nat) (l : list nat) : list nat :=
  match l with
  | [] => []
  | x :: r => if x =? e then r else x :: remove e r
  end.
(** None: an assertion, or the use of an event that was freed *)
Definition bind {A B} (o : option A) (f : A -> option B) : option B := match o with Some a => f a | None => None end.

(** ** Calls *)
(** the calls, see do below *)
Inductive act := New (e : nat) (t : timeval) | Add (e : nat) | Remove (e : nat) | Update (e : nat) (t : timeval) | Free (e : nat).
(** eventer_impl.c:1158-1178 eventer_add_timed *)
Definition add_timed (st : state) (e : nat) : option state :=
  if negb (live st e) then None else
  bind (insert (whence st) e (staged st)) (fun l =>
  Some (mkstate (whence st) (live st) (timed st) l (current st) (Added e (has e (timed st) || is (current st) e) :: hist st))).
(** eventer_impl.c:1179-1193 eventer_remove_timed *)
Definition remove_timed (st : state) (e : nat) : option state :=
  if negb (live st e) then None else
  if has e (timed st) then Some (mkstate (whence st) (live st) (remove e (timed st)) (staged st) (current st) (Gone e true :: hist st))
  else if has e (staged st) then Some (mkstate (whence st) (live st) (timed st) (remove e (staged st)) (current st) (Gone e true :: hist st))
  else Some (mkstate (whence st) (live st) (timed st) (staged st) (current st) (Gone e false :: hist st)).
(** eventer_impl.c:1194-1208 eventer_update_timed_internal *)
Definition update_timed (st : state) (e : nat) (t : timeval) : option state :=
  if negb (live st e) then None else
  if is (current st) e then Some (mkstate (set (whence st) e t) (live st) (timed st) (staged st) (current st) (Moved e t In_place :: hist st))
  else
    let w := set (whence st) e t in
    bind (insert w e (remove e (staged st))) (fun l =>
    Some (mkstate w (live st) (remove e (timed st)) l (current st)
            (Moved e t (if has e (timed st) || has e (staged st) then Requeued else Queued) :: hist st))).
(** eventer.c:205-229 eventer_free; None if the event is still in a list or running *)
Definition free (st : state) (e : nat) : option state :=
  if negb (live st e) || has e (timed st) || has e (staged st) || is (current st) e then None
  else Some (mkstate (whence st) (set (live st) e false) (timed st) (staged st) (current st) (Freed e :: hist st)).
(** eventer.c:181-188 eventer_alloc_timer: a pointer not in use *)
Definition alloc (st : state) (e : nat) (t : timeval) : option state :=
  if live st e then None
  else Some (mkstate (set (whence st) e t) (set (live st) e true) (timed st) (staged st) (current st) (Made e t :: hist st)).
(** the calls of eventer.h: 181 eventer_alloc_timer, eventer_add, eventer_remove, eventer.c:239-251 eventer_update_whence of a timer, eventer_free *)
Definition do (st : state) (a : act) : option state :=
  match a with
  | New e t => alloc st e t
  | Add e => add_timed st e
  | Remove e => remove_timed st e
  | Update e t => update_timed st e t
  | Free e => free st e
  end.
(** the calls of one callback in turn (eventer_impl.c:1262) *)
Fixpoint do_all (st : state) (l : list act) : option state :=
  match l with [] => Some st | a :: r => bind (do st a) (fun st => do_all st r) end.

(** ** The loop *)
(** what the callbacks do (eventer_impl.c:1262-1270): the calls they make, and whether their mask is not 0 *)
Record callback := mkcb { calls : list act; again : bool }.
(** eventer_impl.c:1240-1274 an event is popped and run *)
Definition fire (st : state) (e : nat) (r : list nat) (now : timeval) (cb : callback) : option state :=
  bind (do_all (mkstate (whence st) (live st) r (staged st) (Some e) (Ran e now :: hist st)) (calls cb)) (fun st =>
  let st := mkstate (whence st) (live st) (timed st) (staged st) None (hist st) in
  if again cb then add_timed st e else free st e).
(** eventer_impl.c:1226-1274 the loop; [clock] and [cbs] by the number of the turn; the
    time of the last turn, and the time to sleep if it was set *)
Fixpoint turns (n k : nat) (clock : nat -> timeval) (cbs : nat -> callback) (st : state) (now next : timeval) : option (state * timeval * timeval) :=
  match n with
  | O => Some (st, now, next)
  | S n =>
      let now := clock k in
      match timed st with
      | [] => Some (st, now, next)
      | e :: r =>
          if (compare_timeval (whence st e) now <? 0)%Z
          then bind (fire st e r now (cbs k)) (fun st => turns n (S k) clock cbs st now next)
          else Some (st, now, sub_timeval (whence st e) now)
      end
  end.
(** eventer_impl.c:1277-1282 *)
Fixpoint sweep (w : nat -> timeval) (l : list nat) (s : list nat) : option (list nat) :=
  match s with
  | [] => Some l
  | e :: r => bind (insert w e l) (fun l => sweep w l r)
  end.
(** eventer_impl.c:1209-1296 eventer_dispatch_timed *)
Definition dispatch (st : state) (clock : nat -> timeval) (cbs : nat -> callback) (max next : timeval) : option (state * timeval) :=
  let n := length (timed st) in
  bind (turns n 0 clock cbs st (clock 0) next) (fun r =>
  let '(st, now, next) := r in
  bind (match staged st with
        | [] => Some (st, next)
        | _ => bind (sweep (whence st) (timed st) (staged st)) (fun l =>
               let next := match l with
                           | [] => next
                           | e :: _ => let d := sub_timeval (whence st e) now in
                                       if (sec d <? 0)%Z || (usec d <? 0)%Z then mktv 0 0 else d
                           end in
               Some (mkstate (whence st) (live st) l [] (current st) (hist st), next))
        end) (fun r =>
  let '(st, next) := r in
  Some (mkstate (whence st) (live st) (timed st) (staged st) (current st) (Swept :: hist st),
        if (compare_timeval max next <? 0)%Z then max else next))).

(** ** Histories *)
(** calls from outside of callbacks, and turns of the loop (eventer_epoll_impl.c:490-496) *)
Inductive op := Do (a : act) | Dispatch (clock : nat -> timeval) (cbs : nat -> callback) (max next : timeval).
Definition step (st : state) (o : op) : option state :=
  match o with
  | Do a => do st a
  | Dispatch clock cbs max next => bind (dispatch st clock cbs max next) (fun r => Some (fst r))
  end.
Fixpoint run (st : state) (l : list op) : option state :=
  match l with [] => Some st | o :: r => bind (step st o) (fun st => run st r) end.
