(** Model of src/utils/mtev_frrh.c (fixed-size random replacement hash): any number of get and set calls proceed by
    atomic steps in any order; a get's caller keeps the returned pointer until it says so.  Memory is a store of entries
    by address; the allocator hands out any address not in use.  Two kinds of freef: one that releases at once (free,
    the default) and one that waits for the calls in progress (as mtev_memory_safe_free does).
    Simplified: the counters' increments happen together with the access they count; keys and data are byte lists. *)
From Coq Require Import Arith NArith List Bool.
Import ListNotations.

(** mtev_frrh_entry_t with the data behind the key; mtev_frrh.h:40-45, mtev_frrh.c:129-131 *)
Record entry := Entry { ekey : list N; edata : list N }.

(** where a call is; [p] and [e] are addresses *)
Inductive call :=
| GLoad (k : list N)                                          (* mtev_frrh.c:107-109 *)
| GCmp (k : list N) (p : nat)                                 (* :112-117, with an entry *)
| GHold (k : list N) (p : option nat)                         (* :112-117 returned; the caller uses the pointer *)
| SLoad (k d : list N)                                        (* :122-125 *)
| STry (k d : list N) (prev : option nat)                     (* :126 *)
| SNew (k d : list N) (prev : option nat)                     (* :128-131 *)
| SCas (k d : list N) (prev : option nat) (e : nat)           (* :132 *)
| SFree (k d : list N) (prev : option nat)                    (* :133-134 *)
| SDrop (k d : list N) (prev : option nat) (e : nat)          (* :136, then :138 *)
| Over.                                                       (* the call has returned and its result is no longer used *)

(** ghost record of what happened, newest first; a call is named by its number *)
Inductive event :=
| EBegin (i : nat)
| ELoad (i : nat) (k : list N)                                (* the load of :109 *)
| EStore (i : nat) (k d : list N)                             (* the successful exchange of :132 *)
| EGot (i : nat) (k : list N) (r : option (list N))           (* mtev_frrh_get returns *)
| ESet (i : nat) (k d : list N) (ok : bool).                  (* mtev_frrh_set returns *)

(** mtev_frrh_t, mtev_frrh.c:36-46, with the memory, the entries waiting for release (with the calls they wait for), the
    calls, and two flags: an entry was read after its release; an entry was released that was not in use *)
Record sys := Sys {
  size : N; prob : N; map : nat -> option nat; access : N; hit : N;
  mem : nat -> option entry; retired : list (nat * list nat);
  calls : list call; log : list event; late_read : bool; bad_free : bool }.

Definition upd {A} (f : nat -> A) (p : nat) (v : A) : nat -> A := fun x => if Nat.eqb x p then v else f x.
Fixpoint set_nth {A} (i : nat) (v : A) (l : list A) : list A :=
  match l, i with
  | [], _ => []
  | _ :: r, O => v :: r
  | x :: r, S i => x :: set_nth i v r
  end.

(** mtev_frrh_alloc, mtev_frrh.c:64-87 (the map is zeroed by calloc; [f->prob = UINT_MAX - prob], :78) *)
Definition alloc (size prob : N) : sys :=
  Sys size (2 ^ 32 - 1 - prob) (fun _ => None) 0 0 (fun _ => None) [] [] [] false false.

(** mtev_frrh.c:107-108, 122-123: a uint32_t offset *)
Definition offset (hashf : list N -> N) (s : sys) (k : list N) : nat := N.to_nat (((hashf k mod 2 ^ 64) mod size s) mod 2 ^ 32).

(** memcmp of two equally long stretches is 0, mtev_frrh.c:114 *)
Fixpoint memeq (a b : list N) : bool :=
  match a, b with
  | [], [] => true
  | x :: a, y :: b => N.eqb x y && memeq a b
  | _, _ => false
  end.
(** mtev_frrh.c:113-114 *)
Definition key_matches (e : entry) (k : list N) : bool := Nat.eqb (length (ekey e)) (length k) && memeq (ekey e) k.

Definition is_over (c : call) : bool := match c with Over => true | _ => false end.
(** the calls in progress *)
Definition active (s : sys) : list nat :=
  filter (fun i => match nth_error (calls s) i with Some c => negb (is_over c) | None => false end) (seq 0 (length (calls s))).

(** call [i] moves on *)
Definition to (s : sys) (i : nat) (c : call) : sys :=
  Sys (size s) (prob s) (map s) (access s) (hit s) (mem s) (retired s) (set_nth i c (calls s)) (log s) (late_read s) (bad_free s).
(** ... with something worth recording *)
Definition note (s : sys) (e : event) : sys :=
  Sys (size s) (prob s) (map s) (access s) (hit s) (mem s) (retired s) (calls s) (e :: log s) (late_read s) (bad_free s).
Definition count_access (s : sys) : sys :=
  Sys (size s) (prob s) (map s) (access s + 1) (hit s) (mem s) (retired s) (calls s) (log s) (late_read s) (bad_free s).
Definition count_hit (s : sys) : sys :=
  Sys (size s) (prob s) (map s) (access s) (hit s + 1) (mem s) (retired s) (calls s) (log s) (late_read s) (bad_free s).
Definition set_map (s : sys) (o : nat) (p : nat) : sys :=
  Sys (size s) (prob s) (upd (map s) o (Some p)) (access s) (hit s) (mem s) (retired s) (calls s) (log s) (late_read s) (bad_free s).
Definition set_mem (s : sys) (p : nat) (v : option entry) : sys :=
  Sys (size s) (prob s) (map s) (access s) (hit s) (upd (mem s) p v) (retired s) (calls s) (log s) (late_read s) (bad_free s).
Definition set_retired (s : sys) (r : list (nat * list nat)) : sys :=
  Sys (size s) (prob s) (map s) (access s) (hit s) (mem s) r (calls s) (log s) (late_read s) (bad_free s).
Definition read_late (s : sys) : sys :=
  Sys (size s) (prob s) (map s) (access s) (hit s) (mem s) (retired s) (calls s) (log s) true (bad_free s).
Definition free_bad (s : sys) : sys :=
  Sys (size s) (prob s) (map s) (access s) (hit s) (mem s) (retired s) (calls s) (log s) (late_read s) true.

(** freef(p), mtev_frrh.c:133, 136; releasing NULL does nothing *)
Definition freef (deferred : bool) (s : sys) (p : option nat) : sys :=
  match p with
  | None => s
  | Some p =>
      match mem s p with
      | None => free_bad s
      | Some _ => if deferred then set_retired s ((p, active s) :: retired s) else set_mem s p None
      end
  end.
Definition opt_eqb (a b : option nat) : bool :=
  match a, b with None, None => true | Some a, Some b => Nat.eqb a b | _, _ => false end.

(** one step of call [i]; [ok] is what probf answers, [q] the address the allocator chooses *)
Definition go (hashf : list N -> N) (deferred : bool) (s : sys) (i : nat) (ok : bool) (q : nat) (c : call) : option sys :=
  match c with
  | GLoad k =>                                                                          (* mtev_frrh.c:109-112 *)
      let s := count_access (note s (ELoad i k)) in
      match map s (offset hashf s k) with
      | None => Some (note (to s i (GHold k None)) (EGot i k None))
      | Some p => Some (to s i (GCmp k p))
      end
  | GCmp k p =>                                                                         (* :113-117 *)
      match mem s p with
      | None => Some (read_late (to s i Over))
      | Some e => if key_matches e k
                  then Some (note (to (count_hit s) i (GHold k (Some p))) (EGot i k (Some (edata e))))
                  else Some (note (to s i (GHold k None)) (EGot i k None))
      end
  | GHold k p =>                                                                        (* the caller's last look *)
      match p with
      | None => Some (to s i Over)
      | Some p => match mem s p with None => Some (read_late (to s i Over)) | Some _ => Some (to s i Over) end
      end
  | SLoad k d => Some (to s i (STry k d (map s (offset hashf s k))))                     (* :125 *)
  | STry k d prev =>                                                                    (* :126 *)
      match prev with
      | None => Some (to s i (SNew k d prev))
      | Some p =>
          if N.eqb (prob s) 0 then Some (to s i (SNew k d prev))
          else match mem s p with
               | None => Some (read_late (to s i Over))
               | Some _ => if ok then Some (to s i (SNew k d prev)) else Some (note (to s i Over) (ESet i k d false))
               end
      end
  | SNew k d prev =>                                                                    (* :128-131 *)
      match mem s q with
      | Some _ => None
      | None => Some (to (set_mem s q (Some (Entry k d))) i (SCas k d prev q))
      end
  | SCas k d prev e =>                                                                  (* :132 *)
      let o := offset hashf s k in
      if opt_eqb (map s o) prev
      then Some (note (to (set_map s o e) i (SFree k d prev)) (EStore i k d))
      else Some (to s i (SDrop k d prev e))
  | SFree k d prev => Some (note (to (freef deferred s prev) i Over) (ESet i k d true))  (* :133-134 *)
  | SDrop k d prev e =>                                                                 (* :136-138 *)
      let s := freef deferred s (Some e) in
      match prev with
      | Some _ => Some (note (to s i Over) (ESet i k d false))
      | None => Some (to s i (SLoad k d))
      end
  | Over => None
  end.

Inductive choice :=
| Get (k : list N) | Set_ (k d : list N)                         (* a call begins *)
| Go (i : nat) (ok : bool) (q : nat)                             (* call [i] moves *)
| Reclaim (p : nat)                                              (* deferred release is carried out *)
| Adjust (p : N).                                                (* mtev_frrh_adjust_prob, mtev_frrh.c:89-92 *)

Definition begin (s : sys) (c : call) : sys :=
  Sys (size s) (prob s) (map s) (access s) (hit s) (mem s) (retired s) (calls s ++ [c]) (EBegin (length (calls s)) :: log s)
      (late_read s) (bad_free s).
Definition ended (s : sys) (i : nat) : bool := match nth_error (calls s) i with Some c => is_over c | None => true end.
(** release one entry whose waiting is over *)
Definition reclaim (s : sys) (p : nat) : option sys :=
  match find (fun r => Nat.eqb (fst r) p) (retired s) with
  | Some (_, l) => if forallb (ended s) l
                   then Some (set_mem (set_retired s (filter (fun r => negb (Nat.eqb (fst r) p)) (retired s))) p None)
                   else None
  | None => None
  end.
Definition step (hashf : list N -> N) (deferred : bool) (s : sys) (c : choice) : option sys :=
  match c with
  | Get k => Some (begin s (GLoad k))
  | Set_ k d => Some (begin s (SLoad k d))
  | Go i ok q => match nth_error (calls s) i with Some c => go hashf deferred s i ok q c | None => None end
  | Reclaim p => reclaim s p
  | Adjust p => Some (Sys (size s) (2 ^ 32 - 1 - p) (map s) (access s) (hit s) (mem s) (retired s) (calls s) (log s)
                          (late_read s) (bad_free s))
  end.
Fixpoint run (hashf : list N -> N) (deferred : bool) (s : sys) (cs : list choice) : option sys :=
  match cs with
  | [] => Some s
  | c :: cs => match step hashf deferred s c with Some s' => run hashf deferred s' cs | None => None end
  end.

(** ** Layout of one entry *)
(** MTEV_FRRH_DATA(e, keylen), mtev_frrh.h:45, for an entry at address [a] whose key is at [a + 4] *)
Definition frrh_data (a keylen : N) : N := N.land (a + 4 + keylen + 7) (2 ^ 64 - 1 - 7).
(** MTEV_FRRH_BASE_SIZE(0, keylen) + datasize, mtev_frrh.c:48, 128 *)
Definition entry_bytes (keylen datasize : N) : N := frrh_data 0 keylen - 0 + datasize.
