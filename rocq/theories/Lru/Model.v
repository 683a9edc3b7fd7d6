(** Model of src/utils/mtev_lru.c.
    Every public call runs under the cache's mutex, so a history of calls is a sequence.  The
    ck_hs hash set is taken as a finite map from key bytes to entries (mtev_lru.c:54-84: hash and
    comparison both use exactly key_len and the key bytes).  Entries live in a heap indexed by
    allocation number; freeing one empties its slot and a later access is [Bad]. *)
From Coq Require Import Arith NArith ZArith List Bool.
Import ListNotations.

Definition key := list N.
Definition value := N.

(** hs_lru_key_compare, mtev_lru.c:75-84 *)
Definition keyb (a b : key) : bool := if list_eq_dec N.eq_dec a b then true else false.

(** struct lru_entry, mtev_lru.c:16-21; [eval = None] is entry == NULL *)
Record entry := { ekey : key; eval : option value; eref : nat }.

(** calls of free_fn with the entry's value (mtev_lru.c:253) *)
Record freed := { f_id : nat; f_val : option value }.

(** struct mtev_lru, mtev_lru.c:23-32.  [queue] is lru_cache, head first. *)
Record lru := {
  max_entries : Z;
  table : list (key * nat);
  queue : list nat;
  lru_cache_size : Z;
  ents : nat -> option entry;
  next : nat;                       (* next allocation number *)
  log : list freed
}.

(** how a call may end *)
Inductive res (A : Type) :=
| Ok (a : A)
| Crash                             (* NULL dereference *)
| Bad                               (* use of freed or uninitialised memory *)
| Misuse.                           (* the client released a token it does not hold *)
Arguments Ok {A} a. Arguments Crash {A}. Arguments Bad {A}. Arguments Misuse {A}.

(** sequencing of calls that may fail; no code *)
Definition bind {A B} (m : res A) (f : A -> res B) : res B :=
  match m with Ok a => f a | Crash => Crash | Bad => Bad | Misuse => Misuse end.
Notation "'do' x <- m ; f" := (bind m (fun x => f)) (at level 200, x pattern, m at level 100, f at level 200).

(** ck_hs_get, ck_hs_remove, ck_hs_set as a finite map (mtev_lru.c:193,223,275) *)
Fixpoint t_get (t : list (key * nat)) (k : key) : option nat :=
  match t with
  | [] => None
  | (k', i) :: r => if keyb k' k then Some i else t_get r k
  end.
Definition t_del (t : list (key * nat)) (k : key) : list (key * nat) := filter (fun p => negb (keyb (fst p) k)) t.
Definition t_set (t : list (key * nat)) (k : key) (i : nat) : list (key * nat) := (k, i) :: t_del t k.

(** writing an entry *)
Definition upd (h : nat -> option entry) (i : nat) (v : option entry) : nat -> option entry :=
  fun j => if Nat.eqb j i then v else h j.

(** mtev_lru_create, mtev_lru.c:86-106 *)
Definition create (max : Z) : lru :=
  {| max_entries := max; table := []; queue := []; lru_cache_size := 0; ents := fun _ => None; next := 0; log := [] |}.

(** mtev_lru_release, mtev_lru.c:241-256, for a token that is not NULL *)
Definition release (c : lru) (i : nat) : res lru :=
  match ents c i with
  | None => Bad
  | Some e =>
      match eref e with
      | O => Bad
      | S O => Ok {| max_entries := max_entries c; table := table c; queue := queue c;
                     lru_cache_size := lru_cache_size c; ents := upd (ents c) i None; next := next c;
                     log := log c ++ [{| f_id := i; f_val := eval e |}] |}
      | S n => Ok {| max_entries := max_entries c; table := table c; queue := queue c;
                     lru_cache_size := lru_cache_size c;
                     ents := upd (ents c) i (Some {| ekey := ekey e; eval := eval e; eref := n |}); next := next c;
                     log := log c |}
      end
  end.

(** TAILQ_REMOVE of entry [i]; on an entry that is not linked it follows wild pointers *)
Definition tailq_remove (c : lru) (i : nat) : res lru :=
  if existsb (Nat.eqb i) (queue c)
  then Ok {| max_entries := max_entries c; table := table c; queue := filter (fun j => negb (Nat.eqb j i)) (queue c);
             lru_cache_size := lru_cache_size c; ents := ents c; next := next c; log := log c |}
  else Bad.

(** TAILQ_INSERT_HEAD (mtev_lru.c:164,176) *)
Definition tailq_push (c : lru) (i : nat) : lru :=
  {| max_entries := max_entries c; table := table c; queue := i :: queue c;
     lru_cache_size := lru_cache_size c; ents := ents c; next := next c; log := log c |}.

(** assignment to lru_cache_size *)
Definition with_size (c : lru) (s : Z) : lru :=
  {| max_entries := max_entries c; table := table c; queue := queue c;
     lru_cache_size := s; ents := ents c; next := next c; log := log c |}.

(** replacing the hash set's content *)
Definition with_table (c : lru) (t : list (key * nat)) : lru :=
  {| max_entries := max_entries c; table := t; queue := queue c;
     lru_cache_size := lru_cache_size c; ents := ents c; next := next c; log := log c |}.

(** TAILQ_LAST (mtev_lru.c:139) *)
Definition tailq_last (c : lru) : option nat := match rev (queue c) with [] => None | i :: _ => Some i end.

(** expire_oldest_lru_cache_no_lock, mtev_lru.c:135-155 (the periodic ck_hs_gc does not change
    the map and is left out) *)
Definition expire_oldest (c : lru) : res lru :=
  match tailq_last c with
  | None => Crash                                            (* :140 dereferences NULL *)
  | Some i =>
      match ents c i with
      | None => Bad
      | Some e =>
          do c1 <- tailq_remove c i;
          let c2 := with_size c1 (lru_cache_size c1 - 1) in
          let c3 := with_table c2 (t_del (table c2) (ekey e)) in
          release c3 i
      end
  end.

(** add_lru_cache_no_lock, mtev_lru.c:157-167 *)
Definition add_lru_cache (c : lru) (i : nat) : res lru :=
  do c1 <- (if (0 <? max_entries c)%Z then
              do c0 <- (if (max_entries c <? lru_cache_size c + 1)%Z then expire_oldest c else Ok c);
              Ok (tailq_push c0 i)
            else Ok c);
  Ok (with_size c1 (lru_cache_size c1 + 1)).

(** touch_lru_cache_no_lock, mtev_lru.c:169-178 *)
Definition touch (c : lru) (i : nat) : res lru :=
  if (0 <? max_entries c)%Z then do c1 <- tailq_remove c i; Ok (tailq_push c1 i) else Ok c.

(** mtev_lru_put, mtev_lru.c:181-206 *)
Definition put (c : lru) (k : key) (v : value) : res lru :=
  let i := next c in
  let c0 := {| max_entries := max_entries c; table := table c; queue := queue c;
               lru_cache_size := lru_cache_size c;
               ents := upd (ents c) i (Some {| ekey := k; eval := Some v; eref := 1 |});
               next := S i; log := log c |} in
  let previous := t_get (table c0) k in
  let c1 := with_table c0 (t_set (table c0) k i) in
  do c2 <- match previous with
           | None => Ok c1
           | Some p => do c' <- tailq_remove c1 p; release c' p            (* :199-201 *)
           end;
  add_lru_cache c2 i.

(** mtev_lru_get, mtev_lru.c:208-239: the token and *value *)
Definition get (c : lru) (k : key) : res (lru * option nat * option value) :=
  match t_get (table c) k with
  | None => Ok (c, None, None)
  | Some i =>
      do c1 <- touch c i;
      match ents c1 i with
      | None => Bad
      | Some e => Ok ({| max_entries := max_entries c1; table := table c1; queue := queue c1;
                         lru_cache_size := lru_cache_size c1;
                         ents := upd (ents c1) i (Some {| ekey := ekey e; eval := eval e; eref := S (eref e) |});
                         next := next c1; log := log c1 |}, Some i, eval e)
      end
  end.

(** mtev_lru_remove, mtev_lru.c:259-299 *)
Definition remove (c : lru) (k : key) : res (lru * option value) :=
  match t_get (table c) k with
  | None => Ok (c, None)
  | Some i =>
      let c0 := with_table c (t_del (table c) k) in
      do c1 <- (if (0 <? max_entries c)%Z then tailq_remove c0 i else Ok c0);
      let c2 := with_size c1 (lru_cache_size c1 - 1) in
      match ents c2 i with
      | None => Bad
      | Some e =>
          let c3 := {| max_entries := max_entries c2; table := table c2; queue := queue c2;
                       lru_cache_size := lru_cache_size c2;
                       ents := upd (ents c2) i (Some {| ekey := ekey e; eval := None; eref := eref e |});   (* :286 *)
                       next := next c2; log := log c2 |} in
          do c4 <- release c3 i;
          Ok (c4, eval e)
      end
  end.

(** mtev_lru_invalidate, mtev_lru.c:116-130: drain the queue ([qs] is its content), reset the map *)
Fixpoint drain (c : lru) (qs : list nat) : res lru :=
  match qs with
  | [] => Ok c
  | i :: r => do c1 <- tailq_remove c i; do c2 <- release c1 i; drain c2 r
  end.
Definition invalidate (c : lru) : res lru :=
  do c1 <- drain c (queue c);
  Ok (with_size (with_table c1 []) 0).

(** ** Histories: one call each, with the tokens the client holds ([held], a ghost) *)
Inductive op := Put (k : key) (v : value) | Get (k : key) | Release (tok : nat) | Remove (k : key) | Invalidate.
Inductive out := ONone | OGet (tok : option nat) (v : option value) | ORemoved (v : option value).

(** one call; mtev_lru.h:48-74 is the public interface *)
Definition step (s : lru * (nat -> nat)) (o : op) : res (lru * (nat -> nat) * out) :=
  let (c, held) := s in
  match o with
  | Put k v => do c' <- put c k v; Ok (c', held, ONone)
  | Get k => do (c', t, v) <- get c k;
             Ok (c', match t with None => held | Some i => fun j => if Nat.eqb j i then S (held i) else held j end, OGet t v)
  | Release i =>
      match held i with
      | O => Misuse
      | S n => do c' <- release c i; Ok (c', (fun j => if Nat.eqb j i then n else held j), ONone)
      end
  | Remove k => do (c', v) <- remove c k; Ok (c', held, ORemoved v)
  | Invalidate => do c' <- invalidate c; Ok (c', held, ONone)
  end.

(** a history *)
Fixpoint run (s : lru * (nat -> nat)) (ops : list op) : res (lru * (nat -> nat) * list out) :=
  match ops with
  | [] => Ok (s, [])
  | o :: r => do (s1, x) <- step s o; do (s2, xs) <- run s1 r; Ok (s2, x :: xs)
  end.
