(** Model of src/utils/mtev_lfu.c.
    The hash set, the heap of reference counted entries and the release of an entry are the same C
    text as in mtev_lru.c, so the model keeps them in an [lru] record of theories/Lru/Model.v (field
    [h]; its [queue] is unused here).  Frequency buckets have an identity ([bid], their address),
    the bucket list is a list of buckets, lowest frequency first.  [freq] is a size_t and is taken
    as unbounded.  Calls run under the cache's mutex, so a history of calls is a sequence. *)
From Coq Require Import Arith NArith ZArith List Bool.
From Verif.Lru Require Import Model.
Import ListNotations.

(** struct lfu_cache_entry, mtev_lfu.c:30-34 *)
Record bucket := { bid : nat; freq : nat; items : list nat }.

(** struct mtev_lfu, mtev_lfu.c:36-44; [fhead i] is frequency_list_head of entry i
    (mtev_lfu.c:26; None: NULL or never written), [nextb] numbers bucket allocations, [bfreed] logs
    the buckets passed to free *)
Record lfu := { h : lru; flist : list bucket; fhead : nat -> option nat; nextb : nat; bfreed : list nat }.

(** replacing components; no code *)
Definition set_h (c : lfu) (x : lru) : lfu := {| h := x; flist := flist c; fhead := fhead c; nextb := nextb c; bfreed := bfreed c |}.
Definition set_fl (c : lfu) (l : list bucket) : lfu := {| h := h c; flist := l; fhead := fhead c; nextb := nextb c; bfreed := bfreed c |}.
Definition set_head (c : lfu) (i : nat) (b : option nat) : lfu :=
  {| h := h c; flist := flist c; fhead := fun j => if Nat.eqb j i then b else fhead c j; nextb := nextb c; bfreed := bfreed c |}.
(** free(empty), mtev_lfu.c:212-214,332-334,436-438 *)
Definition free_b (c : lfu) (b : option nat) : lfu :=
  {| h := h c; flist := flist c; fhead := fhead c; nextb := nextb c;
     bfreed := match b with Some x => bfreed c ++ [x] | None => bfreed c end |}.

(** <sys/queue.h> on the bucket list (mtev_lfu.c:175,221,223,262,263) *)
Definition find_b (l : list bucket) (b : nat) : option bucket := find (fun x => Nat.eqb (bid x) b) l.
Fixpoint next_b (l : list bucket) (b : nat) : option bucket :=
  match l with [] => None | x :: r => if Nat.eqb (bid x) b then hd_error r else next_b r b end.
Fixpoint prev_b (l : list bucket) (b : nat) : option bucket :=
  match l with
  | x :: r => match r with y :: _ => if Nat.eqb (bid y) b then Some x else prev_b r b | [] => None end
  | [] => None
  end.
Definition del_b (l : list bucket) (b : nat) : list bucket := filter (fun x => negb (Nat.eqb (bid x) b)) l.
Fixpoint insert_after (l : list bucket) (p : nat) (nb : bucket) : list bucket :=
  match l with [] => [] | x :: r => if Nat.eqb (bid x) p then x :: nb :: r else x :: insert_after r p nb end.
Definition mod_b (l : list bucket) (b : nat) (f : bucket -> bucket) : list bucket :=
  map (fun x => if Nat.eqb (bid x) b then f x else x) l.
(** STAILQ_REMOVE and STAILQ_INSERT_TAIL on a bucket's items (mtev_lfu.c:171,252,286) *)
Definition del_item (i : nat) (x : bucket) : bucket := {| bid := bid x; freq := freq x; items := filter (fun j => negb (Nat.eqb j i)) (items x) |}.
Definition add_item (i : nat) (x : bucket) : bucket := {| bid := bid x; freq := freq x; items := items x ++ [i] |}.

(** mtev_lfu_create, mtev_lfu.c:98-118 *)
Definition lfu_create (max : Z) : lfu := {| h := create max; flist := []; fhead := fun _ => None; nextb := 0; bfreed := [] |}.

(** mtev_lfu_release_f, mtev_lfu.c:383-404, for a token that is not NULL *)
Definition lfu_release (c : lfu) (i : nat) : res lfu := do x <- release (h c) i; Ok (set_h c x).

(** remove_from_frequency_list_no_lock, mtev_lfu.c:167-182; also returns the bucket it emptied *)
Definition remove_from_list (c : lfu) (i : nat) : res (lfu * option nat) :=
  match fhead c i with
  | None => Bad
  | Some b =>
      match find_b (flist c) b with
      | None => Bad
      | Some x =>
          if existsb (Nat.eqb i) (items x) then
            match items (del_item i x) with
            | [] => Ok (set_head (set_fl c (del_b (flist c) b)) i None, Some b)
            | _ => Ok (set_head (set_fl c (mod_b (flist c) b (del_item i))) i None, None)
            end
          else Crash                                 (* STAILQ_REMOVE walks off the end *)
      end
  end.

(** expire_least_lfu_cache_no_lock, mtev_lfu.c:189-215 (ck_hs_gc left out) *)
Definition expire_least (c : lfu) : res lfu :=
  match flist c with
  | [] => Crash
  | e :: _ =>
      match items e with
      | [] => Crash
      | i :: _ =>
          do (c1, empty) <- remove_from_list c i;
          match ents (h c1) i with
          | None => Bad
          | Some en =>
              let h1 := with_size (h c1) (lru_cache_size (h c1) - 1) in
              let h2 := with_table h1 (t_del (table h1) (ekey en)) in
              do c2 <- lfu_release (set_h c1 h2) i;
              Ok (free_b c2 empty)
          end
      end
  end.

(** insert_to_bucket_list_after, mtev_lfu.c:217-225 *)
Definition insert_to_list_after (c : lfu) (b : bucket) (prior : option nat) : lfu :=
  match prior with
  | Some p =>
      if negb (match flist c with [] => true | _ => false end) && negb (Nat.eqb (bid b) p)
      then set_fl c (insert_after (flist c) p b)
      else set_fl c (b :: flist c)
  | None => set_fl c (b :: flist c)
  end.

(** new_frequency_bucket_no_lock, mtev_lfu.c:227-235 *)
Definition new_bucket (c : lfu) (f : nat) (prior : option nat) : lfu * nat :=
  let b := nextb c in
  let c1 := {| h := h c; flist := flist c; fhead := fhead c; nextb := S b; bfreed := bfreed c |} in
  (insert_to_list_after c1 {| bid := b; freq := f; items := [] |} prior, b).

(** mtev_lfu.c:251-252, 286-287 *)
Definition link_item (c : lfu) (b i : nat) : lfu := set_head (set_fl c (mod_b (flist c) b (add_item i))) i (Some b).

(** add_lfu_cache_no_lock, mtev_lfu.c:237-255 *)
Definition add_lfu_cache (c : lfu) (i : nat) : res lfu :=
  do c1 <- (if (0 <? max_entries (h c))%Z then
              do c0 <- (if (max_entries (h c) <? lru_cache_size (h c) + 1)%Z then expire_least c else Ok c);
              let (c1, b) :=
                match flist c0 with
                | [] => new_bucket c0 1 None
                | e :: _ => if Nat.ltb 1 (freq e) then new_bucket c0 1 None else (c0, bid e)
                end in
              Ok (link_item c1 b i)
            else Ok c);
  Ok (set_h c1 (with_size (h c1) (lru_cache_size (h c1) + 1))).

(** touch_lfu_cache_no_lock, mtev_lfu.c:257-289 *)
Definition lfu_touch (c : lfu) (i : nat) : res lfu :=
  if (0 <? max_entries (h c))%Z then
    match fhead c i with
    | None => Bad
    | Some b =>
        match find_b (flist c) b with
        | None => Bad
        | Some x =>
            let next_bucket := next_b (flist c) b in
            let prev_bucket := option_map bid (prev_b (flist c) b) in
            let bucket_freq := freq x in
            let need_new_bucket :=
              match next_bucket with
              | None => true
              | Some n => (match flist c with f :: _ => Nat.eqb (bid n) (bid f) | [] => false end)
                          || negb (Nat.eqb (freq n) (bucket_freq + 1))
              end in
            do (c1, empty) <- remove_from_list c i;
            let (c2, target) :=
              if need_new_bucket then
                match empty with
                | Some e => (insert_to_list_after c1 {| bid := e; freq := bucket_freq + 1; items := [] |} prev_bucket, e)
                | None => new_bucket c1 (bucket_freq + 1) (Some b)
                end
              else (c1, match next_bucket with Some n => bid n | None => 0 end) in
            Ok (link_item c2 target i)
        end
    end
  else Ok c.

(** mtev_lfu_put, mtev_lfu.c:292-341 (the temporary key only serves to compute the hash).
    The boolean is the return value. *)
Definition lfu_put (c : lfu) (k : key) (v : value) : res (lfu * bool) :=
  if (max_entries (h c) =? 0)%Z then Ok (c, false) else
  let i := next (h c) in
  let h0 := {| max_entries := max_entries (h c); table := table (h c); queue := queue (h c);
               lru_cache_size := lru_cache_size (h c);
               ents := upd (ents (h c)) i (Some {| ekey := k; eval := Some v; eref := 1 |});
               next := S i; log := log (h c) |} in
  let previous := t_get (table h0) k in
  let c1 := set_head (set_h c (with_table h0 (t_set (table h0) k i))) i None in
  do c2 <- match previous with
           | None => Ok c1
           | Some p =>
               do (c', empty) <- remove_from_list c1 p;
               do c'' <- lfu_release c' p;
               let c3 := free_b c'' empty in
               Ok (set_h c3 (with_size (h c3) (lru_cache_size (h c3) - 1)))
           end;
  do c4 <- add_lfu_cache c2 i;
  Ok (c4, true).

(** mtev_lfu_get, mtev_lfu.c:343-381: the token and *value afterwards ([old] before the call) *)
Definition lfu_get (c : lfu) (k : key) (old : option value) : res (lfu * option nat * option value) :=
  if (max_entries (h c) =? 0)%Z then Ok (c, None, old) else
  match t_get (table (h c)) k with
  | None => Ok (c, None, None)
  | Some i =>
      do c1 <- lfu_touch c i;
      match ents (h c1) i with
      | None => Bad
      | Some e =>
          let x := h c1 in
          Ok (set_h c1 {| max_entries := max_entries x; table := table x; queue := queue x;
                          lru_cache_size := lru_cache_size x;
                          ents := upd (ents x) i (Some {| ekey := ekey e; eval := eval e; eref := S (eref e) |});
                          next := next x; log := log x |}, Some i, eval e)
      end
  end.

(** mtev_lfu_remove, mtev_lfu.c:407-455 *)
Definition lfu_remove (c : lfu) (k : key) : res (lfu * option value) :=
  if (max_entries (h c) =? 0)%Z then Ok (c, None) else
  match t_get (table (h c)) k with
  | None => Ok (c, None)
  | Some i =>
      let c0 := set_h c (with_table (h c) (t_del (table (h c)) k)) in
      do c1 <- (if (0 <? max_entries (h c))%Z
                then do (c', empty) <- remove_from_list c0 i; Ok (free_b c' empty)
                else Ok c0);
      let h2 := with_size (h c1) (lru_cache_size (h c1) - 1) in
      match ents h2 i with
      | None => Bad
      | Some e =>
          let h3 := {| max_entries := max_entries h2; table := table h2; queue := queue h2;
                       lru_cache_size := lru_cache_size h2;
                       ents := upd (ents h2) i (Some {| ekey := ekey e; eval := None; eref := eref e |});
                       next := next h2; log := log h2 |} in
          do c4 <- lfu_release (set_h c1 h3) i;
          Ok (c4, eval e)
      end
  end.

(** mtev_lfu_invalidate, mtev_lfu.c:128-147: inner loop over one bucket, outer loop over buckets *)
Fixpoint drain_items (c : lfu) (l : list nat) : res lfu :=
  match l with [] => Ok c | i :: r => do c1 <- lfu_release c i; drain_items c1 r end.
Fixpoint drain_buckets (c : lfu) (l : list bucket) : res lfu :=
  match l with
  | [] => Ok (set_fl c [])
  | b :: r => do c1 <- drain_items c (items b); drain_buckets (free_b c1 (Some (bid b))) r
  end.
Definition lfu_invalidate (c : lfu) : res lfu :=
  do c1 <- drain_buckets c (flist c);
  Ok (set_h c1 (with_size (with_table (h c1) []) 0)).

(** mtev_lfu_size, mtev_lfu.c:457-461 *)
Definition lfu_size (c : lfu) : Z := lru_cache_size (h c).

(** one call of the public interface (mtev_lfu.h:49-147), with the tokens the client holds as a ghost *)
Definition lfu_step (s : lfu * (nat -> nat)) (o : op) : res (lfu * (nat -> nat) * out) :=
  let (c, held) := s in
  match o with
  | Put k v => do (c', _) <- lfu_put c k v; Ok (c', held, ONone)
  | Get k => do (c', t, v) <- lfu_get c k None;
             Ok (c', match t with None => held | Some i => fun j => if Nat.eqb j i then S (held i) else held j end, OGet t v)
  | Release i =>
      match held i with
      | O => Misuse
      | S n => do c' <- lfu_release c i; Ok (c', (fun j => if Nat.eqb j i then n else held j), ONone)
      end
  | Remove k => do (c', v) <- lfu_remove c k; Ok (c', held, ORemoved v)
  | Invalidate => do c' <- lfu_invalidate c; Ok (c', held, ONone)
  end.

(** a history *)
Fixpoint lfu_run (s : lfu * (nat -> nat)) (ops : list op) : res (lfu * (nat -> nat) * list out) :=
  match ops with
  | [] => Ok (s, [])
  | o :: r => do (s1, x) <- lfu_step s o; do (s2, xs) <- lfu_run s1 r; Ok (s2, x :: xs)
  end.
