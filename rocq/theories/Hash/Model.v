(** Model of src/utils/mtev_hash.c, a table of counted keys over Concurrency Kit's ck_hs.  Caller memory maps a pointer to
    the bytes readable there; NULL is 0.  ck_hs is its contract: a set of pointers with their hash values, whose lookups
    find an element with the same hash that compares equal; [ord] is the order in which it keeps them, which it may
    change at every modification.  XXH64 is a parameter.  [None] is a read outside caller memory or of a freed element.
    Calls are sequential; allocations succeed; klen is not negative and below 2^31; both allocators (malloc and
    mtev_memory) are one. *)
From Coq Require Import Arith NArith List Bool.
Import ListNotations.
Local Open Scope N_scope.

(** ck_hash_attr_t with its ck_key_t, mtev_hash.h:95-104: [alen] is key.len, [alabel] the bytes of key.label *)
Record attr := Attr { alen : N; alabel : list N; akp : N; adata : N }.

(** the four bytes of a uint32_t *)
Definition le32 (x : N) : list N := [x mod 256; x / 256 mod 256; x / 65536 mod 256; x / 16777216 mod 256].
(** the bytes of a ck_key_t, mtev_hash.h:95-98 *)
Definition key_bytes (len : N) (label : list N) : list N := le32 len ++ label.
(** memcmp of two stretches of the same length is 0 *)
Fixpoint memeq (a b : list N) : bool :=
  match a, b with
  | [], [] => true
  | x :: a, y :: b => N.eqb x y && memeq a b
  | _, _ => false
  end.
(** hs_hash, mtev_hash.c:55-63 *)
Definition hs_hash (xxh : list N -> N) (len : N) (label : list N) : N := xxh (firstn (N.to_nat len) (key_bytes len label)).
(** hs_compare, mtev_hash.c:65-76 *)
Definition hs_compare (len : N) (label : list N) (len' : N) (label' : list N) : bool :=
  if N.eqb len len' then memeq (firstn (N.to_nat len) (key_bytes len label)) (firstn (N.to_nat len) (key_bytes len' label'))
  else false.

(** what the caller's free functions were called with *)
Inductive fev := FKey (p : N) | FData (p : N).
(** mtev_hash_table: [ready] says hf is not NULL; [hs] holds hash values and elements by number; [um] is caller memory,
    [brk] the next address strdup returns *)
Record st := St { ready : bool; hs : list (N * nat); attrs : nat -> option attr; next : nat; um : N -> list N; brk : N }.
Definition empty (um : N -> list N) (brk : N) : st := St false [] (fun _ => None) 0 um brk.

Definition upd {A} (f : nat -> A) (p : nat) (v : A) : nat -> A := fun x => if Nat.eqb x p then v else f x.
Definition updN {A} (f : N -> A) (p : N) (v : A) : N -> A := fun x => if N.eqb x p then v else f x.

Inductive op :=
| New (p : N) (b : list N)                                     (* the caller fills memory at p *)
| Store (k klen d : N) | SetOp (k klen d : N) | Replace (k klen d : N) (kf df : bool)
| Retrieve (k klen : N) | Get (k klen : N) | Delete (k klen : N) (kf df : bool)
| DeleteAll (kf df : bool) | Size | Iterate.
Inductive result :=
| RUnit | RInt (r : N) | RSet (r : N) (old : option (N * N)) | RRet (r : N) (d : option N) | RPtr (p : N)
| RList (l : list (N * N * N)).

Section M.
Variable xxh : list N -> N.
Variable ord : list (N * nat) -> list (N * nat).

(** the elements of the set compared during a lookup are readable *)
Definition all_live (s : st) : bool := forallb (fun x => match attrs s (snd x) with Some _ => true | None => false end) (hs s).
(** does element [x] answer the search for a key of this length and label with this hash value *)
Definition answers (s : st) (hashv len : N) (label : list N) (x : N * nat) : bool :=
  N.eqb (fst x) hashv && match attrs s (snd x) with Some a => hs_compare (alen a) (alabel a) len label | None => false end.
(** ck_hs_get *)
Definition ck_find (s : st) (hashv len : N) (label : list N) : option nat :=
  option_map snd (find (answers s hashv len label) (hs s)).
Definition set_hs (s : st) (l : list (N * nat)) : st := St (ready s) (ord l) (attrs s) (next s) (um s) (brk s).
(** ck_hs_remove of element [p] *)
Definition ck_remove (s : st) (p : nat) : st := set_hs s (filter (fun x => negb (Nat.eqb (snd x) p)) (hs s)).
(** ck_hs_set replacing element [p] by [q] *)
Definition ck_replace (s : st) (p q : nat) : st :=
  set_hs s (map (fun x => if Nat.eqb (snd x) p then (fst x, q) else x) (hs s)).
Definition free_attr (s : st) (p : nat) : st := St (ready s) (hs s) (upd (attrs s) p None) (next s) (um s) (brk s).

(** lazy initialisation, mtev_hash.c:284-288 and alike *)
Definition touch (s : st) : st := St true (hs s) (attrs s) (next s) (um s) (brk s).
(** memcpy(label, k, klen), mtev_hash.c:296, 336, 388, 442 *)
Definition copy (s : st) (k klen : N) : option (list N) :=
  if N.of_nat (length (um s k)) <? klen then None else Some (firstn (N.to_nat klen) (um s k)).
(** a new element, mtev_hash.c:290-300, 330-340 *)
Definition new_attr (s : st) (k klen d : N) : option (st * nat * N * list N) :=
  match copy s k klen with
  | None => None
  | Some b =>
      let len := (klen + 4) mod 2 ^ 32 in
      Some (St (ready s) (hs s) (upd (attrs s) (next s) (Some (Attr len (b ++ [0]) k d))) (S (next s)) (um s) (brk s),
            next s, len, b ++ [0])
  end.

(** mtev_hash_store, mtev_hash.c:279-313 *)
Definition store (s : st) (k klen d : N) : option (st * N) :=
  let s := touch s in
  match new_attr s k klen d with
  | None => None
  | Some (s, a, len, label) =>
      let hashv := hs_hash xxh len label in
      if all_live s then
        match ck_find s hashv len label with
        | Some _ => Some (free_attr s a, 0)
        | None => Some (set_hs s ((hashv, a) :: hs s), 1)
        end
      else None
  end.

(** mtev_hash_set, mtev_hash.c:315-368; the old key and data are stored through the pointers only on replacement *)
Definition set_ (s : st) (k klen d : N) : option (st * N * option (N * N)) :=
  let s := touch s in
  match new_attr s k klen d with
  | None => None
  | Some (s, a, len, label) =>
      let hashv := hs_hash xxh len label in
      if all_live s then
        match ck_find s hashv len label with
        | Some p => match attrs s p with
                    | Some o => Some (free_attr (ck_replace s p a) p, 2, Some (akp o, adata o))
                    | None => None
                    end
        | None => Some (set_hs s ((hashv, a) :: hs s), 1, None)
        end
      else None
  end.

Definition fk (b : bool) (p : N) : list fev := if b then [FKey p] else [].
Definition fd (b : bool) (p : N) : list fev := if b then [FData p] else [].
(** mtev_hash_replace, mtev_hash.c:267-277 (MTEV_HASH_SUCCESS_REPLACEMENT is 2) *)
Definition replace (s : st) (k klen d : N) (kf df : bool) : option (st * N * list fev) :=
  match set_ s k klen d with
  | None => None
  | Some (s, r, old) =>
      if N.eqb r 2 then match old with Some (ok, od) => Some (s, r, fk kf ok ++ fd df od) | None => Some (s, r, fk kf 0 ++ fd df 0) end
      else Some (s, r, [])
  end.

(** the key built for a search, mtev_hash.c:387-391, 441-445: on the stack in 128 bytes or in memory of its own
    ([None]: the terminator would be stored outside); then the search itself *)
Definition search (s : st) (k klen : N) : option (option nat) :=
  match copy s k klen with
  | None => None
  | Some b =>
      let room := if 128 <=? klen then klen + 2 else 128 in
      if klen <? room then
        let len := (klen + 4) mod 2 ^ 32 in
        if all_live s then Some (ck_find s (hs_hash xxh len (b ++ [0])) len (b ++ [0])) else None
      else None
  end.
(** mtev_hash_retrieve, mtev_hash.c:370-408, the data stored through the pointer when found *)
Definition retrieve (s : st) (k klen : N) : option (st * N * option N) :=
  let s := touch s in
  match search s k klen with
  | None => None
  | Some None => Some (s, 0, None)
  | Some (Some p) => match attrs s p with Some a => Some (s, 1, Some (adata a)) | None => None end
  end.
(** mtev_hash_get, mtev_hash.c:409-413 *)
Definition get (s : st) (k klen : N) : option (st * N) :=
  match retrieve s k klen with
  | Some (s, 1, Some v) => Some (s, v)
  | Some (s, _, _) => Some (s, 0)
  | None => None
  end.
(** mtev_hash_delete, mtev_hash.c:423-465 *)
Definition delete (s : st) (k klen : N) (kf df : bool) : option (st * N * list fev) :=
  let s := touch s in
  match search s k klen with
  | None => None
  | Some None => Some (s, 0, [])
  | Some (Some p) =>
      match attrs s p with
      | Some a => Some (free_attr (ck_remove s p) p, 1, fk kf (akp a) ++ fd df (adata a))
      | None => None
      end
  end.
(** the loop of mtev_hash_delete_all, mtev_hash.c:481-492 *)
Fixpoint free_all (l : list (N * nat)) (s : st) (kf df : bool) : option (st * list fev) :=
  match l with
  | [] => Some (s, [])
  | (_, p) :: l =>
      match attrs s p with
      | None => None
      | Some a => match free_all l (free_attr s p) kf df with
                  | Some (s, ev) => Some (s, fk kf (akp a) ++ fd df (adata a) ++ ev)
                  | None => None
                  end
      end
  end.
(** mtev_hash_delete_all, mtev_hash.c:467-495 *)
Definition delete_all (s : st) (kf df : bool) : option (st * list fev) :=
  let s := touch s in
  match free_all (hs s) s kf df with
  | None => None
  | Some (s, ev) => Some (set_hs s [], ev)
  end.
(** mtev_hash_size, mtev_hash.c:258-265 *)
Definition size (s : st) : st * N := (touch s, N.of_nat (length (hs s))).
(** the sequence of _mtev_hash_next, mtev_hash.c:525-551; an uninitialised table yields nothing (:532-536) *)
Fixpoint entries (s : st) (l : list (N * nat)) : option (list (N * N * N)) :=
  match l with
  | [] => Some []
  | (_, p) :: l =>
      match attrs s p, entries s l with
      | Some a, Some r => Some ((akp a, (alen a - 4) mod 2 ^ 32, adata a) :: r)
      | _, _ => None
      end
  end.
Definition iterate (s : st) : option (list (N * N * N)) := if ready s then entries s (hs s) else Some [].

Definition step (s : st) (o : op) : option (st * result * list fev) :=
  match o with
  | New p b => Some (St (ready s) (hs s) (attrs s) (next s) (updN (um s) p b) (brk s), RUnit, [])
  | Store k klen d => match store s k klen d with Some (s, r) => Some (s, RInt r, []) | None => None end
  | SetOp k klen d => match set_ s k klen d with Some (s, r, old) => Some (s, RSet r old, []) | None => None end
  | Replace k klen d kf df => match replace s k klen d kf df with Some (s, r, ev) => Some (s, RInt r, ev) | None => None end
  | Retrieve k klen => match retrieve s k klen with Some (s, r, d) => Some (s, RRet r d, []) | None => None end
  | Get k klen => match get s k klen with Some (s, v) => Some (s, RPtr v, []) | None => None end
  | Delete k klen kf df => match delete s k klen kf df with Some (s, r, ev) => Some (s, RInt r, ev) | None => None end
  | DeleteAll kf df => match delete_all s kf df with Some (s, ev) => Some (s, RUnit, ev) | None => None end
  | Size => let (s, n) := size s in Some (s, RInt n, [])
  | Iterate => match iterate s with Some l => Some (s, RList l, []) | None => None end
  end.
Fixpoint run (s : st) (os : list op) : option (st * list (result * list fev)) :=
  match os with
  | [] => Some (s, [])
  | o :: os =>
      match step s o with
      | None => None
      | Some (s, r, ev) => match run s os with Some (s, l) => Some (s, (r, ev) :: l) | None => None end
      end
  end.

(** strdup: the bytes up to the first NUL, which must be there, at a new address *)
Fixpoint cstr (b : list N) : option (list N) :=
  match b with
  | [] => None
  | x :: b => if N.eqb x 0 then Some [] else option_map (cons x) (cstr b)
  end.
Definition strdup (s : st) (p : N) : option (st * N) :=
  match cstr (um s p) with
  | None => None
  | Some b => Some (St (ready s) (hs s) (attrs s) (next s) (updN (um s) (brk s) (b ++ [0])) (brk s + 1), brk s)
  end.
(** mtev_hash_merge_as_dict, mtev_hash.c:512-519, for what iterating the source yields *)
Fixpoint merge (s : st) (src : list (N * N * N)) : option (st * list fev) :=
  match src with
  | [] => Some (s, [])
  | (kp, klen, d) :: src =>
      match strdup s kp with
      | None => None
      | Some (s, k') =>
          match (if N.eqb d 0 then Some (s, 0) else strdup s d) with
          | None => None
          | Some (s, d') =>
              match replace s k' klen d' true true with
              | None => None
              | Some (s, _, ev) => match merge s src with Some (s, ev') => Some (s, ev ++ ev') | None => None end
              end
          end
      end
  end.
End M.
