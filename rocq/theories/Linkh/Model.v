(** Model of the containers of src/json-lib: the hash table with insertion
    order behind JSON objects (mtev_json_linkhash.c), the array behind JSON
    arrays (mtev_json_arraylist.c) and the text buffer (mtev_json_printbuf.c). *)
From Coq Require Import NArith ZArith List Bool.
Import ListNotations.

(** How a call ends: it returns, it never returns, or it dereferences NULL or
    memory that is not its own. *)
Inductive res (A : Type) := Done (a : A) | Hang | Bad.
Arguments Done {A} a.
Arguments Hang {A}.
Arguments Bad {A}.
Definition bind {A B} (x : res A) (f : A -> res B) : res B := (* one C statement after another *)
  match x with Done a => f a | Hang => Hang | Bad => Bad end.

(** * Hash table *)

(** A C string (mtev_json_object.c:291 strdup): its characters before the NUL. *)
Definition key := list N.
(** A value pointer; [None] is NULL, the JSON null. *)
Definition value := option N.

(** internal_linkhash.h:28-33 what is in the field k *)
Inductive mark := Empty | Freed | Key (k : key).

(** internal_linkhash.h:53-70 struct jl_lh_entry; next and prev are indices
    into the table *)
Record entry := mke { k : mark; v : value; next : option nat; prev : option nat }.

(** internal_linkhash.h:76-134 struct jl_lh_table; size is the length of
    [slots]. The statistics are left out. [released] lists what free_fn was
    called for. *)
Record table := mkt {
  slots : list entry;
  count : nat;
  head : option nat;
  tail : option nat;
  released : list (key * value) }.

(** internal_linkhash.h:23 *)
Definition LH_PRIME : N := 2654404609.

(** mtev_json_linkhash.c:42-50 jl_lh_char_hash; char is signed *)
Definition char_hash (s : key) : N :=
  fold_left (fun h c => (h * 129 + (if c <? 128 then c else 4294967040 + c) + LH_PRIME) mod 4294967296)%N s 0%N.

(** mtev_json_linkhash.c:52-55 jl_lh_char_equal *)
Definition char_equal (a b : key) : bool := if list_eq_dec N.eq_dec a b then true else false.

(** calloc and mtev_json_linkhash.c:75: an unused entry *)
Definition unused : entry := mke Empty None None None.
(** mtev_json_linkhash.c:57-77 jl_lh_table_new *)
Definition table_new (size : nat) : table := mkt (repeat unused size) 0 None None [].

(** An assignment to t->table[n] (mtev_json_linkhash.c:140-150, 191-205). *)
Fixpoint upd (l : list entry) (n : nat) (f : entry -> entry) : list entry :=
  match l, n with
  | [], _ => []
  | x :: l', 0 => f x :: l'
  | x :: l', S n' => x :: upd l' n' f
  end.
(** Assignments to one field of an entry (internal_linkhash.h:53-70). *)
Definition set_kv (m : mark) (x : value) (e : entry) : entry := mke m x (next e) (prev e).
Definition set_next (p : option nat) (e : entry) : entry := mke (k e) (v e) p (prev e). (* :65 *)
Definition set_prev (p : option nat) (e : entry) : entry := mke (k e) (v e) (next e) p. (* :69 *)

(** mtev_json_linkhash.c:137, 168: if(++n == size) n = 0; *)
Definition succ_slot (size n : nat) : nat := if Nat.eqb (S n) size then 0 else S n.

(** h % t->size (mtev_json_linkhash.c:131-132, 160-161) *)
Definition first_slot (hash : key -> N) (size : nat) (s : key) : nat := N.to_nat (hash s mod N.of_nat size).

(** mtev_json_linkhash.c:134-138: the entry an insertion takes, within fuel turns *)
Fixpoint find_free (fuel : nat) (l : list entry) (n : nat) : res nat :=
  match fuel with
  | 0 => Hang
  | S f =>
      match nth_error l n with
      | None => Bad
      | Some e =>
          match k e with
          | Empty | Freed => Done n
          | Key _ => find_free f l (succ_slot (length l) n)
          end
      end
  end.

(** mtev_json_linkhash.c:140-152: fill entry n and link it at the tail *)
Definition link (t : table) (n : nat) (s : key) (x : value) : res table :=
  let l := upd (slots t) n (set_kv (Key s) x) in
  match head t with
  | None =>
      Done (mkt (upd (upd l n (set_next None)) n (set_prev None)) (S (count t)) (Some n) (Some n) (released t))
  | Some h =>
      match tail t with
      | None => Bad
      | Some z =>
          let l := upd l z (set_next (Some n)) in
          let l := upd l n (set_prev (Some z)) in
          let l := upd l n (set_next None) in
          Done (mkt l (S (count t)) (Some h) (Some n) (released t))
      end
  end.

(** The entries of the linked list from n on, within fuel steps
    (mtev_json_linkhash.c:98-101, 114, internal_linkhash.h:150). *)
Fixpoint walk (fuel : nat) (l : list entry) (n : option nat) : res (list (key * value)) :=
  match n with
  | None => Done []
  | Some i =>
      match fuel with
      | 0 => Hang
      | S f =>
          match nth_error l i with
          | Some (mke (Key s) x nx _) => bind (walk f l nx) (fun r => Done ((s, x) :: r))
          | _ => Bad
          end
      end
  end.
(** jl_lh_foreach over the whole table (internal_linkhash.h:150-151) *)
Definition entries (t : table) : res (list (key * value)) := walk (S (length (slots t))) (slots t) (head t).

(** mtev_json_linkhash.c:98-101: insert all of them, in order *)
Fixpoint insert_all (ins : table -> key -> value -> res table) (t : table) (l : list (key * value)) : res table :=
  match l with
  | [] => Done t
  | (s, x) :: l' => bind (ins t s x) (fun t => insert_all ins t l')
  end.

(** mtev_json_linkhash.c:91-109 jl_lh_table_resize; ins is jl_lh_table_insert.
    count is not copied. *)
Definition table_resize (ins : table -> key -> value -> res table) (t : table) (size : nat) : res table :=
  bind (entries t) (fun l =>
  bind (insert_all ins (table_new size) l) (fun n =>
  Done (mkt (slots n) (count t) (head n) (tail n) (released t)))).

(** mtev_json_linkhash.c:129 t->count > t->size * 0.66; the product is no
    integer for the sizes 16, 32, ... *)
Definition crowded (t : table) : bool := Nat.ltb (66 * length (slots t)) (100 * count t).

(** mtev_json_linkhash.c:124-155 jl_lh_table_insert; it calls itself through
    resize, level bounds how deep *)
Fixpoint table_insert (level : nat) (hash : key -> N) (t : table) (s : key) (x : value) : res table :=
  match level with
  | 0 => Hang
  | S level' =>
      bind (if crowded t then table_resize (table_insert level' hash) t (2 * length (slots t)) else Done t) (fun t =>
      bind (find_free (length (slots t)) (slots t) (first_slot hash (length (slots t)) s)) (fun n =>
      link t n s x))
  end.
(** jl_lh_table_insert as called from outside *)
Definition insert := table_insert 3. (* mtev_json_linkhash.c:124 *)

(** mtev_json_linkhash.c:164-169: the search, within fuel turns *)
Fixpoint probe (fuel : nat) (l : list entry) (n : nat) (s : key) : res (option nat) :=
  match fuel with
  | 0 => Hang
  | S f =>
      match nth_error l n with
      | None => Bad
      | Some e =>
          match k e with
          | Empty => Done None
          | Freed => probe f l (succ_slot (length l) n) s
          | Key s' => if char_equal s' s then Done (Some n) else probe f l (succ_slot (length l) n) s
          end
      end
  end.
(** mtev_json_linkhash.c:158-170 jl_lh_table_lookup_entry. After [size] turns
    the search is back where it started, so it then never ends. *)
Definition lookup_entry (hash : key -> N) (t : table) (s : key) : res (option nat) :=
  probe (length (slots t)) (slots t) (first_slot hash (length (slots t)) s) s.

(** mtev_json_linkhash.c:173-178 jl_lh_table_lookup *)
Definition lookup (hash : key -> N) (t : table) (s : key) : res value :=
  bind (lookup_entry hash t s) (fun o =>
  match o with
  | None => Done None
  | Some n => match nth_error (slots t) n with Some e => Done (v e) | None => Bad end
  end).

(** t->table[n] or NULL dereferenced: p->field = ... (mtev_json_linkhash.c:196-203) *)
Definition at_ptr (l : list entry) (p : option nat) (f : entry -> entry) : res (list entry) :=
  match p with
  | None => Bad
  | Some n => if Nat.ltb n (length l) then Done (upd l n f) else Bad
  end.
Definition is_ptr (p : option nat) (n : nat) : bool := (* mtev_json_linkhash.c:193-199 comparisons with &t->table[n] *)
  match p with Some m => Nat.eqb m n | None => false end.

(** mtev_json_linkhash.c:181-207 jl_lh_table_delete_entry *)
Definition delete_entry (t : table) (n : nat) : res (Z * table) :=
  match nth_error (slots t) n with
  | None => Bad
  | Some (mke Empty _ _ _) | Some (mke Freed _ _ _) => Done ((-1)%Z, t)
  | Some (mke (Key s) x nx pv) =>
      let log := released t ++ [(s, x)] in
      let l := upd (slots t) n (set_kv Freed None) in
      let clear l := upd (upd l n (set_prev None)) n (set_next None) in
      if is_ptr (tail t) n && is_ptr (head t) n then
        Done (0%Z, mkt (clear l) (count t - 1) None None log)
      else if is_ptr (head t) n then
        bind (at_ptr l nx (set_prev None)) (fun l =>
        Done (0%Z, mkt (clear l) (count t - 1) nx (tail t) log))
      else if is_ptr (tail t) n then
        bind (at_ptr l pv (set_next None)) (fun l =>
        Done (0%Z, mkt (clear l) (count t - 1) (head t) pv log))
      else
        bind (at_ptr l pv (set_next nx)) (fun l =>
        bind (at_ptr l nx (set_prev pv)) (fun l =>
        Done (0%Z, mkt (clear l) (count t - 1) (head t) (tail t) log)))
  end.

(** mtev_json_linkhash.c:210-215 jl_lh_table_delete *)
Definition delete (hash : key -> N) (t : table) (s : key) : res (Z * table) :=
  bind (lookup_entry hash t s) (fun o =>
  match o with
  | None => Done ((-1)%Z, t)
  | Some n => delete_entry t n
  end).

(** mtev_json_linkhash.c:111-121 jl_lh_table_free: what is released in all *)
Definition table_free (t : table) : res (list (key * value)) :=
  bind (entries t) (fun l => Done (released t ++ l)).

(** * JSON objects *)

(** mtev_json_object.c:246-255 mtev_json_object_new_object,
    mtev_json_object.h:22 *)
Definition object_new : table := table_new 16.
(** mtev_json_object.c:287-292 mtev_json_object_object_add *)
Definition object_add (hash : key -> N) (t : table) (s : key) (x : value) : res table :=
  bind (delete hash t s) (fun r => insert hash (snd r) s x).
(** mtev_json_object.c:294-297 mtev_json_object_object_get *)
Definition object_get := lookup. (* mtev_json_object.c:296 *)
(** mtev_json_object.c:299-302 mtev_json_object_object_del *)
Definition object_del (hash : key -> N) (t : table) (s : key) : res table :=
  bind (delete hash t s) (fun r => Done (snd r)).

(** * Arrays *)

(** internal_arraylist.h:24-32 struct jl_array_list; size is the length of
    [cells]. [dropped] lists what free_fn was called for. *)
Record alist := mka { cells : list value; alength : Z; dropped : list N }.

(** mtev_json_arraylist.c:27-42 jl_array_list_new, internal_arraylist.h:19 *)
Definition array_new : alist := mka (repeat None 32) 0 [].

(** mtev_json_arraylist.c:54-59 jl_array_list_get_idx *)
Definition array_get (a : alist) (i : Z) : res value :=
  if (alength a <=? i)%Z then Done None
  else if (i <? 0)%Z then Bad
  else match nth_error (cells a) (Z.to_nat i) with Some x => Done x | None => Bad end.

(** mtev_json_arraylist.c:61-73 jl_array_list_expand_internal; realloc succeeds *)
Definition expand (a : alist) (max : Z) : alist :=
  let size := Z.of_nat (length (cells a)) in
  if (max <? size)%Z then a
  else mka (cells a ++ repeat None (Z.to_nat (Z.max (size * 2) max - size))) (alength a) (dropped a).

(** arr->array[i] = data (mtev_json_arraylist.c:80) *)
Fixpoint set_cell (l : list value) (n : nat) (x : value) : list value :=
  match l, n with
  | [], _ => []
  | _ :: l', 0 => x :: l'
  | y :: l', S n' => y :: set_cell l' n' x
  end.

(** mtev_json_arraylist.c:75-83 jl_array_list_put_idx; idx + 1 and the sizes
    stay below 2^31 *)
Definition array_put (a : alist) (i : Z) (x : value) : res alist :=
  let a := expand a (i + 1) in
  if (i <? 0)%Z then Bad
  else match nth_error (cells a) (Z.to_nat i) with
       | None => Bad
       | Some old =>
           Done (mka (set_cell (cells a) (Z.to_nat i) x)
                     (if (alength a <=? i)%Z then i + 1 else alength a)%Z
                     (dropped a ++ match old with Some p => [p] | None => [] end))
       end.
(** mtev_json_arraylist.c:85-89 jl_array_list_add *)
Definition array_add (a : alist) (x : value) : res alist := array_put a (alength a) x.
(** mtev_json_arraylist.c:44-52 jl_array_list_free: what is released in all *)
Definition array_free (a : alist) : list N :=
  dropped a ++ flat_map (fun x => match x with Some p => [p] | None => [] end)
                 (firstn (Z.to_nat (alength a)) (cells a)).

(** * Text buffers *)

(** internal_printbuf.h:26-30 struct jl_printbuf; size is the length of [buf].
    A byte that was never written is 256. *)
Record pbuf := mkp { buf : list N; bpos : nat }.
(** mtev_json_printbuf.c:32-45 jl_printbuf_new *)
Definition pb_new : pbuf := mkp (repeat 256%N 32) 0.

(** memcpy to buf + n (mtev_json_printbuf.c:62): within the buffer or not *)
Definition copy_to (l : list N) (n : nat) (s : list N) : res (list N) :=
  if Nat.leb (n + length s) (length l) then Done (firstn n l ++ s ++ skipn (n + length s) l) else Bad.

(** mtev_json_printbuf.c:52-61: room for size more and the NUL; the sizes stay
    below 2^31 *)
Definition grow (p : pbuf) (size : nat) : pbuf :=
  if Nat.leb (length (buf p) - bpos p) size then
    mkp (buf p ++ repeat 256%N (Nat.max (length (buf p) * 2) (bpos p + size + 8) - length (buf p))) (bpos p)
  else p.
(** mtev_json_printbuf.c:62-65 *)
Definition put (p : pbuf) (s : list N) : res pbuf :=
  bind (copy_to (buf p) (bpos p) s) (fun b =>
  bind (copy_to b (bpos p + length s) [0%N]) (fun b =>
  Done (mkp b (bpos p + length s)))).
(** mtev_json_printbuf.c:48-67 jl_printbuf_memappend *)
Definition memappend (p : pbuf) (s : list N) : res pbuf := put (grow p (length s)) s.
(** internal_printbuf.h:44-51 jl_printbuf_memappend_fast *)
Definition memappend_fast (p : pbuf) (s : list N) : res pbuf :=
  if Nat.ltb (length s) (length (buf p) - bpos p) then put p s else memappend p s.
(** mtev_json_printbuf.c:131-135 jl_printbuf_reset *)
Definition pb_reset (p : pbuf) : res pbuf :=
  bind (copy_to (buf p) 0 [0%N]) (fun b => Done (mkp b 0)).
