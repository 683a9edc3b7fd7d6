(** Model of the free-space manager of src/utils/mtev_intern.c: the levels of free fragments, borrowing from
    a fragment, extending the pool, staging released fragments and compaction.  Whole calls run one after
    another; sizes and addresses are numbers.  The free-node records themselves (get_free_node,
    return_free_node, more_free_nodes, mtev_intern.c:228-249, 422-446) are values here: their slabs come from
    mappings of their own and never hold interned data. *)
From Coq Require Import Arith NArith ZArith List Bool.
Import ListNotations.
Local Open Scope N_scope.

(** ** Logarithms *)
(** mtev_intern.c:137-141 *)
Definition debruijn : list N :=
  [0; 9; 1; 10; 13; 21; 2; 29; 11; 14; 16; 18; 22; 25; 3; 30;
   8; 12; 20; 28; 15; 17; 24; 7; 19; 27; 23; 6; 26; 5; 4; 31].
(** conversion to uint32_t *)
Definition u32 (x : N) : N := x mod 2 ^ 32.
(** mtev_intern.c:143-151; the argument is converted to uint32_t *)
Definition fast_log2_rd (v : N) : N :=
  let v := u32 v in
  let v := N.lor v (N.shiftr v 1) in
  let v := N.lor v (N.shiftr v 2) in
  let v := N.lor v (N.shiftr v 4) in
  let v := N.lor v (N.shiftr v 8) in
  let v := N.lor v (N.shiftr v 16) in
  nth (N.to_nat (N.shiftr (u32 (v * 0x07C4ACDD)) 27)) debruijn 0.
(** mtev_intern.c:152-157: v*=2; v--; both modulo 2^32 *)
Definition fast_log2_ru (v : N) : N := fast_log2_rd (u32 (u32 (2 * u32 v) + (2 ^ 32 - 1))).

(** mtev_intern.c:168 with offsetof(v) = 8: header plus the length rounded up to four *)
Definition wrapped_size (l : N) : N := 8 + 4 * ((l + 3) / 4).
(** mtev_intern.c:125-126 *)
Definition SMALLEST_POWER : N := 2.
Definition SMALLEST_ALLOC : N := 4.

(** ** The pool *)
(** struct mtev_intern_free_node, mtev_intern.c:179-183, without its link *)
Record fnode := Fn { base : N; size : N }.
(** struct mtev_intern_free_list, mtev_intern.c:185-190; [frags] is the list hanging off head *)
Record flist := Fl { frags : list fnode; lsize : N; cnt : N }.
(** the allocator part of struct mtev_intern_pool, mtev_intern.c:192-223.  [extents] are the data extents
    (base, size), latest first. *)
Record pool := Pool {
  extent_size : N;
  extents : list fnode;
  slots : list flist;
  staged : list fnode;
  staged_cnt : N;
  staged_size : N;
  last_compact : N                        (* last_fragment_compact *)
}.

(** how a call may end; [Stuck] stands for a failed assertion or an index outside freeslots, [Waits] for
    "still looping when no further mapping is granted" *)
Inductive res (A : Type) := Ok (a : A) | Stuck | Waits.
Arguments Ok {A} a. Arguments Stuck {A}. Arguments Waits {A}.

(** mtev_intern.c:559-563: freeslots[0].lsize is 4, each next one twice as large *)
Fixpoint mk_slots (n : nat) (ls : N) : list flist :=
  match n with O => [] | S n => Fl [] ls 0 :: mk_slots n (2 * ls) end.
(** mtev_intern.c:534-571 with extent_size > 0 *)
Definition pool_new (es : N) : pool :=
  Pool es [] (mk_slots (N.to_nat (fast_log2_ru es - SMALLEST_POWER + 1)) SMALLEST_ALLOC) [] 0 0 0.

(** pool->nfreeslots *)
Definition nslots (p : pool) : N := N.of_nat (length (slots p)).
(** write back one level *)
Fixpoint upd (i : nat) (f : flist -> flist) (l : list flist) : list flist :=
  match l, i with
  | [], _ => []
  | x :: r, O => f x :: r
  | x :: r, S i => x :: upd i f r
  end.
(** pushing a node, popping the head *)
Definition push (n : fnode) (l : flist) : flist := Fl (n :: frags l) (lsize l) (cnt l + 1).
Definition popped (l : flist) : flist := Fl (tl (frags l)) (lsize l) (cnt l - 1).
(** the new size of the head, mtev_intern.c:314 *)
Definition shrink (len : N) (l : flist) : flist :=
  match frags l with
  | n :: r => Fl (Fn (base n) (size n - len) :: r) (lsize l) (cnt l)
  | [] => l
  end.
Definition with_slots (p : pool) (s : list flist) : pool :=
  Pool (extent_size p) (extents p) s (staged p) (staged_cnt p) (staged_size p) (last_compact p).

(** mtev_intern.c:251-265.  The index is log2 of the size cut to 32 bits, minus 2: negative (outside the
    array) when that logarithm is 0 or 1. *)
Definition replace_free_node (p : pool) (n : fnode) : res pool :=
  let lg := fast_log2_rd (size n) in
  if lg <? SMALLEST_POWER then Stuck
  else let idx := lg - SMALLEST_POWER in
       if nslots p =? 0 then Stuck
       else let idx := if nslots p <=? idx then nslots p - 1 else idx in
            Ok (with_slots p (upd (N.to_nat idx) (push n) (slots p))).

(** mtev_intern.c:267-286 *)
Definition stage_replace_free_node (p : pool) (n : fnode) : pool :=
  Pool (extent_size p) (extents p) (slots p) (n :: staged p) (staged_cnt p + 1) (staged_size p + size n)
       (last_compact p).

(** mtev_intern.c:291-360, no other thread in between: [Ok None] is a NULL result.  The bytes come from the
    end of the head fragment. *)
Definition borrow_free_node (p : pool) (i : nat) (len : N) : res (option N * pool) :=
  match nth_error (slots p) i with
  | None => Stuck
  | Some l =>
      match frags l with
      | [] => Ok (None, p)                                                      (* :299-302 *)
      | n :: _ =>
          if size n <? lsize l then Stuck                                       (* :303 *)
          else if len <=? 8 then Stuck                                          (* :304 *)
          else if negb (len mod 4 =? 0) then Stuck                              (* :305 *)
          else if lsize l + len <=? size n then                                 (* :312-319 *)
            Ok (Some (base n + size n - len), with_slots p (upd i (shrink len) (slots p)))
          else                                                                  (* :342-359 *)
            let p1 := with_slots p (upd i popped (slots p)) in
            if size n <? len then Stuck                                         (* :354 *)
            else let n' := Fn (base n) (size n - len) in
                 let rv := base n + size n - len in
                 if size n' =? 0 then Ok (Some rv, p1)
                 else match replace_free_node p1 n' with
                      | Ok p2 => Ok (Some rv, p2) | Stuck => Stuck | Waits => Waits
                      end
      end
  end.

(** mtev_intern.c:362-420 for a data extent and :648-653: map [extent_size] bytes at [b] (chosen by mmap)
    and insert one free fragment for them *)
Definition extend (p : pool) (b : N) : res pool :=
  let n := Fn b (extent_size p) in
  replace_free_node (Pool (extent_size p) (n :: extents p) (slots p) (staged p) (staged_cnt p) (staged_size p)
                          (last_compact p)) n.

(** ** Compaction *)
(** mtev_intern.c:1020-1027: the sign only; the third case asserts that the bases differ *)
Definition compare_free_node (l r : fnode) : Z := if base l <? base r then (-1)%Z else 0%Z.
(** mtev_merge_sort (mtev_intern.c:1097) as a function on lists: mtev_sort.c is modelled in Sort, and
    [C28_compaction_sort] shows that it computes this *)
Fixpoint insert (n : fnode) (l : list fnode) : list fnode :=
  match l with
  | [] => [n]
  | m :: r => if base n <? base m then n :: m :: r else m :: insert n r
  end.
Fixpoint sort (l : list fnode) : list fnode :=
  match l with [] => [] | n :: r => insert n (sort r) end.
(** the assertion of compare_free_node: two nodes with the same base are never compared; since the sort
    compares neighbours of the result, that is: no two are equal *)
Fixpoint distinct_sorted (l : list fnode) : bool :=
  match l with
  | n :: ((m :: _) as r) => negb (base n =? base m) && distinct_sorted r
  | _ => true
  end.
(** mtev_intern.c:1100-1111: [node] is merged with the following ones as long as they touch *)
Fixpoint collapse (node : fnode) (l : list fnode) : list fnode * N :=
  match l with
  | [] => ([node], 0)
  | m :: r =>
      if base node + size node =? base m
      then let '(o, c) := collapse (Fn (base node) (size node + size m)) r in (o, c + 1)
      else let '(o, c) := collapse m r in (node :: o, c)
  end.
Definition collapse_all (l : list fnode) : list fnode * N :=
  match l with [] => ([], 0) | n :: r => collapse n r end.
(** mtev_intern.c:1112-1118 *)
Fixpoint replace_all (p : pool) (l : list fnode) : res pool :=
  match l with
  | [] => Ok p
  | n :: r => match replace_free_node p n with Ok p' => replace_all p' r | Stuck => Stuck | Waits => Waits end
  end.
(** mtev_intern.c:1075-1086: the list is taken off, the count lowered by its length *)
Definition emptied (l : flist) : flist := Fl [] (lsize l) (cnt l - N.of_nat (length (frags l))).
(** sum of the sizes, mtev_intern.c:1050-1056 *)
Definition sizes (l : list fnode) : N := fold_right (fun n a => size n + a) 0 l.
(** mtev_intern.c:1037-1126; the result is the number of merges *)
Definition compact (p : pool) : res (N * pool) :=
  let all := staged p ++ flat_map frags (slots p) in
  let p1 := Pool (extent_size p) (extents p) (map emptied (slots p)) []
                 (staged_cnt p - N.of_nat (length (staged p))) (staged_size p - sizes (staged p))
                 (last_compact p) in
  let s := sort all in
  if negb (distinct_sorted s) then Stuck
  else let '(o, c) := collapse_all s in
       match replace_all p1 o with Ok p2 => Ok (c, p2) | Stuck => Stuck | Waits => Waits end.

(** mtev_intern.c:1161-1164 *)
Definition fragments (p : pool) : N := fold_right (fun l a => cnt l + a) 0 (slots p) + staged_cnt p.
(** mtev_intern.c:1147-1184, the lock being free and the caller outside the event loop ([asynch] = false), or
    inside it: then the work is done later by mtev_intern_pool_compact_asynch (:1128-1145) and -1 returned *)
Definition pool_compact (p : pool) (force : bool) : res (N * pool) :=
  let cur := fragments p in
  if negb force && (cur <? last_compact p + last_compact p / 2) then Ok (0, p)
  else match compact p with
       | Ok (c, q) => Ok (c, Pool (extent_size q) (extents q) (slots q) (staged q) (staged_cnt q) (staged_size q)
                                  (cur - c))
       | Stuck => Stuck | Waits => Waits
       end.

(** ** Allocation *)
(** mtev_intern.c:595-601: levels i, i+1, ... *)
Fixpoint try_levels (p : pool) (i : nat) (n : nat) (len : N) : res (option N * pool) :=
  match n with
  | O => Ok (None, p)
  | S n => match borrow_free_node p i len with
           | Ok (None, p') => try_levels p' (S i) n len
           | r => r
           end
  end.
Definition try_from (p : pool) (tgt : nat) (len : N) : res (option N * pool) :=
  try_levels p tgt (length (slots p) - tgt) len.
(** mtev_intern.c:612-624: "there is hope" *)
Definition hope (p : pool) (tgt : nat) (len : N) : bool :=
  let minsize := fold_right (fun l a => lsize l * cnt l + a) 0 (firstn tgt (slots p)) in
  (len <? minsize) && (sizes (extents p) / 2 <? minsize).
(** mtev_intern.c:582-656; [attempt] as in the code; [maps] are the addresses mmap returns, in turn.  With one
    thread nothing changes between two reads, so :607-610 and :637-639 are never taken and :647 always is. *)
Fixpoint find_loop (maps : list N) (attempt : N) (p : pool) (tgt : nat) (len : N) : res (option N * pool) :=
  let extend_and_go (p : pool) (attempt : N) :=
    match maps with
    | [] => Waits
    | b :: r => match extend p b with Ok p' => find_loop r attempt p' tgt len | Stuck => Stuck | Waits => Waits end
    end in
  match try_from p tgt len with
  | Ok (None, p1) =>
      if hope p1 tgt len && (attempt <? 2) then
        match compact p1 with
        | Ok (_, p2) =>
            match try_from p2 tgt len with
            | Ok (None, p3) => extend_and_go p3 2
            | r => r
            end
        | Stuck => Stuck | Waits => Waits
        end
      else extend_and_go p1 attempt
  | r => r
  end.
(** mtev_intern.c:574-657 *)
Definition pool_find (maps : list N) (p : pool) (len : N) : res (option N * pool) :=
  if extent_size p =? 0 then Stuck                                              (* :576 *)
  else if (extent_size p <? len) || (2 ^ 23 <? len) then Ok (None, p)           (* :577 *)
  else if fast_log2_ru len <? SMALLEST_POWER then Stuck
  else find_loop maps 1 p (N.to_nat (fast_log2_ru len - SMALLEST_POWER)) len.

(** ** Histories *)
(** what the users of a pool do to its space *)
Inductive op :=
| Alloc (len : N) (maps : list N)      (* intern a new item of [len] bytes, terminator included (:865-868) *)
| Free (a len : N)                     (* last release of the item of [len] bytes at [a] (:709-714) *)
| Compact (force : bool).              (* mtev_intern_pool_compact, also called at the end of a release *)

(** the pool and the items that are alive: (address, length) *)
Record state := St { pl : pool; live : list (N * N) }.
Definition init (es : N) : state := St (pool_new es) [].

(** forget one item *)
Fixpoint drop_item (a len : N) (l : list (N * N)) : option (list (N * N)) :=
  match l with
  | [] => None
  | (b, k) :: r => if (a =? b) && (len =? k) then Some r
                   else match drop_item a len r with Some r' => Some ((b, k) :: r') | None => None end
  end.
(** one operation; a [Free] of something that is not alive is not a legal use, and skipped.  An allocation
    that gets NULL fails an assertion in the caller (mtev_intern.c:871). *)
Definition step (s : state) (o : op) : res state :=
  match o with
  | Alloc len maps =>
      match pool_find maps (pl s) (wrapped_size len) with
      | Ok (Some a, p) => Ok (St p ((a, len) :: live s))
      | Ok (None, p) => Ok (St p (live s))
      | Stuck => Stuck | Waits => Waits
      end
  | Free a len =>
      match drop_item a len (live s) with
      | None => Ok s
      | Some l => Ok (St (stage_replace_free_node (pl s) (Fn a (wrapped_size len))) l)
      end
  | Compact force =>
      match pool_compact (pl s) force with Ok (_, p) => Ok (St p (live s)) | Stuck => Stuck | Waits => Waits end
  end.
Fixpoint run (s : state) (ops : list op) : res state :=
  match ops with
  | [] => Ok s
  | o :: r => match step s o with Ok s' => run s' r | Stuck => Stuck | Waits => Waits end
  end.

(** mtev_intern_pool_stats, mtev_intern.c:1186-1220: allocated and available_total (the latter walks at most
    32 levels) *)
Definition stat_allocated (p : pool) : N := sizes (extents p).
Definition stat_available (p : pool) : N :=
  staged_size p + fold_right (fun l a => sizes (frags l) + a) 0 (firstn 32 (slots p)).
(** and fragments_total (counts only levels whose list is non-empty) *)
Definition stat_fragments (p : pool) : N :=
  staged_cnt p + fold_right (fun l a => (match frags l with [] => 0 | _ => cnt l end) + a) 0 (firstn 32 (slots p)).
