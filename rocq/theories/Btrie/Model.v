(** Model of src/utils/mtev_btrie.c.
    An address is its four uint32_t words in host order, the array ia[4] after ntohl
    (mtev_btrie.c:182-184,193-194); for IPv4 only the first word is set by the code, the other three
    are whatever the stack held and are an arbitrary part of the argument here.  Nodes are values
    and a pointer to a slot is a position in the recursion; prefix_len (unsigned char) is a nat, it
    never exceeds 128.  User data is a number, 0 is NULL. *)
From Coq Require Import Arith NArith List Bool.
Import ListNotations.

(** outcomes: [Crash] NULL dereference, [Bad] array overrun, [Abort] mtevAssert *)
Inductive res (A : Type) := Ok (a : A) | Crash | Bad | Abort.
Arguments Ok {A}. Arguments Crash {A}. Arguments Bad {A}. Arguments Abort {A}.

(** sequencing *)
Definition bind {A B} (x : res A) (f : A -> res B) : res B :=
  match x with Ok a => f a | Crash => Crash | Bad => Bad | Abort => Abort end.
Notation "'do' x <- e ; f" := (bind e (fun x => f)) (at level 200, x pattern, e at level 100, f at level 200).

(** MAXBITS, mtev_btrie.c:46 *)
Definition MAXBITS : nat := 128.

(** k[i] of an array of words (mtev_btrie.c:60) *)
Definition word (k : list N) (i : nat) : N := nth i k 0%N.

(** struct btrie_collapsed_node, mtev_btrie.c:49-58; [Nil] is the NULL pointer *)
Inductive tree := Nil | Nd (b0 b1 : tree) (data : N) (bits : list N) (plen : nat) (inc : bool).

(** BIT_AT, mtev_btrie.c:60 *)
Definition BIT_AT (k : list N) (b : nat) : bool :=
  N.eqb (N.land (N.shiftr (word k ((b - 1) / 32)) (N.of_nat (31 - (b - 1) mod 32))) 1) 1.

(** ~(0xffffffff >> n) on uint32_t, 0 <= n < 32 (mtev_btrie.c:90,305,318) *)
Definition topmask (n : nat) : N := N.lxor 0xffffffff (N.shiftr 0xffffffff (N.of_nat n)).

(** match_bpm, mtev_btrie.c:76-95: loop over i from the current word to m *)
Fixpoint match_words (bits key : list N) (match_len i left : nat) : bool :=
  match left with
  | O =>
      let mask := if Nat.eqb (match_len mod 32) 0 then 0xffffffff%N else topmask (match_len mod 32) in
      N.eqb (N.land (word bits i) mask) (N.land (word key i) mask)
  | S l => if N.eqb (word bits i) (word key i) then match_words bits key match_len (S i) l else false
  end.
Definition match_bpm (bits key : list N) (match_len : nat) : bool :=
  if Nat.leb match_len 0 then true else match_words bits key match_len 0 ((match_len - 1) / 32).

(** calc_bits_in_commons, mtev_btrie.c:97-122: the while loop of one word (it runs at most 32
    times, [fuel] is 33), then the loop over words *)
Fixpoint common_word (b k : N) (max : nat) (fuel : nat) (mask : N) (prefix_len : nat) : N * nat :=
  match fuel with
  | O => (mask, prefix_len)
  | S f =>
      if negb (N.eqb mask 0xffffffff) && Nat.ltb prefix_len max then
        let trymask := N.lor (N.shiftr mask 1) 0x80000000 in
        if N.eqb (N.land b trymask) (N.land k trymask)
        then common_word b k max f trymask (S prefix_len)
        else (mask, prefix_len)
      else (mask, prefix_len)
  end.
Fixpoint common_words (bits key : list N) (max i left prefix_len : nat) : nat :=
  match left with
  | O => prefix_len
  | S l =>
      let (mask, p) := common_word (word bits i) (word key i) max 33 0 prefix_len in
      if negb (N.eqb mask 0xffffffff) || Nat.leb max p then p else common_words bits key max (S i) l p
  end.
Definition calc_bits_in_commons (bits : list N) (nplen : nat) (key : list N) (match_len : nat) : nat :=
  common_words bits key (if Nat.ltb nplen match_len then match_len else nplen) 0 4 0.

(** the walk of find_bpm_route, mtev_btrie.c:156-172: the nodes visited, root first, and [exact] *)
Fixpoint walk (t : tree) (key : list N) (prefix_len : nat) : list tree * bool :=
  match t with
  | Nil => ([], false)
  | Nd b0 b1 _ bits plen _ =>
      if Nat.leb plen prefix_len && match_bpm bits key plen then
        if Nat.eqb plen prefix_len then ([t], true)
        else let (s, e) := walk (if BIT_AT key (plen + 1) then b1 else b0) key prefix_len in (t :: s, e)
      else ([], false)
  end.

(** incidental == 1 *)
Definition incidental (t : tree) : bool := match t with Nil => false | Nd _ _ _ _ _ i => i end.

(** mtev_btrie.c:174: pop incidental nodes, but never the first; [s] is the stack, top first *)
Fixpoint unwind (s : list tree) : list tree :=
  match s with x :: ((_ :: _) as r) => if incidental x then unwind r else s | _ => s end.

(** find_bpm_route, mtev_btrie.c:150-178, for explicit_container; pstack has MAXBITS elements
    (:154,166) *)
Definition find_bpm_route (t : tree) (key : list N) (prefix_len : nat) : res (option tree) :=
  let s := fst (walk t key prefix_len) in
  if Nat.ltb MAXBITS (length s) then Bad else Ok (hd_error (unwind (rev s))).

(** mtev_btrie_find_bpm_route_ipv4/_ipv6, mtev_btrie.c:179-199: the returned data and *pl (None:
    not written) *)
Definition lookup (t : tree) (a : list N) (prefix_len : nat) : res (N * option nat) :=
  do n <- find_bpm_route t a prefix_len;
  Ok (match n with Some (Nd _ _ d _ pl _) => (d, Some pl) | _ => (0%N, None) end).
Definition find_ipv4 (t : tree) (a : list N) : res (N * option nat) := lookup t a 32.
Definition find_ipv6 (t : tree) (a : list N) : res (N * option nat) := lookup t a 128.

(** calloc and the initialisation of a node, mtev_btrie.c:237-240,252-255 *)
Definition new_bits (key : list N) (prefix_len : nat) : list N :=
  let n := (prefix_len + 31) / 32 in map (word key) (seq 0 n) ++ repeat 0%N (4 - n).
Definition new_node (key : list N) (prefix_len : nat) (data : N) : tree :=
  Nd Nil Nil data (new_bits key prefix_len) prefix_len false.

(** node->bit[b] = down on a node without children (mtev_btrie.c:278,292,293) *)
Definition set_bit (t : tree) (b : bool) (c : tree) : tree :=
  match t with Nil => Nil | Nd b0 b1 d k p i => if b then Nd b0 c d k p i else Nd c b1 d k p i end.

(** mtev_btrie.c:264-297: put the new node above or beside [down]; [parent] is the prefix_len of
    the parent, if any *)
Definition split (down : tree) (parent : option nat) (key : list N) (prefix_len : nat) (data : N) : res tree :=
  match down with
  | Nil => Crash
  | Nd _ _ _ dbits dplen _ =>
      let newnode := new_node key prefix_len data in
      let nbits := new_bits key prefix_len in
      let c := calc_bits_in_commons dbits dplen key prefix_len in
      let bits_in_common := if Nat.ltb prefix_len c then prefix_len else c in
      if (match parent with Some p => Nat.ltb p prefix_len | None => true end) then         (* :268 *)
        if Nat.eqb prefix_len bits_in_common then
          if (match parent with Some p => Bool.eqb (BIT_AT nbits (p + 1)) (BIT_AT dbits (p + 1)) | None => true end)  (* :277 *)
          then Ok (set_bit newnode (BIT_AT dbits (prefix_len + 1)) down)
          else Abort
        else
          let node := Nd Nil Nil 0%N nbits bits_in_common true in
          if negb (Bool.eqb (BIT_AT dbits (bits_in_common + 1)) (BIT_AT nbits (bits_in_common + 1)))       (* :290 *)
          then Ok (set_bit (set_bit node (BIT_AT dbits (bits_in_common + 1)) down) (BIT_AT nbits (bits_in_common + 1)) newnode)
          else Abort
      else Abort
  end.

(** mtev_btrie_add_route, mtev_btrie.c:236-298, from the slot reached so far.  The code stores the
    result of the split at parent->bit[BIT_AT(new bits, parent->prefix_len + 1)] (:260,280,295); the
    recursion stores it at the slot it came from, which is selected by the same bit of key. *)
Fixpoint add_at (t : tree) (parent : option nat) (key : list N) (prefix_len : nat) (data : N) : res tree :=
  match t with
  | Nil => Ok (new_node key prefix_len data)                                                (* :236-244, 259-263 *)
  | Nd b0 b1 d bits plen i =>
      if Nat.leb plen prefix_len && match_bpm bits key plen then
        if Nat.eqb plen prefix_len then Ok (Nd b0 b1 data bits plen false)                  (* :245-250 *)
        else if BIT_AT key (plen + 1)
             then do c <- add_at b1 (Some plen) key prefix_len data; Ok (Nd b0 c d bits plen i)
             else do c <- add_at b0 (Some plen) key prefix_len data; Ok (Nd c b1 d bits plen i)
      else split t parent key prefix_len data
  end.
Definition add_route (t : tree) (key : list N) (prefix_len : nat) (data : N) : res tree :=
  if Nat.leb prefix_len MAXBITS then
    if Nat.ltb MAXBITS (length (fst (walk t key prefix_len))) then Bad else add_at t None key prefix_len data
  else Abort.

(** mtev_btrie_add_route_ipv4, mtev_btrie.c:300-308 *)
Definition add_ipv4 (t : tree) (a : list N) (prefix_len : nat) (data : N) : res tree :=
  if Nat.leb prefix_len 32 then
    let mask := if Nat.eqb prefix_len 32 then 0xffffffff%N else topmask prefix_len in
    add_route t [N.land (word a 0) mask; word a 1; word a 2; word a 3] prefix_len data
  else Abort.

(** mtev_btrie_add_route_ipv6, mtev_btrie.c:309-323; splen < 0 is [32 * i > prefix_len] *)
Definition mask6 (prefix_len i : nat) : N :=
  if Nat.leb (32 * i) prefix_len then
    (if Nat.leb 32 (prefix_len - 32 * i) then 0xffffffff%N else topmask (prefix_len - 32 * i))
  else 0%N.
Definition add_ipv6 (t : tree) (a : list N) (prefix_len : nat) (data : N) : res tree :=
  let ia := map (fun i => N.land (word a i) (mask6 prefix_len i)) [0; 1; 2; 3] in
  if Nat.leb prefix_len 128 then add_route t ia prefix_len data else Abort.

(** f(node->data) if both are set (mtev_btrie.c:66,133); the calls of f are collected in a list *)
Definition call_f (d : N) : list N := if N.eqb d 0 then [] else [d].

(** del_route, mtev_btrie.c:124-149, from the slot reached so far; [root] says that parent is NULL.
    Returns the new content of the slot, the return value and the calls of f (the node dropped at
    :141 has neither children nor data). *)
Fixpoint del_at (t : tree) (root : bool) (key : list N) (prefix_len : nat) : res (tree * bool * list N) :=
  match t with
  | Nil => Ok (Nil, false, [])
  | Nd b0 b1 d bits plen i =>
      if Nat.leb plen prefix_len && match_bpm bits key plen then
        if Nat.eqb plen prefix_len then
          match b0, b1 with
          | Nd _ _ _ _ _ _, Nd _ _ _ _ _ _ => Ok (Nd b0 b1 0%N bits plen true, true, call_f d)
          | _, _ => if root then Crash                                                      (* :138 *)
                    else Ok (match b0 with Nil => b1 | _ => b0 end, true, call_f d)
          end
        else if BIT_AT key (plen + 1)
             then do (c, r, l) <- del_at b1 false key prefix_len; Ok (Nd b0 c d bits plen i, r, l)
             else do (c, r, l) <- del_at b0 false key prefix_len; Ok (Nd c b1 d bits plen i, r, l)
      else Ok (t, false, [])
  end.

(** mtev_btrie_del_route_ipv4/_ipv6, mtev_btrie.c:201-215 (same code for both families) *)
Definition del_route (t : tree) (a : list N) (prefix_len : nat) : res (tree * bool * list N) := del_at t true a prefix_len.

(** drop_node with f, mtev_btrie.c:62-75: the calls of f *)
Fixpoint drop_node (t : tree) : list N :=
  match t with Nil => [] | Nd b0 b1 d _ _ _ => drop_node b0 ++ drop_node b1 ++ call_f d end.

(** ** Histories *)
Inductive family := V4 | V6.
Inductive op := Add (f : family) (a : list N) (plen : nat) (d : N) | Del (f : family) (a : list N) (plen : nat).

(** one call (mtev_btrie.h:46-55); the second component is the return value of a deletion *)
Definition step (t : tree) (o : op) : res (tree * bool * list N) :=
  match o with
  | Add V4 a p d => do t' <- add_ipv4 t a p d; Ok (t', true, [])
  | Add V6 a p d => do t' <- add_ipv6 t a p d; Ok (t', true, [])
  | Del _ a p => del_route t a p
  end.
Fixpoint run (t : tree) (ops : list op) : res (tree * list N) :=
  match ops with
  | [] => Ok (t, [])
  | o :: r => do (t1, _, l1) <- step t o; do (t2, l2) <- run t1 r; Ok (t2, l1 ++ l2)
  end.
