(** Model of src/utils/mtev_skiplist.c for a list without further indexes.  Nodes are heap cells with all their pointers
    but previndex, nextindex (NULL without indexes) and sl; NULL is [None].  [None] as a result is a NULL or freed node being
    used, or a loop running out of fuel (as many rounds as can ever be needed; the theorems exclude both).  data pointers
    are numbers; the comparators are parameters; calloc succeeds; size does not overflow; preheight is 0, nothing ever
    sets it. *)
From Coq Require Import Arith NArith ZArith List Bool.
Import ListNotations.

(** struct _mtev_skiplist_node, mtev_skiplist.c:45-54 *)
Record node := Node { data : N; next : option nat; prev : option nat; up : option nat; down : option nat }.
(** struct _iskiplist, mtev_skiplist.c:34-43, and the heap *)
Record sl := Sl { top : option nat; bottom : option nat; height : nat; size : Z; heap : nat -> option node; fresh : nat }.
(** mtev_skiplisti_init, mtev_skiplist.c:81-83 *)
Definition init : sl := Sl None None 0 0 (fun _ => None) 0.
(** MAX_HEIGHT, mtev_skiplist.c:32 *)
Definition max_height : nat := 24.

Notation "x <- e ;; k" := (match e with Some x => k | None => None end) (at level 60, right associativity, e at next level).

Definition upd {A} (f : nat -> A) (p : nat) (v : A) : nat -> A := fun x => if Nat.eqb x p then v else f x.
Definition set_heap (s : sl) (h : nat -> option node) : sl := Sl (top s) (bottom s) (height s) (size s) h (fresh s).
(** assignments through a pointer: the node must exist *)
Definition put (s : sl) (p : nat) (f : node -> node) : option sl := n <- heap s p ;; Some (set_heap s (upd (heap s) p (Some (f n)))).
Definition with_next v n := Node (data n) v (prev n) (up n) (down n).
Definition with_prev v n := Node (data n) (next n) v (up n) (down n).
Definition with_up v n := Node (data n) (next n) (prev n) v (down n).
(** free(p): p must be allocated *)
Definition free (s : sl) (p : nat) : option sl := _ <- heap s p ;; Some (set_heap s (upd (heap s) p None)).
(** calloc of a node with the given fields *)
Definition calloc (s : sl) (n : node) : sl * nat :=
  (Sl (top s) (bottom s) (height s) (size s) (upd (heap s) (fresh s) (Some n)) (S (fresh s)), fresh s).
(** rounds any walk over the nodes can take *)
Definition fuel (s : sl) : nat := S (fresh s).

(** the level choice, mtev_skiplist.c:314, with the outcomes of get_b_rand *)
Fixpoint pick (h nh : nat) (bits : list bool) : nat :=
  match bits with
  | true :: bits => if (nh <=? h) && (nh <? max_height) then pick h (S nh) bits else nh
  | _ => nh
  end.
(** mtev_skiplist.c:305-310 *)
Definition first_row (s : sl) : sl :=
  match top s with
  | Some _ => s
  | None => let (s, p) := calloc s (Node 0 None None None None) in Sl (Some p) (Some p) 1 (size s) (heap s) (fresh s)
  end.
(** mtev_skiplist.c:318-323, [n] rounds *)
Fixpoint grow (n : nat) (s : sl) : option sl :=
  match n with
  | O => Some s
  | S n =>
      t <- top s ;;
      let (s, p) := calloc s (Node 0 None None None (Some t)) in
      s <- put s t (with_up (Some p)) ;;
      grow n (Sl (Some p) (bottom s) (S (height s)) (size s) (heap s) (fresh s))
  end.

Inductive walked := Dup | Stack (l : list nat).   (* the stack, last pushed first *)
(** mtev_skiplist.c:327-345 *)
Fixpoint walk (comp : N -> N -> Z) (f : nat) (s : sl) (d : N) (nh ch : nat) (m : option nat) (st : list nat) : option walked :=
  match f with
  | O => None
  | S f =>
      match m with
      | None => Some (Stack st)
      | Some p =>
          n <- heap s p ;;
          match next n with
          | None => walk comp f s d nh (pred ch) (down n) (if ch <=? nh then p :: st else st)
          | Some q =>
              nq <- heap s q ;;
              let c := comp d (data nq) in
              if (c =? 0)%Z then Some Dup
              else if (c <? 0)%Z then walk comp f s d nh (pred ch) (down n) (if ch <=? nh then p :: st else st)
              else walk comp f s d nh ch (Some q) st
          end
      end
  end.
(** mtev_skiplist.c:347-362; [p] is the node below, [ret] the bottom-most new node *)
Fixpoint link (s : sl) (d : N) (st : list nat) (p ret : option nat) : option (sl * option nat) :=
  match st with
  | [] => Some (s, ret)
  | m :: st =>
      nm <- heap s m ;;
      let (s, tmp) := calloc s (Node d (next nm) (Some m) None p) in
      s <- match next nm with Some q => put s q (with_prev (Some tmp)) | None => Some s end ;;
      s <- match p with Some q => put s q (with_up (Some tmp)) | None => Some s end ;;
      s <- put s m (with_next (Some tmp)) ;;
      link s d st (Some tmp) (match p with None => Some tmp | Some _ => ret end)
  end.
(** mtev_skiplist_insert_compare, mtev_skiplist.c:298-378, mtev_skiplist_insert :291-296 *)
Definition insert (comp : N -> N -> Z) (s : sl) (d : N) (bits : list bool) : option (sl * option nat) :=
  let s := first_row s in
  let nh := pick (height s) 1 bits in
  s <- grow (nh - height s) s ;;
  w <- walk comp (fuel s) s d nh (height s) (top s) [] ;;
  match w with
  | Dup => Some (s, None)
  | Stack st =>
      if S max_height <? length st then None else        (* stack[MAX_HEIGHT+1], :303 *)
      r <- link s d st None None ;;
      let (s, ret) := r in
      Some (Sl (top s) (bottom s) (height s) (size s + 1) (heap s) (fresh s), ret)
  end.

(** descending to the bottom-most node, mtev_skiplist.c:240 *)
Fixpoint descend (f : nat) (s : sl) (m : nat) : option nat :=
  match f with
  | O => None
  | S f => n <- heap s m ;; match down n with Some q => descend f s q | None => Some m end
  end.
(** mtev_skiplisti_find_compare, mtev_skiplist.c:216-265: *ret, *prev, *next *)
Fixpoint find_loop (comp : N -> N -> Z) (f : nat) (s : sl) (k : N) (m : option nat) (pn : option nat * option nat)
  : option (option nat * option nat * option nat) :=
  match f with
  | O => None
  | S f =>
      match m with
      | None => Some (None, fst pn, snd pn)
      | Some p =>
          n <- heap s p ;;
          match next n with
          | Some q =>
              nq <- heap s q ;;
              let c := comp k (data nq) in
              if (c =? 0)%Z then
                b <- descend (fuel s) s q ;;
                nb <- heap s b ;;
                pv <- match prev nb with
                      | None => Some None
                      | Some x => nx <- heap s x ;; Some (match prev nx with Some _ => Some x | None => None end)
                      end ;;
                Some (Some b, pv, next nb)
              else if (c <? 0)%Z then
                find_loop comp f s k (down n)
                  (match down n with
                   | None => (if match bottom s with Some b => Nat.eqb p b | None => false end then None
                              else match prev n with Some _ => Some p | None => None end, next n)
                   | Some _ => pn
                   end)
              else find_loop comp f s k (Some q) pn
          | None =>
              find_loop comp f s k (down n)
                (match down n with
                 | None => (if match bottom s with Some b => Nat.eqb p b | None => false end then None
                            else match prev n with Some _ => Some p | None => None end, None)
                 | Some _ => pn
                 end)
          end
      end
  end.
Definition find (compk : N -> N -> Z) (s : sl) (k : N) : option (option nat * option nat * option nat) :=
  find_loop compk (fuel s) s k (top s) (None, None).

(** mtev_skiplist.c:397 *)
Fixpoint ascend (f : nat) (s : sl) (m : nat) : option nat :=
  match f with
  | O => None
  | S f => n <- heap s m ;; match up n with Some q => ascend f s q | None => Some m end
  end.
(** mtev_skiplist.c:398-406; [evs] are the calls of myfree *)
Fixpoint unlink (f : nat) (s : sl) (m : option nat) (myfree : bool) (evs : list N) : option (sl * list N) :=
  match f with
  | O => None
  | S f =>
      match m with
      | None => Some (s, evs)
      | Some p =>
          n <- heap s p ;;
          pv <- prev n ;;
          s <- put s pv (with_next (next n)) ;;
          n <- heap s p ;;
          s <- match next n with Some q => put s q (with_prev (prev n)) | None => Some s end ;;
          let evs := match down n with None => if myfree && negb (N.eqb (data n) 0) then evs ++ [data n] else evs | Some _ => evs end in
          s <- free s p ;;
          unlink f s (down n) myfree evs
      end
  end.
(** mtev_skiplist.c:408-415 *)
Fixpoint shrink (f : nat) (s : sl) : option sl :=
  match f with
  | O => None
  | S f =>
      match top s with
      | None => Some s
      | Some t =>
          n <- heap s t ;;
          match next n with
          | Some _ => Some s
          | None =>
              s <- match down n with Some q => put s q (with_up None) | None => Some s end ;;
              s <- free s t ;;
              shrink f (Sl (down n) (bottom s) (pred (height s)) (size s) (heap s) (fresh s))
          end
      end
  end.
(** mtev_skiplisti_remove, mtev_skiplist.c:393-418 *)
Definition remove_node (s : sl) (m : nat) (myfree : bool) : option (sl * list N) :=
  t <- ascend (fuel s) s m ;;
  r <- unlink (fuel s) s (Some t) myfree [] ;;
  let (s, evs) := r in
  s <- shrink (fuel s) (Sl (top s) (bottom s) (height s) (size s - 1) (heap s) (fresh s)) ;;
  Some (Sl (top s) (match top s with None => None | Some _ => bottom s end) (height s) (size s) (heap s) (fresh s), evs).
(** mtev_skiplist_remove, mtev_skiplist_remove_compare, mtev_skiplist.c:379-384, 419-438 *)
Definition remove (compk : N -> N -> Z) (s : sl) (k : N) (myfree : bool) : option (sl * bool * list N) :=
  r <- find compk s k ;;
  match fst (fst r) with
  | None => Some (s, false, [])
  | Some m => x <- remove_node s m myfree ;; Some (fst x, true, snd x)
  end.

(** mtev_skiplist_getlist, mtev_skiplist.c:154-158 *)
Definition getlist (s : sl) : option (option nat) :=
  match bottom s with None => Some None | Some b => n <- heap s b ;; Some (next n) end.
(** mtev_skiplist_pop, mtev_skiplist.c:478-488 *)
Definition pop (s : sl) (myfree : bool) : option (sl * N * list N) :=
  g <- getlist s ;;
  match g with
  | None => Some (s, 0%N, [])
  | Some m => n <- heap s m ;; x <- remove_node s m myfree ;; Some (fst x, data n, snd x)
  end.
(** mtev_skiplist_peek, mtev_skiplist.c:489-497 *)
Definition peek (s : sl) : option N :=
  g <- getlist s ;;
  match g with None => Some 0%N | Some m => n <- heap s m ;; Some (data n) end.

(** freeing one column upwards, mtev_skiplist.c:448-452 *)
Fixpoint free_col (f : nat) (s : sl) (m : option nat) : option sl :=
  match f with
  | O => None
  | S f => match m with
           | None => Some s
           | Some p => n <- heap s p ;; s <- free s p ;; free_col f s (up n)
           end
  end.
(** mtev_skiplist.c:444-454 *)
Fixpoint free_rows (f : nat) (s : sl) (m : option nat) (myfree : bool) (evs : list N) : option (sl * list N) :=
  match f with
  | O => None
  | S f => match m with
           | None => Some (s, evs)
           | Some p =>
               n <- heap s p ;;
               evs <- match next n with
                      | Some q => nq <- heap s q ;; Some (if myfree && negb (N.eqb (data nq) 0) then evs ++ [data nq] else evs)
                      | None => Some evs
                      end ;;
               s <- free_col (fuel s) s (Some p) ;;
               free_rows f s (next n) myfree evs
           end
  end.
(** mtev_skiplist_remove_all, mtev_skiplist.c:439-458 *)
Definition remove_all (s : sl) (myfree : bool) : option (sl * list N) :=
  r <- free_rows (fuel s) s (bottom s) myfree [] ;;
  Some (Sl None None 0 0 (heap (fst r)) (fresh (fst r)), snd r).

(** the data met by following mtev_skiplist_next (mtev_skiplist.c:266-271) from a node on *)
Fixpoint forward (f : nat) (s : sl) (m : option nat) : option (list N) :=
  match f with
  | O => None
  | S f => match m with
           | None => Some []
           | Some p => n <- heap s p ;; l <- forward f s (next n) ;; Some (data n :: l)
           end
  end.
(** mtev_skiplist_previous, mtev_skiplist.c:272-279, for a node *)
Definition previous (s : sl) (m : nat) : option (option nat) :=
  n <- heap s m ;; x <- prev n ;; nx <- heap s x ;; Some (match prev nx with None => None | Some _ => Some x end).
(** the data met by following mtev_skiplist_previous from a node on *)
Fixpoint backward (f : nat) (s : sl) (m : option nat) : option (list N) :=
  match f with
  | O => None
  | S f => match m with
           | None => Some []
           | Some p => n <- heap s p ;; q <- previous s p ;; l <- backward f s q ;; Some (data n :: l)
           end
  end.

(** data of a node, mtev_skiplist_data, mtev_skiplist.c:280-286 *)
Definition data_of (s : sl) (m : option nat) : option (option N) :=
  match m with None => Some None | Some p => n <- heap s p ;; Some (Some (data n)) end.

Inductive op :=
| Insert (d : N) (bits : list bool)
| Find (k : N)                        (* find_neighbors and both walks from the node found *)
| Remove (k : N) (myfree : bool)
| Pop (myfree : bool) | Peek | Size | List_ | RemoveAll (myfree : bool).
Inductive result :=
| RIns (ok : bool) (d : option N)     (* was a node returned, and its data *)
| RFind (d : option N) (prev next : option N) (back forth : list N)
| RRem (ok : bool) (freed : list N)
| RPop (d : N) (freed : list N) | RPeek (d : N) | RSize (n : Z) | RList (l : list N) | RAll (freed : list N).

Section M.
Variables comp compk : N -> N -> Z.
Definition step (s : sl) (o : op) : option (sl * result) :=
  match o with
  | Insert d bits =>
      r <- insert comp s d bits ;;
      d' <- data_of (fst r) (snd r) ;;
      Some (fst r, RIns (match snd r with Some _ => true | None => false end) d')
  | Find k =>
      r <- find compk s k ;;
      let '(m, p, q) := r in
      dm <- data_of s m ;; dp <- data_of s p ;; dq <- data_of s q ;;
      bk <- backward (fuel s) s m ;; fw <- forward (fuel s) s m ;;
      Some (s, RFind dm dp dq bk fw)
  | Remove k myfree => r <- remove compk s k myfree ;; Some (fst (fst r), RRem (snd (fst r)) (snd r))
  | Pop myfree => r <- pop s myfree ;; Some (fst (fst r), RPop (snd (fst r)) (snd r))
  | Peek => d <- peek s ;; Some (s, RPeek d)
  | Size => Some (s, RSize (size s))
  | List_ => g <- getlist s ;; l <- forward (fuel s) s g ;; Some (s, RList l)
  | RemoveAll myfree => r <- remove_all s myfree ;; Some (fst r, RAll (snd r))
  end.
Fixpoint run (s : sl) (os : list op) : option (sl * list result) :=
  match os with
  | [] => Some (s, [])
  | o :: os => r <- step s o ;; q <- run (fst r) os ;; Some (fst q, snd r :: snd q)
  end.
End M.
