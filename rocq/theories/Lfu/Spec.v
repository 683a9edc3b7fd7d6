(** Textbook least-frequently-used cache: (key, value, use count), in eviction order.  A use moves
    an item behind all items used at most as often. *)
From Coq Require Import Arith NArith ZArith List Bool.
From Verif.Lru Require Import Model Spec.
From Verif.Lfu Require Import Model.
Import ListNotations.

Definition item := (list N * N * nat)%type.
Definition kof (x : item) : list N := fst (fst x).
Definition vof (x : item) : N := snd (fst x).
Definition uses_of (x : item) : nat := snd x.

Fixpoint ins (x : item) (L : list item) : list item :=
  match L with
  | [] => [x]
  | y :: r => if Nat.leb (uses_of y) (uses_of x) then y :: ins x r else x :: y :: r
  end.
Definition look (L : list item) (k : list N) : option item := find (fun x => keyeqb (kof x) k) L.
Definition drop (L : list item) (k : list N) : list item := filter (fun x => negb (keyeqb (kof x) k)) L.

Definition f_put (cap : nat) (L : list item) (k : list N) (v : N) : list item :=
  let L' := drop L k in
  ins (k, v, 1) (if Nat.ltb (length L') cap then L' else tl L').
Definition f_get (L : list item) (k : list N) : list item :=
  match look L k with Some x => ins (k, vof x, S (uses_of x)) (drop L k) | None => L end.
Definition answer (L : list item) (k : list N) : option N := option_map vof (look L k).

Definition f_step (cap : nat) (L : list item) (o : op) : list item * option N :=
  match o with
  | Put k v => (f_put cap L k v, None)
  | Get k => (f_get L k, answer L k)
  | Release _ => (L, None)
  | Remove k => (drop L k, answer L k)
  | Invalidate => ([], None)
  end.
Fixpoint f_run (cap : nat) (L : list item) (ops : list op) : list item * list (option N) :=
  match ops with
  | [] => (L, [])
  | o :: r => let (L1, x) := f_step cap L o in let (L2, xs) := f_run cap L1 r in (L2, x :: xs)
  end.

(** how often [k] was used since its value was stored (the store counts as one) *)
Definition uses (ops : list op) (k : list N) : nat :=
  fold_left (fun acc o =>
    match o with
    | Put k' _ => if keyeqb k' k then 1 else acc
    | Get k' => if keyeqb k' k then S acc else acc
    | _ => acc
    end) ops 0.

(** [k] is cached *)
Definition cached (c : lfu) (k : list N) : Prop := exists c' t v, lfu_get c k None = Ok (c', Some t, v).

(** a fresh cache whose client holds no token *)
Definition lfu_start (m : Z) : lfu * (nat -> nat) := (lfu_create m, fun _ => 0).

(** buckets allocated and not yet freed *)
Definition live_buckets (c : lfu) : list nat := filter (fun b => negb (existsb (Nat.eqb b) (bfreed c))) (seq 0 (nextb c)).
