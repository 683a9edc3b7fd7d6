(** Textbook least-recently-used cache: a list of (key, value), most recently used first. *)
From Coq Require Import Arith NArith ZArith List Bool.
From Verif.Lru Require Import Model.   (* only for the types of calls and answers *)
Import ListNotations.

Definition keyeqb (a b : list N) : bool := if list_eq_dec N.eq_dec a b then true else false.

Definition cache := list (list N * N).

Definition lookup (L : cache) (k : list N) : option N :=
  match find (fun p => keyeqb (fst p) k) L with Some p => Some (snd p) | None => None end.
Definition without (L : cache) (k : list N) : cache := filter (fun p => negb (keyeqb (fst p) k)) L.

Definition lru_get (L : cache) (k : list N) : cache :=
  match lookup L k with Some v => (k, v) :: without L k | None => L end.

Definition lru_put (cap : nat) (L : cache) (k : list N) (v : N) : cache :=
  let L' := without L k in
  (k, v) :: (if Nat.ltb (length L') cap then L' else removelast L').

(** What the code implements: overwriting a present key uses up one slot for good ([lost] counts
    them), until the cache is invalidated.  [None]: the code crashes. *)
Definition leaky_put (cap lost : nat) (L : cache) (k : list N) (v : N) : option (cache * nat) :=
  let L' := without L k in
  let lost' := match lookup L k with Some _ => S lost | None => lost end in
  if Nat.ltb (length L' + lost') cap then Some ((k, v) :: L', lost')
  else match L' with [] => None | _ => Some ((k, v) :: removelast L', lost') end.

(** What a call shows to its caller: the value handed back, if any. *)
Definition obs (y : out) : option N := match y with ONone => None | OGet _ v => v | ORemoved v => v end.

(** One call on the abstract cache, and histories. *)
Definition spec_step (cap : nat) (L : cache) (lost : nat) (o : op) : option (cache * nat * option N) :=
  match o with
  | Put k v => match leaky_put cap lost L k v with Some (L', lost') => Some (L', lost', None) | None => None end
  | Get k => Some (lru_get L k, lost, lookup L k)
  | Release _ => Some (L, lost, None)
  | Remove k => Some (without L k, lost, lookup L k)
  | Invalidate => Some ([], 0, None)
  end.
Fixpoint spec_run (cap : nat) (L : cache) (lost : nat) (ops : list op) : option (cache * nat * list (option N)) :=
  match ops with
  | [] => Some (L, lost, [])
  | o :: r =>
      match spec_step cap L lost o with
      | None => None
      | Some (L', lost', x) =>
          match spec_run cap L' lost' r with Some (L2, l2, xs) => Some (L2, l2, x :: xs) | None => None end
      end
  end.

(** The textbook cache over a history: answers, and final content. *)
Definition text_step (cap : nat) (L : cache) (o : op) : cache * option N :=
  match o with
  | Put k v => (lru_put cap L k v, None)
  | Get k => (lru_get L k, lookup L k)
  | Release _ => (L, None)
  | Remove k => (without L k, lookup L k)
  | Invalidate => ([], None)
  end.
Fixpoint text_run (cap : nat) (L : cache) (ops : list op) : list (option N) :=
  match ops with
  | [] => []
  | o :: r => let (L', x) := text_step cap L o in x :: text_run cap L' r
  end.
(** no [Put] of the history hits a key that the textbook cache holds at that moment *)
Fixpoint no_overwrite (cap : nat) (L : cache) (ops : list op) : Prop :=
  match ops with
  | [] => True
  | o :: r => match o with Put k _ => lookup L k = None | _ => True end /\ no_overwrite cap (fst (text_step cap L o)) r
  end.

(** the value most recently stored under [k] and not removed since *)
Definition last_put (ops : list op) (k : list N) : option N :=
  fold_left (fun acc o =>
    match o with
    | Put k' v => if keyeqb k' k then Some v else acc
    | Remove k' => if keyeqb k' k then None else acc
    | Invalidate => None
    | _ => acc
    end) ops None.

(** values that went in, and values handed back by remove *)
Definition put_value (o : op) : list N := match o with Put _ v => [v] | _ => [] end.
Definition put_values (ops : list op) : list N := flat_map put_value ops.
Definition removed_value (y : out) : list N := match y with ORemoved (Some v) => [v] | _ => [] end.
Definition removed_values (ys : list out) : list N := flat_map removed_value ys.

(** values of the entries still allocated, and values passed to free_fn *)
Definition optl {A} (o : option A) : list A := match o with Some a => [a] | None => [] end.
Definition evals (o : option entry) : list value := match o with Some e => optl (eval e) | None => [] end.
Definition live (c : lru) : list value := flat_map (fun i => evals (ents c i)) (seq 0 (next c)).
Definition freedv (l : list freed) : list value := flat_map (fun f => optl (f_val f)) l.

(** a fresh cache whose client holds no token *)
Definition start (m : Z) : lru * (nat -> nat) := (create m, fun _ => 0).
