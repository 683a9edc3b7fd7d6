(** Routing table as a map from bit strings, independent of the trie. *)
From Coq Require Import Arith NArith List Bool.
From Verif.Btrie Require Import Model.
Import ListNotations.

(** the 32 bits of a word, most significant first; an address as 128 bits *)
Definition word_bits (w : N) : list bool := map (fun j => N.testbit w (N.of_nat (31 - j))) (seq 0 32).
Definition addr_bits (a : list N) : list bool := flat_map (fun i => word_bits (nth i a 0%N)) [0; 1; 2; 3].

(** the prefix a/plen *)
Definition prefix (a : list N) (plen : nat) : list bool := firstn plen (addr_bits a).

Definition fam_bits (f : family) : nat := match f with V4 => 32 | V6 => 128 end.
(** four words of 32 bits *)
Definition address (a : list N) : Prop := length a = 4 /\ Forall (fun w => (w < 2 ^ 32)%N) a.
Definition valid (o : op) : Prop :=
  match o with Add f a p _ => p <= fam_bits f /\ address a | Del f a p => p <= fam_bits f /\ address a end.

Definition bits_eqb (a b : list bool) : bool := if list_eq_dec bool_dec a b then true else false.

(** the data last configured for prefix [p] and not deleted since *)
Definition route (ops : list op) (p : list bool) : option N :=
  fold_left (fun acc o =>
    match o with
    | Add _ a n d => if bits_eqb (prefix a n) p then Some d else acc
    | Del _ a n => if bits_eqb (prefix a n) p then None else acc
    end) ops None.

(** the longest configured prefix among the first [n] bits of [a] *)
Fixpoint longest (tbl : list bool -> option N) (a : list bool) (n : nat) : option (nat * N) :=
  match tbl (firstn n a) with
  | Some d => Some (n, d)
  | None => match n with O => None | S n' => longest tbl a n' end
  end.

(** data of the routes a history deleted (NULL data is not passed to f) *)
Fixpoint deleted (pre ops : list op) : list N :=
  match ops with
  | [] => []
  | o :: r => match o with
              | Del _ a n => match route pre (prefix a n) with Some d => if N.eqb d 0 then [] else [d] | None => [] end
              | _ => []
              end ++ deleted (pre ++ [o]) r
  end.

Definition is_prefix (p q : list bool) : Prop := exists s, q = p ++ s.

(** every prefix deleted fails to cover some prefix added before *)
Fixpoint guarded (added : list (list bool)) (ops : list op) : Prop :=
  match ops with
  | [] => True
  | Add _ a n _ :: r => guarded (prefix a n :: added) r
  | Del _ a n :: r => (added = [] \/ exists q, In q added /\ ~ is_prefix (prefix a n) q) /\ guarded added r
  end.
Definition below_128 (o : op) : Prop := match o with Add _ _ n _ => n < 128 | Del _ _ _ => True end.

Definition is_v6 (o : op) : bool := match o with Add V6 _ _ _ | Del V6 _ _ => true | _ => false end.
Definition op_prefix (o : op) : list bool := match o with Add _ a n _ => prefix a n | Del _ a n => prefix a n end.
