(** Model of the substring search of src/utils/mtev_str.c (Knuth-Morris-Pratt with a
    256-entry table on the stack). *)
From Coq Require Import Arith NArith ZArith List Bool.
Import ListNotations.

(** mtev_str.c:40 *)
Definition KMPPATSIZE : nat := 256.

(** Reading pattern[i]: the needle's own bytes, then [past], the byte that follows it in memory
    ([None]: not readable).  Anything further is out of bounds. *)
Definition rd (needle : list N) (past : option N) (i : nat) : option N :=
  if Nat.ltb i (length needle) then nth_error needle i
  else if Nat.eqb i (length needle) then past else None.

(** compile_buf: [None] is an entry not written yet (mtev_str.c:60, automatic storage). *)
Definition table := nat -> option Z.
Definition empty : table := fun _ => None.

(** storing compile_buf[i] (mtev_str.c:45,51,53); out of bounds beyond the 256 entries. *)
Definition store (tb : table) (i : nat) (v : Z) : option table :=
  if Nat.ltb i KMPPATSIZE then Some (fun k => if Nat.eqb k i then Some v else tb k) else None.

(** mtev_str.c:47-48 and 69-70:
    while (i > -1 && pattern[i] != c) i = compiled[i];  [None] is an invalid read. *)
Fixpoint advance (fuel : nat) (pat : nat -> option N) (tb : table) (c : N) (i : Z) : option Z :=
  match fuel with
  | O => None
  | S f =>
      if Z.ltb (-1) i then
        match pat (Z.to_nat i) with
        | None => None
        | Some x =>
            if N.eqb x c then Some i
            else match tb (Z.to_nat i) with
                 | None => None
                 | Some i' => advance f pat tb c i'
                 end
        end
      else Some i
  end.

(** mtev_str.c:46-54; [n] is the number of rounds left, pattern_len - i. *)
Fixpoint pre_loop (n : nat) (fuel : nat) (pat : nat -> option N) (tb : table) (i : nat) (j : Z) : option table :=
  match n with
  | O => Some tb
  | S n' =>
      match pat i with
      | None => None
      | Some c =>
          match advance fuel pat tb c j with
          | None => None
          | Some j1 =>
              let i' := S i in
              let j' := (j1 + 1)%Z in
              match pat i', pat (Z.to_nat j') with
              | Some a, Some b =>
                  let v := if N.eqb a b then tb (Z.to_nat j') else Some j' in   (* :50-53 *)
                  match v with
                  | None => None
                  | Some v => match store tb i' v with
                              | None => None
                              | Some tb' => pre_loop n' fuel pat tb' i' j'
                              end
                  end
              | _, _ => None
              end
          end
      end
  end.

(** mtev_str.c:42-55 kmp_precompute. *)
Definition precompute (pat : nat -> option N) (len : nat) : option table :=
  match store empty 0 (-1) with
  | None => None
  | Some tb => pre_loop len (S (S len)) pat tb 0 (-1)
  end.

(** how a search may end *)
Inductive outcome :=
| Found (off : nat)      (* haystack + off *)
| NotFound               (* NULL *)
| Abort                  (* mtevFatal, mtev_str.c:64 *)
| Fault.                 (* invalid read or write *)

(** mtev_str.c:68-76; [hay] is the rest of the haystack from position [j]. *)
Fixpoint match_loop (fuel : nat) (pat : nat -> option N) (len : nat) (tb : table) (hay : list N) (i : Z) (j : nat)
  : outcome :=
  match hay with
  | [] => NotFound
  | c :: r =>
      match advance fuel pat tb c i with
      | None => Fault
      | Some i1 =>
          let i' := (i1 + 1)%Z in
          let j' := S j in
          if Z.leb (Z.of_nat len) i' then Found (j' - Z.to_nat i')
          else match_loop fuel pat len tb r i' j'
      end
  end.

(** mtev_str.c:57-77 match_needle_haystack, i.e. strnstrn (:80-83) and mtev_memmem (:92). *)
Definition strnstrn (needle : list N) (past : option N) (hay : list N) : outcome :=
  let len := length needle in
  if Nat.eqb len 0 then Found 0
  else if Nat.ltb KMPPATSIZE len then Abort
  else match precompute (rd needle past) len with
       | None => Fault
       | Some tb => match_loop (S (S len)) (rd needle past) len tb hay 0 0
       end.
