(** Model of src/utils/mtev_sort.c at the level of node addresses and next pointers.
    The heap maps a node to what get_next() returns for it; set_next() updates it. *)
From Coq Require Import Arith NArith ZArith List Bool.
Import ListNotations.

(** addresses of nodes (void pointers, mtev_sort.c:19) *)
Notation addr := nat (only parsing).
Definition heap := addr -> option addr.

(** get_next/set_next callbacks, mtev_sort.h:48-60: they read and write the node's link.
    set_next on NULL is a NULL dereference and never happens (mtev_sort.c:61,71). *)
Definition set_next (h : heap) (a : addr) (v : option addr) : heap :=
  fun b => if Nat.eqb b a then v else h b.

Section Sort.
(** the compare callback of mtev_sort.c:16, a function of the two nodes *)
Variable compare : addr -> addr -> Z.

(** mtev_sort.c:35-38: walk [list_size] nodes; returns (right, left_size). *)
Fixpoint count_left (fuel : nat) (h : heap) (list_size : nat) (right : option addr) (left_size : nat)
  : option (option addr * nat) :=
  match fuel with
  | O => None
  | S f =>
      match right with
      | None => Some (right, left_size)
      | Some r => if Nat.ltb left_size list_size then count_left f h list_size (h r) (S left_size)
                  else Some (right, left_size)
      end
  end.

(** mtev_sort.c:61-67: append [next] to the output list. *)
Definition emit (h : heap) (head tail : option addr) (next : addr) : heap * option addr * option addr :=
  match tail with
  | Some t => (set_next h t (Some next), head, Some next)
  | None => (h, Some next, Some next)
  end.

(** what one pass over [left]/[right] may end in: a NULL dereference is [inr tt]. *)
Definition mres := (heap * option addr * option addr * option addr)%type. (* heap, head, tail, right *)

(** mtev_sort.c:40-68. The inner [None] is a NULL dereference, the outer one lack of fuel. *)
Fixpoint merge_loop (fuel : nat) (h : heap) (left : option addr) (ls : nat) (right : option addr) (rs : nat)
  (head tail : option addr) : option (option mres) :=
  match fuel with
  | O => None
  | S f =>
      let take_right :=
        match right with
        | None => Some None
        | Some r => let right' := h r in
                    let '(h', hd, tl) := emit h head tail r in
                    merge_loop f h' left ls right' (Nat.pred rs) hd tl
        end in
      let take_left :=
        match left with
        | None => Some None
        | Some l => let left' := h l in
                    let '(h', hd, tl) := emit h head tail l in
                    merge_loop f h' left' (Nat.pred ls) right rs hd tl
        end in
      if (Nat.ltb 0 ls || (Nat.ltb 0 rs && match right with None => false | _ => true end))%bool then
        if Nat.eqb ls 0 then take_right                                          (* :41-45 *)
        else if (Nat.eqb rs 0 || match right with None => true | _ => false end)%bool then take_left  (* :46-50 *)
        else match left, right with
             | Some l, Some r => if Z.ltb (compare l r) 0 then take_left else take_right  (* :51-60 *)
             | _, _ => Some None
             end
      else Some (Some (h, head, tail, right))
  end.

(** mtev_sort.c:29-70: one pass; returns heap, head, tail and num_merges. *)
Fixpoint pass_loop (fuel : nat) (h : heap) (list_size : nat) (left head tail : option addr) (num_merges : nat)
  : option (option (heap * option addr * option addr * nat)) :=
  match fuel with
  | O => None
  | S f =>
      match left with
      | None => Some (Some (h, head, tail, num_merges))
      | Some _ =>
          match count_left fuel h list_size left 0 with
          | None => None
          | Some (rgt, ls) =>
              match merge_loop fuel h left ls rgt list_size head tail with
              | None => None
              | Some None => Some None
              | Some (Some (h', hd, tl, right')) => pass_loop f h' list_size right' hd tl (S num_merges)
              end
          end
      end
  end.

(** how the whole call may end *)
Inductive outcome :=
| Done (h : heap) (head : option addr)
| Crash                  (* NULL dereference *)
| Overflow               (* signed overflow of list_size, mtev_sort.c:72 *)
| OutOfFuel.

(** mtev_sort.c:24-74. *)
Fixpoint sort_loop (fuel : nat) (h : heap) (list_size : nat) (head : option addr) : outcome :=
  match fuel with
  | O => OutOfFuel
  | S f =>
      match pass_loop fuel h list_size head None None 0 with
      | None => OutOfFuel
      | Some None => Crash
      | Some (Some (h1, hd, tl, num_merges)) =>
          match tl with
          | None => Crash
          | Some t =>
              let h2 := set_next h1 t None in                                   (* :71 *)
              if (2 ^ 31 <=? 2 * N.of_nat list_size)%N then Overflow            (* :72 *)
              else if Nat.ltb 1 num_merges then sort_loop f h2 (2 * list_size) hd
              else Done h2 hd
          end
      end
  end.

(** mtev_sort.c:13-75; [fuel] bounds the rounds of every loop. *)
Definition merge_sort (fuel : nat) (h : heap) (head : option addr) : outcome :=
  match head with
  | None => Done h None                                                         (* :20-22 *)
  | Some a => match h a with
              | None => Done h (Some a)
              | Some _ => sort_loop fuel h 1 head
              end
  end.
End Sort.
