(** Where a log line has to go, on its own. *)
From Coq Require Import Arith NArith List Bool Ascii String.
From Verif.Logs Require Import Model.
Import ListNotations.

Definition bs (s : string) : bytes := map N_of_ascii (list_ascii_of_string s).

(** A line passes along an outlet. *)
Definition passes (o : outlet) (l : line) : Prop := match cond o with Some f => run f l = true | None => True end.
(** A way of a line from a stream to one that writes: through streams that are enabled,
    along outlets that the line passes. *)
Inductive route (ss : list stream) (l : line) : nat -> list nat -> Prop :=
| r_here i : enabled (flg (get ss i)) = true -> writer (get ss i) = true -> route ss l i [i]
| r_on i o t : enabled (flg (get ss i)) = true -> In o (outs (get ss i)) -> passes o l -> route ss l (target o) t -> route ss l i (i :: t).
(** Filters that do not look at the message do not depend on it. *)
Definition honest (f : filter) : Prop := needs_message f = false -> forall m t t', run f (mkline m t) = run f (mkline m t').
Definition honest_streams (ss : list stream) : Prop := forall s o f, In s ss -> In o (outs s) -> cond o = Some f -> honest f.
Definition honest_op (o : op) : Prop := match o with Add_filtered _ _ f => honest f | _ => True end.

(** What one way gives: the writer is the last stream, the name is that of the first;
    a part in front of the text is there if the last stream asks for it, or the one
    before it. *)
Definition asked (ss : list stream) (f : flags -> bool) (t : list nat) : bool :=
  match rev t with
  | w :: u :: _ => f (flg (get ss w)) || f (flg (get ss u))
  | [w] => f (flg (get ss w))
  | [] => false
  end.
Definition given (ss : list stream) (l : line) (t : list nat) : list written :=
  let w := last t 0 in
  if plain (get ss w) then
    map (Text w (asked ss stamps t) (if asked ss facility t then Some (name (get ss (hd 0 t))) else None) (asked ss debug t))
      (pieces (split (flg (get ss w))) (text l))
  else [Whole w].

(** Outlets. *)
Definition edge (ss : list stream) (i j : nat) : Prop := exists o, In o (outs (get ss i)) /\ target o = j.
Inductive leads (ss : list stream) : nat -> nat -> Prop :=
| l_one i j : edge ss i j -> leads ss i j
| l_more i j k : edge ss i j -> leads ss j k -> leads ss i k.
(** A graph in layers. *)
Definition layered (ss : list stream) (rank : nat -> nat) : Prop := forall i j, edge ss i j -> rank j < rank i.

(** Calls that make a stream write without telling the streams above. *)
Definition quiet (o : op) : Prop := match o with New_on_fd _ | Resolve => False | _ => True end.
(** Parts of a stream that calls on other streams leave alone. *)
Definition same (a b : stream) : Prop := name a = name b /\ flg a = flg b /\ writer a = writer b /\ type a = type b /\ plain a = plain b /\ outs a = outs b.
Definition named (ss : list stream) (i : nat) (n : bytes) : Prop := i < List.length ss /\ name (get ss i) = n.
Definition empty : state := mkstate [] [].
(** Nothing but one stream differs, in these fields. *)
Definition only (ss ss' : list stream) (i : nat) (f : flags) (p : bool) (os : list outlet) : Prop :=
  List.length ss' = List.length ss /\
  name (get ss' i) = name (get ss i) /\ writer (get ss' i) = writer (get ss i) /\ type (get ss' i) = type (get ss i) /\
  flg (get ss' i) = f /\ plain (get ss' i) = p /\ outs (get ss' i) = os /\
  forall k, k <> i -> same (get ss k) (get ss' k).
Definition nothing (ss ss' : list stream) : Prop := List.length ss' = List.length ss /\ forall k, same (get ss k) (get ss' k).
