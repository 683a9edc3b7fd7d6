(** What users of hooks rely on. *)
From Coq Require Import Arith List Bool.
From Verif.Hooks Require Import Model.
Import ListNotations.

Definition is_abort (r : ret) : bool := match r with ABORT => true | _ => false end.
Definition is_done (r : ret) : bool := match r with DONE => true | _ => false end.
(** callbacks run: all up to and including the first that aborts *)
Fixpoint ran (res : nat -> ret) (l : list nat) : list nat :=
  match l with [] => [] | c :: r => if is_abort (res c) then [c] else c :: ran res r end.
Definition result (res : nat -> ret) (l : list nat) : ret :=
  if existsb (fun c => is_abort (res c)) (ran res l) then ABORT
  else if existsb (fun c => is_done (res c)) (ran res l) then DONE else CONTINUE.
(** callbacks of a list of registrations, NULL ones left out *)
Definition callbacks (fs : list (option nat)) : list nat := flat_map (fun f => match f with Some c => [c] | None => [] end) fs.

(** one registration after the other *)
Definition sequential (fs : list (option nat)) : list choice := flat_map (fun f => [Register f; Run 0; Run 0; Run 0]) fs.

(** the registrations (as node numbers) that have returned, in the order they did, latest first *)
Definition returned_by (s : sys) (c : choice) : list nat :=
  match c with
  | Run i => match nth_error (calls s) i with Some (x, Cas e) => if same (head s) e then [x] else [] | _ => [] end
  | _ => []
  end.
Fixpoint returned (s : sys) (acc : list nat) (cs : list choice) : list nat :=
  match cs with [] => acc | c :: r => returned (step s c) (returned_by s c ++ acc) r end.
(** the callbacks of registrations [xs] *)
Definition funcs (s : sys) (xs : list nat) : list (option nat) :=
  map (fun x => match nth_error (nodes s) x with Some nd => func nd | None => None end) xs.

(** no registration completes while another one stands between its two reads of the head *)
Definition between (s : sys) : bool := existsb (fun c => match snd c with ReadExpected => true | _ => false end) (calls s).
Fixpoint undisturbed (s : sys) (cs : list choice) : bool :=
  match cs with
  | [] => true
  | c :: r => (match returned_by s c with [] => true | _ => negb (between s) end) && undisturbed (step s c) r
  end.
