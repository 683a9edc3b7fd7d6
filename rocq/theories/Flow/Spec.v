(** What clients rely on, in terms of the history of the system. *)
From Coq Require Import Arith List Bool.
From Verif.Flow Require Import Model.
Import ListNotations.

(** notifications, latest first, alternate and the first one is DISABLE *)
Fixpoint alternating (l : list toggle) : Prop :=
  match l with
  | [] => True
  | [t] => t = T_DISABLE
  | t :: ((u :: _) as r) => (t = T_DISABLE /\ u = T_ENABLE \/ t = T_ENABLE /\ u = T_DISABLE) /\ alternating r
  end.
(** a history uses only the stable_ functions *)
Definition stable_choice (c : choice) : bool := match c with StableRaise | StableLower _ | Run _ => true | _ => false end.
(** a stable_try_raise_one is in progress *)
Definition producing (s : sys) : bool :=
  existsb (fun c => match k_ c with SR1 | SR2 | SR3 => true | _ => false end) (calls s).
(** the result of the latest stable_try_raise_one was "no room" *)
Fixpoint refused (l : list outcome) : bool :=
  match l with [] => false | DidRaise b :: _ => negb b | _ :: r => refused r end.
(** the latest thing that returned is a stable_lower that told its caller to restart production *)
Definition says_restart (before after : list outcome) : bool :=
  match after with DidLower true :: r => length before <? length after | _ => false end.
(** schedules of the stable_ functions with at most one stable_try_raise_one in progress at a time;
    the boolean: some stable_lower returned true since the latest stable_try_raise_one was called *)
Fixpoint one_producer (s : sys) (w : bool) (cs : list choice) : option (sys * bool) :=
  match cs with
  | [] => Some (s, w)
  | c :: r =>
      if stable_choice c && negb (match c with StableRaise => producing s | _ => false end) then
        match step s c with
        | Some s' => one_producer s' (match c with StableRaise => false | _ => w || says_restart (outs s) (outs s') end) r
        | None => None
        end
      else None
  end.
