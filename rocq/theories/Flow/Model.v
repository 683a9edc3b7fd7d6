(** Model of src/utils/mtev_flow_regulator.c as a transition system: any number of calls in
    progress, each step is one atomic access (ck_pr_load / ck_pr_cas) of one call, in any order
    (sequential consistency).  unsigned values are nats (cur never exceeds high). *)
From Coq Require Import Arith List Bool.
Import ListNotations.

(** MTEV_FLOW_REGULATOR_STATE_*, mtev_flow_regulator.c:10-13 *)
Inductive state := ENABLED | DISABLING | DISABLED | ENABLING.
(** mtev_flow_regulator_toggle_t, mtev_flow_regulator.h *)
Inductive toggle := T_DISABLED | T_DISABLE | T_KEEP | T_ENABLE.
Definition state_eqb (a b : state) : bool :=
  match a, b with ENABLED, ENABLED | DISABLING, DISABLING | DISABLED, DISABLED | ENABLING, ENABLING => true | _, _ => false end.

(** struct _mtev_flow_regulator_t, mtev_flow_regulator.c:15-21 *)
Record fr := { cur : nat; st : state; low : nat; high : nat }.
(** mtev_flow_regulator_create, mtev_flow_regulator.c:23-31 *)
Definition create (lo hi : nat) : option fr := if lo <? hi then Some {| cur := 0; st := ENABLED; low := lo; high := hi |} else None.

(** Where a call stands: the next atomic access it performs.
    [UpLoad]/[UpCas]/[UpState]: mtev_flow_regulator_adjust_up, :44, :52, :46.
    [LoLoad]/[LoCas]/[LoState]: mtev_flow_regulator_lower, :67, :70, :72.
    [AckD]/[AckE]: the first CAS of mtev_flow_regulator_ack, :84, :89. *)
Inductive pc :=
| UpLoad (adj : nat) | UpCas (old adj : nat) | UpState
| LoLoad (by_ : nat) | LoCas (old by_ : nat) | LoState
| AckD | AckE.

(** outcome of one atomic access: next access, return of a toggle, or failed mtevAssert *)
Inductive next := Go (p : pc) | Ret (t : toggle) | Fail.

(** one access of a call, mtev_flow_regulator.c:38-97 *)
Definition access (f : fr) (p : pc) : fr * next :=
  match p with
  | UpLoad adj =>                                                            (* :44-45 *)
      if cur f =? high f then (f, Go UpState) else (f, Go (UpCas (cur f) adj))
  | UpState =>                                                               (* :46-50 *)
      if state_eqb (st f) ENABLED
      then ({| cur := cur f; st := DISABLING; low := low f; high := high f |}, Ret T_DISABLE)
      else (f, Ret T_DISABLED)
  | UpCas old adj =>                                                         (* :52-53 *)
      if cur f =? old
      then ({| cur := old + adj; st := st f; low := low f; high := high f |}, Ret T_KEEP)
      else (f, Go (UpLoad adj))
  | LoLoad b =>                                                              (* :67-68 *)
      if b <=? cur f then (f, Go (LoCas (cur f) b)) else (f, Fail)
  | LoCas old b =>                                                           (* :69-71 *)
      if cur f =? old
      then ({| cur := old - b; st := st f; low := low f; high := high f |},
            if old - b <=? low f then Go LoState else Ret T_KEEP)
      else (f, Go (LoLoad b))
  | LoState =>                                                               (* :72-76 *)
      if state_eqb (st f) DISABLED
      then ({| cur := cur f; st := ENABLING; low := low f; high := high f |}, Ret T_ENABLE)
      else (f, Ret T_KEEP)
  | AckD =>                                                                  (* :84-86 *)
      if state_eqb (st f) DISABLING
      then ({| cur := cur f; st := DISABLED; low := low f; high := high f |}, Go (LoLoad 0))
      else (f, Fail)
  | AckE =>                                                                  (* :89-92 *)
      if state_eqb (st f) ENABLING
      then ({| cur := cur f; st := ENABLED; low := low f; high := high f |}, Go (UpLoad 0))
      else (f, Fail)
  end.

(** what a returned toggle is for: a plain call of the client ([grant] says a KEEP reserves a work
    item, that is, raise_one), or a place in the loops of the stable_ functions *)
Inductive cont :=
| Client (grant : bool)
| SR1 | SR2 | SR3              (* stable_try_raise_one: after raise_one :101,134; after ack :112; after ack :131 *)
| SL (last : toggle).          (* stable_lower: after lower ([last] = KEEP) or ack(last) (:144-149) *)

(** what happens at the return: the call goes on, or is over; [Got] a toggle for the client,
    [Raised]/[Lowered] the value of a
    stable_ function; [Boom] the failed assertion at :120 *)
Inductive after := Cont (p : pc) (k : cont) | Got (grant : bool) (t : toggle) | Raised (b : bool) | Lowered (b : bool) | Boom.

(** mtev_flow_regulator_ack(fr, t) inside stable_lower, :148: with KEEP or DISABLED it returns KEEP at once *)
Definition ack_in_lower (t : toggle) : after :=
  match t with
  | T_DISABLE => Cont AckD (SL T_DISABLE)
  | T_ENABLE => Cont AckE (SL T_ENABLE)
  | _ => Lowered false                                                       (* :150 with last_t = t *)
  end.

(** mtev_flow_regulator.c:99-151 *)
Definition on_return (k : cont) (t : toggle) : after :=
  match k with
  | Client g => Got g t
  | SR1 => match t with                                                      (* :102-138 after raise_one *)
           | T_KEEP => Raised true
           | T_DISABLED => Raised false
           | T_DISABLE => Cont AckD SR2
           | T_ENABLE => Cont AckE SR3
           end
  | SR2 => match t with                                                      (* :112-121 *)
           | T_KEEP => Raised false
           | T_ENABLE => Cont AckE SR3
           | _ => Boom
           end
  | SR3 => match t with                                                      (* :131-138 *)
           | T_KEEP => Cont (UpLoad 1) SR1
           | T_DISABLED => Raised false
           | T_DISABLE => Cont AckD SR2
           | T_ENABLE => Cont AckE SR3
           end
  | SL last => match t with
               | T_KEEP => Lowered (match last with T_ENABLE => true | _ => false end)
               | _ => ack_in_lower t
               end
  end.
(** ** The system *)
(** a call in progress *)
Record call := { at_ : pc; k_ : cont }.
(** a stable_ call that returned *)
Inductive outcome := DidRaise (b : bool) | DidLower (b : bool).
(** [held]: work items admitted and not yet passed to a lower; [toks]: toggles told to clients and
    not yet acknowledged; [log]: all DISABLE/ENABLE toggles issued, latest first; [outs]: results of stable_ calls,
    latest first *)
Record sys := { reg : fr; calls : list call; held : nat; toks : list toggle; log : list toggle; outs : list outcome }.

(** what the environment does next: start a call, or let the i-th call in progress take one step.
    [Lower]/[StableLower] are only made for work items held; [Ack] only for a toggle told. *)
Inductive choice :=
| RaiseOne | Lower (b : nat) | Ack (i : nat) | StableRaise | StableLower (b : nat) | Run (i : nat).

(** list helpers: drop, replace the i-th element (bookkeeping of the calls in progress, no counterpart in /repo) *)
Fixpoint remove_nth {A} (i : nat) (l : list A) : list A :=
  match l, i with [], _ => [] | _ :: r, O => r | x :: r, S i' => x :: remove_nth i' r end.
Fixpoint set_nth {A} (i : nat) (y : A) (l : list A) : list A :=
  match l, i with [], _ => [] | _ :: r, O => y :: r | x :: r, S i' => x :: set_nth i' y r end.

(** a client enters one of the functions of mtev_flow_regulator.c:57-151 *)
Definition start (s : sys) (c : call) (h : nat) (tk : list toggle) : sys :=
  {| reg := reg s; calls := c :: calls s; held := h; toks := tk; log := log s; outs := outs s |}.
(** the notifications among the toggles, mtev_flow_regulator.h:53-58 *)
Definition logged (t : toggle) (l : list toggle) : list toggle := match t with T_DISABLE | T_ENABLE => t :: l | _ => l end.

(** one step of the system, mtev_flow_regulator.c:38-151; [None]: an assertion failed *)
Definition step (s : sys) (c : choice) : option sys :=
  match c with
  | RaiseOne => Some (start s {| at_ := UpLoad 1; k_ := Client true |} (held s) (toks s))
  | StableRaise => Some (start s {| at_ := UpLoad 1; k_ := SR1 |} (held s) (toks s))
  | Lower b => Some (if b <=? held s then start s {| at_ := LoLoad b; k_ := Client false |} (held s - b) (toks s) else s)
  | StableLower b => Some (if b <=? held s then start s {| at_ := LoLoad b; k_ := SL T_KEEP |} (held s - b) (toks s) else s)
  | Ack i =>
      Some (match nth_error (toks s) i with
            | Some T_DISABLE => start s {| at_ := AckD; k_ := Client false |} (held s) (remove_nth i (toks s))
            | Some T_ENABLE => start s {| at_ := AckE; k_ := Client false |} (held s) (remove_nth i (toks s))
            | _ => s
            end)
  | Run i =>
      match nth_error (calls s) i with
      | None => Some s
      | Some c =>
          let (f, n) := access (reg s) (at_ c) in
          match n with
          | Fail => None
          | Go p => Some {| reg := f; calls := set_nth i {| at_ := p; k_ := k_ c |} (calls s); held := held s; toks := toks s; log := log s; outs := outs s |}
          | Ret t =>
              let lg := logged t (log s) in
              let drop := remove_nth i (calls s) in
              match on_return (k_ c) t with
              | Boom => None
              | Cont p k => Some {| reg := f; calls := set_nth i {| at_ := p; k_ := k |} (calls s); held := held s; toks := toks s; log := lg; outs := outs s |}
              | Got g t => Some {| reg := f; calls := drop;
                                   held := match g, t with true, T_KEEP => S (held s) | _, _ => held s end;
                                   toks := match t with T_DISABLE | T_ENABLE => t :: toks s | _ => toks s end; log := lg; outs := outs s |}
              | Raised b => Some {| reg := f; calls := drop; held := if b then S (held s) else held s; toks := toks s; log := lg; outs := DidRaise b :: outs s |}
              | Lowered b => Some {| reg := f; calls := drop; held := held s; toks := toks s; log := lg; outs := DidLower b :: outs s |}
              end
          end
      end
  end.
(** right after mtev_flow_regulator_create, mtev_flow_regulator.c:23-31 *)
Definition init (f : fr) : sys := {| reg := f; calls := []; held := 0; toks := []; log := []; outs := [] |}.
(** a schedule: any sequence of steps (mtev_flow_regulator.c:38-151) *)
Fixpoint run (s : sys) (cs : list choice) : option sys :=
  match cs with [] => Some s | c :: r => match step s c with Some s' => run s' r | None => None end end.
