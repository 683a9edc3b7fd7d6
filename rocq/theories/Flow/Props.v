(** C16, C17, C55: the flow regulator. *)
From Coq Require Import Arith List Bool Lia.
From Verif.Flow Require Import Model Spec Proofs.
Import ListNotations.

(** C16: for every schedule no assertion fails, the amount admitted (and the counter) stays at or
    below the high mark, at most one notification is waiting to be acknowledged, and notifications
    alternate starting with DISABLE *)
Theorem C16_limits_and_alternation : forall lo hi f cs, create lo hi = Some f ->
  exists s, run (init f) cs = Some s /\ held s <= hi /\ cur (reg s) <= hi /\ length (toks s) <= 1 /\ alternating (log s).
Proof. exact limits. Qed.
Print Assumptions C16_limits_and_alternation.
(** three producers race for two places, the loser is told DISABLE, acknowledges while a consumer drains *)
Definition race : list choice :=
  [RaiseOne; RaiseOne; RaiseOne; Run 0; Run 1; Run 2; Run 2; Run 1; Run 0; Run 1; Run 0; Run 1; Run 0; Run 0; Run 0].
Example C16_limits_and_alternation_ex :
  match create 1 2 with
  | Some f => match run (init f) (race ++ [Ack 0; Run 0; Lower 1; Run 1; Run 0; Run 0; Run 1; Run 0; Run 0; Run 0; Run 0; Ack 0; Run 0; Run 0; Run 0]) with
              | Some s => log s = [T_ENABLE; T_DISABLE] /\ held s = 1 /\ toks s = [] /\ calls s = []
              | None => False
              end
  | None => False
  end.
Proof. vm_compute. auto. Qed.

(** C17: nothing in progress and the stop acknowledged: more than low is outstanding *)
Theorem C17_no_lost_wakeup : forall lo hi f cs s, create lo hi = Some f -> run (init f) cs = Some s ->
  calls s = [] -> st (reg s) = DISABLED -> lo < held s.
Proof. exact quiet. Qed.
Print Assumptions C17_no_lost_wakeup.
(** C17: with nothing in progress or waiting, admission is open or more than low is outstanding *)
Theorem C17_rest_states : forall lo hi f cs s, create lo hi = Some f -> run (init f) cs = Some s ->
  calls s = [] -> toks s = [] -> st (reg s) = ENABLED \/ (st (reg s) = DISABLED /\ lo < held s).
Proof. exact quiet_two. Qed.
Print Assumptions C17_rest_states.
(** C17: and the lower call that brings it to low or below is told ENABLE *)
Theorem C17_draining_enables : forall lo hi f cs s b, create lo hi = Some f -> run (init f) cs = Some s ->
  calls s = [] -> st (reg s) = DISABLED -> b <= held s -> held s - b <= lo ->
  exists s', run s [Lower b; Run 0; Run 0; Run 0] = Some s' /\ toks s' = T_ENABLE :: toks s /\ calls s' = [] /\ held s' = held s - b.
Proof. exact drain. Qed.
Print Assumptions C17_draining_enables.
Definition stopped : list choice := race ++ [Ack 0; Run 0; Run 0; Run 0].
Example C17_no_lost_wakeup_ex :
  match create 1 2 with
  | Some f => match run (init f) stopped with
              | Some s => calls s = [] /\ st (reg s) = DISABLED /\ held s = 2 /\ toks s = []
              | None => False
              end
  | None => False
  end.
Proof. vm_compute. auto. Qed.
Example C17_rest_states_ex :
  match create 1 2 with
  | Some f => match run (init f) [RaiseOne; Run 0; Run 0] with Some s => calls s = [] /\ st (reg s) = ENABLED /\ held s = 1 /\ toks s = [] | None => False end
  | None => False
  end.
Proof. vm_compute. auto. Qed.
Example C17_draining_enables_ex :
  match create 1 2 with
  | Some f => match run (init f) stopped with
              | Some s => match run s [Lower 1; Run 0; Run 0; Run 0] with Some s' => toks s' = [T_ENABLE] /\ held s' = 1 | None => False end
              | None => False
              end
  | None => False
  end.
Proof. vm_compute. auto. Qed.

(** C55, natural statement: with the stable_ functions only, once every call has returned and all
    work is done, a refused producer has been woken by some stable_lower returning true.  False: *)
Definition stable_wakes : Prop := forall lo hi f cs s, create lo hi = Some f -> forallb stable_choice cs = true ->
  run (init f) cs = Some s -> calls s = [] -> held s = 0 -> In (DidRaise false) (outs s) -> In (DidLower true) (outs s).
(** P and Q find the regulator full, Q is refused; the consumer drains before P acknowledges *)
Definition lost : list choice :=
  [StableRaise; Run 0; Run 0;                         (* the one place is taken *)
   StableRaise; Run 0; Run 0;                         (* P: full, ENABLED -> DISABLING *)
   StableRaise; Run 0; Run 0;                         (* Q: full, not ENABLED: refused *)
   StableLower 1; Run 0; Run 0; Run 0;                (* consumer: empty, not DISABLED: false *)
   Run 0; Run 0; Run 0; Run 0; Run 0; Run 0; Run 0; Run 0; Run 0;  (* P acknowledges, re-enables, gets its place *)
   StableLower 1; Run 0; Run 0; Run 0].               (* done, ENABLED: false *)
Theorem C55_stable_wakes_refuted : ~ stable_wakes.
Proof.
  intros H. specialize (H 0 1 {| cur := 0; st := ENABLED; low := 0; high := 1 |} lost).
  eassert (run (init {| cur := 0; st := ENABLED; low := 0; high := 1 |}) lost = Some _) as R by (vm_compute; reflexivity).
  specialize (H _ eq_refl eq_refl R eq_refl eq_refl). cbn in H. intuition discriminate.
Qed.
Print Assumptions C55_stable_wakes_refuted.
Example C55_stable_wakes_refuted_ex :
  match create 0 1 with
  | Some f => match run (init f) lost with
              | Some s => calls s = [] /\ held s = 0 /\ st (reg s) = ENABLED /\
                          outs s = [DidLower false; DidRaise true; DidLower false; DidRaise false; DidRaise true]
              | None => False
              end
  | None => False
  end.
Proof. vm_compute. auto. Qed.
(** C55: with at most one producer call at a time the wake-up is never lost: a refused producer
    is told by a stable_lower returning true after its call began, or more than low is outstanding *)
Theorem C55_one_producer_wakes : forall lo hi f cs s w, create lo hi = Some f -> one_producer (init f) false cs = Some (s, w) ->
  calls s = [] -> refused (outs s) = true -> w = true \/ (st (reg s) = DISABLED /\ lo < held s).
Proof. exact one_producer_quiet. Qed.
Print Assumptions C55_one_producer_wakes.
Example C55_one_producer_wakes_ex :
  match create 0 1 with
  | Some f => match one_producer (init f) false [StableRaise; Run 0; Run 0; StableRaise; Run 0; Run 0; Run 0; Run 0; Run 0] with
              | Some (s, w) => calls s = [] /\ refused (outs s) = true /\ w = false /\ held s = 1
              | None => False
              end /\
              match one_producer (init f) false ([StableRaise; Run 0; Run 0; StableRaise; Run 0; Run 0; Run 0; Run 0; Run 0] ++
                                                 [StableLower 1; Run 0; Run 0; Run 0; Run 0; Run 0; Run 0]) with
              | Some (s, w) => calls s = [] /\ refused (outs s) = true /\ w = true /\ held s = 0
              | None => False
              end
  | None => False
  end.
Proof. vm_compute. auto 10. Qed.
