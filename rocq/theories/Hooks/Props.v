(** C18, C19: hook chains. *)
From Coq Require Import Arith List Bool.
From Verif.Hooks Require Import Model Spec Proofs.
Import ListNotations.

(** C18: registrations one after the other, then an invocation *)
Theorem C18_invoke : forall fs res, let order := rev (callbacks fs) in
  invoke (run init (sequential fs)) res = Some (ran res order, result res order).
Proof. exact sequential_invoke. Qed.
Print Assumptions C18_invoke.
Theorem C18_exists : forall fs, exists_ (run init (sequential fs)) = true <-> fs <> [].
Proof. exact sequential_exists. Qed.
Print Assumptions C18_exists.
Definition ret3 (c : nat) : ret := match c with 3 => ABORT | 7 => DONE | _ => CONTINUE end.
Example C18_invoke_ex :
  invoke (run init (sequential [Some 1; Some 3; None; Some 7; Some 9])) ret3 = Some ([9; 7; 3], ABORT) /\
  invoke (run init (sequential [Some 1; None; Some 7; Some 9])) ret3 = Some ([9; 7; 1], DONE) /\
  invoke (run init (sequential [Some 1; Some 9])) ret3 = Some ([9; 1], CONTINUE) /\
  invoke (run init (sequential [])) ret3 = Some ([], CONTINUE).
Proof. vm_compute. auto. Qed.
Example C18_exists_ex : exists_ (run init (sequential [None])) = true /\ exists_ init = false.
Proof. vm_compute. auto. Qed.

(** C19, natural statement: once all registrations have returned, every one is on the chain.  False,
    because the CAS takes as expected value a second read of the head: *)
Definition none_lost : Prop := forall cs, let s := run init cs in calls s = [] ->
  forall x nd c, nth_error (nodes s) x = Some nd -> func nd = Some c -> exists l r, invoke s (fun _ => CONTINUE) = Some (l, r) /\ In c l.
(** one thread reads nh->next, another registers, the first goes on *)
Definition preempted : list choice := [Register (Some 1); Run 0; Register (Some 2); Run 0; Run 0; Run 0; Run 0; Run 0].
Theorem C19_none_lost_refuted : ~ none_lost.
Proof.
  intros H. specialize (H preempted eq_refl 1 {| func := Some 2; nxt := None |} 2 eq_refl eq_refl).
  destruct H as (l & r & E & I). vm_compute in E. injection E as <- <-. destruct I as [I|[]]. discriminate.
Qed.
Print Assumptions C19_none_lost_refuted.
Example C19_none_lost_refuted_ex :
  calls (run init preempted) = [] /\ returned init [] preempted = [0; 1] /\
  invoke (run init preempted) (fun _ => CONTINUE) = Some ([1], CONTINUE).
Proof. vm_compute. auto. Qed.
(** C19: nothing is lost, and the order is that of completion, latest first, as long as no
    registration completes while another stands between its two reads of the head *)
Theorem C19_undisturbed : forall cs, undisturbed init cs = true -> let s := run init cs in let l := returned init [] cs in
  NoDup l /\ (forall x, x < length (nodes s) -> ~ In x (map fst (calls s)) -> In x l) /\
  forall res, invoke s res = Some (ran res (callbacks (funcs s l)), result res (callbacks (funcs s l))).
Proof. exact undisturbed_all. Qed.
Print Assumptions C19_undisturbed.
(** two racing registrations, one of which has to retry *)
Definition racing : list choice := [Register (Some 1); Run 0; Run 0; Register (Some 2); Run 0; Run 0; Run 0; Run 0; Run 0; Run 0; Run 0].
Example C19_undisturbed_ex :
  undisturbed init racing = true /\ returned init [] racing = [0; 1] /\ calls (run init racing) = [] /\
  invoke (run init racing) (fun _ => CONTINUE) = Some ([1; 2], CONTINUE) /\ undisturbed init preempted = false.
Proof. vm_compute. auto 6. Qed.
(** C19: on every schedule an invocation terminates, starts with the latest registration and runs
    only callbacks of completed registrations, each at most once *)
Theorem C19_any_schedule : forall cs, let s := run init cs in let pub := returned init [] cs in
  NoDup pub /\ (forall x, x < length (nodes s) -> ~ In x (map fst (calls s)) -> In x pub) /\
  exists l, incl l pub /\ NoDup l /\ hd_error l = hd_error pub /\
    forall res, invoke s res = Some (ran res (callbacks (funcs s l)), result res (callbacks (funcs s l))).
Proof. exact any_schedule. Qed.
Print Assumptions C19_any_schedule.
Example C19_any_schedule_ex :
  nodes (run init preempted) = [{| func := Some 1; nxt := None |}; {| func := Some 2; nxt := None |}] /\ head (run init preempted) = Some 0.
Proof. vm_compute. auto. Qed.
