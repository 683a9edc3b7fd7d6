(** C41: the counting semaphore admits at most its value, and nobody sleeps through a post. *)
From Coq Require Import Arith NArith List Bool Lia.
From Verif.Sem Require Import Model Spec Proofs.
Import ListNotations.

(** units are neither lost nor made up: what was taken plus what is left is the initial value plus the posts *)
Theorem C41_conservation : forall v s, reach v s -> fits v s -> (value s + taken s = v + posted s)%N.
Proof. exact conservation. Qed.
Print Assumptions C41_conservation.
Lemma reach_run v cs : forall s, reach v s -> reach v (run s cs).
Proof.
  induction cs as [|c cs IH]; intros s R; [exact R|]. cbn [run]. apply IH.
  destruct (step s c) as [s'|] eqn:E; [|exact R]. apply (R1 v s c s' R E).
Qed.
(** initial value 1, two waits (one gets the unit, one sleeps), then a post up to its signal *)
Definition busy : list choice := [Wait; Wait; Go 0 0; Go 0 0; Go 0 0; Go 0 0; Go 0 0; Post; Go 1 0; Go 1 0].
Definition s1 : sys := run (init 1) busy.
Example C41_conservation_ex : reach 1 s1 /\ fits 1 s1 /\ s1 = Sys 0 [WLock; PInc] 0 1 0.
Proof. split; [apply reach_run; constructor|]. split; vm_compute; reflexivity. Qed.

(** a wait or trywait whose test comes to pass succeeds exactly when fewer units were taken than initial value plus
    posts so far; otherwise wait sleeps and trywait fails, and nothing is taken *)
Theorem C41_admits : forall v s i w c ok no s', reach v s -> fits v s -> nth_error (calls s) i = Some c -> step s (Go i w) = Some s' ->
  (c = WTest /\ ok = WUnlock /\ no = WSleep \/ c = TTest /\ ok = TUnlock true /\ no = TUnlock false) ->
  (taken s < v + posted s)%N /\ taken s' = (taken s + 1)%N /\ posted s' = posted s /\ nth_error (calls s') i = Some ok \/
  taken s = (v + posted s)%N /\ taken s' = taken s /\ posted s' = posted s /\ nth_error (calls s') i = Some no.
Proof. exact decided. Qed.
Print Assumptions C41_admits.
Definition s2 : sys := run s1 [Go 1 0; Go 1 0; Trywait; Go 1 0].
Example C41_admits_ex : reach 1 s2 /\ fits 1 s2 /\ nth_error (calls s2) 1 = Some TTest /\ step s2 (Go 1 0) <> None.
Proof. split; [apply reach_run, reach_run; constructor|]. vm_compute. repeat split; discriminate. Qed.

(** no lost wake-up: while anyone sleeps, every unit available is matched by a woken waiter on its way to it *)
Theorem C41_no_lost_wakeup : forall v s, reach v s -> fits v s -> (0 < number sleeps s)%N -> (value s <= number awake s)%N.
Proof. exact no_lost_wakeup. Qed.
Print Assumptions C41_no_lost_wakeup.
Definition s3 : sys := run (init 0) [Wait; Wait; Go 0 0; Go 0 0; Go 1 0; Go 1 0; Post; Go 2 0; Go 2 1; Go 2 0].
Example C41_no_lost_wakeup_ex : reach 0 s3 /\ fits 0 s3 /\ calls s3 = [WSleep; WLock; PUnlock] /\ value s3 = 1%N.
Proof. split; [apply reach_run; constructor|]. split; vm_compute; auto. Qed.

(** so a waiter is blocked only while the value is zero: when nobody but sleepers is left the value is 0 *)
Theorem C41_blocks_only_at_zero : forall v s, reach v s -> fits v s -> Forall (fun c => sleeps c = true) (calls s) -> calls s <> [] ->
  value s = 0%N /\ taken s = (v + posted s)%N.
Proof. exact all_asleep. Qed.
Print Assumptions C41_blocks_only_at_zero.
Definition s4 : sys := run (init 0) [Wait; Wait; Go 0 0; Go 0 0; Go 1 0; Go 1 0].
Example C41_blocks_only_at_zero_ex : reach 0 s4 /\ fits 0 s4 /\ calls s4 = [WSleep; WSleep].
Proof. split; [apply reach_run; constructor|]. split; vm_compute; reflexivity. Qed.

(** no deadlock: while some call in progress is not asleep, some call can do its next step *)
Theorem C41_no_deadlock : forall v s, reach v s -> fits v s -> (exists c, In c (calls s) /\ sleeps c = false) ->
  exists i w s', step s (Go i w) = Some s'.
Proof. exact moves. Qed.
Print Assumptions C41_no_deadlock.
Example C41_no_deadlock_ex : reach 0 s3 /\ fits 0 s3 /\ In PUnlock (calls s3).
Proof. split; [apply reach_run; constructor|]. split; [vm_compute; reflexivity|]. cbn. auto. Qed.

(** the bound is needed: an initial value of -1 is 2^32-1 units, and one post wraps it to none *)
Theorem C41_wraps : exists s, reach (2 ^ 32 - 1) s /\ posted s = 1%N /\ taken s = 0%N /\ value s = 0%N /\ calls s = [].
Proof. exists (run (init (2 ^ 32 - 1)) [Post; Go 0 0; Go 0 0; Go 0 0; Go 0 0]). split; [apply reach_run; constructor|]. vm_compute. auto. Qed.
Print Assumptions C41_wraps.
