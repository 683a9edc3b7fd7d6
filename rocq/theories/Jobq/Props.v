(** C31, C32, C61, C62: job queues. *)
From Coq Require Import Arith NArith List Bool Lia Permutation.
From Verif.Jobq Require Import Model Spec Proofs.
Import ListNotations.

(** schedules for the examples: put one job in; hand one out; the same up to the end of the job *)
Definition put (f : bool) (s : N) : list choice := Enq f s :: (if f then [Run 0; Run 0; Run 0] else [Run 0; Run 0]).
Definition take : list choice := [Deq true; Run 0; Run 0; Run 0].
Definition work : list choice := take ++ [Run 0].
Definition ex1 : list choice := put true 0 ++ put true 7 ++ put true 7 ++ put false 7 ++ put true 0 ++ work ++ take ++ take ++ [Run 1; Run 0].
Definition after (s : sys) (cs : list choice) : sys := match run s cs with Some s' => s' | None => s end.

(** C31: whatever the schedule, freed subqueues are not touched *)
Theorem C31_memory_safe : forall c mb lf w cs, few_workers w -> exists s, run (init c mb lf w) cs = Some s.
Proof. exact safe. Qed.
Print Assumptions C31_memory_safe.
(** the subqueue is torn down after its last job *)
Example C31_memory_safe_ex : few_workers 5 /\
  map sid (ring (q (after (init 4 0 false 5) ex1))) = [0; 7]%N /\ map sid (ring (q (after (init 4 0 false 5) (ex1 ++ work ++ work)))) = [0]%N.
Proof. vm_compute. auto. Qed.

(** C31: jobs put in are handed out or waiting, each once *)
Theorem C31_each_job_once : forall c mb lf w cs s, few_workers w -> switches_when_drained (init c mb lf w) cs -> run (init c mb lf w) cs = Some s ->
  NoDup (map jid (put_in (hist s))) /\ Permutation (put_in (hist s)) (handed_out (hist s) ++ waiting s).
Proof. exact each_once. Qed.
Print Assumptions C31_each_job_once.
Example C31_each_job_once_ex : switches_when_drained (init 4 0 false 5) ex1 /\
  map jid (put_in (hist (after (init 4 0 false 5) ex1))) = [0; 1; 2; 3; 4] /\ map jid (handed_out (hist (after (init 4 0 false 5) ex1))) = [0; 1; 4] /\
  map jid (waiting (after (init 4 0 false 5) ex1)) = [2; 3].
Proof. split; [vm_compute; repeat split; congruence|]. vm_compute. auto. Qed.

(** C31: each subqueue is a line: a job joins at its end (at its front under LIFO), the job at the front is handed out *)
Theorem C31_line : forall c mb lf w cs s n, few_workers w -> switches_when_drained (init c mb lf w) cs -> run (init c mb lf w) cs = Some s ->
  line n (hist s) = Some (waiting_in n s).
Proof. exact order. Qed.
Print Assumptions C31_line.
Definition ex2 : list choice := put true 7 ++ put true 7 ++ [SetLifo true] ++ put true 7 ++ put true 7 ++ take ++ take ++ take.
Example C31_line_ex : switches_when_drained (init 4 0 false 5) ex2 /\
  map jid (handed_out (hist (after (init 4 0 false 5) ex2))) = [3; 2; 0] /\
  option_map (map jid) (line 7 (hist (after (init 4 0 false 5) ex2))) = Some [1].
Proof. split; [vm_compute; repeat split; congruence|]. vm_compute. auto. Qed.

(** C31: first in, first out, per subqueue, by default *)
Theorem C31_fifo : forall c mb w cs s n, few_workers w -> fifo_only cs -> run (init c mb false w) cs = Some s ->
  of_sub n (put_in (hist s)) = of_sub n (handed_out (hist s)) ++ waiting_in n s.
Proof. exact fifo_order. Qed.
Print Assumptions C31_fifo.
Example C31_fifo_ex : fifo_only ex1 /\ map jid (of_sub 7 (put_in (hist (after (init 4 0 false 5) ex1)))) = [1; 2; 3] /\
  map jid (of_sub 7 (handed_out (hist (after (init 4 0 false 5) ex1)))) = [1].
Proof. split; [unfold fifo_only; cbn [ex1 put take work app]; repeat constructor; congruence|]. vm_compute. auto. Qed.

(** C31: a worker let through never comes back with nothing, and when a job waits and no call is between
    its two halves a worker gets one at once *)
Theorem C31_yields : forall c mb lf w cs s, few_workers w -> switches_when_drained (init c mb lf w) cs -> run (init c mb lf w) cs = Some s ->
  nulls s = 0 /\
  (waiting s <> [] -> ~ In ENotify (calls s) -> ~ In DPop (calls s) -> (N.of_nat (length (filter consumer (calls s))) < w)%N ->
   forall b, exists s' j, run s [Deq b; Run 0; Run 0] = Some s' /\ hist s' = Popped j :: hist s /\ In j (waiting s)).
Proof. exact yields. Qed.
Print Assumptions C31_yields.
Example C31_yields_ex : let s := after (init 1 0 false 5) (ex1 ++ take) in
  map jid (waiting s) = [3] /\ map jid (with_workers 7 s) = [2] /\ conc (q s) = 1%N /\ length (filter consumer (calls s)) = 1 /\
  map jid (handed_out (hist (after s [Deq false; Run 0; Run 0]))) = [0; 1; 4; 2; 3].
Proof. vm_compute. auto 6. Qed.

(** C32: through try_enqueue the jobs not started never exceed the limit, in any interleaving *)
Theorem C32_limit : forall c mb lf w cs s, few_workers w -> (0 < mb < 2 ^ 32)%N -> try_only cs -> switches_when_drained (init c mb lf w) cs ->
  run (init c mb lf w) cs = Some s -> (N.of_nat (not_started s) <= mb)%N.
Proof. exact limit. Qed.
Print Assumptions C32_limit.
(** three calls at once with room for two: both loads before both swaps *)
Definition ex3 : list choice := [TryEnq true 0; TryEnq true 0; TryEnq true 0; Run 0; Run 1; Run 2; Run 0; Run 1; Run 2; Run 1; Run 2; Run 1; Run 2; Run 2].
Example C32_limit_ex : try_only ex3 /\ switches_when_drained (init 4 2 false 5) ex3 /\
  not_started (after (init 4 2 false 5) ex3) = 2 /\ map jid (refused (after (init 4 2 false 5) ex3)) = [0].
Proof. split; [repeat constructor|]. split; [vm_compute; repeat split; congruence|]. vm_compute. auto. Qed.

(** C32: a try_enqueue is refused exactly when the limit is reached *)
Theorem C32_refused_exactly_when_full : forall c mb lf w cs s i j, few_workers w -> switches_when_drained (init c mb lf w) cs ->
  run (init c mb lf w) cs = Some s -> (N.of_nat (not_started s) < 2 ^ 32)%N -> nth_error (calls s) i = Some (ELoad j) ->
  exists s', step s (Run i) = Some s' /\
    ((mb <= N.of_nat (not_started s))%N -> refused s' = j :: refused s /\ ~ In (ELoad j) (calls s') /\ hist s' = hist s) /\
    ((N.of_nat (not_started s) < mb)%N -> refused s' = refused s /\
       exists s'', step s' (Run i) = Some s'' /\ nth_error (calls s'') i = Some (EPush j) /\ refused s'' = refused s).
Proof. exact refused_iff. Qed.
Print Assumptions C32_refused_exactly_when_full.
Example C32_refused_exactly_when_full_ex : let s := after (init 4 2 false 5) (put true 1 ++ put true 0 ++ [TryEnq true 0]) in
  not_started s = 2 /\ nth_error (calls s) 0 = Some (ELoad {| jid := 2; fd := true; sub := 0 |}) /\ map jid (refused (after s [Run 0])) = [2].
Proof. vm_compute. auto. Qed.

(** C61, natural statement: changing the LIFO setting loses no job.  False: *)
Definition switching_loses_nothing : Prop := forall c mb lf w cs s, few_workers w -> run (init c mb lf w) cs = Some s ->
  Permutation (put_in (hist s)) (handed_out (hist s) ++ waiting s) /\ nulls s = 0.
Definition ex4 : list choice := put true 0 ++ put true 0 ++ [SetLifo false] ++ put true 0.
Theorem C61_switching_loses_nothing_refuted : ~ switching_loses_nothing.
Proof.
  intros P. destruct (P 4%N 0%N true 5%N ex4 (after (init 4 0 true 5) ex4)) as [Q _]; [vm_compute; reflexivity..|].
  apply Permutation_length in Q. vm_compute in Q. discriminate Q.
Qed.
Print Assumptions C61_switching_loses_nothing_refuted.
(** three jobs put in, one waiting; the second worker let through comes back with nothing *)
Example C61_switching_loses_nothing_refuted_ex : let s := after (init 4 0 true 5) ex4 in
  map jid (put_in (hist s)) = [0; 1; 2] /\ map jid (waiting s) = [2] /\ tickets (q s) = 3 /\ backlog (q s) = 3%N /\
  nulls (after s [Deq true; Run 0; Run 0; Deq true; Run 0; Run 0]) = 1.
Proof. vm_compute. auto 6. Qed.
(** C61: exactly what is lost: after a queue has run under LIFO, the first job put into a subqueue after
    switching back replaces all that wait there *)
Theorem C61_lost : forall c mb w cs s i j, few_workers w -> no_switch cs -> run (init c mb true w) cs = Some s -> nth_error (calls s) i = Some (EPush j) ->
  exists s', run s [SetLifo false; Run i] = Some s' /\ waiting_in (sub j) s' = [j] /\ put_in (hist s') = put_in (hist s) ++ [j] /\ handed_out (hist s') = handed_out (hist s).
Proof. exact lost. Qed.
Print Assumptions C61_lost.
Example C61_lost_ex : let cs := put true 0 ++ put true 0 ++ [Enq true 0; Run 0] in no_switch cs /\
  nth_error (calls (after (init 4 0 true 5) cs)) 0 = Some (EPush {| jid := 2; fd := true; sub := 0 |}) /\ map jid (waiting (after (init 4 0 true 5) cs)) = [1; 0].
Proof. split; [repeat constructor|]. vm_compute. auto. Qed.

(** C62: a subqueue that has its share of the workers is served only when every subqueue with waiting jobs has *)
Theorem C62_fair_share : forall c mb lf w cs s i s' j, few_workers w -> run (init c mb lf w) cs = Some s -> nth_error (calls s) i = Some DPop ->
  step s (Run i) = Some s' -> hist s' = Popped j :: hist s ->
  (N.of_nat (length (with_workers (sub j) s)) < share s)%N \/
  (forall n, waiting_in n s <> [] -> (share s <= N.of_nat (length (with_workers n s)))%N).
Proof. exact fair. Qed.
Print Assumptions C62_fair_share.
(** two subqueues, four workers: two are busy with subqueue 7, which has more jobs; the job of 0 comes first *)
Example C62_fair_share_ex : let s := after (init 4 0 false 5) (put true 7 ++ put true 7 ++ put true 7 ++ take ++ take ++ put true 0 ++ [Deq true; Run 0]) in
  share s = 2%N /\ length (with_workers 7 s) = 2 /\ map jid (waiting s) = [3; 2] /\ nth_error (calls s) 0 = Some DPop /\ map jid (handed_out (hist (after s [Run 0]))) = [0; 1; 3].
Proof. vm_compute. auto 6. Qed.
