(** C27: equal handles, equal contents.  C64: the reference-count protocol is safe under every interleaving. *)
From Coq Require Import Arith NArith List Bool Lia.
From Verif.Intern Require Import Model Spec Proofs.
Import ListNotations.

(** Full statement of C27: with lengths as documented, two handles a user holds are the same exactly when their
    contents are equal.  It fails: mtev_intern_str(buff, len) also compares the byte after the string. *)
Theorem C27_handles_refuted : ~ (forall s p q, reach documented s -> held s p > 0 -> held s q > 0 ->
  (p = q <-> get_str s p = get_str s q)).
Proof. exact handles_refuted. Qed.
Print Assumptions C27_handles_refuted.
Example C27_handles_refuted_ex : reach documented end1 /\ held end1 1 = 1 /\ held end1 2 = 1 /\
  get_str end1 1 = Some [97; 98]%N /\ get_str end1 2 = Some [97; 98]%N.
Proof. split; [exact end1_reach|]. vm_compute. auto. Qed.

(** ... and the handle returned need not read back as what was asked for: data "a\0" and string "a" share one *)
Theorem C27_returned_refuted : ~ (forall s c s' b n p, reach documented s -> few s -> documented c -> step s c = Next s' ->
  ret s' = (b, n, p) :: ret s -> get_str s' p = Some (asked b n)).
Proof. exact returned_refuted. Qed.
Print Assumptions C27_returned_refuted.
Example C27_returned_refuted_ex : reach documented end2 /\ length (calls end2) = 1 /\ held end2 1 = 1.
Proof. split; [exact end2_reach|]. vm_compute. auto. Qed.

(** What does hold.  A program that interns terminated strings only: *)
Theorem C27_strings_partial : forall s, reach strings s ->
  (forall p q, held s p > 0 -> held s q > 0 -> get_str s p <> None /\ (p = q <-> get_str s p = get_str s q)) /\
  (forall c s' b n p, few s -> strings c -> step s c = Next s' -> ret s' = (b, n, p) :: ret s ->
     get_str s' p = Some (asked b n) /\ held s' p = S (held s p)).
Proof. intros s R. split; [intros p q; exact (str_handles s p q R)|intros c s' b n p; exact (str_returns s c s' b n p R)]. Qed.
Print Assumptions C27_strings_partial.
Definition sched1 : list choice :=
  whole (intern_str [97; 98; 0]%N 0) 1 ++ whole (intern_str [97; 0]%N 1) 2 ++
  [intern_str [97; 98; 0; 7]%N 2; Go 0 9; Go 0 9; Go 0 9; Go 0 9].
Definition s1 : sys := match run init sched1 with Next s => s | _ => init end.
Lemma s1_reach : reach strings s1.
Proof.
  apply (run_reach strings sched1 init s1); [constructor| | |vm_compute; reflexivity].
  - repeat (constructor; [exact I || (cbn; first [exists [97; 98]%N; repeat split; cbn; lia|exists [97]%N; repeat split; cbn; lia])|]).
    constructor.
  - intros p. vm_compute. reflexivity.
Qed.
Example C27_strings_partial_ex : reach strings s1 /\ held s1 1 = 2 /\ held s1 2 = 1 /\
  get_str s1 1 = Some [97; 98]%N /\ get_str s1 2 = Some [97]%N.
Proof. split; [exact s1_reach|]. vm_compute. auto. Qed.

(** A program that interns data without terminator only: *)
Theorem C27_blobs_partial : forall s, reach blobs s ->
  (forall p q, held s p > 0 -> held s q > 0 -> get_str s p <> None /\ (p = q <-> get_str s p = get_str s q)) /\
  (forall c s' b n p, few s -> blobs c -> step s c = Next s' -> ret s' = (b, n, p) :: ret s ->
     get_str s' p = Some (asked b n) /\ held s' p = S (held s p)).
Proof. intros s R. split; [intros p q; exact (blob_handles s p q R)|intros c s' b n p; exact (blob_returns s c s' b n p R)]. Qed.
Print Assumptions C27_blobs_partial.
Definition sched2 : list choice := whole (intern_blob [97; 98; 0]%N 3) 1 ++ whole (intern_blob [97; 0]%N 2) 2.
Definition s2 : sys := match run init sched2 with Next s => s | _ => init end.
Lemma s2_reach : reach blobs s2.
Proof.
  apply (run_reach blobs sched2 init s2); [constructor| | |vm_compute; reflexivity].
  - repeat (constructor; [exact I || (split; [reflexivity|cbn; lia])|]). constructor.
  - intros p. vm_compute. reflexivity.
Qed.
Example C27_blobs_partial_ex : reach blobs s2 /\ held s2 1 = 1 /\ held s2 2 = 1 /\
  get_str s2 1 = Some [97; 98; 0]%N /\ get_str s2 2 = Some [97; 0]%N.
Proof. split; [exact s2_reach|]. vm_compute. auto. Qed.

(** Any program: handles are the same exactly when the bytes stored, terminator included, are; with documented
    lengths those are the bytes taken from the caller. *)
Theorem C27_stored_bytes : forall P s, reach P s ->
  (forall p q, held s p > 0 -> held s q > 0 -> stored s p <> None /\ (p = q <-> stored s p = stored s q)) /\
  ((forall c, P c -> documented c) -> forall c s' b n p, few s -> P c -> step s c = Next s' -> ret s' = (b, n, p) :: ret s ->
     stored s' p = Some b /\ held s' p = S (held s p)).
Proof. exact bytes_handles. Qed.
Print Assumptions C27_stored_bytes.
Example C27_stored_bytes_ex : reach documented end1 /\ stored end1 1 = Some [97; 98; 99]%N /\ stored end1 2 = Some [97; 98; 100]%N.
Proof. split; [exact end1_reach|]. vm_compute. auto. Qed.

(** Which calls of mtev_intern_str are of the good kind: the byte at the end of the string is NUL. *)
Theorem C27_terminated_call : forall m len, let l := if Nat.eqb len 0 then strlen m else len in
  nth_error m l = Some 0%N -> (N.of_nat l < 2 ^ 23 - 1)%N ->
  exists b, intern_str m len = Begin b true /\ strings (intern_str m len) /\ asked b true = firstn l m.
Proof. exact str_call. Qed.
Print Assumptions C27_terminated_call.
Example C27_terminated_call_ex : nth_error [97; 98; 0]%N (strlen [97; 98; 0]%N) = Some 0%N /\
  nth_error [97; 98; 0]%N 2 = Some 0%N.
Proof. split; reflexivity. Qed.

(** C64: no assertion of the code fails and no memory given back is touched, whatever the interleaving *)
Theorem C64_never_aborts : forall P s c, reach P s -> few s -> step s c <> Abort.
Proof. exact never_aborts. Qed.
Print Assumptions C64_never_aborts.
(** one thread holds the only reference to "ab" and releases it; while the entry is on its way out (count 0, still in
    the hash) another thread interns "ab": it finds the entry, must not use it, and starts over *)
Definition sched3 : list choice :=
  whole (intern_str [97; 98; 0]%N 2) 1 ++ [Release 1; Go 0 0; intern_str [97; 98; 0]%N 2; Go 1 0; Go 1 0; Go 0 0; Go 0 0; Go 1 0].
Definition s3 : sys := match run init sched3 with Next s => s | _ => init end.
Lemma s3_reach : reach any s3.
Proof.
  apply (run_reach any sched3 init s3); [constructor| | |vm_compute; reflexivity].
  - repeat (constructor; [exact I|]). constructor.
  - intros p. vm_compute. reflexivity.
Qed.
Example C64_never_aborts_ex : reach any s3 /\ few s3 /\ calls s3 = [RTakeW 1; ITakeR [97; 98; 0]%N true []] /\
  get_refcnt s3 1 = Some 0%N /\ tbl s3 = [].
Proof.
  split; [exact s3_reach|]. split; [|vm_compute; auto]. apply (run_few sched3); [vm_compute; reflexivity|cbn; lia].
Qed.

(** a handle keeps its contents while it is held *)
Theorem C64_contents_stay : forall P s c s' p, reach P s -> step s c = Next s' -> held s p > 0 ->
  stored s' p = stored s p /\ get_str s' p = get_str s p /\ stored s' p <> None.
Proof. exact stays. Qed.
Print Assumptions C64_contents_stay.
Example C64_contents_stay_ex : reach strings s1 /\ held s1 1 = 2 /\ (exists s', step s1 (Release 1) = Next s').
Proof. split; [exact s1_reach|]. split; [vm_compute; reflexivity|]. eexists. vm_compute. reflexivity. Qed.

(** memory is given back only when nobody holds the handle *)
Theorem C64_reclaimed_unheld : forall P s c s' p, reach P s -> step s c = Next s' -> mem s p <> None -> mem s' p = None ->
  held s p = 0 /\ held s' p = 0.
Proof. exact reclaimed. Qed.
Print Assumptions C64_reclaimed_unheld.
Definition s4 : sys := match step s3 (Go 0 0) with Next s => s | _ => init end.
Lemma s4_reach : reach any s4.
Proof.
  apply (run_reach any (sched3 ++ [Go 0 0]) init s4); [constructor| | |vm_compute; reflexivity].
  - repeat (constructor; [exact I|]). constructor.
  - intros p. vm_compute. reflexivity.
Qed.
Example C64_reclaimed_unheld_ex : reach any s4 /\ mem s4 1 <> None /\
  exists s', step s4 (Go 0 0) = Next s' /\ mem s' 1 = None.
Proof. split; [exact s4_reach|]. split; [vm_compute; discriminate|]. eexists. split; vm_compute; reflexivity. Qed.

(** mtev_intern_get_refcnt: at least the references users hold, exactly those when no call is in progress *)
Theorem C64_refcount : forall P s p, reach P s -> held s p > 0 ->
  exists r, get_refcnt s p = Some r /\ (N.of_nat (held s p) <= r)%N /\ (calls s = [] -> r = N.of_nat (held s p)).
Proof. exact counts. Qed.
Print Assumptions C64_refcount.
Example C64_refcount_ex : reach strings s1 /\ calls s1 = [] /\ get_refcnt s1 1 = Some 2%N.
Proof. split; [exact s1_reach|]. vm_compute. auto. Qed.

(** nothing leaks: when no call is in progress the items in memory are the ones users hold, and the pool's item
    count is their number *)
Theorem C64_no_leak : forall P s, reach P s -> calls s = [] ->
  (forall p, mem s p <> None <-> held s p > 0) /\
  exists l, NoDup l /\ (forall p, In p l <-> held s p > 0) /\ item_count s = N.of_nat (length l).
Proof. exact no_leak. Qed.
Print Assumptions C64_no_leak.
Example C64_no_leak_ex : reach strings s1 /\ calls s1 = [] /\ item_count s1 = 2%N.
Proof. split; [exact s1_reach|]. vm_compute. auto. Qed.

(** no deadlock: while memory can be had, some call can always do its next step *)
Theorem C64_no_deadlock : forall P s, reach P s -> few s -> calls s <> [] -> (exists q, mem s q = None) ->
  exists i q s', step s (Go i q) = Next s'.
Proof. intros P s R. exact (moves s (reach_inv P s R)). Qed.
Print Assumptions C64_no_deadlock.
Example C64_no_deadlock_ex : reach any s3 /\ calls s3 <> [] /\ mem s3 2 = None.
Proof. split; [exact s3_reach|]. vm_compute. split; [discriminate|reflexivity]. Qed.
