(** C34: the replacing hash never returns a value for another key.  C66: displaced entries are released once, and not
    while somebody reads them.  C67: entries fit the memory requested for them. *)
From Coq Require Import Arith NArith List Bool Lia.
From Verif.Frrh Require Import Model Spec Proofs.
Import ListNotations.

(** Whatever get returns was, at one moment between its beginning and its end, the last successful store for exactly
    that key, not displaced by a rival key; and if there was such a value get returns it. *)
Theorem C34_get : forall hashf n deferred (P : sys -> choice -> Prop) pr s,
  (deferred = true \/ forall s c, P s c -> alone s c) -> reach hashf deferred P n pr s ->
  forall i k r, In (EGot i k r) (log s) ->
  exists l3 l2 l1, log s = l3 ++ EGot i k r :: l2 ++ ELoad i k :: l1 /\ In (EBegin i) l1 /\
    forall d, r = Some d <-> visible hashf n l1 k d.
Proof. exact get_right. Qed.
Print Assumptions C34_get.
(** two keys of the same place: [1] is stored, a get of [1] loads it, [2] displaces it, a get of [1] finds nothing *)
Definition two : list choice :=
  Set_ [1%N] [7%N] :: go_n 0 5 true 1 ++ [Get [1%N]; Go 1 true 0; Set_ [2%N] [8%N]] ++ go_n 2 5 true 2 ++
  [Go 1 true 0; Get [1%N]; Go 3 true 0; Go 3 true 0; Get [2%N]; Go 4 true 0; Go 4 true 0].
Definition two_end : sys := match run (fun _ => 5%N) true (alloc 3 (2 ^ 32 - 1)) two with Some s => s | None => alloc 1 0 end.
Lemma two_reach : reach (fun _ => 5%N) true always 3 (2 ^ 32 - 1) two_end.
Proof.
  apply (run_reach_P _ _ _ _ _ two) with (s := alloc 3 (2 ^ 32 - 1)); [|constructor|vm_compute; reflexivity].
  intros s c H. destruct c; try exact I. vm_compute in H. repeat destruct H as [H|H]; (discriminate || contradiction).
Qed.
Example C34_get_ex : reach (fun _ => 5%N) true always 3 (2 ^ 32 - 1) two_end /\
  In (EGot 1 [1%N] (Some [7%N])) (log two_end) /\ In (EGot 3 [1%N] None) (log two_end) /\
  In (EGot 4 [2%N] (Some [8%N])) (log two_end).
Proof. split; [exact two_reach|]. vm_compute. tauto. Qed.

(** the data a get returned stays readable and unchanged for as long as the caller uses it *)
Theorem C34_lasts : forall hashf n deferred (P : sys -> choice -> Prop) pr s,
  (deferred = true \/ forall s c, P s c -> alone s c) -> reach hashf deferred P n pr s ->
  late_read s = false /\
  forall i k p, nth_error (calls s) i = Some (GHold k (Some p)) ->
  exists d, mem s p = Some (Entry k d) /\ In (EGot i k (Some d)) (log s).
Proof. exact get_lasts. Qed.
Print Assumptions C34_lasts.
Example C34_lasts_ex : reach (fun _ => 5%N) true always 3 (2 ^ 32 - 1) two_end /\
  nth_error (calls two_end) 1 = Some (GHold [1%N] (Some 1)) /\ map two_end 2 = Some 2 /\ retired two_end = [(1, [1; 2])].
Proof. split; [exact two_reach|]. vm_compute. tauto. Qed.

(** set returns true exactly when it stored, and then it stored once, between its beginning and its end *)
Theorem C34_set : forall hashf n deferred P pr s, reach hashf deferred P n pr s -> forall i k d ok, In (ESet i k d ok) (log s) ->
  if ok then exists l3 l2 l1, log s = l3 ++ ESet i k d true :: l2 ++ EStore i k d :: l1 /\ In (EBegin i) l1 /\
               forall k' d', ~ In (EStore i k' d') (l3 ++ l2 ++ l1)
  else forall k' d', ~ In (EStore i k' d') (log s).
Proof. exact set_right. Qed.
Print Assumptions C34_set.
(** two sets race for one place *)
Definition race : list choice :=
  Set_ [1%N] [7%N] :: go_n 0 5 true 1 ++ [Set_ [1%N] [8%N]; Set_ [2%N] [9%N]] ++ go_n 1 3 true 2 ++ go_n 2 4 true 3 ++
  go_n 1 2 true 4 ++ [Go 2 true 0].
Definition race_end : sys := match run (fun _ => 5%N) true (alloc 3 (2 ^ 32 - 1)) race with Some s => s | None => alloc 1 0 end.
Lemma race_reach : reach (fun _ => 5%N) true always 3 (2 ^ 32 - 1) race_end.
Proof.
  apply (run_reach_P _ _ _ _ _ race) with (s := alloc 3 (2 ^ 32 - 1)); [|constructor|vm_compute; reflexivity].
  intros s c H. destruct c; try exact I. vm_compute in H. repeat destruct H as [H|H]; (discriminate || contradiction).
Qed.
Example C34_set_ex : reach (fun _ => 5%N) true always 3 (2 ^ 32 - 1) race_end /\
  In (ESet 1 [1%N] [8%N] false) (log race_end) /\ In (ESet 2 [2%N] [9%N] true) (log race_end).
Proof. split; [exact race_reach|]. vm_compute. tauto. Qed.

(** with the replacement probability at its maximum, a set fails only if another set took the place meanwhile *)
Theorem C34_refused : forall hashf n deferred s, reach hashf deferred always n (2 ^ 32 - 1) s -> prob s = 0%N /\
  forall i k d, In (ESet i k d false) (log s) ->
  exists l3 l2 l1 j k' d', log s = l3 ++ ESet i k d false :: l2 ++ EStore j k' d' :: l1 /\ j <> i /\ In (EBegin i) l1 /\
    rivals hashf n k' k.
Proof. exact refused. Qed.
Print Assumptions C34_refused.
Example C34_refused_ex : reach (fun _ => 5%N) true always 3 (2 ^ 32 - 1) race_end /\
  exists l3 l2 l1, log race_end = l3 ++ ESet 1 [1%N] [8%N] false :: l2 ++ EStore 2 [2%N] [9%N] :: l1.
Proof. split; [exact race_reach|]. exists [ESet 2 [2%N] [9%N] true], []. eexists. vm_compute. reflexivity. Qed.

(** no call takes more than ten steps of its own, whatever the others do; and an unfinished call can always move *)
Theorem C34_wait_free : forall hashf n deferred P pr s cs s' i c, reach hashf deferred P n pr s -> nth_error (calls s) i = Some c ->
  run hashf deferred s cs = Some s' -> steps_of i cs <= 10.
Proof. exact wait_free. Qed.
Print Assumptions C34_wait_free.
Theorem C34_can_move : forall hashf deferred s i ok q c, nth_error (calls s) i = Some c -> c <> Over -> mem s q = None ->
  exists s', step hashf deferred s (Go i ok q) = Some s'.
Proof. exact can_move. Qed.
Print Assumptions C34_can_move.
Definition begun : sys := match step (fun _ => 5%N) true (alloc 3 0) (Set_ [1%N] [7%N]) with Some s => s | None => alloc 1 0 end.
(** ten steps do happen: the place is taken while the set believes it free *)
Definition busy : list choice :=
  [Set_ [2%N] [8%N]] ++ go_n 0 3 true 1 ++ go_n 1 5 true 2 ++ go_n 0 7 true 3 ++ [Reclaim 1].
Example C34_wait_free_ex : reach (fun _ => 5%N) true any 3 0 begun /\ nth_error (calls begun) 0 = Some (SLoad [1%N] [7%N]) /\
  run (fun _ => 5%N) true begun busy <> None /\ steps_of 0 busy = 10.
Proof.
  split; [apply (R1 _ _ _ _ _ (alloc 3 0) (Set_ [1%N] [7%N])); [constructor|exact I|reflexivity]|].
  split; [reflexivity|]. split; [vm_compute; discriminate|reflexivity].
Qed.
Example C34_can_move_ex : nth_error (calls race_end) 1 = Some Over /\ nth_error (calls begun) 0 = Some (SLoad [1%N] [7%N]) /\ mem begun 3 = None.
Proof. vm_compute. auto. Qed.

(** the statistics count the gets and the gets that found something *)
Theorem C34_stats : forall hashf n deferred P pr s, reach hashf deferred P n pr s ->
  access s = N.of_nat (looks (log s)) /\ hit s = N.of_nat (finds (log s)).
Proof. exact stats_right. Qed.
Print Assumptions C34_stats.
Example C34_stats_ex : access two_end = 3%N /\ hit two_end = 2%N.
Proof. vm_compute. auto. Qed.

(** Full statement of C66: no execution reads an entry after it was released.  It fails with the default freef, which
    is free(): *)
Theorem C66_readers_refuted : ~ (forall hashf n pr s, reach hashf false any n pr s -> late_read s = false).
Proof. exact late_refuted. Qed.
Print Assumptions C66_readers_refuted.
Example C66_readers_refuted_ex : reach (fun _ => 0%N) false any 1 (2 ^ 32 - 1) late_end /\ late_read late_end = true.
Proof. split; [exact late_reach|reflexivity]. Qed.

(** It holds when freef waits for the calls in progress, or when calls do not overlap *)
Theorem C66_readers_partial : forall hashf n deferred (P : sys -> choice -> Prop) pr s,
  (deferred = true \/ forall s c, P s c -> alone s c) -> reach hashf deferred P n pr s -> late_read s = false.
Proof. intros hashf n deferred P pr s H R. apply (get_lasts hashf n deferred P pr s H R). Qed.
Print Assumptions C66_readers_partial.
Example C66_readers_partial_ex : reach (fun _ => 5%N) true always 3 (2 ^ 32 - 1) two_end /\ late_read two_end = false.
Proof. split; [exact two_reach|reflexivity]. Qed.

(** with either kind of freef nothing is released twice or while in the table, and nothing is lost: every entry in memory
    is in the table, in the hands of one set call, or waiting for its release *)
Theorem C66_released_once : forall hashf n deferred P pr s, reach hashf deferred P n pr s -> bad_free s = false /\
  forall p, mem s p <> None <->
    ((exists o, map s o = Some p) \/ (exists i c, nth_error (calls s) i = Some c /\ In p (in_hand c)) \/ In p (List.map fst (retired s))).
Proof. exact memory_right. Qed.
Print Assumptions C66_released_once.
Example C66_released_once_ex : reach (fun _ => 5%N) true always 3 (2 ^ 32 - 1) race_end /\
  mem race_end 1 <> None /\ mem race_end 2 <> None /\ mem race_end 3 <> None /\ map race_end 2 = Some 3 /\
  List.map fst (retired race_end) = [1; 2].
Proof. split; [exact race_reach|]. vm_compute. repeat split; discriminate. Qed.

(** C67: in an 8-byte aligned block of the size requested the key ends before the data, the data are 8-byte aligned and
    end where the block ends *)
Theorem C67_layout : forall a keylen datasize, (keylen < 2 ^ 32 -> a + 2 ^ 33 + datasize < 2 ^ 64 -> a mod 8 = 0 ->
  a + 4 + keylen <= frrh_data a keylen /\ frrh_data a keylen mod 8 = 0 /\
  frrh_data a keylen + datasize = a + entry_bytes keylen datasize)%N.
Proof. exact layout. Qed.
Print Assumptions C67_layout.
Example C67_layout_ex : (frrh_data 4096 13 = 4096 + 24 /\ entry_bytes 13 100 = 124)%N.
Proof. vm_compute. auto. Qed.
(** an allocator with weaker alignment overruns its block for some key length *)
Theorem C67_alignment : forall a, (a < 2 ^ 62)%N -> ((forall keylen datasize, keylen < 2 ^ 32 -> datasize < 2 ^ 32 ->
  frrh_data a keylen + datasize <= a + entry_bytes keylen datasize)%N <-> (a mod 8 = 0)%N).
Proof. exact layout_iff. Qed.
Print Assumptions C67_alignment.
Example C67_alignment_ex : (frrh_data 4100 4 + 8 = 4100 + entry_bytes 4 8 + 4)%N.
Proof. vm_compute. reflexivity. Qed.
