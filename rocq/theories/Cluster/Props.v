(** C36-C38, C73-C77: clusters. *)
From Coq Require Import Arith NArith ZArith List Bool Permutation Lia ZifyBool ZifyNat ZifyN.
From Verif.Cht Require Import Model Spec.
From Verif.Cluster Require Import Model Spec Proofs Proofs2 Proofs3 Proofs4.
Import ListNotations.
Local Open Scope N_scope.

Definition idA : list N := repeat 1 16.
Definition idB : list N := repeat 2 16.
Definition at_ (s : Z) : tv := {| sec := s; usec := 7 |}.
Definition beat (id : list N) (t : tv) (s : N) (tbl : list entry) : list N := match compose id t s tbl 1500 with inl m => m | inr _ => [] end.
Definition two : list entry := [{| app := 1; key := 1; data := [10] |}; {| app := 1; key := 2; data := [20; 21] |}].
Definition xA : sender := {| s_id := idA; s_boot := at_ 1000; s_seq := 77; s_table := two |}.
Lemma two_ok : table_ok two.
Proof. split; [repeat constructor; vm_compute; lia|]. split; [|vm_compute; discriminate]. repeat constructor; cbn; intuition congruence. Qed.
Lemma xA_ok : sender_ok xA.
Proof.
  split; [reflexivity|]. split; [repeat constructor|]. split; [split; cbn; lia|]. split; [reflexivity|]. split; [exact two_ok|cbn; lia].
Qed.

(** C36: whatever the history, hearing what a member composed leaves the receiver with exactly the
    member's boot time, sequence and payloads, and touches nobody else *)
Theorem C36_roundtrip : forall ids my mb tmo mat w x i len msg now r, NoDup ids -> history ids my mb tmo mat w -> sender_ok x ->
  nth_error ids i = Some (s_id x) -> compose (s_id x) (s_boot x) (s_seq x) (s_table x) len = inl msg ->
  exists w' n', process msg now r w = (0%Z, w') /\ nth_error (nodes w') i = Some n' /\ nid n' = s_id x /\
    view n' (s_boot x) (s_seq x) (s_table x) /\ contact n' = now /\ (forall j, j <> i -> nth_error (nodes w') j = nth_error (nodes w) j).
Proof. exact roundtrip. Qed.
Print Assumptions C36_roundtrip.
Example C36_roundtrip_ex :
  compose idA (at_ 1000) 77 two 43 = inl (17 :: idA ++ [0; 0; 0; 3; 232; 0; 0; 7] ++ [0; 0; 0; 0; 0; 0; 0; 77] ++ [2] ++ [1; 1; 1; 1; 2; 2] ++ [10; 20; 21]) /\
  match nodes (snd (process (beat idA (at_ 1000) 77 two) (at_ 2000) 0 (start [idB; idA] idB (at_ 5) 5000 0))) with
  | [b; a] => b = fresh idB /\ view a (at_ 1000) 77 two /\ contact a = at_ 2000
  | _ => False
  end.
Proof. vm_compute. repeat split. Qed.
(** C36: the message exists as soon as there is room for it *)
Theorem C36_compose : forall id t s tbl len, length id = 16%nat -> Forall entry_ok tbl -> (length tbl < 256)%nat ->
  (Z.of_N (34 + 3 * N.of_nat (length tbl) + sum_data tbl) <= len)%Z <-> exists msg, compose id t s tbl len = inl msg.
Proof.
  intros id t s tbl len I F L. split; [intros R; eexists; apply compose_spec; assumption|]. intros [msg C].
  pose proof (frame_exact _ _ _ _ _ _ I F L C) as E. unfold frame in E. unfold compose in C. destruct (Z.leb_spec 0 len).
  - apply memwrite_inv in C; [|cbn; lia]. destruct C as [-> C]. cbn [List.app length] in *. lia.
  - exfalso. unfold pieces in C. cbn [List.app memwrite] in C. destruct (Z.gtb_spec (Z.of_nat (length (@nil N) + length [17])) len); [discriminate|cbn in *; lia].
Qed.
Print Assumptions C36_compose.
Example C36_compose_ex : Forall entry_ok two /\ compose idA (at_ 1000) 77 two 42 = inr (-43)%Z /\ compose idA (at_ 1000) 77 two 20 = inr (-25)%Z.
Proof. split; [exact (proj1 two_ok)|]. vm_compute. auto. Qed.
(** C36: what is too short or of another version changes nothing *)
Theorem C36_ignored : forall msg now r w, (length msg < 34)%nat \/ hd 0 msg mod 16 = 0 \/ hd 0 msg / 16 <> 1 -> snd (process msg now r w) = w.
Proof. exact ignored. Qed.
Print Assumptions C36_ignored.
Example C36_ignored_ex : process (33 :: tl (beat idA (at_ 1000) 77 two)) (at_ 9) 3 (start [idA] idA (at_ 5) 1 1) = (0%Z, start [idA] idA (at_ 5) 1 1).
Proof. vm_compute. reflexivity. Qed.
(** C36: arbitrary bytes of the right version are taken at face value, for the named sender *)
Theorem C36_any_bytes : forall m now r w i n, understood m -> NoDup (map nid (nodes w)) -> nth_error (nodes w) i = Some n -> nid n = message_id m -> stored_wf_node n ->
  exists n', nth_error (nodes (snd (process m now r w))) i = Some n' /\ boot n' = message_time m /\ cseq n' = message_seq m /\
  payload_of n' = message_payload m /\ stored_wf_node n' /\ contact n' = now /\ nid n' = nid n.
Proof. exact any_bytes. Qed.
Print Assumptions C36_any_bytes.
Example C36_any_bytes_ex : let m := 31 :: idB ++ [0; 0; 1; 0; 0; 1; 0; 0] ++ [255; 0; 0; 0; 0; 0; 0; 1] ++ [9] ++ [5; 6] in
  understood m /\ message_time m = {| sec := 65536; usec := 65536 |} /\ message_seq m = 18374686479671623681 /\ message_payload m = [5; 6].
Proof. cbv zeta. split; [|vm_compute; auto]. split; [repeat constructor|]. split; [cbn [length List.app idB repeat]; lia|]. split; [reflexivity|vm_compute; discriminate]. Qed.
(** C36: no message changes what is known of any but its named sender *)
Theorem C36_only_sender : forall msg now r w j n, nth_error (nodes w) j = Some n -> nid n <> firstn 16 (skipn 1 msg) ->
  nth_error (nodes (snd (process msg now r w))) j = Some n.
Proof. exact only_sender. Qed.
Print Assumptions C36_only_sender.
Example C36_only_sender_ex : nth_error (nodes (start [idB; idA] idB (at_ 5) 5000 0)) 0 = Some (fresh idB) /\ nid (fresh idB) <> firstn 16 (skipn 1 (beat idA (at_ 1000) 77 two)).
Proof. split; [reflexivity|vm_compute; discriminate]. Qed.

(** C37, natural statement *)
Definition payloads_retrievable : Prop := forall n tbl, holds n tbl -> table_ok tbl ->
  (forall i e, nth_error tbl i = Some e -> returns n (app e) (key e) (data e)) /\
  (forall a k, (forall e, In e tbl -> (app e, key e) <> (a, k)) -> get_payload n a k = NotThere).
(** false: the second of two payloads is looked for one byte too far *)
Definition heardA : node := nth_node (nodes (snd (process (beat idA (at_ 1000) 77 two) (at_ 2000) 0 (start [idA] idB (at_ 5) 5000 0)))) 0.
Lemma heardA_holds : holds heardA two.
Proof. split; [vm_compute; reflexivity|]. split; [vm_compute; reflexivity|]. eexists. split; [vm_compute; reflexivity|]. vm_compute. discriminate. Qed.
Theorem C37_refuted : ~ payloads_retrievable.
Proof.
  intros P. destruct (P heardA two heardA_holds two_ok) as [Q _]. destruct (Q 1%nat {| app := 1; key := 2; data := [20; 21] |} eq_refl) as (off & E & B & _).
  cbn [app key data length] in *. assert (get_payload heardA 1 2 = Slice 8 2) as G by (vm_compute; reflexivity). rewrite G in E. injection E as <-. vm_compute in B. congruence.
Qed.
Print Assumptions C37_refuted.
(** it reaches behind the end of the message; an unregistered payload is read past the buffer, or
    found inside the contents of another *)
Example C37_refuted_ex :
  buf heardA = Some [1; 1; 1; 1; 2; 2; 10; 20; 21] /\ get_payload heardA 1 1 = Slice 6 1 /\ get_payload heardA 1 2 = Slice 8 2 /\
  get_payload (store_payload (fresh idA) [1; 1; 1; 10] 1) 9 9 = Overrun /\ get_payload (store_payload (fresh idA) [1; 1; 3; 7; 7; 1] 1) 7 7 = Slice 4 1.
Proof. vm_compute. auto. Qed.
(** C37: the length is right, and the place is exactly when the payload is as long as the first *)
Theorem C37_exact : forall n tbl i e e0, holds n tbl -> table_ok tbl -> nth_error tbl i = Some e -> nth_error tbl 0 = Some e0 ->
  exists off, get_payload n (app e) (key e) = Slice off (N.of_nat (length (data e))) /\
  off + N.of_nat (length (data e0)) = place tbl i + N.of_nat (length (data e)) /\
  (off = place tbl i <-> length (data e) = length (data e0)).
Proof. exact get_exact. Qed.
Print Assumptions C37_exact.
Example C37_exact_ex : holds heardA two /\ place two 1 = 7 /\ get_payload heardA 1 2 = Slice 8 2.
Proof. split; [exact heardA_holds|]. vm_compute. auto. Qed.
(** C37: so with payloads of one length the registered ones are all retrievable *)
Theorem C37_equal_lengths_partial : forall n tbl i e e0, holds n tbl -> table_ok tbl -> nth_error tbl i = Some e -> nth_error tbl 0 = Some e0 ->
  length (data e) = length (data e0) -> returns n (app e) (key e) (data e).
Proof. exact get_equal_lengths. Qed.
Print Assumptions C37_equal_lengths_partial.
Example C37_equal_lengths_partial_ex : let n := store_payload (fresh idA) [1; 1; 2; 1; 2; 2; 10; 11; 20; 21] 2 in get_payload n 1 2 = Slice 8 2 /\ returns n 1 2 [20; 21].
Proof. cbv zeta. split; [vm_compute; reflexivity|]. exists 8. vm_compute. repeat split; congruence. Qed.
(** C37: a node without payloads has none; one with few bytes of contents makes every search for an
    unregistered payload read outside of the buffer *)
Theorem C37_none : forall n a k, plen n = 0 -> get_payload n a k = NotThere.
Proof. exact get_none. Qed.
Print Assumptions C37_none.
Example C37_none_ex : plen (fresh idA) = 0 /\ plen (store_payload (fresh idA) [] 0) = 0. Proof. vm_compute. auto. Qed.
Theorem C37_absent_overrun : forall n tbl a k, holds n tbl -> tbl <> [] -> buf n = Some (table_bytes tbl) -> sum_data tbl < 3 ->
  (forall e, In e tbl -> (app e, key e) <> (a, k)) -> get_payload n a k = Overrun.
Proof. exact get_absent_overrun. Qed.
Print Assumptions C37_absent_overrun.
Example C37_absent_overrun_ex : let t := [{| app := 1; key := 1; data := [10] |}] in let n := store_payload (fresh idA) (table_bytes t) 1 in
  buf n = Some (table_bytes t) /\ sum_data t = 1 /\ get_payload n 1 2 = Overrun.
Proof. vm_compute. auto. Qed.

(** C38, natural statement: after any messages and checks *)
Definition oldest_always_right : Prop := forall ids my mb tmo mat l, NoDup ids -> valid_time mb -> (0 < sec mb)%Z ->
  (forall m now r, In (Msg m now r) l -> Forall byte m) -> oldest_right (fold_left apply l (start ids my mb tmo mat)).
(** false: A is the only live node, times out and comes back; B, never heard of, stays the oldest *)
Definition revived : list step := [Msg (beat idA (at_ 10) 1 []) (at_ 20) 0; Check (at_ 100) 0; Msg (beat idA (at_ 10) 1 []) (at_ 120) 0].
Definition w_revived : world := fold_left apply revived (start [idA; idB] idB (at_ 50) 1000 1000).
Lemma nodup_ab : NoDup [idA; idB].
Proof. repeat constructor; cbn; intuition discriminate. Qed.
Lemma beat_bytes id t s tbl : In (id, t, s, tbl) [(idA, at_ 10, 1, []); (idA, at_ 50, 1, [])] -> Forall byte (beat id t s tbl).
Proof. intros [E|[E|[]]]; injection E as <- <- <- <-; vm_compute; repeat constructor. Qed.
Theorem C38_refuted : ~ oldest_always_right.
Proof.
  intros P. assert (R : oldest_right w_revived).
  { unfold w_revived. apply P; [exact nodup_ab|split; cbn; lia|cbn; lia|].
    intros m now r [E|[E|[E|[]]]]; try discriminate; injection E as <- <- <-; apply beat_bytes; left; reflexivity. }
  clear P. assert (Q : oldest w_revived = Some 1%nat) by (vm_compute; reflexivity). assert (Q2 : nth_error (nodes w_revived) 1 = Some (fresh idB)) by (vm_compute; reflexivity).
  assert (J : exists j, live (nodes w_revived) j). { exists 0%nat. exists (nth_node (nodes w_revived) 0). split; [vm_compute; reflexivity|vm_compute; discriminate]. }
  revert R Q Q2 J. generalize w_revived. intros w R Q Q2 J. destruct (R J) as (o & O & (n & L1 & L2) & _). rewrite Q in O. injection O as <-.
  rewrite Q2 in L1. injection L1 as <-. apply L2. reflexivity.
Qed.
Print Assumptions C38_refuted.
(** also with a peer that has our boot time to the microsecond: nothing is recorded *)
Example C38_refuted_ex :
  map boot (nodes w_revived) = [at_ 10; {| sec := 0; usec := 0 |}] /\ oldest w_revived = Some 1%nat /\ am_i_oldest w_revived = true /\
  let w := apply (start [idA; idB] idB (at_ 50) 1000 1000) (Msg (beat idA (at_ 50) 1 []) (at_ 60) 3) in
  map boot (nodes w) = [at_ 50; {| sec := 0; usec := 0 |}] /\ oldest w = None /\ log w = [] /\ my_boot w = {| sec := 50; usec := 3 |}.
Proof. vm_compute. auto 9. Qed.
(** C38: right after every history without these two events *)
Theorem C38_calm_partial : forall ids my mb tmo mat l, NoDup ids -> sec mb <> 0%Z -> calm (start ids my mb tmo mat) l ->
  oldest_right (fold_left apply l (start ids my mb tmo mat)).
Proof. exact calm_right. Qed.
Print Assumptions C38_calm_partial.
Definition quiet : list step := [Msg (beat idA (at_ 10) 1 []) (at_ 20) 0; Msg (beat idB (at_ 9) 1 []) (at_ 21) 0; Msg (beat idB (at_ 12) 2 two) (at_ 90) 0; Check (at_ 91) 0].
Example C38_calm_partial_ex : calm (start [idA; idB] idB (at_ 50) 2000 1000) quiet /\ let w := fold_left apply quiet (start [idA; idB] idB (at_ 50) 2000 1000) in
  map boot (nodes w) = [{| sec := 0; usec := 0 |}; at_ 12] /\ oldest w = Some 1%nat /\ am_i_oldest w = true /\ map what (log w) = [REBOOTED; REBOOTED; REBOOTED; DIED].
Proof.
  split; [|vm_compute; auto]. unfold quiet. cbn [calm calm_step].
  split; [split; [vm_compute; repeat constructor|]; split; [intros E; vm_compute in E; discriminate|right; left; reflexivity]|].
  split; [split; [vm_compute; repeat constructor|]; split; [intros E; vm_compute in E; discriminate|left; exists 0%nat; eexists; split; [vm_compute; reflexivity|vm_compute; discriminate]]|].
  split; [split; [vm_compute; repeat constructor|]; split; [intros E; vm_compute in E; discriminate|left; exists 0%nat; eexists; split; [vm_compute; reflexivity|vm_compute; discriminate]]|].
  split; exact I.
Qed.
(** C38: and in any case after a check in which a node died *)
Theorem C38_recomputed : forall now r w, sec (my_boot w) <> 0%Z -> nodes (check_timeout now r w) <> nodes w -> oldest_right (check_timeout now r w).
Proof. exact check_right. Qed.
Print Assumptions C38_recomputed.
Example C38_recomputed_ex : let w := fold_left apply (firstn 3 quiet) (start [idA; idB] idB (at_ 50) 2000 1000) in
  oldest w = Some 0%nat /\ nodes (check_timeout (at_ 91) 0 w) <> nodes w /\ oldest (check_timeout (at_ 91) 0 w) = Some 1%nat.
Proof. vm_compute. repeat split; discriminate. Qed.
(** C38: exactly what goes wrong when a node comes back to a dead cluster *)
Theorem C38_revival : forall m now r w i o n, understood m -> NoDup (map nid (nodes w)) -> nth_error (nodes w) i = Some n -> nid n = message_id m -> no_clash w m ->
  (forall j, ~ live (nodes w) j) -> oldest w = Some o -> (o < length (nodes w))%nat -> o <> i -> message_time m <> {| sec := 0; usec := 0 |} ->
  let w' := snd (process m now r w) in oldest w' = Some o /\ live (nodes w') i /\ ~ live (nodes w') o.
Proof. exact revival. Qed.
Print Assumptions C38_revival.
Example C38_revival_ex : let w := fold_left apply (firstn 2 revived) (start [idA; idB] idB (at_ 50) 1000 1000) in
  map boot (nodes w) = [{| sec := 0; usec := 0 |}; {| sec := 0; usec := 0 |}] /\ oldest w = Some 1%nat.
Proof. vm_compute. auto. Qed.

(** C38: where the record is right, the answer to "am I the oldest" is *)
Theorem C38_am_i_oldest : forall w, oldest_right w -> (exists j, live (nodes w) j) ->
  (am_i_oldest w = true -> exists o n, is_oldest (nodes w) o /\ nth_error (nodes w) o = Some n /\ nid n = me w) /\
  ((forall o n, is_oldest (nodes w) o -> nth_error (nodes w) o = Some n -> nid n = me w) -> am_i_oldest w = true).
Proof.
  intros w R J. destruct (R J) as (o & O & Q). unfold am_i_oldest. rewrite O. pose proof Q as [(n & L & _) _]. rewrite (nth_node_some _ _ _ L), same_id_spec. split.
  - intros E. exists o, n. auto.
  - intros H. eapply H; eassumption.
Qed.
Print Assumptions C38_am_i_oldest.
Example C38_am_i_oldest_ex : let w i := fold_left apply (firstn 2 quiet) (start [idA; idB] i (at_ 50) 2000 1000) in am_i_oldest (w idB) = true /\ am_i_oldest (w idA) = false /\ am_i_oldest (start [idA; idB] idA (at_ 50) 2000 1000) = true.
Proof. vm_compute. auto. Qed.

(** C73, natural statement: what the setter admits fits an Ethernet frame of 1518 bytes *)
Definition admitted_fits : Prop := forall ops id t s len msg, Forall op_ok ops -> length id = 16%nat -> (length (fold_left table_step ops []) < 256)%nat ->
  compose id t s (fold_left table_step ops []) len = inl msg -> frame msg <= 1518.
Definition six : list table_op := map (fun k => SetP 0 1 k (repeat 0 (if k =? 0 then 237 else 255))) [0; 1; 2; 3; 4; 5].
Lemma six_ok : Forall op_ok six.
Proof. repeat constructor; try (cbn [repeat length N.eqb]; lia); apply Forall_forall; intros x X; apply repeat_spec in X; subst x; reflexivity. Qed.
Theorem C73_refuted : ~ admitted_fits.
Proof.
  intros P. assert (F : Forall entry_ok (fold_left table_step six [])) by (apply (table_ops_ok six six_ok)).
  assert (L : (length (fold_left table_step six []) < 256)%nat) by (vm_compute; lia).
  pose proof (compose_spec idA (at_ 1) 1 (fold_left table_step six []) 65536 eq_refl F L) as C.
  assert (S : sum_data (fold_left table_step six []) = 1512) by (vm_compute; reflexivity). assert (K : length (fold_left table_step six []) = 6%nat) by (vm_compute; reflexivity).
  rewrite S, K in C. specialize (C ltac:(lia)). assert (IA : length idA = 16%nat) by reflexivity. pose proof (P _ _ _ _ _ _ six_ok IA L C) as Q.
  rewrite (frame_exact _ _ _ _ _ _ IA F L C), S, K in Q. lia.
Qed.
Print Assumptions C73_refuted.
Example C73_refuted_ex : map (fun o => match o with SetP _ _ _ d => length d | UnsetP _ _ => 0%nat end) six = [237; 255; 255; 255; 255; 255]%nat /\ max_payload_len_sum = 1512.
Proof. vm_compute. auto. Qed.
(** C73: the exact size *)
Theorem C73_frame : forall id t s tbl len msg, length id = 16%nat -> Forall entry_ok tbl -> (length tbl < 256)%nat ->
  compose id t s tbl len = inl msg -> frame msg = 72 + 3 * N.of_nat (length tbl) + sum_data tbl.
Proof. exact frame_exact. Qed.
Print Assumptions C73_frame.
Example C73_frame_ex : frame (beat idA (at_ 1) 1 two) = 72 + 6 + 3 /\ sum_data two = 3. Proof. vm_compute. auto. Qed.
(** C73: the invariant of the table: one entry for each (application, key), 1512 bytes at most *)
Theorem C73_table : forall ops, Forall op_ok ops -> table_ok (fold_left table_step ops []).
Proof. exact table_ops_ok. Qed.
Print Assumptions C73_table.
Example C73_table_ex : Forall op_ok [SetP 0 1 1 [10]; SetP 1 1 2 [5]; SetP 1 1 2 [20; 21]; UnsetP 3 3] /\ fold_left table_step [SetP 0 1 1 [10]; SetP 1 1 2 [5]; SetP 1 1 2 [20; 21]; UnsetP 3 3] [] = two.
Proof. split; [repeat constructor|reflexivity]. Qed.
(** C73: the table is a map *)
Theorem C73_set : forall pos a k d tbl,
  (fst (set_payload pos a k d tbl) = true <-> sum_data (filter (fun e => negb (is_entry a k e)) tbl) + N.of_nat (length d) <= 1512) /\
  (fst (set_payload pos a k d tbl) = false -> snd (set_payload pos a k d tbl) = tbl) /\
  (fst (set_payload pos a k d tbl) = true -> forall a' k' d',
    registered_as (snd (set_payload pos a k d tbl)) a' k' d' <-> if (a' =? a) && (k' =? k) then d' = d else registered_as tbl a' k' d').
Proof. intros pos a k d tbl. split; [apply set_succeeds|]. split; [apply set_fails|]. intros H a' k' d'. apply set_map. exact H. Qed.
Print Assumptions C73_set.
Example C73_set_ex : set_payload 0 1 2 [9] two = (true, [{| app := 1; key := 2; data := [9] |}; {| app := 1; key := 1; data := [10] |}]) /\
  fst (set_payload 0 7 7 [1] (fold_left table_step six [])) = false /\ fst (set_payload 0 1 5 [1] (fold_left table_step six [])) = true.
Proof. vm_compute. auto. Qed.
Theorem C73_unset : forall a k tbl,
  (fst (unset_payload a k tbl) = true <-> exists d, registered_as tbl a k d) /\
  forall a' k' d', registered_as (snd (unset_payload a k tbl)) a' k' d' <-> (a', k') <> (a, k) /\ registered_as tbl a' k' d'.
Proof. intros a k tbl. split; [apply unset_answer|]. intros. apply unset_map. Qed.
Print Assumptions C73_unset.
Example C73_unset_ex : unset_payload 1 1 two = (true, tl two) /\ unset_payload 2 1 two = (false, two). Proof. vm_compute. auto. Qed.

(** C74: of the members of a cluster exactly as many own a key as were asked for (owner lists are
    cut at 256, the length of a lookup) *)
Theorem C74_owners : forall fuel srt H ids c cnt h w, is_qsort srt -> compile fuel srt H ids = Set_ c cnt -> ids <> [] -> (length ids <= N.to_nat 65536)%nat -> NoDup ids ->
  length (filter (fun my => do_i_own c ids my h w) ids) = wanted (at_least_one w) (length ids).
Proof. exact own_count. Qed.
Print Assumptions C74_owners.
(** for the examples: a sort, a hash and the ring of two nodes *)
Fixpoint insert (x : rp) (l : list rp) : list rp :=
  match l with [] => [x] | y :: r => if pos x <=? pos y then x :: l else y :: insert x r end.
Definition isort (l : list rp) : list rp := fold_right insert [] l.
Definition toy (k : list N) (i : N) : N := fold_right (fun a b => a * 7919 + b * 31) 0 k + i * 40503 * 65536.
Definition ring2 : cht := match compile 9 isort toy [idA; idB] with Set_ c _ => c | _ => alloc_custom 32 0 end.
Example C74_owners_ex : match compile 9 isort toy [idA; idB] with Set_ c n => n = 2%nat /\ length (ring c) = 64%nat | _ => False end /\
  map (fun w => map (fun my => do_i_own ring2 [idA; idB] my 5 w) [idA; idB]) [0; 1; 2; 9; -1]%Z = [[false; false]; [false; true]; [true; true]; [true; true]; [false; true]].
Proof. vm_compute. auto. Qed.
(** C74: asking for more never takes a key away; asking for all gives it to all *)
Theorem C74_more : forall fuel srt H ids c cnt h my w w', is_qsort srt -> compile fuel srt H ids = Set_ c cnt -> ids <> [] -> (length ids <= N.to_nat 65536)%nat ->
  (0 <= w <= w')%Z -> do_i_own c ids my h w = true -> do_i_own c ids my h w' = true.
Proof. exact own_more. Qed.
Print Assumptions C74_more.
Example C74_more_ex : do_i_own ring2 [idA; idB] idB 5 1 = true /\ do_i_own ring2 [idA; idB] idB 5 2 = true. Proof. vm_compute. auto. Qed.
Theorem C74_all : forall fuel srt H ids c cnt h my w, is_qsort srt -> compile fuel srt H ids = Set_ c cnt -> ids <> [] -> (length ids <= 256)%nat -> NoDup ids ->
  (Z.of_nat (length ids) <= w)%Z -> In my ids -> do_i_own c ids my h w = true.
Proof. exact own_all. Qed.
Print Assumptions C74_all.
Example C74_all_ex : do_i_own ring2 [idA; idB] idA 5 1 = false /\ do_i_own ring2 [idA; idB] idA 5 7 = true. Proof. vm_compute. auto. Qed.
(** C74: with one filter everywhere all members get the same list of owners, and exactly one of them
    is told that it comes first, if the filter leaves any *)
Theorem C74_primary : forall fuel srt H ids c cnt h w g, is_qsort srt -> compile fuel srt H ids = Set_ c cnt -> ids <> [] -> (length ids <= N.to_nat 65536)%nat -> NoDup ids -> (1 <= w)%Z ->
  exists owners, NoDup owners /\ length owners = wanted w (length ids) /\ (forall i, In i owners -> (i < length ids)%nat) /\
  (forall my, snd (filter_owners c ids my h w (fun i _ => g i)) = Some (filter g owners)) /\
  (forall my, do_i_own c ids my h w = true <-> In my (map (fun i => nth i ids []) owners)) /\
  length (filter (fun my => fst (filter_owners c ids my h w (fun i _ => g i))) ids) = if existsb g owners then 1%nat else 0%nat.
Proof. exact primary_count. Qed.
Print Assumptions C74_primary.
Example C74_primary_ex : let q f := map (fun my => filter_owners ring2 [idA; idB] my 5 2 f) [idA; idB] in
  q (fun _ _ => true) = [(false, Some [1; 0]%nat); (true, Some [1; 0]%nat)] /\ q (fun i _ => (i =? 0)%nat) = [(true, Some [0]%nat); (false, Some [0]%nat)] /\
  q (fun _ _ => false) = [(false, Some []); (false, Some [])].
Proof. vm_compute. auto. Qed.
(** C74: members whose files list the same nodes in another order have the same ring *)
Theorem C74_agree : forall f g l l' fuel srt H, sorts f -> sorts g -> Permutation l l' -> f l = g l' /\ compile fuel srt H (f l) = compile fuel srt H (g l').
Proof. intros f g l l' fuel srt H F G P. rewrite (same_order f g l l' F G P). auto. Qed.
Print Assumptions C74_agree.
(** a sort of ids *)
Fixpoint id_leb (a b : list N) : bool :=
  match a, b with [], _ => true | x :: a', y :: b' => (x <? y) || ((x =? y) && id_leb a' b') | _, [] => false end.
Fixpoint id_insert (x : list N) (l : list (list N)) : list (list N) :=
  match l with [] => [x] | y :: r => if id_leb x y then x :: l else y :: id_insert x r end.
Definition id_sort (l : list (list N)) : list (list N) := fold_right id_insert [] l.
Lemma id_leb_spec a : forall b, id_leb a b = true <-> id_le a b.
Proof.
  induction a as [|x a IH]; intros [|y b]; cbn [id_leb id_le]; try tauto; [split; [discriminate|tauto]|].
  rewrite orb_true_iff, andb_true_iff, IH, N.ltb_lt, N.eqb_eq. reflexivity.
Qed.
Lemma id_leb_total a : forall b, id_leb a b = false -> id_le b a.
Proof.
  induction a as [|x a IH]; intros [|y b]; cbn [id_leb id_le]; try discriminate; [auto|]. intros H. apply orb_false_iff in H. destruct H as [H1 H2]. apply N.ltb_ge in H1.
  destruct (N.eqb_spec x y) as [->|NE]; [right; split; [reflexivity|]; apply IH; exact H2|left; lia].
Qed.
Lemma id_le_trans a : forall b c, id_le a b -> id_le b c -> id_le a c.
Proof. induction a as [|x a IH]; intros [|y b] [|z c]; cbn [id_le]; try tauto. intros [H|[-> H]] [K|[-> K]]; try (left; lia). right. split; [reflexivity|]. eapply IH; eassumption. Qed.
Lemma id_insert_perm x l : Permutation (x :: l) (id_insert x l).
Proof. induction l as [|y l IH]; cbn; [reflexivity|]. destruct (id_leb x y); [reflexivity|]. rewrite perm_swap. constructor. exact IH. Qed.
Lemma id_insert_ordered x l : ordered l -> ordered (id_insert x l).
Proof.
  induction l as [|y l IH]; intros O; [repeat constructor|]. pose proof O as [O1 O2]. cbn [id_insert]. destruct (id_leb x y) eqn:E.
  - apply id_leb_spec in E. split; [|exact O]. constructor; [exact E|]. eapply Forall_impl; [|exact O1]. intros z Z. eapply id_le_trans; eassumption.
  - split; [|apply IH; exact O2]. eapply Permutation_Forall; [apply id_insert_perm|]. constructor; [apply id_leb_total; exact E|exact O1].
Qed.
Lemma id_sort_sorts : sorts id_sort.
Proof.
  intros l. split.
  - induction l as [|x l IH]; cbn [id_sort fold_right]; [constructor|]. fold (id_sort l). rewrite <- id_insert_perm. constructor. exact IH.
  - assert (O : ordered (id_sort l)) by (induction l as [|x l IH]; cbn [id_sort fold_right]; [exact I|apply id_insert_ordered; exact IH]).
    revert O. generalize (id_sort l). intros m O a. revert m O. induction a as [|y a IH]; intros m O b c ->; [apply O|]. exact (IH (a ++ b :: c) (proj2 O) b c eq_refl).
Qed.
Example C74_agree_ex : sorts id_sort /\ id_sort [idB; [0; 5]; idA] = [[0; 5]; idA; idB] /\ id_sort [idA; idB; [0; 5]] = [[0; 5]; idA; idB].
Proof. split; [exact id_sort_sorts|]. vm_compute. auto. Qed.
(** C74: listing the members *)
Theorem C74_members : forall w n inc, match get_nodes w n inc with
  | inl e => (n < Z.of_nat (length (nodes w)))%Z /\ e = (- Z.of_nat (length (nodes w)))%Z
  | inr l => (Z.of_nat (length (nodes w)) <= n)%Z /\ forall i, In i l <-> exists x, nth_error (nodes w) i = Some x /\ (inc = true \/ nid x <> me w)
  end.
Proof. exact get_nodes_spec. Qed.
Print Assumptions C74_members.
Example C74_members_ex : get_nodes w_revived 5 false = inr [0]%nat /\ get_nodes w_revived 2 true = inr [0; 1]%nat /\ get_nodes w_revived 1 true = inl (-2)%Z.
Proof. vm_compute. auto. Qed.

(** C75, natural statement: the answer of an update says what happened *)
Definition answers_truly : Prop := forall nsort wr c g name, c_name c = Some name -> answers name (fst (update nsort wr c g)) g (snd (update nsort wr c g)).
Definition nodeA (a : address) : node_conf := {| c_id := Some idA; c_cn := true; c_port := Some 43191%Z; c_addr := a |}.
Definition nm : list N := [110].
Definition cluster (seq port : Z) (l : list node_conf) : conf :=
  {| c_name := Some nm; c_key := true; c_seq := Text seq false; c_port_ := Text port false; c_period := Missing; c_timeout := Text 3000 false; c_maturity := Empty; c_nodes := l |}.
(** false: with an address that does not parse the answer is "inserted" *)
Theorem C75_refuted : ~ answers_truly.
Proof.
  intros P. specialize (P id_sort true (cluster 1 80 [nodeA BadAddress]) [] nm eq_refl). vm_compute in P.
  destruct P as [[P _]|[[_ [_ [x P]]]|[[P _]|[P _]]]]; discriminate.
Qed.
Print Assumptions C75_refuted.
(** and with a bad second node "updated" *)
Example C75_refuted_ex : update id_sort true (cluster 1 80 [nodeA BadAddress]) [] = (0%Z, []) /\
  update id_sort true (cluster 1 80 [nodeA V4; nodeA NoAddress]) [] = (1%Z, []) /\ update id_sort true (cluster 1 80 [nodeA NoAddress]) [] = ((-1)%Z, []).
Proof. vm_compute. auto. Qed.
(** C75: true when every node element is right *)
Theorem C75_answers_partial : forall nsort wr c g name, c_name c = Some name -> Forall good_node (c_nodes c) ->
  let r := update nsort wr c g in answers name (fst r) g (snd r).
Proof. exact update_good. Qed.
Print Assumptions C75_answers_partial.
Example C75_answers_partial_ex : Forall good_node [nodeA V4; nodeA V6] /\
  fst (update id_sort true (cluster 1 80 [nodeA V4; nodeA V6]) []) = 0%Z /\
  let g := snd (update id_sort true (cluster 1 80 [nodeA V4]) []) in
  fst (update id_sort true (cluster 1 81 []) g) = 2%Z /\ fst (update id_sort true (cluster 2 81 []) g) = 1%Z /\ fst (update id_sort false (cluster 2 81 []) g) = (-1)%Z.
Proof. split; [repeat constructor; try discriminate; eexists; (split; [reflexivity|]; split; [lia|auto])|]. vm_compute. auto. Qed.
(** C75: otherwise nothing happens, and the answer depends on what came before the first bad one *)
Theorem C75_bad_nodes : forall nsort wr c g, read_head c <> None -> ~ Forall good_node (c_nodes c) ->
  exists a n b, c_nodes c = a ++ n :: b /\ Forall good_node a /\ ~ good_node n /\
  update nsort wr c g = (if match c_addr n with BadAddress => refused_by_address n | _ => false end then 0%Z else match a with [] => (-1)%Z | _ => 1%Z end, g).
Proof. exact update_bad. Qed.
Print Assumptions C75_bad_nodes.
Example C75_bad_nodes_ex : read_head (cluster 1 80 [nodeA V4; nodeA BadAddress]) <> None /\ update id_sort true (cluster 1 80 [nodeA V4; nodeA BadAddress]) [] = (0%Z, []).
Proof. vm_compute. split; [discriminate|reflexivity]. Qed.
(** C75: a registered cluster is never lost and only ever replaced by one with a larger sequence *)
Theorem C75_monotone : forall nsort l g name x, retrieve g name = Some x ->
  exists y, retrieve (fold_left (fun g (u : bool * conf) => snd (update nsort (fst u) (snd u) g)) l g) name = Some y /\ (y = x \/ (r_seq x < r_seq y)%Z).
Proof. exact updates_monotone. Qed.
Print Assumptions C75_monotone.
Example C75_monotone_ex : let g := fold_left (fun g (u : bool * conf) => snd (update id_sort (fst u) (snd u) g)) [(true, cluster 3 80 [nodeA V4]); (true, cluster 2 81 []); (true, cluster 7 82 []); (false, cluster 9 83 [])] [] in
  match retrieve g nm with Some y => r_seq y = 7%Z /\ r_port y = 82%Z | None => False end.
Proof. vm_compute. auto. Qed.
(** C75: what a changed entry holds: the attributes, the numbers converted to int, the node ids sorted *)
Theorem C75_stored : forall nsort wr c g name, retrieve (snd (update nsort wr c g)) name <> retrieve g name ->
  exists y p ids, retrieve (snd (update nsort wr c g)) name = Some y /\ c_name c = Some name /\ Forall good_node (c_nodes c) /\
  map c_id (c_nodes c) = map Some ids /\ r_ids y = nsort ids /\ c_seq c = Text (r_seq y) false /\
  c_port_ c = Text p false /\ r_port y = to_int p /\ (0 < r_port y <= 65535)%Z /\
  r_period y = match c_period c with Text v _ => to_int v | _ => 200%Z end /\ (0 <= r_period y <= 5000)%Z /\
  r_timeout y = match c_timeout c with Text v _ => to_int v | _ => 5000%Z end /\ (r_period y <= r_timeout y)%Z /\
  r_maturity y = match c_maturity c with Text v _ => to_int v | _ => r_timeout y end /\ (0 <= r_maturity y)%Z.
Proof. exact update_stored. Qed.
Print Assumptions C75_stored.
Example C75_stored_ex : retrieve (snd (update id_sort true (cluster 1 80 [nodeA V4]) [])) nm =
  Some {| r_seq := 1; r_port := 80; r_period := 200; r_timeout := 3000; r_maturity := 3000; r_ids := [idA] |}.
Proof. vm_compute. reflexivity. Qed.
(** C75: so attributes out of the range of int are taken for others: exactly these *)
Theorem C75_as_written : forall v, to_int v = v <-> (- 2 ^ 31 <= v < 2 ^ 31)%Z.
Proof. exact to_int_id. Qed.
Print Assumptions C75_as_written.
Example C75_as_written_ex : match retrieve (snd (update id_sort true (cluster 1 (4294967296 + 80) []) [])) nm with Some y => r_port y = 80%Z | None => False end.
Proof. vm_compute. reflexivity. Qed.

(** C76, natural statement: a message that changes what is known of a node calls the hook once *)
Definition hook_on_change : Prop := forall m now r w i n, understood m -> NoDup (map nid (nodes w)) -> nth_error (nodes w) i = Some n -> nid n = message_id m -> stored_wf_node n ->
  ~ (boot n = message_time m /\ cseq n = message_seq m /\ payload_of n = message_payload m) ->
  exists ch, log (snd (process m now r w)) = log w ++ [{| what := ch; who := i; old_boot := boot n |}].
Lemma beat_understood : understood (beat idA (at_ 50) 1 []).
Proof. split; [vm_compute; repeat constructor|]. split; [vm_compute length; lia|]. split; [vm_compute; reflexivity|vm_compute; discriminate]. Qed.
(** false for a peer with our own boot time *)
Theorem C76_refuted : ~ hook_on_change.
Proof.
  intros P. destruct (P (beat idA (at_ 50) 1 []) (at_ 60) 3 (start [idA; idB] idB (at_ 50) 1000 1000) 0%nat (fresh idA) beat_understood nodup_ab eq_refl) as [ch E].
  - vm_compute. reflexivity.
  - reflexivity.
  - intros (E & _). vm_compute in E. discriminate.
  - vm_compute in E. discriminate.
Qed.
Print Assumptions C76_refuted.
Example C76_refuted_ex : map boot (nodes (snd (process (beat idA (at_ 50) 1 []) (at_ 60) 3 (start [idA; idB] idB (at_ 50) 1000 1000)))) = [at_ 50; {| sec := 0; usec := 0 |}].
Proof. vm_compute. reflexivity. Qed.
(** C76: in all other cases; and the flags say what changed *)
Theorem C76_hook_partial : forall m now r w i n, understood m -> NoDup (map nid (nodes w)) -> nth_error (nodes w) i = Some n -> nid n = message_id m ->
  stored_wf_node n -> no_clash w m ->
  let w' := snd (process m now r w) in
  (boot n = message_time m /\ cseq n = message_seq m /\ payload_of n = message_payload m -> log w' = log w) /\
  (~ (boot n = message_time m /\ cseq n = message_seq m /\ payload_of n = message_payload m) ->
   exists ch, log w' = log w ++ [{| what := ch; who := i; old_boot := boot n |}] /\
   (ch = REBOOTED <-> boot n <> message_time m) /\
   (boot n = message_time m -> (N.testbit ch 2 = true <-> cseq n <> message_seq m) /\ (N.testbit ch 3 = true <-> payload_of n <> message_payload m))).
Proof. exact hook_called. Qed.
Print Assumptions C76_hook_partial.
Example C76_hook_partial_ex :
  let w := fold_left apply (map (fun m => Msg m (at_ 20) 0) [beat idA (at_ 10) 1 []; beat idA (at_ 10) 1 []; beat idA (at_ 10) 2 []; beat idA (at_ 10) 2 two; beat idA (at_ 10) 3 []; beat idA (at_ 11) 3 []]) (start [idA; idB] idB (at_ 50) 1000 1000) in
  map what (log w) = [REBOOTED; CHANGED_SEQ; CHANGED_PAYLOAD; CHANGED_SEQ + CHANGED_PAYLOAD; REBOOTED] /\ map old_boot (log w) = [{| sec := 0; usec := 0 |}; at_ 10; at_ 10; at_ 10; at_ 10].
Proof. vm_compute. auto. Qed.
(** C76: what a clash does: the view changes, the hook and the oldest node do not hear of it *)
Theorem C76_clash : forall m now r w i n, understood m -> NoDup (map nid (nodes w)) -> nth_error (nodes w) i = Some n -> nid n = message_id m ->
  ~ no_clash w m -> let w' := snd (process m now r w) in log w' = log w /\ oldest w' = oldest w /\
  exists n', nth_error (nodes w') i = Some n' /\ boot n' = message_time m.
Proof. exact clash_silent. Qed.
Print Assumptions C76_clash.
Example C76_clash_ex : ~ no_clash (start [idA; idB] idB (at_ 50) 1000 1000) (beat idA (at_ 50) 1 []).
Proof. intros H. specialize (H ltac:(vm_compute; reflexivity)). vm_compute in H. discriminate. Qed.

(** C77: a check kills exactly the nodes not heard of for the timeout and up for the maturity, and
    changes nothing else *)
Theorem C77_timeouts : forall now r w i n, valid_time now -> valid_time (contact n) -> valid_time (boot n) -> (0 <= timeout w)%Z -> (0 <= maturity w)%Z ->
  nth_error (nodes w) i = Some n ->
  exists n', nth_error (nodes (check_timeout now r w)) i = Some n' /\ same_but_boot n' n /\
  ((since now (contact n) (timeout w) /\ (0 < sec (boot n))%Z /\ since now (boot n) (maturity w) /\ boot n' = {| sec := 0; usec := 0 |}) \/
   (~ (since now (contact n) (timeout w) /\ (0 < sec (boot n))%Z /\ since now (boot n) (maturity w)) /\ boot n' = boot n)).
Proof. exact timeouts. Qed.
Print Assumptions C77_timeouts.
Example C77_timeouts_ex :
  let w := fold_left apply [Msg (beat idA (at_ 10) 1 []) (at_ 20) 0; Msg (beat idB (at_ 9) 1 []) (at_ 21) 0] (start [idA; idB] idB (at_ 50) 2000 1000) in
  map boot (nodes (check_timeout {| sec := 22; usec := 1006 |} 0 w)) = [at_ 10; at_ 9] /\
  map boot (nodes (check_timeout {| sec := 22; usec := 1007 |} 0 w)) = [{| sec := 0; usec := 0 |}; at_ 9] /\ since {| sec := 22; usec := 1007 |} (at_ 20) 2000.
Proof. cbv zeta. split; [vm_compute; reflexivity|]. split; [vm_compute; reflexivity|]. unfold since, micros. cbn. lia. Qed.
