(** Timers: C155 to C161. *)
From Coq Require Import ZArith Arith List Bool Lia.
From Verif.Timer Require Import Model Spec Proofs Proofs2 Proofs3 Proofs4 Proofs5.
Import ListNotations.

(** An example: three timers, two of them for the same time; a first dispatch that only
    takes them in; a second in which the first to run adds another, the second asks to be
    run again, and the third is not due. *)
Definition ex_clock (i : nat) : timeval := mktv 10 (Z.of_nat i).
Definition ex_cbs (i : nat) : callback :=
  match i with
  | 0 => mkcb [New 4 (mktv 3 0); Add 4; Update 3 (mktv 11 0)] false
  | 1 => mkcb [Update 2 (mktv 12 0)] true
  | _ => mkcb [] true
  end.
Definition ex_first : list op :=
  [Do (New 1 (mktv 7 5)); Do (New 2 (mktv 7 5)); Do (New 3 (mktv 20 0)); Do (Add 3); Do (Add 1); Do (Add 2);
   Dispatch (fun _ => mktv 5 0) (fun _ => mkcb [] true) (mktv 60 0) (mktv 60 0)].
Definition ex_ops : list op := ex_first ++ [Dispatch ex_clock ex_cbs (mktv 60 0) (mktv 60 0)].
Definition ex_after_first : list out :=
  [Swept; Added 2 false; Added 1 false; Added 3 false; Made 3 (mktv 20 0); Made 2 (mktv 7 5); Made 1 (mktv 7 5)].
Definition ex_second : list out :=
  [Added 2 false; Moved 2 (mktv 12 0) In_place; Ran 2 (mktv 10 1);
   Freed 1; Moved 3 (mktv 11 0) Requeued; Added 4 false; Made 4 (mktv 3 0); Ran 1 (mktv 10 0)].
Definition ex_hist : list out := Swept :: ex_second ++ ex_after_first.
Lemma ex_of : forall o h, option_map hist o = Some h -> exists st, o = Some st /\ hist st = h.
Proof. intros [st|] h H; [|discriminate H]. exists st. split; [reflexivity|]. now injection H. Qed.
Lemma ex_run : exists st, run init ex_ops = Some st /\ hist st = ex_hist.
Proof. apply ex_of. reflexivity. Qed.
Lemma ex_run_first : exists st, run init ex_first = Some st /\ hist st = ex_after_first.
Proof. apply ex_of. reflexivity. Qed.
Lemma ex_fair : forall h, forallb (fun o => match o with Added _ b => negb b | _ => true end) h = true -> fair h.
Proof. intros h H e I. rewrite forallb_forall in H. now specialize (H _ I). Qed.

(** ** C155 *)
Theorem C155_run_never_early : forall l st s e now p, run init l = Some st -> hist st = s ++ Ran e now :: p ->
  exists t, due p e = Some t /\ tlt t now.
Proof.
  intros l st s e now p R H. apply run_steps in R. apply (steps_timely _ _ R init_inv) with (s := s) (o := Ran e now); [intros [|] ? ? Q; discriminate Q|exact H].
Qed.
Print Assumptions C155_run_never_early.
Example C155_run_never_early_ex : exists st s p, run init ex_ops = Some st /\ hist st = s ++ Ran 2 (mktv 10 1) :: p /\ due p 2 = Some (mktv 7 5) /\ tlt (mktv 7 5) (mktv 10 1).
Proof.
  destruct ex_run as (st & R & H). exists st, (Swept :: firstn 2 ex_second), (skipn 3 ex_second ++ ex_after_first).
  repeat split; [exact R|exact H|left; reflexivity].
Qed.

(** ** C156 *)
(** the calls tell the truth: an event runs only while it waits; a remove says whether it
    waited; ... *)
Theorem C156_run_while_waiting : forall l st s o p, run init l = Some st -> fair (hist st) -> hist st = s ++ o :: p ->
  match o with
  | Ran e _ | Moved e _ Requeued => waiting p e = true
  | Gone e was => was = waiting p e
  | Added e _ | Moved e _ In_place | Moved e _ Queued | Freed e | Made e _ => waiting p e = false
  | Swept => True
  end.
Proof.
  intros l st s o p R F H. apply run_steps in R.
  assert (S : sound p o) by (apply (steps_sound _ _ R init_inv init_good F) with (s := s); [intros [|] ? ? Q; discriminate Q|exact H]).
  destruct o as [| | |? ? []| | |]; cbn in S; auto. apply S.
Qed.
Print Assumptions C156_run_while_waiting.
Example C156_run_while_waiting_ex : exists st s p, run init ex_ops = Some st /\ fair (hist st) /\ hist st = s ++ Ran 2 (mktv 10 1) :: p /\ waiting p 2 = true /\ waiting (Ran 2 (mktv 10 1) :: p) 2 = false.
Proof.
  destruct ex_run as (st & R & H). exists st, (Swept :: firstn 2 ex_second), (skipn 3 ex_second ++ ex_after_first).
  repeat split; [exact R| |exact H]. rewrite H. now apply ex_fair.
Qed.
(** what the calls need, in terms of what was done before *)
Theorem C156_calls_succeed : forall l st e, run init l = Some st -> fair (hist st) ->
  (do st (Add e) <> None <-> alive (hist st) e = true /\ ~ (waiting (hist st) e = true /\ swept (hist st) < since (hist st) e))
  /\ (do st (Remove e) <> None <-> alive (hist st) e = true)
  /\ (do st (Free e) <> None <-> alive (hist st) e = true /\ waiting (hist st) e = false)
  /\ (forall t, do st (New e t) <> None <-> alive (hist st) e = false).
Proof.
  intros l st e R F. split; [now apply (add_l l)|]. split; [now apply (remove_l l)|]. split; [now apply (free_l l)|].
  intro t. rewrite <- (run_alive _ _ R). cbn [do]. unfold alloc. destruct (live st e); split; intro; congruence.
Qed.
Print Assumptions C156_calls_succeed.
Example C156_calls_succeed_ex : exists st, run init ex_ops = Some st /\ fair (hist st) /\ do st (Free 3) = None /\ do st (Remove 3) <> None /\ do st (Remove 1) = None /\ do st (New 1 (mktv 0 0)) <> None.
Proof.
  destruct ex_run as (st & R & H). exists st. assert (F : fair (hist st)) by (rewrite H; now apply ex_fair).
  split; [exact R|]. split; [exact F|].
  destruct (C156_calls_succeed _ _ 3 R F) as (_ & B & C & _). destruct (C156_calls_succeed _ _ 1 R F) as (_ & B' & _ & D').
  rewrite H in *. split; [destruct (do st (Free 3)) eqn:E; [|reflexivity]; exfalso; assert (X : waiting ex_hist 3 = false) by (apply C; congruence); discriminate X|].
  split; [now apply B|]. split; [destruct (do st (Remove 1)) eqn:E; [|reflexivity]; exfalso; assert (X : alive ex_hist 1 = true) by (apply B'; congruence); discriminate X|]. now apply D'.
Qed.

(** ** C157 *)
Theorem C157_run_in_order : forall l st s e now p, run init l = Some st -> fair (hist st) -> hist st = s ++ Ran e now :: p ->
  ready p e /\ forall f, ready p f -> f <> e -> earlier p e f.
Proof.
  intros l st s e now p R F H. apply run_steps in R.
  apply (steps_sound _ _ R init_inv init_good F) with (s := s) (o := Ran e now); [intros [|] ? ? Q; discriminate Q|exact H].
Qed.
Print Assumptions C157_run_in_order.
Example C157_run_in_order_ex : exists st s p, run init ex_ops = Some st /\ fair (hist st) /\ hist st = s ++ Ran 1 (mktv 10 0) :: p /\ ready p 2 /\ ready p 3 /\ due p 1 = due p 2 /\ since p 1 < since p 2.
Proof.
  destruct ex_run as (st & R & H). exists st, (Swept :: firstn 7 ex_second), ex_after_first.
  split; [exact R|]. split; [rewrite H; now apply ex_fair|]. split; [exact H|]. unfold ready. cbn. repeat split; lia.
Qed.

(** ** C158 *)
Theorem C158_dispatch_serves : forall l st clock cbs max next st' next', run init l = Some st -> dispatch st clock cbs max next = Some (st', next') -> fair (hist st') ->
  exists d, hist st' = Swept :: d ++ hist st /\ ~ In Swept d /\ times d = rev (map clock (seq 0 (runs d)))
    /\ (forall e, runs_of e d <= 1 /\ (runs_of e d = 1 -> ready (hist st) e))
    /\ (forall e t, ready (hist st) e -> due (hist st) e = Some t -> (forall o, In o d -> ~ about o e) -> ~ tlt t (clock (runs d))).
Proof. exact dispatch_l. Qed.
Print Assumptions C158_dispatch_serves.
Definition ex_res (o : option (state * timeval)) : option (list out * timeval) := option_map (fun r => (hist (fst r), snd r)) o.
Lemma ex_dispatch : exists st st' next', run init ex_first = Some st /\ hist st = ex_after_first /\ dispatch st ex_clock ex_cbs (mktv 60 0) (mktv 60 0) = Some (st', next') /\ hist st' = ex_hist /\ next' = mktv 0 0.
Proof.
  destruct ex_run_first as (st & R & H).
  assert (Q : match run init ex_first with Some st => ex_res (dispatch st ex_clock ex_cbs (mktv 60 0) (mktv 60 0)) | None => None end = Some (ex_hist, mktv 0 0)) by reflexivity.
  rewrite R in Q. destruct (dispatch st _ _ _ _) as [[st' nx]|] eqn:D; [|discriminate Q]. cbn in Q. injection Q as Q1 Q2. exists st, st', nx. repeat split; auto.
Qed.
Example C158_dispatch_serves_ex : exists st st' next', run init ex_first = Some st /\ dispatch st ex_clock ex_cbs (mktv 60 0) (mktv 60 0) = Some (st', next') /\ fair (hist st')
  /\ hist st' = Swept :: ex_second ++ hist st /\ runs ex_second = 2 /\ ready (hist st) 3.
Proof.
  destruct ex_dispatch as (st & st' & nx & R & H & D & H' & _). exists st, st', nx. rewrite H, H'. split; [exact R|]. split; [exact D|]. split; [now apply ex_fair|]. unfold ready. cbn. repeat split; lia.
Qed.
(** what happens to each event that is run *)
Theorem C158_dispatch_script : forall st clock cbs max next st' next', dispatch st clock cbs max next = Some (st', next') ->
  exists evs d, hist st' = Swept :: d ++ hist st /\ script clock cbs 0 evs d.
Proof. intros st clock cbs max next st' next' H. apply dispatch_script_l in H. destruct H as (evs & d & H & S & _). eauto. Qed.
Print Assumptions C158_dispatch_script.
Example C158_dispatch_script_ex : exists st st' next', run init ex_first = Some st /\ dispatch st ex_clock ex_cbs (mktv 60 0) (mktv 60 0) = Some (st', next')
  /\ hist st' = Swept :: ex_second ++ hist st /\ script ex_clock ex_cbs 0 [1; 2] ex_second.
Proof.
  destruct ex_dispatch as (st & st' & nx & R & H & D & H' & _). exists st, st', nx. rewrite H, H'. split; [exact R|]. split; [exact D|]. split; [reflexivity|].
  apply (script_run ex_clock ex_cbs 0 1 [2] [Moved 3 (mktv 11 0) Requeued; Added 4 false; Made 4 (mktv 3 0)] (Freed 1) (firstn 3 ex_second)); [repeat (constructor; [cbn; auto|]); constructor|reflexivity|].
  apply (script_run ex_clock ex_cbs 1 2 [] [Moved 2 (mktv 12 0) In_place] (Added 2 false) []); [repeat (constructor; [cbn; auto|]); constructor|reflexivity|constructor].
Qed.
(** it never aborts by itself *)
Theorem C158_dispatch_total : forall l st clock cbs max next, run init l = Some st -> fair (hist st) -> (forall i, calls (cbs i) = []) ->
  exists st' next', dispatch st clock cbs max next = Some (st', next') /\ fair (hist st').
Proof. exact dispatch_total_l. Qed.
Print Assumptions C158_dispatch_total.
Example C158_dispatch_total_ex : exists st, run init ex_ops = Some st /\ fair (hist st) /\ ready (hist st) 4 /\ forall i : nat, calls (mkcb [] (Nat.even i)) = [].
Proof. destruct ex_run as (st & R & H). exists st. rewrite H. split; [exact R|]. split; [now apply ex_fair|]. unfold ready. cbn. repeat split; lia. Qed.

(** ** C159 *)
(** in full: the loop sleeps no longer than until the next timer, by the clock after the
    last callback, and no longer than it was going to *)
Definition C159_full : Prop := forall l st clock cbs max next st' next', run init l = Some st -> dispatch st clock cbs max next = Some (st', next') -> fair (hist st') ->
  (forall e t, due (hist st') e = Some t -> valid t) -> (forall i, valid (clock i)) -> valid max -> valid next -> (forall i j, i <= j -> (us (clock i) <= us (clock j))%Z) ->
  exists d, hist st' = Swept :: d ++ hist st
    /\ (us next' <= us max)%Z /\ (us next' <= us next)%Z
    /\ (forall e t, waiting (hist st') e = true -> due (hist st') e = Some t -> (us next' <= Z.max 0 (us t - us (clock (runs d))))%Z).
Theorem C159_sleep_partial : forall l st clock cbs max next st' next', run init l = Some st -> dispatch st clock cbs max next = Some (st', next') -> fair (hist st') ->
  (forall e t, due (hist st') e = Some t -> valid t) -> (forall i, valid (clock i)) -> valid max -> valid next ->
  exists d j, hist st' = Swept :: d ++ hist st
    /\ (j = runs d \/ S j = runs d /\ forall e, ready (hist st) e -> exists o, In o d /\ about o e)
    /\ (us next' <= us max)%Z
    /\ (forall e t, waiting (hist st') e = true -> due (hist st') e = Some t -> (us next' <= Z.max 0 (us t - us (clock j)))%Z)
    /\ ((exists e t, waiting (hist st') e = true /\ due (hist st') e = Some t /\ us next' = Z.min (us max) (Z.max 0 (us t - us (clock j))))
        \/ (forall e, waiting (hist st') e = false) /\ us next' = Z.min (us max) (us next)).
Proof. exact sleep_l. Qed.
Print Assumptions C159_sleep_partial.
Definition ex_late_clock (i : nat) : timeval := match i with 0 => mktv 2 0 | _ => mktv 9 0 end.
Definition ex_late_cbs (i : nat) : callback := mkcb [New 2 (mktv 7 0); Add 2] false.
Definition ex_late_first : list op := [Do (New 1 (mktv 1 0)); Do (Add 1); Dispatch (fun _ => mktv 1 0) (fun _ => mkcb [] true) (mktv 60 0) (mktv 3 0)].
Definition ex_late_d : list out := [Freed 1; Added 2 false; Made 2 (mktv 7 0); Ran 1 (mktv 2 0)].
Definition ex_late_h : list out := [Swept; Added 1 false; Made 1 (mktv 1 0)].
Lemma ex_late : exists st st', run init ex_late_first = Some st /\ hist st = ex_late_h /\ dispatch st ex_late_clock ex_late_cbs (mktv 60 0) (mktv 3 0) = Some (st', mktv 5 0) /\ hist st' = Swept :: ex_late_d ++ ex_late_h.
Proof.
  assert (R : exists st, run init ex_late_first = Some st /\ hist st = ex_late_h) by (apply ex_of; reflexivity). destruct R as (st & R & H).
  assert (Q : match run init ex_late_first with Some st => ex_res (dispatch st ex_late_clock ex_late_cbs (mktv 60 0) (mktv 3 0)) | None => None end = Some (Swept :: ex_late_d ++ ex_late_h, mktv 5 0)) by reflexivity.
  rewrite R in Q. destruct (dispatch st _ _ _ _) as [[st' nx]|] eqn:D; [|discriminate Q]. cbn in Q. injection Q as Q1 Q2. exists st, st'. rewrite <- Q2. repeat split; auto.
Qed.
Lemma ex_late_valid : forall e t, due (Swept :: ex_late_d ++ ex_late_h) e = Some t -> valid t.
Proof. intros e t H. cbn in H. destruct e as [|[|[|e]]]; try discriminate H; injection H as <-; unfold valid; cbn; lia. Qed.
Example C159_sleep_partial_ex : exists st st', run init ex_late_first = Some st /\ dispatch st ex_late_clock ex_late_cbs (mktv 60 0) (mktv 3 0) = Some (st', mktv 5 0) /\ fair (hist st')
  /\ (forall e t, due (hist st') e = Some t -> valid t) /\ (forall i, valid (ex_late_clock i)) /\ waiting (hist st') 2 = true /\ due (hist st') 2 = Some (mktv 7 0).
Proof.
  destruct ex_late as (st & st' & R & H & D & H'). exists st, st'. rewrite H'. split; [exact R|]. split; [exact D|]. split; [now apply ex_fair|]. split; [exact ex_late_valid|].
  split; [|split; reflexivity]. intros [|i]; unfold valid; cbn; lia.
Qed.
(** the timer was due two seconds ago, and the loop sleeps for five, though told three *)
Theorem C159_sleep_refuted : ~ C159_full.
Proof.
  intro C. destruct ex_late as (st & st' & R & H & D & H'). destruct (C _ _ _ _ _ _ _ _ R D) as (d & E & _ & B & _).
  - rewrite H'. now apply ex_fair.
  - rewrite H'. exact ex_late_valid.
  - intros [|i]; unfold valid; cbn; lia.
  - unfold valid; cbn; lia.
  - unfold valid; cbn; lia.
  - intros [|i] [|j] L; unfold us; cbn; lia.
  - now apply B.
Qed.
Print Assumptions C159_sleep_refuted.
Theorem C159_sleep_stale_refuted : exists l st clock cbs max next st' next' d e t, run init l = Some st /\ dispatch st clock cbs max next = Some (st', next')
  /\ fair (hist st') /\ hist st' = Swept :: d ++ hist st /\ waiting (hist st') e = true /\ due (hist st') e = Some t
  /\ (us t < us (clock (runs d)))%Z /\ (0 < us next')%Z.
Proof.
  destruct ex_late as (st & st' & R & H & D & H'). eexists _, st, _, _, _, _, st', _, ex_late_d, 2, (mktv 7 0). split; [exact R|]. split; [exact D|]. rewrite H', H. split; [now apply ex_fair|].
  repeat split; unfold us; cbn; lia.
Qed.
Print Assumptions C159_sleep_stale_refuted.

(** ** C160 *)
Theorem C160_timeval_arithmetic : forall a b,
  us (sub_timeval a b) = (us a - us b)%Z /\ us (add_timeval a b) = (us a + us b)%Z
  /\ (valid a -> valid b ->
      valid (add_timeval a b)
      /\ compare_timeval a b = (if (us a <? us b)%Z then (-1)%Z else if (us a =? us b)%Z then 0%Z else 1%Z)
      /\ let d := sub_timeval a b in
         if (us a <? us b)%Z then (sec d < 0)%Z \/ (usec d < 0)%Z else valid d /\ (0 <= sec d)%Z).
Proof.
  intros a b. split; [apply sub_us|]. split; [apply add_us|]. intros A B. split; [now apply add_valid|]. split; [now apply compare_us|].
  cbn zeta. destruct (sub_neg a b A B) as [[E L]|(E & L & V & P)]; rewrite us_lt in L by assumption.
  - destruct (us a <? us b)%Z eqn:Q; [|apply Z.ltb_ge in Q; lia]. apply orb_true_iff in E. rewrite !Z.ltb_lt in E. exact E.
  - destruct (us a <? us b)%Z eqn:Q; [apply Z.ltb_lt in Q; lia|]. auto.
Qed.
Print Assumptions C160_timeval_arithmetic.
Example C160_timeval_arithmetic_ex : valid (mktv 5 100000) /\ valid (mktv 5 900000) /\ sub_timeval (mktv 5 100000) (mktv 5 900000) = mktv 0 (-800000) /\ add_timeval (mktv 5 100000) (mktv 5 900000) = mktv 11 0.
Proof. unfold valid. cbn. repeat split; lia. Qed.
Theorem C160_timecompare_orders : forall a b, ((timecompare a b < 0)%Z <-> tlt a b) /\ ((0 < timecompare a b)%Z <-> ~ tlt a b).
Proof.
  intros a b. unfold timecompare, tlt. destruct (sec a <? sec b)%Z eqn:E1; [apply Z.ltb_lt in E1; lia|]. apply Z.ltb_ge in E1.
  destruct ((sec a =? sec b)%Z && (usec a <? usec b)%Z) eqn:E2; [apply andb_true_iff in E2; rewrite Z.eqb_eq, Z.ltb_lt in E2; lia|]. apply andb_false_iff in E2. rewrite Z.eqb_neq, Z.ltb_ge in E2. lia.
Qed.
Print Assumptions C160_timecompare_orders.
Example C160_timecompare_orders_ex : timecompare (mktv 1 999999) (mktv 2 0) = (-1)%Z /\ timecompare (mktv 2 0) (mktv 2 0) = 1%Z.
Proof. split; reflexivity. Qed.

(** ** C161 *)
(** in full: a new time for an event changes when it runs, not whether *)
Definition C161_full : Prop := forall l st e t st', run init l = Some st -> fair (hist st) -> do st (Update e t) = Some st' ->
  due (hist st') e = Some t /\ waiting (hist st') e = waiting (hist st) e.
Theorem C161_update_partial : forall l st e t, run init l = Some st -> fair (hist st) -> alive (hist st) e = true ->
  exists st', do st (Update e t) = Some st' /\ due (hist st') e = Some t /\ waiting (hist st') e = true /\ fair (hist st') /\ do st' (Add e) = None.
Proof. exact update_l. Qed.
Print Assumptions C161_update_partial.
Example C161_update_partial_ex : exists st, run init [Do (New 1 (mktv 4 0))] = Some st /\ fair (hist st) /\ alive (hist st) 1 = true /\ waiting (hist st) 1 = false.
Proof.
  assert (Q : exists st, run init [Do (New 1 (mktv 4 0))] = Some st /\ hist st = [Made 1 (mktv 4 0)]) by (apply ex_of; reflexivity). destruct Q as (st & R & H). exists st. rewrite H.
  split; [exact R|]. split; [now apply ex_fair|]. split; reflexivity.
Qed.
Theorem C161_update_refuted : ~ C161_full.
Proof.
  intro C. destruct C161_update_partial_ex as (st & R & F & A & W). destruct (C161_update_partial _ _ 1 (mktv 9 0) R F A) as (st' & D & _ & W' & _). destruct (C _ _ _ _ _ R F D) as [_ B]. congruence.
Qed.
Print Assumptions C161_update_refuted.
(** an event that is added twice is found only at the next dispatch *)
Theorem C161_double_add_aborts : forall l st e clock cbs max next, run init l = Some st -> fair (hist st) -> ready (hist st) e ->
  (forall f t, ready (hist st) f -> due (hist st) f = Some t -> ~ tlt t (clock 0)) ->
  exists st', do st (Add e) = Some st' /\ dispatch st' clock cbs max next = None.
Proof. exact double_l. Qed.
Print Assumptions C161_double_add_aborts.
Example C161_double_add_aborts_ex : exists st, run init ex_first = Some st /\ fair (hist st) /\ ready (hist st) 3 /\ forall f t, ready (hist st) f -> due (hist st) f = Some t -> ~ tlt t (mktv 6 0).
Proof.
  destruct ex_run_first as (st & R & H). exists st. rewrite H. split; [exact R|]. split; [now apply ex_fair|]. split; [unfold ready; cbn; repeat split; lia|].
  intros f t _ D. cbn in D. destruct f as [|[|[|[|f]]]]; try discriminate D; injection D as <-; unfold tlt; cbn; lia.
Qed.
