(** What a dispatch does, and for how long the loop then sleeps. *)
From Coq Require Import ZArith Arith List Bool Lia ZifyBool ZifyNat Sorting.Sorted.
From Verif.Timer Require Import Model Spec Proofs Proofs2 Proofs3.
Import ListNotations.

(** ** The script *)
Lemma do_entry : forall st a st', do st a = Some st' -> exists o, hist st' = o :: hist st /\ entry a o /\ current st' = current st.
Proof.
  intros st a st' H. destruct a as [e t|e|e|e t|e]; cbn [do] in H.
  - unfold alloc in H. destruct (live st e); [discriminate H|]. injection H as <-. cbn. eexists. repeat split.
  - unfold add_timed in H. destruct (negb _); [discriminate H|]. destruct (insert _ _ _); [|discriminate H]. injection H as <-. cbn. eexists. repeat split.
  - unfold remove_timed in H. destruct (negb _); [discriminate H|]. destruct (has e _); [|destruct (has e _)]; injection H as <-; cbn; eexists; repeat split.
  - unfold update_timed in H. destruct (negb _); [discriminate H|]. destruct (is _ _); [injection H as <-; cbn; eexists; repeat split|].
    cbn zeta in H. destruct (insert _ _ _); [|discriminate H]. injection H as <-. cbn. eexists. repeat split.
  - unfold free in H. destruct (_ || _); [discriminate H|]. injection H as <-. cbn. eexists. repeat split.
Qed.
Lemma do_all_entry : forall l st st', do_all st l = Some st' -> exists c, hist st' = c ++ hist st /\ Forall2 entry l (rev c).
Proof.
  induction l as [|a l IH]; intros st st' H; cbn [do_all] in H; [injection H as <-; exists []; split; [reflexivity|constructor]|]. destruct (do st a) as [s|] eqn:E; [|discriminate H].
  apply do_entry in E. destruct E as (o & E & N & _). apply IH in H. destruct H as (c & H & F). exists (c ++ [o]). rewrite rev_app_distr. cbn. split; [rewrite H, E, <- app_assoc; reflexivity|now constructor].
Qed.
Lemma fire_script : forall st e r now cb st', fire st e r now cb = Some st' ->
  exists c o, hist st' = (o :: c ++ [Ran e now]) ++ hist st /\ Forall2 entry (calls cb) (rev c) /\ entry (if again cb then Add e else Free e) o /\ current st' = None.
Proof.
  intros st e r now cb st' H. unfold fire in H. destruct (do_all _ _) as [s|] eqn:E; [|discriminate H]. cbn [bind] in H. apply do_all_entry in E. destruct E as (c & E & F). cbn [hist] in E.
  assert (H' : do (mkstate (whence s) (live s) (timed s) (staged s) None (hist s)) (if again cb then Add e else Free e) = Some st') by (destruct (again cb); exact H).
  apply do_entry in H'. destruct H' as (o & H' & N & C). exists c, o. cbn [hist current] in H', C. rewrite H', E. cbn. rewrite <- app_assoc. auto.
Qed.
Lemma turns_script : forall clock cbs n k st now next s now' nx, turns n k clock cbs st now next = Some (s, now', nx) ->
  exists evs d, hist s = d ++ hist st /\ script clock cbs k evs d /\ (current st = None -> current s = None).
Proof.
  intros clock cbs. induction n as [|n IH]; intros k st now next s now' nx H; cbn [turns] in H; [injection H as <- _ _; exists [], []; repeat split; [constructor|auto]|].
  assert (Z : exists evs d, hist st = d ++ hist st /\ script clock cbs k evs d /\ (current st = None -> current st = None)) by (exists [], []; repeat split; [constructor|auto]).
  destruct (timed st) as [|e r]; [injection H as <- _ _; exact Z|]. destruct (_ <? 0)%Z; [|injection H as <- _ _; exact Z].
  destruct (fire _ _ _ _ _) as [s1|] eqn:E; [|discriminate H]. cbn [bind] in H. apply fire_script in E. destruct E as (c & o & E & F & N & C). apply IH in H. destruct H as (evs & d & H & S & C').
  exists (e :: evs), (d ++ o :: c ++ [Ran e (clock k)]). split; [rewrite H, E, app_assoc; reflexivity|]. split; [now constructor|auto].
Qed.
Lemma dispatch_script_l : forall st clock cbs max next st' next', dispatch st clock cbs max next = Some (st', next') ->
  exists evs d, hist st' = Swept :: d ++ hist st /\ script clock cbs 0 evs d /\ (current st = None -> current st' = None).
Proof.
  intros st clock cbs max next st' next' H. apply dispatch_inv in H. destruct H as (s & now & nx & l & T & _ & -> & _). apply turns_script in T. destruct T as (evs & d & E & S & C).
  exists evs, d. cbn [hist current]. rewrite E. auto.
Qed.
Lemma run_current : forall l st st', run st l = Some st' -> current st = None -> current st' = None.
Proof.
  induction l as [|o l IH]; intros st st' H C; cbn [run] in H; [now injection H as <-|]. destruct (step st o) as [s|] eqn:E; [|discriminate H]. apply (IH _ _ H). destruct o as [a|clock cbs max next]; cbn [step] in E.
  - apply do_entry in E. destruct E as (o & _ & _ & E). congruence.
  - destruct (dispatch _ _ _ _ _) as [[s' nx]|] eqn:D; [|discriminate E]. cbn in E. injection E as <-. apply dispatch_script_l in D. destruct D as (_ & _ & _ & _ & D). auto.
Qed.

(** ** A dispatch *)
Lemma nodup_count : forall l e, NoDup l -> count l e <= 1.
Proof. intros l e D. now apply (proj1 (NoDup_count_occ Nat.eq_dec l)). Qed.
Lemma dispatch_l : forall l st clock cbs max next st' next', run init l = Some st -> dispatch st clock cbs max next = Some (st', next') -> fair (hist st') ->
  exists d, hist st' = Swept :: d ++ hist st /\ ~ In Swept d /\ times d = rev (map clock (seq 0 (runs d)))
    /\ (forall e, runs_of e d <= 1 /\ (runs_of e d = 1 -> ready (hist st) e))
    /\ (forall e t, ready (hist st) e -> due (hist st) e = Some t -> (forall o, In o d -> ~ about o e) -> ~ tlt t (clock (runs d))).
Proof.
  intros l st clock cbs max next st' next' R D F. apply dispatch_inv in D. destruct D as (s & now & nx & l' & T & W & -> & _). cbn [hist] in *. apply fair_cons in F.
  pose proof (turns_steps _ _ _ _ _ _ _ _ _ _ T) as ST. destruct (run_good _ _ R) as [I G]. specialize (G (steps_fair _ _ ST F)). destruct (steps_good _ _ ST I G F) as [I' G'].
  apply turns_keeps in T; [|apply le_n]. destruct T as (d & K & TM & M & _). exists d. rewrite (k_hist _ _ _ K). repeat split; auto.
  - apply (k_swept _ _ _ K).
  - pose proof (k_count _ _ _ K e). pose proof (nodup_count _ e (proj1 (g_nodup _ G))). lia.
  - apply (g_timed _ G). apply (count_occ_In Nat.eq_dec). pose proof (k_count _ _ _ K e). lia.
  - apply (g_timed _ G). apply (count_occ_In Nat.eq_dec). pose proof (k_count _ _ _ K e). lia.
  - intros e t RD DU U L. apply (g_timed _ G) in RD. destruct (k_untouched _ _ _ K e RD U) as [X Y]. rewrite (i_due _ I e) in DU by (apply (i_live _ I); auto). injection DU as <-. rewrite <- Y in L.
    destruct (g_order _ G') as [O _]. destruct (timed s) as [|h r]; [destruct X|]. destruct M as (M & _). cbn in M. destruct X as [->|X]; [contradiction|].
    inversion O as [|? ? _ FO]; subst. rewrite Forall_forall in FO. destruct (FO e X) as [A|[A _]]; apply M; [now apply (tlt_trans _ (whence s e))|now rewrite A].
Qed.

(** ** The sleep *)
Lemma sleep_l : forall l st clock cbs max next st' next', run init l = Some st -> dispatch st clock cbs max next = Some (st', next') -> fair (hist st') ->
  (forall e t, due (hist st') e = Some t -> valid t) -> (forall i, valid (clock i)) -> valid max -> valid next ->
  exists d j, hist st' = Swept :: d ++ hist st
    /\ (j = runs d \/ S j = runs d /\ forall e, ready (hist st) e -> exists o, In o d /\ about o e)
    /\ (us next' <= us max)%Z
    /\ (forall e t, waiting (hist st') e = true -> due (hist st') e = Some t -> (us next' <= Z.max 0 (us t - us (clock j)))%Z)
    /\ ((exists e t, waiting (hist st') e = true /\ due (hist st') e = Some t /\ us next' = Z.min (us max) (Z.max 0 (us t - us (clock j))))
        \/ (forall e, waiting (hist st') e = false) /\ us next' = Z.min (us max) (us next)).
Proof.
  intros l st clock cbs max next st' next' R D F VD VC VM VN. pose proof D as D'. apply dispatch_inv in D. destruct D as (s & now & nx & l' & T & W & E & EN).
  assert (ST' : steps st st') by (apply (step_steps st (Dispatch clock cbs max next)); cbn [step]; now rewrite D').
  destruct (run_good _ _ R) as [I G]. specialize (G (steps_fair _ _ ST' F)). destruct (steps_good _ _ ST' I G F) as [I' G']. apply turns_keeps in T; [|apply le_n]. destruct T as (d & K & _ & M & N).
  assert (HH : hist st' = Swept :: d ++ hist st) by (rewrite E; cbn [hist]; now rewrite (k_hist _ _ _ K)).
  assert (J : exists j, now = clock j /\ (j = runs d \/ S j = runs d /\ timed s = [])).
  { destruct N as [[L0 N]|[N|(j & N1 & N2 & N3)]]; [|exists (runs d); auto|exists j; auto]. exists 0. split; [exact N|]. left. pose proof (k_length _ _ _ K). lia. }
  destruct J as (j & NJ & J).
  assert (J' : j = runs d \/ S j = runs d /\ forall e, ready (hist st) e -> exists o, In o d /\ about o e).
  { destruct J as [J|[J J2]]; [auto|]. right. split; [exact J|]. intros e RD. apply (g_timed _ G) in RD.
    assert (Q : forall x, {about x e} + {~ about x e}) by (intro x; destruct x; cbn; try apply Nat.eq_dec; now right).
    destruct (Exists_dec (fun o => about o e) d Q) as [X|X]; [apply Exists_exists in X; exact X|]. exfalso.
    destruct (k_untouched _ _ _ K e RD) as [Y _]; [|rewrite J2 in Y; destruct Y]. intros o O A. apply X. apply Exists_exists. eauto. }
  exists d, j. split; [exact HH|]. split; [exact J'|].
  assert (VW : forall e, In e (timed st') -> valid (whence st' e)) by (intros e X; apply (VD e); apply (i_due _ I'), (i_live _ I'); auto).
  assert (LW : forall e, In e l' <-> waiting (hist st') e = true).
  { intro e. split; intro X; [apply (in_waiting _ _ G'); left; rewrite E; exact X|]. destruct (waiting_split _ _ G' X) as [Y|Y]; rewrite E in Y; [exact Y|destruct Y]. }
  assert (DW : forall e, In e l' -> due (hist st') e = Some (whence s e)) by (intros e X; rewrite (i_due _ I' e); [now rewrite E|apply (i_live _ I'); left; now rewrite E]).
  assert (VS : forall e, In e l' -> valid (whence s e)) by (intros e X; specialize (VW e); rewrite E in VW; apply VW; exact X).
  set (n := match staged s with [] => nx | _ => match l' with [] => nx | e :: _ => let d := sub_timeval (whence s e) now in if (sec d <? 0)%Z || (usec d <? 0)%Z then mktv 0 0 else d end end) in *.
  assert (NM : us next' = Z.min (us max) (us n) \/ valid n -> valid n -> us next' = Z.min (us max) (us n)).
  { intros _ Vn. rewrite EN. cbn zeta. destruct (compare_timeval max n <? 0)%Z eqn:C.
    - apply compare_lt in C. apply us_lt in C; auto. lia.
    - assert (C' : ~ tlt max n) by (rewrite <- compare_lt; congruence). rewrite us_lt in C' by auto. lia. }
  destruct l' as [|h r] eqn:L'.
  - assert (NT : timed s = []). { destruct (timed s) as [|x y] eqn:TS; [reflexivity|]. exfalso. apply (proj2 (sweep_in _ _ _ _ W x)). left. now left. }
    assert (nx = next) by (rewrite NT in M; exact M). assert (n = next) by (subst n; destruct (staged s); auto). clearbody n. subst n. specialize (NM (or_intror VN) VN). rewrite NM.
    split; [lia|]. split; [intros e t X; apply LW in X; destruct X|]. right. split; [|reflexivity]. intro e. destruct (waiting (hist st') e) eqn:X; [apply LW in X; destruct X|reflexivity].
  - assert (H1 : In h (h :: r)) by now left.
    assert (NN : valid n /\ us n = Z.max 0 (us (whence s h) - us now)).
    { subst now. destruct (staged s) as [|x y] eqn:SS.
      - cbn [sweep] in W. injection W as W. rewrite W in M. destruct M as (M1 & M2 & M3). cbn [Nat.add] in M1, M2. subst n. rewrite M3. rewrite M2 in *.
        destruct (sub_neg (whence s h) (clock (runs d)) (VS h H1) (VC _)) as [[_ B]|(_ & _ & B & _)]; [contradiction|]. split; [exact B|]. rewrite sub_us. rewrite us_lt in M1 by auto. lia.
      - subst n. cbn zeta. destruct (sub_neg (whence s h) (clock j) (VS h H1) (VC _)) as [[B B']|(B & B' & B'' & _)]; rewrite B.
        + apply us_lt in B'; auto. split; [unfold valid; cbn; lia|]. change (us (mktv 0 0)) with 0%Z. lia.
        + rewrite us_lt in B' by auto. split; [exact B''|]. rewrite sub_us. lia. }
    destruct NN as [Vn NN]. specialize (NM (or_intror Vn) Vn). rewrite NM, NN, NJ. split; [lia|]. split.
    + intros e t X Y. apply LW in X. rewrite (DW e X) in Y. injection Y as <-.
      assert (us (whence s h) <= us (whence s e))%Z; [|lia]. destruct X as [->|X]; [lia|].
      destruct (g_order _ G') as [O _]. rewrite E in O. cbn [timed whence hist] in O. inversion O as [|? ? _ FO]; subst. rewrite Forall_forall in FO.
      destruct (FO e X) as [A|[A _]]; [apply us_lt in A; [lia|now apply VS|apply VS; now right]|rewrite A; lia].
    + left. exists h, (whence s h). split; [now apply LW|]. split; [now apply DW|reflexivity].
Qed.
