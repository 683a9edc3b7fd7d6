(** The loop in small steps, and what holds of all histories. *)
From Coq Require Import ZArith Arith List Bool Lia ZifyBool ZifyNat Sorting.Sorted.
From Verif.Timer Require Import Model Spec Proofs.
Import ListNotations.

Inductive micro : state -> state -> Prop :=
| m_do st a st' : do st a = Some st' -> micro st st'
| m_pop st e r now : timed st = e :: r -> tlt (whence st e) now -> micro st (mkstate (whence st) (live st) r (staged st) (Some e) (Ran e now :: hist st))
| m_done st : micro st (mkstate (whence st) (live st) (timed st) (staged st) None (hist st))
| m_sweep st l : sweep (whence st) (timed st) (staged st) = Some l -> micro st (mkstate (whence st) (live st) l [] (current st) (Swept :: hist st)).
Inductive steps : state -> state -> Prop :=
| s_refl st : steps st st
| s_step st st' st'' : micro st st' -> steps st' st'' -> steps st st''.
Lemma steps_trans : forall a b c, steps a b -> steps b c -> steps a c.
Proof. intros a b c H K. induction H; [exact K|]. eapply s_step; eauto. Qed.
Lemma steps_one : forall a b, micro a b -> steps a b.
Proof. intros. eapply s_step; [eassumption|constructor]. Qed.
Lemma do_all_steps : forall l st st', do_all st l = Some st' -> steps st st'.
Proof.
  induction l as [|a l IH]; intros st st' H; cbn [do_all] in H; [injection H as <-; constructor|]. destruct (do st a) as [s|] eqn:E; [|discriminate H].
  eapply s_step; [eapply m_do; exact E|now apply IH].
Qed.
Lemma fire_steps : forall st e r now cb st', timed st = e :: r -> tlt (whence st e) now -> fire st e r now cb = Some st' -> steps st st'.
Proof.
  intros st e r now cb st' T L H. unfold fire in H. destruct (do_all _ _) as [s|] eqn:E; [|discriminate H]. cbn [bind] in H.
  eapply s_step; [eapply m_pop; eassumption|]. eapply steps_trans; [eapply do_all_steps; exact E|]. eapply s_step; [apply m_done|].
  destruct (again cb); apply steps_one; [apply (m_do _ (Add e))|apply (m_do _ (Free e))]; exact H.
Qed.
Lemma turns_steps : forall clock cbs n k st now next st' now' next', turns n k clock cbs st now next = Some (st', now', next') -> steps st st'.
Proof.
  intros clock cbs. induction n as [|n IH]; intros k st now next st' now' next' H; cbn [turns] in H; [injection H as <- _ _; constructor|].
  destruct (timed st) as [|e r] eqn:T; [injection H as <- _ _; constructor|]. destruct (compare_timeval _ _ <? 0)%Z eqn:C; [|injection H as <- _ _; constructor].
  destruct (fire _ _ _ _ _) as [s|] eqn:E; [|discriminate H]. cbn [bind] in H. apply compare_lt in C. eapply steps_trans; [eapply fire_steps; eassumption|eapply IH; exact H].
Qed.
(** a dispatch is its turns and then the sweep *)
Lemma dispatch_inv : forall st clock cbs max next st' next', dispatch st clock cbs max next = Some (st', next') ->
  exists s now nx l, turns (length (timed st)) 0 clock cbs st (clock 0) next = Some (s, now, nx) /\ sweep (whence s) (timed s) (staged s) = Some l
    /\ st' = mkstate (whence s) (live s) l [] (current s) (Swept :: hist s)
    /\ next' = (let n := match staged s, l with
                         | [], _ | _, [] => nx
                         | _, e :: _ => let d := sub_timeval (whence s e) now in if (sec d <? 0)%Z || (usec d <? 0)%Z then mktv 0 0 else d end in
                if (compare_timeval max n <? 0)%Z then max else n).
Proof.
  intros st clock cbs max next st' next' H. unfold dispatch in H. cbn zeta in H. destruct (turns _ _ _ _ _ _ _) as [[[s now] nx]|] eqn:E; [|discriminate H]. cbn [bind] in H.
  destruct (staged s) as [|x r] eqn:S.
  - cbn [bind] in H. injection H as <- <-. exists s, now, nx, (timed s). rewrite S. cbn [sweep]. auto.
  - destruct (sweep (whence s) (timed s) (x :: r)) as [l|] eqn:W; [|discriminate H]. cbn [bind] in H. injection H as <- <-. exists s, now, nx, l. rewrite S, W. repeat split; auto; now destruct l.
Qed.
Lemma step_steps : forall st o st', step st o = Some st' -> steps st st'.
Proof.
  intros st o st' H. destruct o as [a|clock cbs max next]; cbn [step] in H; [apply steps_one; eapply m_do; exact H|].
  destruct (dispatch _ _ _ _ _) as [[s' nx']|] eqn:E; [|discriminate H]. cbn in H. injection H as <-.
  apply dispatch_inv in E. destruct E as (s & now & nx & l & T & W & -> & _). eapply steps_trans; [eapply turns_steps; exact T|]. apply steps_one. now apply m_sweep.
Qed.
Lemma run_steps : forall l st st', run st l = Some st' -> steps st st'.
Proof.
  induction l as [|o l IH]; intros st st' H; cbn [run] in H; [injection H as <-; constructor|]. destruct (step st o) as [s|] eqn:E; [|discriminate H].
  eapply steps_trans; [eapply step_steps; exact E|now apply IH].
Qed.

Lemma micro_hist : forall st st', micro st st' -> hist st' = hist st \/ exists o, hist st' = o :: hist st.
Proof. intros st st' M. destruct M as [st a st' H| | |]; cbn [hist]; [apply do_hist in H; destruct H as (o & H & _)| | |]; eauto. Qed.
Lemma steps_hist : forall st st', steps st st' -> exists d, hist st' = d ++ hist st.
Proof.
  intros st st' H. induction H as [st|st s st' M H (d & IH)]; [now exists []|]. destruct (micro_hist _ _ M) as [E|(o & E)]; rewrite E in IH; [eauto|]. exists (d ++ [o]). now rewrite <- app_assoc.
Qed.
Lemma fair_app : forall d h, fair (d ++ h) -> fair h.
Proof. intros d h F e I. apply (F e). apply in_or_app. now right. Qed.
Lemma steps_fair : forall st st', steps st st' -> fair (hist st') -> fair (hist st).
Proof. intros st st' H F. destruct (steps_hist _ _ H) as (d & E). rewrite E in F. now apply fair_app in F. Qed.

Lemma sweep_in : forall w s l l', sweep w l s = Some l' -> forall x, In x l' <-> In x l \/ In x s.
Proof.
  intros w. induction s as [|e s IH]; intros l l' H x; cbn [sweep] in H; [injection H as <-; cbn; tauto|]. unfold insert in H. destruct (has e l) eqn:E; [discriminate H|]. cbn [bind] in H.
  rewrite (IH _ _ H x), place_in. cbn. intuition (subst; auto).
Qed.
Lemma sweep_sorted : forall w n s l l', sweep w l s = Some l' -> StronglySorted (ord w n) l -> StronglySorted (ord w n) s -> NoDup l -> NoDup s ->
  (forall x y, In x l -> In y s -> n x < n y \/ ord w n x y) -> StronglySorted (ord w n) l' /\ NoDup l'.
Proof.
  intros w n. induction s as [|e s IH]; intros l l' H SL SS DL DS B; cbn [sweep] in H; [injection H as <-; auto|]. unfold insert in H. destruct (has e l) eqn:E; [discriminate H|]. cbn [bind] in H.
  apply has_false in E. inversion SS as [|? ? SS' F]; subst. inversion DS as [|? ? NI DS']; subst. rewrite Forall_forall in F.
  apply (IH _ _ H); auto.
  - assert (B' : forall x, In x l -> w x = w e -> n x < n e).
    { intros x X Q. destruct (B x e X (or_introl eq_refl)) as [A|[A|[_ A]]]; auto. rewrite Q in A. now apply tlt_irr in A. }
    clear - SL B'. induction SL as [|x l H IH F]; cbn [place]; [repeat constructor|]. destruct (timecompare (w e) (w x) <? 0)%Z eqn:E.
    + apply timecompare_lt in E. constructor; [now constructor|]. constructor; [now left|]. rewrite Forall_forall in *. intros y I. apply (ord_trans w n e x y); [now left|now apply F].
    + assert (NE : ~ tlt (w e) (w x)) by (rewrite <- timecompare_lt; congruence).
      assert (OX : ord w n x e) by (destruct (tlt_total (w e) (w x)) as [A|[A|A]]; [contradiction|right; split; [auto|apply B'; [now left|auto]]|now left]).
      constructor; [apply IH; intros y I; apply B'; now right|]. rewrite Forall_forall in *. intros y I. apply place_in in I. destruct I as [->|I]; [exact OX|now apply F].
  - now apply place_nodup.
  - intros x y X Y. apply place_in in X. destruct X as [->|X]; [right; now apply F|apply B; [exact X|now right]].
Qed.

Lemma micro_inv : forall st st', inv st -> micro st st' -> inv st'.
Proof.
  intros st st' I M. destruct M as [st a st' H|st e r now T L|st|st l S].
  - now apply (do_inv st a).
  - destruct I as [IL ID]. constructor; cbn [timed staged current live hist whence]; [|exact ID]. intros x [X|[X|X]]; apply IL; [left; rewrite T; now right|tauto|]. injection X as ->. left. rewrite T. now left.
  - destruct I as [IL ID]. constructor; cbn [timed staged current live hist whence]; [|exact ID]. intros x [X|[X|X]]; [apply IL; tauto|apply IL; tauto|discriminate X].
  - destruct I as [IL ID]. constructor; cbn [timed staged current live hist whence]; [|exact ID]. intros x [X|[X|X]]; [|destruct X|apply IL; tauto]. apply (sweep_in _ _ _ _ S) in X. apply IL. tauto.
Qed.
Lemma micro_good : forall st st', inv st -> good st -> micro st st' -> fair (hist st') -> good st'.
Proof.
  intros st st' I G M F. destruct M as [st a st' H|st e r now T L|st|st l S].
  - now apply (do_good st a).
  - assert (WE : waiting (hist st) e = true /\ since (hist st) e < swept (hist st)) by (apply (g_timed _ G); rewrite T; now left). destruct G as [G1 G2 G3 [G4 G4'] [G5 G5'] G6]. rewrite T in *.
    inversion G4 as [|? ? NI D]; subst. inversion G5 as [|? ? S' F']; subst. constructor; cbn [timed staged hist current whence waiting since swept].
    + intro x. specialize (G1 x). cbn [In] in G1. destruct (Nat.eqb_spec e x) as [->|N]; cbn [negb andb]; [split; [intro X; contradiction|intros [B _]; discriminate B]|]. rewrite <- G1. split; [auto|]. intros [B|B]; [contradiction|exact B].
    + intro x. rewrite G2. destruct (Nat.eqb_spec e x) as [->|N]; cbn [negb andb]; [|reflexivity]. split; [intros [_ B]; lia|intros [B _]; discriminate B].
    + intros x C. injection C as ->. now rewrite Nat.eqb_refl.
    + auto.
    + auto.
    + intro x. specialize (G6 x). cbn [length]. lia.
  - apply (good_ext st); cbn; auto. intros x C. discriminate C.
  - destruct G as [G1 G2 G3 [G4 G4'] [G5 G5'] G6].
    assert (SS : StronglySorted (ord (whence st) (since (hist st))) l /\ NoDup l).
    { apply (sweep_sorted _ _ _ _ _ S); auto. intros x y X Y. left. apply G1 in X. apply G2 in Y. lia. }
    constructor; cbn [timed staged hist current whence waiting since swept].
    + intro x. rewrite (sweep_in _ _ _ _ S), G1, G2. pose proof (since_le (hist st) x) as B. split; [intros [[A _]|[A _]]; split; auto; lia|]. intros [A _].
      destruct (waiting_split st x) as [X|X]; [constructor; auto|exact A| |]; [apply G1 in X; tauto|apply G2 in X; tauto].
    + intro x. pose proof (since_le (hist st) x) as B. split; [intros []|intros [_ C]; lia].
    + exact G3.
    + split; [apply SS|constructor].
    + split; [apply SS|constructor].
    + intro x. specialize (G6 x). cbn [length]. lia.
Qed.
Lemma steps_good : forall st st', steps st st' -> inv st -> (good st) -> fair (hist st') -> inv st' /\ good st'.
Proof. intros st st' H. induction H as [st|st s st' M H IH]; intros I G F; [auto|]. apply IH; [now apply (micro_inv st)|apply (micro_good st); auto; now apply (steps_fair s st')|exact F]. Qed.
Lemma steps_inv : forall st st', steps st st' -> inv st -> inv st'.
Proof. intros st st' H. induction H as [st|st s st' M H IH]; intros I; [auto|]. apply IH. now apply (micro_inv st). Qed.
Lemma init_inv : inv init. Proof. constructor; cbn; [intros e [[]|[[]|C]]; discriminate C|discriminate]. Qed.
Lemma init_good : good init.
Proof. constructor; cbn; try (intros; split; [intros []|intros [A _]; discriminate A]); try discriminate; try (split; constructor); auto. Qed.
Lemma run_good : forall l st, run init l = Some st -> inv st /\ (fair (hist st) -> good st).
Proof. intros l st H. apply run_steps in H. split; [now apply (steps_inv init), init_inv|]. intro F. now apply (steps_good init st H init_inv init_good). Qed.

(** ** Every entry *)
Lemma earlier_of : forall st e f, inv st -> live st e = true -> live st f = true -> ord (whence st) (since (hist st)) e f -> earlier (hist st) e f.
Proof. intros st e f I LE LF O. exists (whence st e), (whence st f). rewrite (i_due _ I e LE), (i_due _ I f LF). auto. Qed.
Lemma waiting_live : forall st e, inv st -> good st -> waiting (hist st) e = true -> live st e = true.
Proof. intros st e I G W. apply (i_live _ I). destruct (waiting_split _ _ G W); auto. Qed.
Lemma not_waiting : forall st e, good st -> ~ In e (timed st) -> ~ In e (staged st) -> waiting (hist st) e = false.
Proof. intros st e G T S. destruct (waiting (hist st) e) eqn:W; [|reflexivity]. destruct (waiting_split _ _ G W); contradiction. Qed.
Lemma in_waiting : forall st e, good st -> In e (timed st) \/ In e (staged st) -> waiting (hist st) e = true.
Proof. intros st e G [T|T]; [apply (g_timed _ G) in T|apply (g_staged _ G) in T]; apply T. Qed.
Lemma micro_sound : forall st st' o, inv st -> good st -> micro st st' -> hist st' = o :: hist st -> fair (hist st') -> sound (hist st) o.
Proof.
  intros st st' o I G M H F. assert (CA : forall (x y : out) l, x :: l = y :: l -> x = y) by (intros; congruence). destruct M as [st a st' D|st e r now T L|st|st l S].
  - destruct a as [e t|e|e|e t|e]; cbn [do] in D.
    + unfold alloc in D. destruct (live st e) eqn:E; [discriminate D|]. injection D as <-. cbn [hist] in H. apply CA in H. subst o. cbn.
      destruct (waiting (hist st) e) eqn:W; [|reflexivity]. rewrite (waiting_live _ _ I G W) in E. discriminate E.
    + unfold add_timed in D. destruct (negb _); [discriminate D|]. unfold insert in D. destruct (has e (staged st)) eqn:HS; [discriminate D|]. injection D as <-. cbn [hist] in *. apply CA in H. subst o. cbn.
      apply has_false in HS. apply not_waiting; auto. intro T. apply (F e). left. apply has_iff in T. now rewrite T.
    + unfold remove_timed in D. destruct (negb _); [discriminate D|].
      destruct (has e (timed st)) eqn:HT; [|destruct (has e (staged st)) eqn:HS]; injection D as <-; cbn [hist] in H; apply CA in H; subst o; cbn; symmetry.
      * apply has_iff in HT. apply in_waiting; auto.
      * apply has_iff in HS. apply in_waiting; auto.
      * apply has_false in HT, HS. now apply not_waiting.
    + unfold update_timed in D. destruct (negb _); [discriminate D|]. destruct (is _ _) eqn:C.
      * injection D as <-. cbn [hist] in H. apply CA in H. subst o. cbn. apply is_iff in C. now apply (g_current _ G).
      * cbn zeta in D. destruct (insert _ _ _); [|discriminate D]. injection D as <-. cbn [hist] in H. apply CA in H. subst o. destruct (has e (timed st)) eqn:HT; [|destruct (has e (staged st)) eqn:HS]; cbn.
        -- apply has_iff in HT. apply in_waiting; auto.
        -- apply has_iff in HS. apply in_waiting; auto.
        -- apply has_false in HT, HS. now apply not_waiting.
    + unfold free in D. destruct (_ || _) eqn:E; [discriminate D|]. injection D as <-. cbn [hist] in H. apply CA in H. subst o. cbn. rewrite !orb_false_iff in E. destruct E as [[[_ E2] E3] _]. apply has_false in E2, E3. now apply not_waiting.
  - cbn [hist] in H. apply CA in H. subst o. cbn. assert (IE : In e (timed st)) by (rewrite T; now left). split; [now apply (g_timed _ G)|]. intros f R N.
    apply (g_timed _ G) in R. apply earlier_of; [exact I|apply (i_live _ I); auto|apply (i_live _ I); auto|].
    destruct (g_order _ G) as [O _]. rewrite T in O, R. inversion O as [|? ? _ F']; subst. rewrite Forall_forall in F'. apply F'. destruct R as [R|R]; [congruence|exact R].
  - cbn [hist] in H. exfalso. apply (f_equal (@length out)) in H. cbn in H. lia.
  - cbn [hist] in H. apply CA in H. now subst o.
Qed.
Definition every (P : list out -> out -> Prop) (h : list out) : Prop := forall s o p, h = s ++ o :: p -> P p o.
Lemma every_cons : forall P o h, every P h -> P h o -> every P (o :: h).
Proof. intros P o h E H [|x s] q p Q; cbn in Q; inversion Q; subst; [exact H|now apply (E s)]. Qed.
Lemma steps_sound : forall st st', steps st st' -> inv st -> good st -> fair (hist st') -> every sound (hist st) -> every sound (hist st').
Proof.
  intros st st' H. induction H as [st|st s st' M H IH]; intros I G F E; [exact E|]. assert (Fs : fair (hist s)) by now apply (steps_fair s st').
  apply IH; [now apply (micro_inv st)|now apply (micro_good st)|exact F|]. destruct (micro_hist _ _ M) as [Q|(o & Q)]; rewrite Q; [exact E|]. apply every_cons; [exact E|]. now apply (micro_sound st s).
Qed.
Definition timely (p : list out) (o : out) : Prop := match o with Ran e now => exists t, due p e = Some t /\ tlt t now | _ => True end.
Lemma steps_timely : forall st st', steps st st' -> inv st -> every timely (hist st) -> every timely (hist st').
Proof.
  intros st st' H. induction H as [st|st s st' M H IH]; intros I E; [exact E|]. apply IH; [now apply (micro_inv st)|].
  destruct (micro_hist _ _ M) as [Q|(o & Q)]; rewrite Q; [exact E|]. apply every_cons; [exact E|].
  destruct M as [st a s D|st e r now T L|st|st l S]; cbn [hist] in Q.
  - assert (NR : forall e n, o <> Ran e n).
    { intros e n ->. destruct a as [x t|x|x|x t|x]; cbn [do] in D.
      - unfold alloc in D. destruct (live st x); [discriminate D|]. injection D as <-. cbn [hist] in Q. congruence.
      - unfold add_timed in D. destruct (negb _); [discriminate D|]. destruct (insert _ _ _); [|discriminate D]. injection D as <-. cbn [hist] in Q. congruence.
      - unfold remove_timed in D. destruct (negb _); [discriminate D|]. destruct (has x _); [|destruct (has x _)]; injection D as <-; cbn [hist] in Q; congruence.
      - unfold update_timed in D. destruct (negb _); [discriminate D|]. destruct (is _ _); [injection D as <-; cbn [hist] in Q; congruence|].
        cbn zeta in D. destruct (insert _ _ _); [|discriminate D]. injection D as <-. cbn [hist] in Q. congruence.
      - unfold free in D. destruct (_ || _); [discriminate D|]. injection D as <-. cbn [hist] in Q. congruence. }
    destruct o; cbn; auto. now elim (NR e now).
  - assert (o = Ran e now) by congruence. subst o. cbn. exists (whence st e). split; [|exact L]. apply (i_due _ I), (i_live _ I). left. rewrite T. now left.
  - exfalso. apply (f_equal (@length out)) in Q. cbn in Q. lia.
  - assert (o = Swept) by congruence. now subst o.
Qed.
