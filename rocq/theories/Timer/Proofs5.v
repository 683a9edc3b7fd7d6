(** Calls that abort and calls that do not. *)
From Coq Require Import ZArith Arith List Bool Lia ZifyBool ZifyNat Sorting.Sorted.
From Verif.Timer Require Import Model Spec Proofs Proofs2 Proofs3 Proofs4.
Import ListNotations.

Lemma do_alive : forall st a st', (forall e, live st e = alive (hist st) e) -> do st a = Some st' -> forall e, live st' e = alive (hist st') e.
Proof.
  intros st a st' L H. destruct a as [e t|e|e|e t|e]; cbn [do] in H.
  - unfold alloc in H. destruct (live st e); [discriminate H|]. injection H as <-. intro x. cbn. unfold set. rewrite (Nat.eqb_sym e x), L. destruct (x =? e); reflexivity.
  - unfold add_timed in H. destruct (negb _); [discriminate H|]. destruct (insert _ _ _); [|discriminate H]. injection H as <-. exact L.
  - unfold remove_timed in H. destruct (negb _); [discriminate H|]. destruct (has e _); [|destruct (has e _)]; injection H as <-; exact L.
  - unfold update_timed in H. destruct (negb _); [discriminate H|]. destruct (is _ _); [injection H as <-; exact L|].
    cbn zeta in H. destruct (insert _ _ _); [|discriminate H]. injection H as <-. exact L.
  - unfold free in H. destruct (_ || _); [discriminate H|]. injection H as <-. intro x. cbn. unfold set. rewrite (Nat.eqb_sym e x), L. destruct (x =? e); reflexivity.
Qed.
Lemma steps_alive : forall st st', steps st st' -> (forall e, live st e = alive (hist st) e) -> forall e, live st' e = alive (hist st') e.
Proof.
  intros st st' H. induction H as [st|st s st' M H IH]; intros L; [exact L|]. apply IH. destruct M as [st a s D|st e r now T L'|st|st l S]; try exact L. now apply (do_alive st a).
Qed.
Lemma run_alive : forall l st, run init l = Some st -> forall e, live st e = alive (hist st) e.
Proof. intros l st H. apply run_steps in H. now apply (steps_alive init st). Qed.

Lemma add_l : forall l st e, run init l = Some st -> fair (hist st) ->
  (do st (Add e) <> None <-> alive (hist st) e = true /\ ~ (waiting (hist st) e = true /\ swept (hist st) < since (hist st) e)).
Proof.
  intros l st e R F. destruct (run_good _ _ R) as [I G]. specialize (G F). rewrite <- (run_alive _ _ R). rewrite <- (g_staged _ G). cbn [do]. unfold add_timed. destruct (live st e); cbn [negb]; [|split; [intro H; now elim H|intros [B _]; discriminate B]].
  unfold insert. destruct (has e (staged st)) eqn:E; cbn [bind]; [apply has_iff in E|apply has_false in E]; split; auto; try discriminate; tauto.
Qed.
Lemma remove_l : forall l st e, run init l = Some st -> (do st (Remove e) <> None <-> alive (hist st) e = true).
Proof.
  intros l st e R. rewrite <- (run_alive _ _ R). cbn [do]. unfold remove_timed. destruct (live st e); cbn [negb]; [|split; [intro H; now elim H|discriminate]].
  destruct (has e (timed st)); [|destruct (has e (staged st))]; split; auto; discriminate.
Qed.
Lemma update_l : forall l st e t, run init l = Some st -> fair (hist st) -> alive (hist st) e = true ->
  exists st', do st (Update e t) = Some st' /\ due (hist st') e = Some t /\ waiting (hist st') e = true /\ fair (hist st') /\ do st' (Add e) = None.
Proof.
  intros l st e t R F L. destruct (run_good _ _ R) as [I G]. specialize (G F). rewrite <- (run_alive _ _ R) in L. pose proof (run_current _ _ _ R eq_refl) as C.
  assert (E : exists st' m, do st (Update e t) = Some st' /\ hist st' = Moved e t m :: hist st /\ m <> In_place).
  { cbn [do]. unfold update_timed. rewrite L, C. cbn [negb is]. cbn zeta. unfold insert.
    assert (N : has e (remove e (staged st)) = false) by (apply has_false; intro X; apply remove_in in X; [tauto|apply (g_nodup _ G)]). rewrite N. cbn [bind].
    eexists _, _. split; [reflexivity|]. cbn [hist]. split; [reflexivity|]. destruct (_ || _); discriminate. }
  destruct E as (st' & m & E & H & M). exists st'. split; [exact E|].
  assert (R' : run init (l ++ [Do (Update e t)]) = Some st').
  { clear - R E. revert R. generalize init. induction l as [|o l IH]; intros s R; cbn [run app] in *; [injection R as ->; cbn [step]; now rewrite E|]. destruct (step s o); [now apply IH|discriminate R]. }
  assert (F' : fair (hist st')) by (rewrite H; intros x [X|X]; [discriminate X|now apply (F x)]).
  assert (D : due (hist st') e = Some t) by (rewrite H; cbn; now rewrite Nat.eqb_refl).
  assert (W : waiting (hist st') e = true /\ swept (hist st') < since (hist st') e).
  { rewrite H. pose proof (swept_le (hist st)). destruct m; [congruence| |]; cbn; rewrite Nat.eqb_refl; (split; [reflexivity|lia]). }
  split; [exact D|]. split; [apply W|]. split; [exact F'|].
  destruct (do st' (Add e)) eqn:A; [|reflexivity]. exfalso. destruct (proj1 (add_l _ _ e R' F')) as [_ B]; [congruence|]. now apply B.
Qed.
Lemma free_l : forall l st e, run init l = Some st -> fair (hist st) -> (do st (Free e) <> None <-> alive (hist st) e = true /\ waiting (hist st) e = false).
Proof.
  intros l st e R F. destruct (run_good _ _ R) as [I G]. specialize (G F). rewrite <- (run_alive _ _ R). cbn [do]. unfold free. rewrite (run_current _ _ _ R eq_refl). cbn [is].
  destruct (live st e); cbn [negb orb]; [|split; [intro H; now elim H|intros [B _]; discriminate B]].
  destruct (has e (timed st)) eqn:HT; [apply has_iff in HT; cbn [orb]; split; [intro H; now elim H|]; intros [_ B]; rewrite (in_waiting _ _ G (or_introl HT)) in B; discriminate B|].
  destruct (has e (staged st)) eqn:HS; [apply has_iff in HS; cbn [orb]; split; [intro H; now elim H|]; intros [_ B]; rewrite (in_waiting _ _ G (or_intror HS)) in B; discriminate B|].
  cbn [orb]. split; [|discriminate]. intros _. split; [reflexivity|]. apply has_false in HT, HS. now apply not_waiting.
Qed.

(** a second add of an event that is ready is found at the next sweep *)
Lemma sweep_dup : forall w e s l, In e l -> In e s -> sweep w l s = None.
Proof.
  intros w e. induction s as [|x s IH]; intros l L S; [destruct S|]. cbn [sweep]. unfold insert. destruct (has x l) eqn:H; [reflexivity|]. cbn [bind]. apply has_false in H. destruct S as [->|S]; [contradiction|].
  apply IH; [apply place_in; now right|exact S].
Qed.
Lemma double_l : forall l st e clock cbs max next, run init l = Some st -> fair (hist st) -> ready (hist st) e ->
  (forall f t, ready (hist st) f -> due (hist st) f = Some t -> ~ tlt t (clock 0)) ->
  exists st', do st (Add e) = Some st' /\ dispatch st' clock cbs max next = None.
Proof.
  intros l st e clock cbs max next R F RD ND. destruct (run_good _ _ R) as [I G]. specialize (G F). pose proof (proj2 (g_timed _ G e) RD) as T.
  assert (NS : has e (staged st) = false) by (apply has_false; intro S; apply (g_staged _ G) in S; destruct RD; lia).
  assert (L : live st e = true) by (apply (i_live _ I); auto). cbn [do]. unfold add_timed, insert. rewrite L, NS. cbn [negb bind]. eexists. split; [reflexivity|].
  unfold dispatch. cbn [timed]. cbn zeta. destruct (timed st) as [|h r] eqn:TS; [destruct T|]. cbn [length turns timed whence].
  assert (NH : (compare_timeval (whence st h) (clock 0%nat) <? 0)%Z = false).
  { destruct (_ <? 0)%Z eqn:C; [|reflexivity]. apply compare_lt in C. exfalso. assert (HI : In h (timed st)) by (rewrite TS; now left).
    apply (ND h (whence st h)); [now apply (g_timed _ G)|apply (i_due _ I), (i_live _ I); auto|exact C]. }
  rewrite NH. cbn [bind staged whence timed]. assert (P : In e (place (whence st) e (staged st))) by (apply place_in; auto). destruct (place (whence st) e (staged st)) as [|y z]; [destruct P|].
  rewrite (sweep_dup _ e); [reflexivity|exact T|exact P].
Qed.

(** ** A dispatch whose callbacks make no calls always ends well *)
Lemma fire_total : forall st e r now cb, inv st -> good st -> fair (hist st) -> timed st = e :: r -> tlt (whence st e) now -> calls cb = [] ->
  exists s, fire st e r now cb = Some s /\ inv s /\ good s /\ fair (hist s).
Proof.
  intros st e r now cb I G F T L C. assert (IE : In e (timed st)) by (rewrite T; now left). assert (LE : live st e = true) by (apply (i_live _ I); auto).
  assert (NR : ~ In e r) by (destruct (g_nodup _ G) as [D _]; rewrite T in D; now inversion D).
  assert (NS : ~ In e (staged st)) by (intro S; apply (g_staged _ G) in S; apply (g_timed _ G) in IE; lia).
  assert (Q : exists s, fire st e r now cb = Some s /\ fair (hist s)).
  { unfold fire. rewrite C. cbn [do_all bind]. cbn zeta. destruct (again cb).
    - unfold add_timed, insert. cbn [live staged timed current hist whence]. rewrite LE, (proj2 (has_false _ _) NS), (proj2 (has_false _ _) NR). cbn [negb bind is orb].
      eexists. split; [reflexivity|]. cbn [hist]. intros x [X|[X|X]]; [discriminate X|discriminate X|now apply (F x)].
    - unfold free. cbn [live staged timed current hist]. rewrite LE, (proj2 (has_false _ _) NS), (proj2 (has_false _ _) NR). cbn [negb orb is].
      eexists. split; [reflexivity|]. cbn [hist]. intros x [X|[X|X]]; [discriminate X|discriminate X|now apply (F x)]. }
  destruct Q as (s & Q & FS). exists s. split; [exact Q|]. pose proof (fire_steps _ _ _ _ _ _ T L Q) as ST. destruct (steps_good _ _ ST I G FS). auto.
Qed.
Lemma turns_total : forall clock cbs, (forall i, calls (cbs i) = []) -> forall n k st now next, inv st -> good st -> fair (hist st) ->
  exists s now' nx, turns n k clock cbs st now next = Some (s, now', nx) /\ good s /\ fair (hist s).
Proof.
  intros clock cbs C. induction n as [|n IH]; intros k st now next I G F; cbn [turns]; [eauto 6|]. destruct (timed st) as [|e r] eqn:T; [eauto 6|]. destruct (_ <? 0)%Z eqn:L; [|eauto 6].
  apply compare_lt in L. destruct (fire_total st e r (clock k) (cbs k)) as (s & -> & I' & G' & F'); auto. cbn [bind]. now apply IH.
Qed.
Lemma sweep_total : forall w s l, NoDup s -> (forall x, In x s -> ~ In x l) -> exists l', sweep w l s = Some l'.
Proof.
  intros w. induction s as [|e s IH]; intros l D N; cbn [sweep]; [eauto|]. inversion D as [|? ? NI D']; subst. unfold insert. rewrite (proj2 (has_false e l) (N e (or_introl eq_refl))). cbn [bind].
  apply IH; [exact D'|]. intros x X Y. apply place_in in Y. destruct Y as [->|Y]; [contradiction|]. apply (N x); [now right|exact Y].
Qed.
Lemma dispatch_total_l : forall l st clock cbs max next, run init l = Some st -> fair (hist st) -> (forall i, calls (cbs i) = []) ->
  exists st' next', dispatch st clock cbs max next = Some (st', next') /\ fair (hist st').
Proof.
  intros l st clock cbs max next R F C. destruct (run_good _ _ R) as [I G]. specialize (G F). destruct (turns_total clock cbs C (length (timed st)) 0 st (clock 0) next I G F) as (s & now & nx & T & G' & F').
  destruct (sweep_total (whence s) (staged s) (timed s)) as (l' & W); [apply (g_nodup _ G')|intros x X Y; apply (g_staged _ G') in X; apply (g_timed _ G') in Y; lia|].
  unfold dispatch. cbn zeta. rewrite T. cbn [bind]. assert (FF : fair (Swept :: hist s)) by (intros x [X|X]; [discriminate X|now apply (F' x)]).
  destruct (staged s) as [|x y]; [cbn [bind]; eauto|]. rewrite W. cbn [bind]. eauto.
Qed.
