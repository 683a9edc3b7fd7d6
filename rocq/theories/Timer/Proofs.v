(** Lemmas: the lists and the history. *)
From Coq Require Import ZArith Arith List Bool Lia ZifyBool ZifyNat Sorting.Sorted.
From Verif.Timer Require Import Model Spec.
Import ListNotations.

Lemma has_iff : forall e l, has e l = true <-> In e l.
Proof. intros e l. unfold has. rewrite existsb_exists. split; [intros (x & I & E); apply Nat.eqb_eq in E; now subst|intro I; exists e; split; [exact I|apply Nat.eqb_refl]]. Qed.
Lemma has_false : forall e l, has e l = false <-> ~ In e l.
Proof. intros e l. rewrite <- has_iff. destruct (has e l); split; congruence. Qed.
Lemma is_iff : forall c e, is c e = true <-> c = Some e.
Proof. intros [x|] e; cbn; [|split; discriminate]. rewrite Nat.eqb_eq. split; congruence. Qed.
Lemma compare_lt : forall a b, (compare_timeval a b <? 0)%Z = true <-> tlt a b.
Proof.
  intros a b. unfold compare_timeval, tlt. destruct (sec a <? sec b)%Z eqn:E1; [cbn; lia|]. destruct (sec b <? sec a)%Z eqn:E2; [cbn; lia|].
  destruct (usec a <? usec b)%Z eqn:E3; [cbn; lia|]. destruct (usec b <? usec a)%Z eqn:E4; cbn; lia.
Qed.
Lemma timecompare_lt : forall a b, (timecompare a b <? 0)%Z = true <-> tlt a b.
Proof.
  intros a b. unfold timecompare, tlt. destruct (sec a <? sec b)%Z eqn:E1; [cbn; lia|]. destruct ((sec a =? sec b)%Z && (usec a <? usec b)%Z) eqn:E2; cbn; lia.
Qed.
Lemma tv_eq : forall a b, sec a = sec b -> usec a = usec b -> a = b.
Proof. intros [] []; cbn; congruence. Qed.
Lemma tlt_total : forall a b, tlt a b \/ a = b \/ tlt b a.
Proof.
  intros a b. unfold tlt. destruct (Z.lt_trichotomy (sec a) (sec b)) as [H|[H|H]]; [auto| |auto].
  destruct (Z.lt_trichotomy (usec a) (usec b)) as [K|[K|K]]; [auto| |auto]. right. left. now apply tv_eq.
Qed.
Lemma tlt_trans : forall a b c, tlt a b -> tlt b c -> tlt a c.
Proof. unfold tlt. lia. Qed.
Lemma tlt_irr : forall a, ~ tlt a a. Proof. unfold tlt. lia. Qed.

Lemma place_in : forall w e l x, In x (place w e l) <-> x = e \/ In x l.
Proof.
  intros w e l x. induction l as [|y l IH]; [cbn; split; [intros [<-|[]]; auto|intros [->|[]]; auto]|]. cbn [place].
  destruct (_ <? 0)%Z; cbn [In]; [split; intros [H|H]; auto|]. rewrite IH. tauto.
Qed.
Lemma place_nodup : forall w e l, NoDup l -> ~ In e l -> NoDup (place w e l).
Proof.
  intros w e l D N. induction D as [|x l NI D IH]; cbn [place]; [constructor; [exact N|constructor]|]. destruct (_ <? 0)%Z; [constructor; [exact N|now constructor]|].
  constructor; [|apply IH; intro I; apply N; now right]. rewrite place_in. intros [->|I]; [apply N; now left|contradiction].
Qed.
Lemma remove_notin : forall e l, ~ In e l -> remove e l = l.
Proof. intros e l H. induction l as [|x l IH]; [reflexivity|]. cbn [remove]. destruct (Nat.eqb_spec x e) as [->|N]; [exfalso; apply H; now left|]. f_equal. apply IH. intro I. apply H. now right. Qed.
Lemma remove_incl : forall e l x, In x (remove e l) -> In x l.
Proof. intros e l x. induction l as [|y l IH]; [auto|]. cbn [remove]. destruct (y =? e); [now right|]. intros [<-|I]; [now left|right; auto]. Qed.
Lemma remove_in : forall e l x, NoDup l -> In x (remove e l) <-> In x l /\ x <> e.
Proof.
  intros e l x D. induction D as [|y l NI D IH]; [cbn; tauto|]. cbn [remove]. destruct (Nat.eqb_spec y e) as [->|N].
  - split; [intro I; split; [now right|intros ->; contradiction]|]. intros [[<-|I] Ne]; [contradiction|exact I].
  - cbn [In]. rewrite IH. split; [intros [<-|[I Ne]]; auto|intros [[<-|I] Ne]; auto].
Qed.
Lemma remove_nodup : forall e l, NoDup l -> NoDup (remove e l).
Proof. intros e l D. induction D as [|y l NI D IH]; [constructor|]. cbn [remove]. destruct (y =? e); [exact D|]. constructor; [|exact IH]. intro I. now apply remove_incl in I. Qed.
Lemma remove_sorted : forall (R : nat -> nat -> Prop) e l, StronglySorted R l -> StronglySorted R (remove e l).
Proof.
  intros R e l H. induction H as [|y l H IH F]; [constructor|]. cbn [remove]. destruct (y =? e); [exact H|]. constructor; [exact IH|].
  rewrite Forall_forall in *. intros x I. apply F. now apply remove_incl in I.
Qed.
Lemma sorted_weaken : forall (R S : nat -> nat -> Prop) l, (forall x y, In x l -> In y l -> R x y -> S x y) -> StronglySorted R l -> StronglySorted S l.
Proof.
  intros R S l H K. induction K as [|x l K IH F]; [constructor|]. constructor; [apply IH; intros a b A B; apply H; now right|].
  rewrite Forall_forall in *. intros y I. apply H; [now left|now right|now apply F].
Qed.

(** the order of the lists *)
Definition ord (w : nat -> timeval) (n : nat -> nat) (x y : nat) : Prop := tlt (w x) (w y) \/ w x = w y /\ n x < n y.
Lemma ord_trans : forall w n x y z, ord w n x y -> ord w n y z -> ord w n x z.
Proof.
  intros w n x y z [A|[A A']] [B|[B B']].
  - left. now apply (tlt_trans _ (w y)).
  - left. now rewrite <- B.
  - left. now rewrite A.
  - right. split; [congruence|lia].
Qed.
Lemma place_sorted : forall w n e l, StronglySorted (ord w n) l -> (forall x, In x l -> n x < n e) -> StronglySorted (ord w n) (place w e l).
Proof.
  intros w n e l H L. induction H as [|x l H IH F]; cbn [place]; [repeat constructor|]. destruct (timecompare (w e) (w x) <? 0)%Z eqn:E.
  - apply timecompare_lt in E. constructor; [now constructor|]. constructor; [now left|]. rewrite Forall_forall in *. intros y I. apply (ord_trans w n e x y); [now left|now apply F].
  - assert (NE : ~ tlt (w e) (w x)) by (rewrite <- timecompare_lt; congruence).
    assert (OX : ord w n x e) by (destruct (tlt_total (w e) (w x)) as [A|[A|A]]; [contradiction|right; split; [auto|apply L; now left]|now left]).
    constructor; [apply IH; intros y I; apply L; now right|]. rewrite Forall_forall in *. intros y I. apply place_in in I. destruct I as [->|I]; [exact OX|now apply F].
Qed.

(** ** The invariant *)
Record inv (st : state) : Prop := mkinv {
  i_live : forall e, In e (timed st) \/ In e (staged st) \/ current st = Some e -> live st e = true;
  i_due : forall e, live st e = true -> due (hist st) e = Some (whence st e) }.
Record good (st : state) : Prop := mkgood {
  g_timed : forall e, In e (timed st) <-> waiting (hist st) e = true /\ since (hist st) e < swept (hist st);
  g_staged : forall e, In e (staged st) <-> waiting (hist st) e = true /\ swept (hist st) < since (hist st) e;
  g_current : forall e, current st = Some e -> waiting (hist st) e = false;
  g_nodup : NoDup (timed st) /\ NoDup (staged st);
  g_order : StronglySorted (ord (whence st) (since (hist st))) (timed st) /\ StronglySorted (ord (whence st) (since (hist st))) (staged st);
  g_bound : forall e, since (hist st) e <= length (hist st) }.
Lemma since_le : forall h e, since h e <= length h.
Proof. induction h as [|o h IH]; intro e; [apply le_n|]. specialize (IH e). cbn [length]. destruct o as [| | | ? ? []| | |]; cbn [since]; try lia; destruct (_ =? e); lia. Qed.
Lemma swept_le : forall h, swept h <= length h.
Proof. induction h as [|o h IH]; [apply le_n|]. destruct o; cbn [swept length]; lia. Qed.
Lemma due_other : forall o h e, ~ about o e -> due (o :: h) e = due h e.
Proof. intros o h e N. destruct o; cbn [due about] in *; try reflexivity; (destruct (Nat.eqb_spec e0 e); [contradiction|reflexivity]). Qed.
Lemma since_other : forall o h e, ~ about o e -> since (o :: h) e = since h e.
Proof. intros o h e N. destruct o as [| | | ? ? []| | |]; cbn [since about] in *; try reflexivity; destruct (Nat.eqb_spec e0 e); solve [contradiction|reflexivity]. Qed.
Lemma waiting_other : forall o h e, ~ about o e -> waiting (o :: h) e = waiting h e.
Proof.
  intros o h e N. destruct o as [| | ? [] | ? ? []| | |]; cbn [waiting about] in *; try reflexivity; destruct (Nat.eqb_spec e0 e); solve [contradiction|reflexivity].
Qed.
Lemma waiting_split : forall st e, good st -> waiting (hist st) e = true -> In e (timed st) \/ In e (staged st).
Proof.
  intros st e G W. destruct (Nat.lt_trichotomy (since (hist st) e) (swept (hist st))) as [L|[E|L]].
  - left. apply (g_timed _ G). auto.
  - exfalso. assert (X : forall h e, waiting h e = true -> 0 < since h e /\ since h e <> swept h).
    { clear. induction h as [|o h IH]; intros e W; [discriminate W|]. pose proof (since_le h e) as B. pose proof (swept_le h) as C.
      destruct o as [x t|x b|x [] |x t []|x n|x|]; cbn [waiting since swept] in *; try (apply IH; exact W);
      try (destruct (Nat.eqb_spec x e) as [->|N]; cbn in W; [solve [discriminate W|split; lia]|apply IH; exact W]).
      specialize (IH e W). lia. }
    destruct (X _ _ W). lia.
  - right. apply (g_staged _ G). auto.
Qed.
Lemma fair_cons : forall o h, fair (o :: h) -> fair h.
Proof. intros o h F e I. apply (F e). now right. Qed.

(** an entry that changes neither queue *)
Lemma good_ext : forall st st', good st -> timed st' = timed st -> staged st' = staged st ->
  (forall e, waiting (hist st') e = waiting (hist st) e) -> (forall e, since (hist st') e = since (hist st) e) -> swept (hist st') = swept (hist st) ->
  (forall e, current st' = Some e -> waiting (hist st') e = false) ->
  (forall e, In e (timed st) \/ In e (staged st) -> whence st' e = whence st e) -> good st'.
Proof.
  intros st st' G T S W N K C Wh. destruct G as [G1 G2 G3 [G4 G4'] [G5 G5'] G6]. constructor.
  - intro e. rewrite T, W, N, K. apply G1.
  - intro e. rewrite S, W, N, K. apply G2.
  - exact C.
  - rewrite T, S. now split.
  - rewrite T, S. split; (eapply sorted_weaken; [|eassumption]); intros x y X Y; unfold ord; rewrite !N, !Wh by auto; auto.
  - intro e. apply since_le.
Qed.
Lemma add_good : forall st e st', good st -> add_timed st e = Some st' -> fair (hist st') -> good st'.
Proof.
  intros st e st' G H F. unfold add_timed in H. destruct (negb (live st e)); [discriminate H|]. unfold insert in H. destruct (has e (staged st)) eqn:HS; [discriminate H|]. cbn [bind] in H.
  injection H as <-. cbn [hist] in F. apply has_false in HS.
  assert (NT : ~ In e (timed st) /\ current st <> Some e).
  { split; intro B.
    - apply (F e). left. now rewrite (proj2 (has_iff _ _) B).
    - apply (F e). left. rewrite (proj2 (is_iff _ _) B). now rewrite orb_true_r. }
  destruct NT as [NT NC]. destruct G as [G1 G2 G3 [G4 G4'] [G5 G5'] G6]. pose proof (swept_le (hist st)) as SL. constructor; cbn [timed staged hist current whence waiting since swept].
  - intro x. rewrite G1. destruct (Nat.eqb_spec e x) as [->|N]; [|reflexivity]. split; [intros [A B]; exfalso; apply NT; apply G1; auto|]. intros [_ B]. lia.
  - intro x. rewrite place_in, G2. destruct (Nat.eqb_spec e x) as [->|N]; [|split; [intros [->|A]; [contradiction|exact A]|auto]]. split; [intros _; split; [reflexivity|lia]|auto].
  - intros x C. destruct (Nat.eqb_spec e x) as [->|N]; [congruence|now apply G3].
  - split; [exact G4|now apply place_nodup].
  - split.
    + eapply sorted_weaken; [|exact G5]. intros x y X Y. unfold ord. destruct (Nat.eqb_spec e x) as [->|]; [contradiction|]. destruct (Nat.eqb_spec e y) as [->|]; [contradiction|]. auto.
    + apply place_sorted.
      * eapply sorted_weaken; [|exact G5']. intros x y X Y. unfold ord. destruct (Nat.eqb_spec e x) as [->|]; [contradiction|]. destruct (Nat.eqb_spec e y) as [->|]; [contradiction|]. auto.
      * intros x X. rewrite Nat.eqb_refl. destruct (Nat.eqb_spec e x) as [->|]; [contradiction|]. pose proof (since_le (hist st) x). lia.
  - intro x. destruct (Nat.eqb_spec e x) as [->|]; [cbn; lia|]. specialize (G6 x). cbn. lia.
Qed.
Lemma remove_good : forall st e st', good st -> remove_timed st e = Some st' -> good st'.
Proof.
  intros st e st' G H. unfold remove_timed in H. destruct (negb (live st e)); [discriminate H|].
  destruct (has e (timed st)) eqn:HT; [|destruct (has e (staged st)) eqn:HS].
  - apply has_iff in HT. injection H as <-. destruct G as [G1 G2 G3 [G4 G4'] [G5 G5'] G6]. constructor; cbn [timed staged hist current whence waiting since swept].
    + intro x. rewrite remove_in by exact G4. rewrite G1. destruct (Nat.eqb_spec e x) as [->|N]; cbn [negb andb]; [split; [intros [_ B]; contradiction|intros [B _]; discriminate B]|].
      split; [tauto|intros A; split; [exact A|congruence]].
    + intro x. rewrite G2. destruct (Nat.eqb_spec e x) as [->|N]; cbn [negb andb]; [|reflexivity]. split; [|intros [B _]; discriminate B]. intros [_ B]. apply G1 in HT. lia.
    + intros x C. destruct (x =? e); rewrite (G3 x C); now rewrite ?andb_false_r.
    + split; [now apply remove_nodup|exact G4'].
    + split; [now apply remove_sorted|exact G5'].
    + intro x. specialize (G6 x). cbn. lia.
  - apply has_iff in HS. injection H as <-. destruct G as [G1 G2 G3 [G4 G4'] [G5 G5'] G6]. constructor; cbn [timed staged hist current whence waiting since swept].
    + intro x. rewrite G1. destruct (Nat.eqb_spec e x) as [->|N]; cbn [negb andb]; [|reflexivity]. split; [|intros [B _]; discriminate B]. intros [_ B]. apply G2 in HS. lia.
    + intro x. rewrite remove_in by exact G4'. rewrite G2. destruct (Nat.eqb_spec e x) as [->|N]; cbn [negb andb]; [split; [intros [_ B]; contradiction|intros [B _]; discriminate B]|].
      split; [tauto|intros A; split; [exact A|congruence]].
    + intros x C. destruct (x =? e); rewrite (G3 x C); now rewrite ?andb_false_r.
    + split; [exact G4|now apply remove_nodup].
    + split; [exact G5|now apply remove_sorted].
    + intro x. specialize (G6 x). cbn. lia.
  - injection H as <-. apply (good_ext st); cbn; auto. intros x C. now apply (g_current _ G).
Qed.
Lemma update_good : forall st e t st', good st -> update_timed st e t = Some st' -> good st'.
Proof.
  intros st e t st' G H. unfold update_timed in H. destruct (negb (live st e)); [discriminate H|]. destruct (is (current st) e) eqn:HC.
  - apply is_iff in HC. injection H as <-. apply (good_ext st); cbn; auto.
    + intros x C. now apply (g_current _ G).
    + intros x X. unfold set. destruct (Nat.eqb_spec x e) as [->|]; [|reflexivity]. exfalso. pose proof (g_current _ G e HC) as W.
      destruct X as [X|X]; [apply (g_timed _ G) in X|apply (g_staged _ G) in X]; destruct X as [X _]; congruence.
  - set (w := set (whence st) e t) in *. unfold insert in H. destruct (has e (remove e (staged st))) eqn:HR; [discriminate H|]. cbn [bind] in H. injection H as <-.
    assert (NC : current st <> Some e) by (intro B; apply is_iff in B; congruence). destruct G as [G1 G2 G3 [G4 G4'] [G5 G5'] G6]. pose proof (swept_le (hist st)) as SL.
    set (m := if has e (timed st) || has e (staged st) then Requeued else Queued).
    assert (Wt : forall x, waiting (Moved e t m :: hist st) x = (e =? x) || waiting (hist st) x) by (intro x; subst m; destruct (_ || _); reflexivity).
    assert (Sn : forall x, since (Moved e t m :: hist st) x = if e =? x then S (length (hist st)) else since (hist st) x) by (intro x; subst m; destruct (_ || _); reflexivity).
    assert (Ext : forall l, (forall x, In x l -> x <> e) -> StronglySorted (ord (whence st) (since (hist st))) l -> StronglySorted (ord w (since (Moved e t m :: hist st))) l).
    { intros l L. apply sorted_weaken. intros x y X Y. unfold ord. rewrite !Sn. subst w. unfold set.
      destruct (Nat.eqb_spec e x) as [<-|]; [now elim (L _ X)|]. destruct (Nat.eqb_spec e y) as [<-|]; [now elim (L _ Y)|].
      destruct (Nat.eqb_spec x e); [congruence|]. destruct (Nat.eqb_spec y e); [congruence|]. auto. }
    constructor; cbn [timed staged hist current whence swept].
    + intro x. rewrite remove_in, G1 by exact G4. rewrite Wt, Sn. destruct (Nat.eqb_spec e x) as [->|N]; cbn [orb]; [split; [intros [_ B]; contradiction|intros [_ B]; lia]|].
      split; [tauto|intro A; split; [exact A|congruence]].
    + intro x. rewrite place_in, remove_in, G2 by exact G4'. rewrite Wt, Sn. destruct (Nat.eqb_spec e x) as [->|N]; cbn [orb]; [split; [intros _; split; [reflexivity|lia]|auto]|].
      split; [intros [->|[A _]]; [contradiction|exact A]|intro A; right; split; [exact A|congruence]].
    + intros x C. rewrite Wt. destruct (Nat.eqb_spec e x) as [->|]; [congruence|now apply G3].
    + split; [now apply remove_nodup|]. apply place_nodup; [now apply remove_nodup|]. now apply has_false.
    + split.
      * apply Ext; [|now apply remove_sorted]. intros x X. now apply remove_in in X.
      * apply place_sorted; [apply Ext; [|now apply remove_sorted]; intros x X; now apply remove_in in X|].
        intros x X. apply remove_in in X; [|exact G4']. rewrite !Sn, Nat.eqb_refl. destruct (Nat.eqb_spec e x) as [<-|]; [now elim (proj2 X)|]. pose proof (since_le (hist st) x). lia.
    + intro x. rewrite Sn. destruct (e =? x); cbn; [lia|]. specialize (G6 x). lia.
Qed.
Lemma do_hist : forall st a st', do st a = Some st' -> exists o, hist st' = o :: hist st /\ current st' = current st /\ o <> Swept.
Proof.
  intros st a st' H. destruct a as [e t|e|e|e t|e]; cbn [do] in H.
  - unfold alloc in H. destruct (live st e); [discriminate H|]. injection H as <-. cbn. eexists. repeat split. discriminate.
  - unfold add_timed in H. destruct (negb _); [discriminate H|]. destruct (insert _ _ _); [|discriminate H]. injection H as <-. cbn. eexists. repeat split. discriminate.
  - unfold remove_timed in H. destruct (negb _); [discriminate H|]. destruct (has e _); [|destruct (has e _)]; injection H as <-; cbn; eexists; repeat split; discriminate.
  - unfold update_timed in H. destruct (negb _); [discriminate H|]. destruct (is _ _); [injection H as <-; cbn; eexists; repeat split; discriminate|].
    cbn zeta in H. destruct (insert _ _ _); [|discriminate H]. injection H as <-. cbn. eexists. repeat split. discriminate.
  - unfold free in H. destruct (_ || _); [discriminate H|]. injection H as <-. cbn. eexists. repeat split. discriminate.
Qed.
Lemma do_good : forall st a st', inv st -> good st -> do st a = Some st' -> fair (hist st') -> good st'.
Proof.
  intros st a st' I G H F. destruct a as [e t|e|e|e t|e]; cbn [do] in H.
  - unfold alloc in H. destruct (live st e) eqn:L; [discriminate H|]. injection H as <-. apply (good_ext st); cbn; auto; [intros x C; now apply (g_current _ G)|].
    intros x X. unfold set. destruct (Nat.eqb_spec x e) as [->|]; [|reflexivity]. rewrite (i_live _ I e) in L; [discriminate L|tauto].
  - now apply (add_good st e).
  - now apply (remove_good st e).
  - now apply (update_good st e t).
  - unfold free in H. destruct (_ || _); [discriminate H|]. injection H as <-. apply (good_ext st); cbn; auto. intros x C. now apply (g_current _ G).
Qed.
Lemma do_inv : forall st a st', inv st -> do st a = Some st' -> inv st'.
Proof.
  intros st a st' [L D] H. destruct a as [e t|e|e|e t|e]; cbn [do] in H.
  - unfold alloc in H. destruct (live st e) eqn:E; [discriminate H|]. injection H as <-. constructor; cbn [timed staged current live hist whence].
    + intros x X. unfold set. destruct (x =? e); [reflexivity|now apply L].
    + intros x X. cbn [due]. unfold set in *. rewrite (Nat.eqb_sym e x). destruct (x =? e); [reflexivity|now apply D].
  - unfold add_timed in H. destruct (live st e) eqn:E; [|discriminate H]. unfold insert in H. destruct (has _ _); [discriminate H|]. injection H as <-.
    constructor; cbn [timed staged current live hist whence]; [|exact D]. intros x [X|[X|X]]; [apply L; tauto| |apply L; tauto]. apply place_in in X. destruct X as [->|X]; [exact E|apply L; tauto].
  - unfold remove_timed in H. destruct (live st e) eqn:E; [|discriminate H]. cbn [negb] in H.
    destruct (has e (timed st)); [|destruct (has e (staged st))]; injection H as <-; (constructor; cbn [timed staged current live hist whence]; [|exact D]).
    + intros x [X|X]; [apply remove_incl in X|]; apply L; tauto.
    + intros x [X|[X|X]]; [|apply remove_incl in X|]; apply L; tauto.
    + exact L.
  - unfold update_timed in H. destruct (live st e) eqn:E; [|discriminate H]. cbn [negb] in H.
    assert (DW : forall m x, live st x = true -> due (Moved e t m :: hist st) x = Some (set (whence st) e t x)).
    { intros m x X. cbn [due]. unfold set. rewrite (Nat.eqb_sym e x). destruct (x =? e); [reflexivity|now apply D]. }
    destruct (is _ _); [injection H as <-; constructor; cbn [timed staged current live hist whence]; [exact L|apply DW]|].
    cbn zeta in H. unfold insert in H. destruct (has _ _); [discriminate H|]. injection H as <-. constructor; cbn [timed staged current live hist whence]; [|apply DW].
    intros x [X|[X|X]]; [apply remove_incl in X; apply L; tauto| |apply L; tauto]. apply place_in in X. destruct X as [->|X]; [exact E|apply remove_incl in X; apply L; tauto].
  - unfold free in H. destruct (_ || _) eqn:E; [discriminate H|]. injection H as <-. rewrite !orb_false_iff in E. destruct E as [[[E1 E2] E3] E4].
    constructor; cbn [timed staged current live hist whence due].
    + intros x X. unfold set. destruct (Nat.eqb_spec x e) as [->|]; [|now apply L]. exfalso. apply has_false in E2, E3. destruct X as [X|[X|X]]; [contradiction|contradiction|]. apply is_iff in X. congruence.
    + intros x X. unfold set in X. destruct (x =? e); [discriminate X|now apply D].
Qed.
