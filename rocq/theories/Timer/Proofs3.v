(** One dispatch. *)
From Coq Require Import ZArith Arith List Bool Lia ZifyBool ZifyNat Sorting.Sorted.
From Verif.Timer Require Import Model Spec Proofs Proofs2.
Import ListNotations.

Notation count l e := (count_occ Nat.eq_dec l e).
Record keeps (st : state) (d : list out) (st' : state) : Prop := mkkeeps {
  k_hist : hist st' = d ++ hist st;
  k_count : forall e, runs_of e d + count (timed st') e <= count (timed st) e;
  k_length : runs d + length (timed st') <= length (timed st);
  k_untouched : forall x, In x (timed st) -> (forall o, In o d -> ~ about o x) -> In x (timed st') /\ whence st' x = whence st x;
  k_swept : ~ In Swept d }.
Lemma runs_app : forall a b, runs (a ++ b) = runs a + runs b.
Proof. induction a as [|o a IH]; intro b; [reflexivity|]. destruct o; cbn; rewrite IH; reflexivity. Qed.
Lemma runs_of_app : forall e a b, runs_of e (a ++ b) = runs_of e a + runs_of e b.
Proof. intro e. induction a as [|o a IH]; intro b; [reflexivity|]. destruct o; cbn; rewrite IH; try reflexivity. lia. Qed.
Lemma times_app : forall a b, times (a ++ b) = times a ++ times b.
Proof. induction a as [|o a IH]; intro b; [reflexivity|]. destruct o; cbn; rewrite IH; reflexivity. Qed.
Lemma times_none : forall d, runs d = 0 -> times d = [].
Proof. induction d as [|o d IH]; intro H; [reflexivity|]. destruct o; cbn in *; auto. discriminate H. Qed.
Lemma keeps_refl : forall st, keeps st [] st.
Proof. intro st. constructor; cbn; auto. Qed.
Lemma keeps_trans : forall a d b d' c, keeps a d b -> keeps b d' c -> keeps a (d' ++ d) c.
Proof.
  intros a d b d' c [H1 H2 H3 H4 H5] [K1 K2 K3 K4 K5]. constructor.
  - now rewrite K1, H1, app_assoc.
  - intro e. specialize (H2 e). specialize (K2 e). rewrite runs_of_app. lia.
  - rewrite runs_app. lia.
  - intros x X U. destruct (H4 x X) as [A B]; [intros o O; apply U; apply in_or_app; now right|]. destruct (K4 x A) as [C D]; [intros o O; apply U; apply in_or_app; now left|]. split; [exact C|congruence].
  - intro I. apply in_app_or in I. tauto.
Qed.
Lemma count_remove : forall e x l, count (remove x l) e <= count l e.
Proof. intros e x l. induction l as [|y l IH]; [apply le_n|]. cbn [remove]. destruct (y =? x); cbn [count_occ]; destruct (Nat.eq_dec y e); lia. Qed.
Lemma length_remove : forall x l, length (remove x l) <= length l.
Proof. intros x l. induction l as [|y l IH]; [apply le_n|]. cbn [remove]. destruct (y =? x); cbn [length]; lia. Qed.
Lemma remove_other : forall x y l, x <> y -> In x l -> In x (remove y l).
Proof. intros x y l N I. induction l as [|z l IH]; [destruct I|]. cbn [remove]. destruct (Nat.eqb_spec z y) as [->|M]; destruct I as [->|I]; try contradiction; [exact I|now left|right; auto]. Qed.
Lemma do_keeps : forall st a st', do st a = Some st' -> exists o, keeps st [o] st' /\ runs [o] = 0.
Proof.
  intros st a st' H. destruct a as [e t|e|e|e t|e]; cbn [do] in H.
  - unfold alloc in H. destruct (live st e); [discriminate H|]. injection H as <-. eexists. split; [constructor; cbn; auto|reflexivity].
    + intros x X U. split; [exact X|]. unfold set. destruct (Nat.eqb_spec x e) as [->|]; [|reflexivity]. elim (U _ (or_introl eq_refl)). reflexivity.
    + intros [B|[]]. discriminate B.
  - unfold add_timed in H. destruct (negb _); [discriminate H|]. destruct (insert _ _ _); [|discriminate H]. injection H as <-. eexists. split; [constructor; cbn; auto|reflexivity].
    intros [B|[]]. discriminate B.
  - unfold remove_timed in H. destruct (negb _); [discriminate H|]. destruct (has e (timed st)) eqn:E; [|destruct (has e (staged st))]; injection H as <-; eexists; (split; [constructor; cbn; auto|reflexivity]);
      try (intros [B|[]]; discriminate B).
    + intro x. apply count_remove.
    + apply length_remove.
    + intros x X U. split; [|reflexivity]. apply remove_other; [|exact X]. intros ->. elim (U _ (or_introl eq_refl)). reflexivity.
  - unfold update_timed in H. destruct (negb _); [discriminate H|]. destruct (is _ _).
    + injection H as <-. eexists. split; [constructor; cbn; auto|reflexivity].
      * intros x X U. split; [exact X|]. unfold set. destruct (Nat.eqb_spec x e) as [->|]; [|reflexivity]. elim (U _ (or_introl eq_refl)). reflexivity.
      * intros [B|[]]. discriminate B.
    + cbn zeta in H. destruct (insert _ _ _); [|discriminate H]. injection H as <-. eexists. split; [constructor; cbn; auto|reflexivity].
      * intro x. apply count_remove.
      * apply length_remove.
      * intros x X U. assert (N : x <> e) by (intros ->; elim (U _ (or_introl eq_refl)); reflexivity). split; [now apply remove_other|]. unfold set. destruct (Nat.eqb_spec x e); [contradiction|reflexivity].
      * intros [B|[]]. discriminate B.
  - unfold free in H. destruct (_ || _); [discriminate H|]. injection H as <-. eexists. split; [constructor; cbn; auto|reflexivity]. intros [B|[]]. discriminate B.
Qed.
Lemma do_all_keeps : forall l st st', do_all st l = Some st' -> exists d, keeps st d st' /\ runs d = 0.
Proof.
  induction l as [|a l IH]; intros st st' H; cbn [do_all] in H; [injection H as <-; exists []; split; [apply keeps_refl|reflexivity]|]. destruct (do st a) as [s|] eqn:E; [|discriminate H].
  apply do_keeps in E. destruct E as (o & K & R). apply IH in H. destruct H as (d & K' & R'). exists (d ++ [o]). split; [eapply keeps_trans; eassumption|]. rewrite runs_app. lia.
Qed.
Lemma fire_keeps : forall st e r now cb st', timed st = e :: r -> fire st e r now cb = Some st' -> exists d, keeps st (d ++ [Ran e now]) st' /\ runs d = 0.
Proof.
  intros st e r now cb st' T H. unfold fire in H. destruct (do_all _ _) as [s|] eqn:E; [|discriminate H]. cbn [bind] in H. apply do_all_keeps in E. destruct E as (d & K & R).
  assert (K0 : keeps st [Ran e now] (mkstate (whence st) (live st) r (staged st) (Some e) (Ran e now :: hist st))).
  { constructor; cbn [timed hist whence]; try rewrite T.
    - reflexivity.
    - intro x. cbn. destruct (Nat.eq_dec e x) as [->|N]; [rewrite Nat.eqb_refl; lia|]. destruct (Nat.eqb_spec e x); [contradiction|]. lia.
    - cbn. lia.
    - intros x X U. split; [|reflexivity]. destruct X as [->|X]; [elim (U _ (or_introl eq_refl)); reflexivity|exact X].
    - intros [B|[]]. discriminate B. }
  assert (H' : exists a, do (mkstate (whence s) (live s) (timed s) (staged s) None (hist s)) a = Some st') by (destruct (again cb); [exists (Add e)|exists (Free e)]; exact H).
  destruct H' as (a & H'). apply do_keeps in H'. destruct H' as (o & K' & R').
  assert (K1 : keeps s [] (mkstate (whence s) (live s) (timed s) (staged s) None (hist s))) by (constructor; cbn; auto).
  exists (([o] ++ []) ++ d). split; [|rewrite !runs_app; change (runs []) with 0; lia]. rewrite <- app_assoc. eapply keeps_trans; [eapply keeps_trans; [exact K0|exact K]|]. eapply keeps_trans; eassumption.
Qed.
Lemma turns_keeps : forall clock cbs n k st now next s now' nx, turns n k clock cbs st now next = Some (s, now', nx) -> length (timed st) <= n ->
  exists d, keeps st d s /\ times d = rev (map clock (seq k (runs d)))
    /\ match timed s with
       | [] => nx = next
       | e :: _ => ~ tlt (whence s e) (clock (k + runs d)) /\ now' = clock (k + runs d) /\ nx = sub_timeval (whence s e) now'
       end
    /\ (n = 0 /\ now' = now \/ now' = clock (k + runs d) \/ exists j, S j = runs d /\ now' = clock (k + j) /\ timed s = []).
Proof.
  intros clock cbs. induction n as [|n IH]; intros k st now next s now' nx H L; cbn [turns] in H.
  - injection H as <- <- <-. exists []. split; [apply keeps_refl|]. split; [reflexivity|]. destruct (timed st); [auto|cbn in L; lia].
  - destruct (timed st) as [|e r] eqn:T.
    + injection H as <- <- <-. exists []. split; [apply keeps_refl|]. rewrite T. cbn. rewrite Nat.add_0_r. auto.
    + destruct (compare_timeval _ _ <? 0)%Z eqn:C.
      * destruct (fire _ _ _ _ _) as [s1|] eqn:E; [|discriminate H]. cbn [bind] in H. apply (fire_keeps _ _ _ _ _ _ T) in E. destruct E as (d1 & K1 & R1).
        pose proof (k_length _ _ _ K1) as KL. rewrite T in KL. rewrite runs_app in KL. cbn [runs length] in KL, L.
        destruct (IH _ _ _ _ _ _ _ H) as (d & K & TM & M & N); [lia|]. exists (d ++ d1 ++ [Ran e (clock k)]).
        assert (RR : runs (d ++ d1 ++ [Ran e (clock k)]) = S (runs d)) by (rewrite !runs_app; cbn [runs]; lia).
        rewrite RR. split; [eapply keeps_trans; eassumption|]. split.
        -- rewrite !times_app, (times_none _ R1), TM. cbn. reflexivity.
        -- replace (k + S (runs d)) with (S k + runs d) by lia. split; [exact M|]. right. destruct N as [[-> ->]|[N|(j & J & N & X)]]; [|auto|].
           ++ right. exists 0. pose proof (k_length _ _ _ K) as KL'. split; [lia|]. rewrite Nat.add_0_r. split; [reflexivity|]. apply length_zero_iff_nil. lia.
           ++ right. exists (S j). split; [lia|]. split; [rewrite N; f_equal; lia|exact X].
      * injection H as <- <- <-. exists []. split; [apply keeps_refl|]. rewrite T. cbn. rewrite Nat.add_0_r. assert (~ tlt (whence st e) (clock k)) by (rewrite <- compare_lt; congruence). auto 6.
Qed.

(** ** Times *)
Lemma us_lt : forall a b, valid a -> valid b -> tlt a b <-> (us a < us b)%Z.
Proof. intros [a x] [b y]; unfold valid, tlt, us; cbn. lia. Qed.
Lemma sub_us : forall a b, us (sub_timeval a b) = (us a - us b)%Z.
Proof. intros a b. unfold sub_timeval, us. cbn zeta. destruct (_ <? 0)%Z; destruct (_ <? 0)%Z; cbn; lia. Qed.
Lemma add_us : forall a b, us (add_timeval a b) = (us a + us b)%Z.
Proof. intros a b. unfold add_timeval, us. cbn zeta. destruct (_ <=? _)%Z; cbn; lia. Qed.
Lemma add_valid : forall a b, valid a -> valid b -> valid (add_timeval a b).
Proof. intros a b. unfold add_timeval, valid. cbn zeta. destruct (_ <=? _)%Z eqn:E; cbn; lia. Qed.
Lemma sub_neg : forall a b, valid a -> valid b ->
  let d := sub_timeval a b in (sec d <? 0)%Z || (usec d <? 0)%Z = true /\ tlt a b \/ (sec d <? 0)%Z || (usec d <? 0)%Z = false /\ ~ tlt a b /\ valid d /\ (0 <= sec d)%Z.
Proof.
  intros [a x] [b y] A B. unfold sub_timeval, valid, tlt in *. cbn [sec usec] in *. cbn zeta. destruct (x - y <? 0)%Z eqn:E1.
  - destruct (a - 1 - b <? 0)%Z eqn:E2; cbn [sec usec]; lia.
  - destruct (a - b <? 0)%Z eqn:E2; cbn [sec usec]; lia.
Qed.
Lemma compare_us : forall a b, valid a -> valid b -> compare_timeval a b = if (us a <? us b)%Z then (-1)%Z else if (us a =? us b)%Z then 0%Z else 1%Z.
Proof.
  intros [a x] [b y]. unfold valid, us, compare_timeval; cbn. intros A B. destruct (a <? b)%Z eqn:E1; [destruct (_ <? _)%Z eqn:E in |- *; lia|]. destruct (b <? a)%Z eqn:E2; [destruct (_ <? _)%Z eqn:E in |- *; [lia|]; destruct (_ =? _)%Z eqn:E' in |- *; lia|].
  destruct (x <? y)%Z eqn:E3; [destruct (_ <? _)%Z eqn:E in |- *; lia|]. destruct (y <? x)%Z eqn:E4; (destruct (_ <? _)%Z eqn:E in |- *; [lia|]; destruct (_ =? _)%Z eqn:E' in |- *; lia).
Qed.
