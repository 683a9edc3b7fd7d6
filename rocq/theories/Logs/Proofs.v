(** Lemmas: the flags below. *)
From Coq Require Import Arith NArith List Bool Lia ZifyBool ZifyNat Setoid.
From Verif.Logs Require Import Model Spec.
Import ListNotations.

Lemma upd_length : forall ss i s, i < length ss -> length (upd ss i s) = length ss.
Proof. intros ss i s H. unfold upd. rewrite app_length, firstn_length. cbn [length]. rewrite skipn_length. lia. Qed.
Lemma get_upd : forall ss i s j, i < length ss -> get (upd ss i s) j = if j =? i then s else get ss j.
Proof.
  unfold get, upd. induction ss as [|x ss IH]; intros i s j H; [cbn in H; lia|]. destruct i as [|i].
  - cbn [firstn app skipn]. destruct j as [|j]; reflexivity.
  - cbn [firstn app]. change (skipn (S (S i)) (x :: ss)) with (skipn (S i) ss). destruct j as [|j]; [reflexivity|].
    cbn [nth]. rewrite IH by (cbn in H; lia). destruct (Nat.eqb_spec j i), (Nat.eqb_spec (S j) (S i)); try lia; reflexivity.
Qed.
Lemma get_beyond : forall ss i, length ss <= i -> get ss i = dead.
Proof. intros ss i H. now apply nth_overflow. Qed.
Lemma get_in : forall ss i, i < length ss -> In (get ss i) ss.
Proof. intros ss i H. now apply nth_In. Qed.
Lemma eqb_bytes_iff : forall a b, eqb_bytes a b = true <-> a = b.
Proof. intros a b. unfold eqb_bytes. destruct (list_eq_dec N.eq_dec a b); split; congruence. Qed.
Lemma eqb_flags_iff : forall a b, eqb_flags a b = true <-> a = b.
Proof.
  intros [a1 a2 a3 a4 a5] [b1 b2 b3 b4 b5]. unfold eqb_flags. cbn. rewrite !andb_true_iff, !eqb_true_iff. split.
  - intros [[[[-> ->] ->] ->] ->]. reflexivity.
  - intro E. injection E as -> -> -> -> ->. auto.
Qed.

Lemma same_refl : forall a, same a a. Proof. unfold same. tauto. Qed.
Lemma same_trans : forall a b c, same a b -> same b c -> same a c.
Proof. unfold same. intuition congruence. Qed.
Lemma same_sym : forall a b, same a b -> same b a.
Proof. unfold same. intuition congruence. Qed.
Definition alike (ss ss' : list stream) : Prop := length ss = length ss' /\ forall i, same (get ss i) (get ss' i).
Lemma alike_refl : forall ss, alike ss ss. Proof. split; [reflexivity|intro; apply same_refl]. Qed.
Lemma alike_trans : forall a b c, alike a b -> alike b c -> alike a c.
Proof. intros a b c [L H] [L' H']. split; [congruence|]. intro i. eapply same_trans; eauto. Qed.
Lemma alike_sym : forall a b, alike a b -> alike b a.
Proof. intros a b [L H]. split; [congruence|]. intro i. apply same_sym, H. Qed.

Inductive reach (ss : list stream) : nat -> Prop :=
| h_here i : enabled (flg (get ss i)) = true -> writer (get ss i) = true -> reach ss i
| h_on i o : enabled (flg (get ss i)) = true -> In o (outs (get ss i)) -> reach ss (target o) -> reach ss i.
Lemma alike_reach : forall a b i, alike a b -> reach a i -> reach b i.
Proof.
  intros a b i A R. induction R as [i E W|i o E I R IH].
  - destruct (proj2 A i) as (_ & F & W' & _). apply h_here; congruence.
  - destruct (proj2 A i) as (_ & F & _ & _ & _ & O). apply (h_on b i o); congruence.
Qed.
Lemma alike_edge : forall a b i j, alike a b -> edge a i j -> edge b i j.
Proof. intros a b i j A (o & I & T). exists o. destruct (proj2 A i) as (_ & _ & _ & _ & _ & O). rewrite <- O. now split. Qed.
Lemma route_reach : forall ss l i t, route ss l i t -> reach ss i.
Proof. intros ss l i t R. induction R as [i E W|i o t E I P R IH]; [now apply h_here|now apply (h_on ss i o)]. Qed.

Lemma any_alike : forall f g os, (forall i, f i = g i) -> any f os = any g os.
Proof. intros f g os H. induction os as [|o os IH]; [reflexivity|]. cbn [any]. rewrite H. destruct (g (target o)) as [[]|]; cbn; auto. Qed.
Lemma hmo_alike : forall d a b i, alike a b -> has_material_output d a i = has_material_output d b i.
Proof.
  induction d as [|d IH]; intros a b i A; [reflexivity|]. cbn [has_material_output].
  destruct (proj2 A i) as (_ & F & W & _ & _ & O). rewrite F, W, O. destruct (negb _); [reflexivity|]. destruct (writer (get b i)); [reflexivity|].
  apply any_alike. intro j. now apply IH.
Qed.
Lemma any_spec : forall f os b, any f os = Some b -> if b then exists o, In o os /\ f (target o) = Some true else forall o, In o os -> f (target o) = Some false.
Proof.
  intros f os b. induction os as [|o os IH]; cbn [any]; intro H.
  - injection H as <-. intros o [].
  - destruct (f (target o)) as [[]|] eqn:E; cbn in H; [|apply IH in H|discriminate H].
    + injection H as <-. exists o. split; [now left|exact E].
    + destruct b; [destruct H as (o' & I & T); exists o'; split; [now right|exact T]|]. intros o' [<-|I]; auto.
Qed.
Lemma hmo_reach : forall d ss i b, has_material_output d ss i = Some b -> (b = true <-> reach ss i).
Proof.
  induction d as [|d IH]; intros ss i b H; [discriminate H|]. cbn [has_material_output] in H.
  destruct (enabled (flg (get ss i))) eqn:E; cbn [negb] in H.
  - destruct (writer (get ss i)) eqn:W.
    + injection H as <-. split; [intros _; now apply h_here|reflexivity].
    + apply any_spec in H. destruct b.
      * split; [intros _|reflexivity]. destruct H as (o & I & T). apply IH in T. apply (h_on ss i o); auto. now apply T.
      * split; [discriminate|]. intro R. inversion R as [? E' W'|? o E' I R']; subst; [congruence|].
        specialize (H o I). apply IH in H. now apply H in R'.
  - injection H as <-. split; [discriminate|]. intro R. inversion R; congruence.
Qed.

Definition closed (ss : list stream) : Prop := forall i o, In o (outs (get ss i)) -> target o < length ss.
Lemma closed_alike : forall a b, alike a b -> closed a -> closed b.
Proof. intros a b A C i o I. destruct (proj2 A i) as (_ & _ & _ & _ & _ & O). rewrite <- (proj1 A). apply (C i). now rewrite O. Qed.
Definition up (ss : list stream) (j i : nat) : Prop := edge ss i j.
Lemma acc_alike : forall a b i, alike a b -> Acc (up a) i -> Acc (up b) i.
Proof.
  intros a b i A H. induction H as [i _ IH]. constructor. intros j E. apply IH. unfold up in *. eapply alike_edge; [|exact E]. now apply alike_sym.
Qed.
Definition good (ss : list stream) : Prop := forall k, mat (get ss k) = true -> (below (get ss k) = true <-> reach ss k) /\ Acc (up ss) k.

Definition makes (ss ss' : list stream) (l : list nat) : Prop :=
  alike ss ss' /\ good ss' /\ (forall k, mat (get ss k) = true -> mat (get ss' k) = true) /\ (forall k, In k l -> mat (get ss' k) = true).
Lemma each_makes : forall f, (forall ss i ss', closed ss -> i < length ss -> good ss -> f ss i = Some ss' -> makes ss ss' [i]) ->
  forall l ss ss', closed ss -> Forall (fun i => i < length ss) l -> good ss -> each f ss l = Some ss' -> makes ss ss' l.
Proof.
  intros f F. induction l as [|i l IH]; intros ss ss' C R G H; cbn [each] in H.
  - injection H as <-. split; [apply alike_refl|]. split; [exact G|]. split; [auto|]. intros k [].
  - destruct (f ss i) as [s1|] eqn:E; [cbn in H|discriminate H]. inversion R as [|? ? Ri Rl]; subst.
    destruct (F _ _ _ C Ri G E) as (A1 & G1 & M1 & I1).
    destruct (IH s1 ss') as (A2 & G2 & M2 & I2); auto.
    + now apply (closed_alike ss).
    + now rewrite <- (proj1 A1).
    + split; [now apply (alike_trans _ s1)|]. split; [exact G2|]. split; [auto|].
      intros k [<-|K]; [apply M2, I1; now left|auto].
Qed.
Lemma upd_alike : forall ss i b m, i < length ss -> alike ss (upd ss i (with_below b m (get ss i))).
Proof.
  intros ss i b m H. split; [now rewrite upd_length|]. intro k. rewrite get_upd by exact H. destruct (Nat.eqb_spec k i) as [->|]; [|apply same_refl].
  unfold same. cbn. tauto.
Qed.
Lemma mater_makes : forall d ss i ss', closed ss -> i < length ss -> good ss -> materialize_deps d ss i = Some ss' -> makes ss ss' [i].
Proof.
  induction d as [|d IH]; intros ss i ss' C L G H; [discriminate H|]. cbn [materialize_deps] in H.
  destruct (mat (get ss i)) eqn:M.
  - injection H as <-. split; [apply alike_refl|]. split; [exact G|]. split; [auto|]. intros k [<-|[]]. exact M.
  - destruct (each _ ss _) as [s1|] eqn:E; [cbn in H|discriminate H].
    destruct (has_material_output d s1 i) as [b|] eqn:Hm; [cbn in H|discriminate H]. injection H as <-.
    assert (RT : Forall (fun j => j < length ss) (map target (outs (get ss i)))).
    { apply Forall_forall. intros j J. apply in_map_iff in J. destruct J as (o & <- & I). now apply (C i). }
    destruct (each_makes _ IH _ _ _ C RT G E) as (A1 & G1 & M1 & I1).
    assert (L1 : i < length s1) by (now rewrite <- (proj1 A1)).
    pose proof (upd_alike s1 i b true L1) as A2.
    assert (AC : Acc (up s1) i).
    { constructor. intros j (o & I & T). apply G1, I1. destruct (proj2 A1 i) as (_ & _ & _ & _ & _ & O). rewrite O. apply in_map_iff. now exists o. }
    split; [now apply (alike_trans _ s1)|]. split; [|split].
    + intros k K. rewrite get_upd in K by exact L1. rewrite get_upd by exact L1. destruct (Nat.eqb_spec k i) as [Ek|N]; [subst k|].
      * split; [|now apply (acc_alike s1)]. cbn [below with_below]. pose proof (hmo_reach _ _ _ _ Hm) as R. split.
        -- intro B. apply (alike_reach s1); [exact A2|]. now apply R.
        -- intro B. apply R. apply (alike_reach (upd s1 i (with_below b true (get s1 i)))); [now apply alike_sym|exact B].
      * destruct (G1 k K) as [G3 G4]. split; [|now apply (acc_alike s1)]. split.
        -- intro B. apply (alike_reach s1); [exact A2|]. now apply G3.
        -- intro B. apply G3. apply (alike_reach (upd s1 i (with_below b true (get s1 i)))); [now apply alike_sym|exact B].
    + intros k K. rewrite get_upd by exact L1. destruct (Nat.eqb_spec k i); [reflexivity|auto].
    + intros k [<-|[]]. rewrite get_upd by exact L1. now rewrite Nat.eqb_refl.
Qed.
Definition coherent (ss : list stream) : Prop := forall i, below (get ss i) = true <-> reach ss i.
Lemma dead_reach : forall ss i, length ss <= i -> ~ reach ss i.
Proof. intros ss i L R. inversion R as [? E W|? o E I R']; subst; rewrite get_beyond in E by exact L; discriminate E. Qed.
Lemma demat_alike : forall ss, alike ss (dematerialize ss).
Proof.
  intro ss. unfold dematerialize. split; [now rewrite map_length|]. intro i. unfold get.
  replace dead with (with_below (below dead) false dead) at 2 by reflexivity.
  rewrite (map_nth (fun s => with_below (below s) false s)). unfold same. cbn. tauto.
Qed.
Lemma remat_ok : forall d ss ss', closed ss -> rematerialize d ss = Some ss' -> alike ss ss' /\ coherent ss' /\ forall i, Acc (up ss') i.
Proof.
  intros d ss ss' C H. unfold rematerialize in H. pose proof (demat_alike ss) as A0.
  assert (RT : Forall (fun i => i < length (dematerialize ss)) (seq 0 (length ss))).
  { apply Forall_forall. intros i I. apply in_seq in I. rewrite <- (proj1 A0). lia. }
  assert (G0 : good (dematerialize ss)).
  { intros k K. exfalso. unfold get, dematerialize in K. replace dead with (with_below (below dead) false dead) in K by reflexivity.
    rewrite (map_nth (fun s => with_below (below s) false s)) in K. discriminate K. }
  destruct (each_makes _ (mater_makes d) _ _ _ (closed_alike _ _ A0 C) RT G0 H) as (A1 & G1 & _ & I1).
  assert (A : alike ss ss') by (now apply (alike_trans _ (dematerialize ss))).
  split; [exact A|]. assert (I2 : forall k, k < length ss' -> mat (get ss' k) = true) by (intros k K; apply I1, in_seq; rewrite <- (proj1 A) in K; lia).
  split.
  - intro k. destruct (Nat.lt_ge_cases k (length ss')) as [K|K]; [now apply G1, I2|]. split; [rewrite get_beyond by exact K; discriminate|].
    intro R. now apply dead_reach in R.
  - intro k. destruct (Nat.lt_ge_cases k (length ss')) as [K|K]; [now apply G1, I2|]. constructor. intros j (o & I & T).
    rewrite get_beyond in I by exact K. destruct I.
Qed.

(** termination *)
Lemma any_some : forall f os, (forall o, In o os -> f (target o) <> None) -> any f os <> None.
Proof.
  intros f os H. induction os as [|o os IH]; [discriminate|]. cbn [any]. pose proof (H o (or_introl eq_refl)) as N.
  destruct (f (target o)) as [[]|]; cbn; [discriminate| |congruence]. apply IH. intros o' I. apply H. now right.
Qed.
Lemma hmo_some : forall rank d ss i, layered ss rank -> rank i < d -> has_material_output d ss i <> None.
Proof.
  intros rank. induction d as [|d IH]; intros ss i L H; [lia|]. cbn [has_material_output]. destruct (negb _); [discriminate|]. destruct (writer _); [discriminate|].
  apply any_some. intros o I. apply IH; [exact L|]. pose proof (L i (target o) ltac:(now exists o)). lia.
Qed.
Lemma layered_alike : forall a b rank, alike a b -> layered a rank -> layered b rank.
Proof. intros a b rank A L i j E. apply L. eapply alike_edge; [|exact E]. now apply alike_sym. Qed.
Lemma each_some : forall f (P : list stream -> Prop) l, (forall ss i ss', P ss -> In i l -> f ss i = Some ss' -> P ss') ->
  (forall ss i, P ss -> In i l -> f ss i <> None) -> forall ss, P ss -> each f ss l <> None.
Proof.
  intros f P. induction l as [|i l IH]; intros S N ss H; [discriminate|]. cbn [each]. pose proof (N ss i H (or_introl eq_refl)) as Ni.
  destruct (f ss i) as [s1|] eqn:E; [cbn|congruence]. apply IH.
  - intros s j s' K J. apply S; [exact K|now right].
  - intros s j K J. apply N; [exact K|now right].
  - apply (S ss i); auto. now left.
Qed.
Lemma each_alike : forall f, (forall ss i ss', closed ss -> i < length ss -> f ss i = Some ss' -> alike ss ss') ->
  forall l ss ss', closed ss -> Forall (fun i => i < length ss) l -> each f ss l = Some ss' -> alike ss ss'.
Proof.
  intros f F. induction l as [|i l IH]; intros ss ss' C R H; cbn [each] in H; [injection H as <-; apply alike_refl|].
  destruct (f ss i) as [s1|] eqn:E; [cbn in H|discriminate H]. inversion R as [|? ? Ri Rl]; subst. pose proof (F _ _ _ C Ri E) as A.
  apply (alike_trans _ s1); [exact A|]. apply IH; [now apply (closed_alike ss)| |exact H]. now rewrite <- (proj1 A).
Qed.
Lemma mater_alike : forall d ss i ss', closed ss -> i < length ss -> materialize_deps d ss i = Some ss' -> alike ss ss'.
Proof.
  induction d as [|d IH]; intros ss i ss' C L H; [discriminate H|]. cbn [materialize_deps] in H.
  destruct (mat (get ss i)); [injection H as <-; apply alike_refl|].
  destruct (each _ ss _) as [s1|] eqn:E; [cbn in H|discriminate H]. destruct (has_material_output d s1 i) as [b|]; [cbn in H|discriminate H]. injection H as <-.
  assert (A : alike ss s1).
  { apply (each_alike _ IH _ _ _ C) in E; [exact E|]. apply Forall_forall. intros j J. apply in_map_iff in J. destruct J as (o & <- & I). now apply (C i). }
  apply (alike_trans _ s1); [exact A|]. apply upd_alike. now rewrite <- (proj1 A).
Qed.
Lemma mater_some : forall rank d ss i, layered ss rank -> closed ss -> i < length ss -> rank i + 1 < d -> materialize_deps d ss i <> None.
Proof.
  intros rank. induction d as [|d IH]; intros ss i L C I H; [lia|]. cbn [materialize_deps]. destruct (mat _); [discriminate|].
  assert (R : Forall (fun j => j < length ss) (map target (outs (get ss i)))).
  { apply Forall_forall. intros j J. apply in_map_iff in J. destruct J as (o & <- & J). now apply (C i). }
  destruct (each (materialize_deps d) ss (map target (outs (get ss i)))) as [s1|] eqn:E; cbn.
  - assert (A : alike ss s1) by (now apply (each_alike _ (mater_alike d) _ _ _ C R) in E).
    pose proof (hmo_some rank d s1 i (layered_alike _ _ _ A L) ltac:(lia)) as N. destruct (has_material_output d s1 i); [discriminate|congruence].
  - exfalso. revert E.
    apply (each_some _ (fun s => alike ss s /\ closed s)); [| |split; [apply alike_refl|exact C]].
    + intros s j s' [A K] J E. rewrite Forall_forall in R.
      assert (A' : alike s s') by (apply (mater_alike d _ j); auto; rewrite <- (proj1 A); auto).
      split; [now apply (alike_trans _ s)|now apply (closed_alike s)].
    + intros s j [A K] J. rewrite Forall_forall in R. apply IH; auto; [now apply (layered_alike ss)|rewrite <- (proj1 A); auto|].
      apply in_map_iff in J. destruct J as (o & <- & J). pose proof (L i (target o) ltac:(now exists o)). lia.
Qed.
Lemma remat_some : forall rank d ss, layered ss rank -> closed ss -> (forall i, i < length ss -> rank i + 1 < d) -> rematerialize d ss <> None.
Proof.
  intros rank d ss L C B. unfold rematerialize. pose proof (demat_alike ss) as A0.
  apply (each_some _ (fun s => alike ss s /\ closed s)); [| |split; [exact A0|now apply (closed_alike ss)]].
  - intros s j s' [A K] J E. apply in_seq in J.
    assert (A' : alike s s') by (apply (mater_alike d _ j); auto; rewrite <- (proj1 A); lia).
    split; [now apply (alike_trans _ s)|now apply (closed_alike s)].
  - intros s j [A K] J. apply in_seq in J. apply (mater_some rank); auto; [now apply (layered_alike ss)|rewrite <- (proj1 A); lia|apply B; lia].
Qed.
Lemma acc_no_cycle : forall ss i, Acc (up ss) i -> forall j, leads ss i j -> j <> i.
Proof.
  intros ss i A. induction A as [i _ IH]. intros j L E. subst j.
  assert (T : forall a b c, leads ss a b -> leads ss b c -> leads ss a c).
  { intros a b c H. revert c. induction H as [a b E|a x b E H IHl]; intros c K; [now apply (l_more ss a b)|]. apply (l_more ss a x); auto. }
  inversion L as [? ? E|? j ? E H]; subst.
  - apply (IH i E i); auto.
  - apply (IH j E j); [|reflexivity]. apply (T j i j H). now constructor.
Qed.
