(** Lemmas: histories. *)
From Coq Require Import Arith NArith List Bool Lia ZifyBool ZifyNat.
From Verif.Logs Require Import Model Spec Proofs Proofs2.
Import ListNotations.

Lemma reach_ext : forall a b i, (forall i, flg (get a i) = flg (get b i) /\ writer (get a i) = writer (get b i) /\ outs (get a i) = outs (get b i)) -> reach a i -> reach b i.
Proof.
  intros a b i A R. induction R as [i E W|i o E I R IH]; destruct (A i) as (F & W' & O); [apply h_here; congruence|apply (h_on b i o); congruence].
Qed.
Lemma sound_ext : forall a b, (forall i, below (get a i) = below (get b i) /\ flg (get a i) = flg (get b i) /\ writer (get a i) = writer (get b i) /\ outs (get a i) = outs (get b i)) ->
  sound a -> sound b.
Proof.
  intros a b E [C A]. split.
  - intro i. destruct (E i) as (B & _). rewrite <- B. split.
    + intro H. apply C in H. eapply reach_ext; [|exact H]. intro k. apply E.
    + intro H. apply C. eapply reach_ext; [|exact H]. intro k. destruct (E k) as (_ & F & W & O). auto.
  - intro i. specialize (A i). induction A as [i _ IH]. constructor. intros j (o & I & T). apply IH. exists o. destruct (E i) as (_ & _ & _ & O). rewrite O. now split.
Qed.
Lemma there_iff : forall ss i, there ss i = true <-> i < length ss.
Proof. intros. unfold there. apply Nat.ltb_lt. Qed.
Lemma remove_ok : forall d ss i n ss', inv ss -> i < length ss -> remove_stream d ss i n = Some ss' ->
  inv ss' /\ (sound ss -> sound ss') /\ alike (upd ss i (with_outs (without ss n (outs (get ss i))) (get ss i))) ss'.
Proof.
  intros d ss i n ss' I L H. unfold remove_stream in H. destruct (List.find _ _) as [o|] eqn:E.
  - apply remat_inv in H; [destruct H as (A & I' & S); auto|]. apply inv_upd; auto. cbn [with_outs outs]. apply without_ok. apply I.
  - injection H as <-. split; [exact I|]. split; [auto|]. split; [now rewrite upd_length|]. intro k. rewrite get_upd by exact L.
    destruct (Nat.eqb_spec k i) as [->|]; [|apply same_refl]. unfold same. cbn [with_outs name flg writer type plain outs]. repeat split.
    pose proof (find_none _ _ E) as FN. clear - FN. induction (outs (get ss i)) as [|o os IH]; [reflexivity|]. cbn [without].
    pose proof (FN o (or_introl eq_refl)) as F0. cbn in F0. rewrite F0. f_equal. apply IH. intros x X. apply FN. now right.
Qed.
Lemma set_flags_ok : forall d ss i f ss', inv ss -> i < length ss -> set_flags d ss i f = Some ss' ->
  inv ss' /\ (sound ss -> sound ss') /\ alike (upd ss i (with_flags f (get ss i))) ss'.
Proof.
  intros d ss i f ss' I L H. unfold set_flags in H. destruct (eqb_flags _ _) eqn:E.
  - injection H as <-. apply eqb_flags_iff in E.
    split; [apply inv_upd; auto; apply I|]. split; [|apply alike_refl]. apply sound_ext. intro k. rewrite get_upd by exact L.
    destruct (Nat.eqb_spec k i) as [->|]; [|auto]. cbn [with_flags below flg writer outs]. auto.
  - apply remat_inv in H; [destruct H as (A & I' & S); auto|]. apply inv_upd; auto. apply I.
Qed.
Lemma new_ok : forall d st n ty opens ss', inv (streams st) -> new_stream d st n ty opens = Some ss' ->
  inv ss' /\ (sound (streams st) -> sound ss') /\
  (n <> n_stderr -> opens = true -> sound ss' /\ exists i, named ss' i n /\
    same (fresh n ty (match ty with Some t => known (types st) t | None => false end)) (get ss' i) /\
    forall k, k < length (streams st) -> k <> i -> same (get (streams st) k) (get ss' k)).
Proof.
  intros d st n ty opens ss' I H. unfold new_stream in H. destruct (find_stream d (streams st) n) as [[s1 i]|] eqn:E; [cbn [bind fst snd] in H|discriminate H].
  destruct (find_ok _ _ _ _ _ _ I E) as (I1 & S1 & G1 & [Li Ei] & _ & _).
  destruct (eqb_bytes n n_stderr) eqn:ES.
  - injection H as <-. split; [exact I1|]. split; [auto|]. intros B. now apply eqb_bytes_iff in ES.
  - set (w := match ty with Some t => known (types st) t | None => false end) in *.
    destruct (w && negb opens) eqn:W.
    + injection H as <-. split; [exact I1|]. split; [auto|]. intros _ O. rewrite O in W. destruct w; discriminate W.
    + apply remat_inv in H; [|apply inv_upd; [exact I1|exact Li|cbn; congruence|apply ok_outs_nil]].
      destruct H as (A & I' & S). split; [exact I'|]. split; [auto|]. intros _ _. split; [exact S|]. exists i.
      pose proof (proj2 A i) as Q. rewrite get_upd, Nat.eqb_refl in Q by exact Li.
      split; [split; [rewrite <- (proj1 A), upd_length; auto|destruct Q as [Q _]; now rewrite <- Q]|]. split; [exact Q|].
      intros k K N. apply (same_trans _ (get s1 k)); [now apply G1|]. pose proof (proj2 A k) as Qk. rewrite get_upd in Qk by exact Li.
      destruct (Nat.eqb_spec k i); [contradiction|exact Qk].
Qed.
Lemma resolve_alike : forall ts ss, length (final_resolve ts ss) = length ss /\
  forall i, name (get (final_resolve ts ss) i) = name (get ss i) /\ outs (get (final_resolve ts ss) i) = outs (get ss i).
Proof.
  intros ts. induction ss as [|s ss [L H]]; [split; [reflexivity|auto]|]. cbn [final_resolve].
  assert (X : length (s :: final_resolve ts ss) = length (s :: ss) /\ forall i, name (get (s :: final_resolve ts ss) i) = name (get (s :: ss) i) /\ outs (get (s :: final_resolve ts ss) i) = outs (get (s :: ss) i)).
  { split; [cbn; now rewrite L|]. intros [|i]; [auto|]. exact (H i). }
  destruct (type s); [|exact X]. destruct (writer s); [exact X|]. destruct (known ts b); [|split; auto].
  split; [apply X|]. intros [|i]; [split; reflexivity|]. exact (H i).
Qed.
Lemma step_ok : forall d st o st', inv (streams st) -> honest_op o -> step d st o = Some st' ->
  inv (streams st') /\ (quiet o -> sound (streams st) -> sound (streams st')).
Proof.
  intros d st o st' I Ho H. destruct o as [n|n ty opens|n|i j|i j f|i n|i|i f|i b|t|]; cbn [step] in H.
  - destruct (find_stream d (streams st) n) as [[s1 i]|] eqn:E; [|discriminate H]. cbn [bind fst] in H. injection H as <-. cbn [streams].
    destruct (find_ok _ _ _ _ _ _ I E) as (I1 & S1 & _). auto.
  - destruct (new_stream d st n ty opens) as [s1|] eqn:E; [|discriminate H]. cbn [bind] in H. injection H as <-. cbn [streams].
    destruct (new_ok _ _ _ _ _ _ I E) as (I1 & S1 & _). auto.
  - cbn [bind] in H. injection H as <-. cbn [streams]. split; [|intros []]. unfold new_on_fd. pose proof (lookup_spec (streams st) n) as LS.
    destruct (lookup (streams st) n); [exact I|]. now apply inv_app.
  - destruct (there (streams st) i && there (streams st) j) eqn:T; [|discriminate H]. apply andb_prop in T. destruct T as [T1 T2]. apply there_iff in T1, T2.
    destruct (add_stream d (streams st) i j None) as [s1|] eqn:E; [|discriminate H]. cbn [bind] in H. injection H as <-. cbn [streams].
    destruct (add_ok d (streams st) i j None s1 I T1 T2 ltac:(discriminate) E) as (I1 & S1 & _). auto.
  - destruct (there (streams st) i && there (streams st) j) eqn:T; [|discriminate H]. apply andb_prop in T. destruct T as [T1 T2]. apply there_iff in T1, T2.
    destruct (add_stream d (streams st) i j (Some f)) as [s1|] eqn:E; [|discriminate H]. cbn [bind] in H. injection H as <-. cbn [streams].
    assert (Hf : forall g, Some f = Some g -> honest g) by (intros g Q; injection Q as <-; exact Ho).
    destruct (add_ok d (streams st) i j (Some f) s1 I T1 T2 Hf E) as (I1 & S1 & _). auto.
  - destruct (there (streams st) i) eqn:T; [|discriminate H]. apply there_iff in T.
    destruct (remove_stream d (streams st) i n) as [s1|] eqn:E; [|discriminate H]. cbn [bind] in H. injection H as <-. cbn [streams].
    destruct (remove_ok _ _ _ _ _ I T E) as (I1 & S1 & _). auto.
  - destruct (there (streams st) i) eqn:T; [|discriminate H]. apply there_iff in T. unfold removeall in H. destruct (outs (get (streams st) i)) as [|x os].
    + cbn [bind] in H. injection H as <-. auto.
    + destruct (rematerialize _ _) as [s1|] eqn:E; [|discriminate H]. cbn [bind] in H. injection H as <-. cbn [streams].
      apply remat_inv in E; [destruct E as (_ & I1 & S1); auto|]. apply inv_upd; auto. apply ok_outs_nil.
  - destruct (there (streams st) i) eqn:T; [|discriminate H]. apply there_iff in T.
    destruct (set_flags d (streams st) i f) as [s1|] eqn:E; [|discriminate H]. cbn [bind] in H. injection H as <-. cbn [streams].
    destruct (set_flags_ok _ _ _ _ _ I T E) as (I1 & S1 & _). auto.
  - destruct (there (streams st) i) eqn:T; [|discriminate H]. apply there_iff in T. cbn [bind] in H. injection H as <-. cbn [streams].
    destruct (writer (get (streams st) i)); [|auto]. split; [apply inv_upd; auto; apply I|]. intros _. apply sound_ext. intro k. rewrite get_upd by exact T.
    destruct (Nat.eqb_spec k i) as [->|]; auto.
  - injection H as <-. auto.
  - cbn [bind] in H. injection H as <-. cbn [streams]. split; [|intros []]. destruct (resolve_alike (types st) (streams st)) as [L R]. destruct I as [N O]. split.
    + rewrite (names_ext _ (streams st)); [exact N|exact L|apply R].
    + intro k. rewrite L. destruct (R k) as [_ ->]. apply O.
Qed.
Lemma inv_empty : inv []. Proof. split; [constructor|]. intro i. rewrite get_beyond by apply Nat.le_0_l. apply ok_outs_nil. Qed.
Lemma sound_empty : sound [].
Proof.
  split.
  - intro i. rewrite get_beyond by apply Nat.le_0_l. split; [discriminate|]. intro R. apply dead_reach in R; [destruct R|apply Nat.le_0_l].
  - intro i. constructor. intros j (o & I & _). rewrite get_beyond in I by apply Nat.le_0_l. destruct I.
Qed.
Lemma steps_ok : forall d l st st', inv (streams st) -> Forall honest_op l -> steps d st l = Some st' ->
  inv (streams st') /\ (Forall quiet l -> sound (streams st) -> sound (streams st')).
Proof.
  intros d. induction l as [|o l IH]; intros st st' I F H; cbn [steps] in H; [injection H as <-; auto|].
  destruct (step d st o) as [s1|] eqn:E; [|discriminate H]. cbn [bind] in H. inversion F as [|? ? Fo Fl]; subst.
  destruct (step_ok _ _ _ _ I Fo E) as [I1 S1]. destruct (IH _ _ I1 Fl H) as [I2 S2]. split; [exact I2|].
  intros Q. inversion Q; subst. auto.
Qed.
Lemma steps_app : forall d a b st, steps d st (a ++ b) = bind (steps d st a) (fun st => steps d st b).
Proof. intros d. induction a as [|o a IH]; intros b st; [reflexivity|]. cbn [steps app]. destruct (step d st o); [apply IH|reflexivity]. Qed.
