From Coq Require Import Arith NArith ZArith List Bool Lia ZifyBool ZifyNat ZifyN.
From Verif.Sem Require Import Model Spec.
Import ListNotations.

Lemma nth_split_set {A} i : forall (l : list A) c, nth_error l i = Some c ->
  exists a b, l = a ++ c :: b /\ length a = i /\ (forall y, set_nth i y l = a ++ y :: b) /\ remove_nth i l = a ++ b.
Proof.
  induction i as [|i IH]; intros [|x l] c; cbn; try discriminate.
  - intros [= ->]. exists [], l. repeat split.
  - intros H. destruct (IH l c H) as (a & b & -> & S0 & S1 & S2). exists (x :: a), b.
    split; [reflexivity|]. split; [cbn; congruence|]. split; [intros y; rewrite S1; reflexivity|rewrite S2; reflexivity].
Qed.
Definition nb (f : call -> bool) (cs : list call) : nat := length (filter f cs).
Lemma nb_split f a c b : nb f (a ++ c :: b) = nb f a + (if f c then 1 else 0) + nb f b.
Proof. unfold nb. rewrite filter_app. cbn [filter]. rewrite app_length. destruct (f c); cbn [length]; lia. Qed.
Lemma nb_app f a b : nb f (a ++ b) = nb f a + nb f b.
Proof. unfold nb. rewrite filter_app, app_length. reflexivity. Qed.
Lemma nb_nil f : nb f [] = 0.
Proof. reflexivity. Qed.
Lemma nb_existsb f l : existsb f l = false -> nb f l = 0.
Proof.
  induction l as [|c l IH]; [reflexivity|]. cbn [existsb]. intros H. apply orb_false_elim in H. destruct H as [A B].
  change (c :: l) with ([] ++ c :: l). rewrite nb_split, A, (IH B). reflexivity.
Qed.
Lemma nb_existsb_t f l : existsb f l = true -> nb f l > 0.
Proof.
  induction l as [|c l IH]; [discriminate|]. cbn [existsb]. intros H. change (c :: l) with ([] ++ c :: l). rewrite nb_split.
  destruct (f c); [lia|]. specialize (IH H). lia.
Qed.
Definition isinc (c : call) : bool := match c with PInc => true | _ => false end.

Record Inv (v : N) (s : sys) : Prop := INV {
  i_cnt : (value s + taken s = v + posted s)%N;
  i_lock : nb holds (calls s) <= 1;
  i_wake : nb sleeps (calls s) > 0 -> (value s + N.of_nat (nb isinc (calls s)) <= N.of_nat (nb awake (calls s)))%N }.

Lemma isinc_holds l : nb isinc l <= nb holds l.
Proof.
  induction l as [|c l IH]; [auto|]. change (c :: l) with ([] ++ c :: l). rewrite !nb_split. destruct c; cbn; lia.
Qed.
Ltac nbs := rewrite ?nb_split, ?nb_app in *; cbn [holds sleeps awake isinc] in *.

Lemma posted_mono s c s' : step s c = Some s' -> (posted s <= posted s')%N.
Proof.
  destruct c as [| | |i w|w]; cbn [step]; try (intros [= <-]; cbn; lia).
  - destruct (nth_error (calls s) i) as [c|]; [|discriminate]. destruct c; cbn [go]; unfold lock, signal, take, leave, to.
    all: repeat match goal with |- context [match ?z with _ => _ end] => destruct z; try discriminate end;
         try (intros [= <-]; cbn [posted]; lia).
  - destruct (nth_error (calls s) w) as [c|]; [|discriminate]. destruct c; try discriminate. intros [= <-]. cbn. lia.
Qed.

Lemma step_inv v s c s' : Inv v s -> step s c = Some s' -> fits v s' -> Inv v s'.
Proof.
  intros [IC IL IW] H F. unfold fits in F. destruct c as [| | |i w|w]; cbn [step] in H.
  1-3: injection H as <-; constructor; cbn [begin value calls posted taken] in *; nbs; rewrite ?nb_nil in *;
       cbn [holds sleeps awake isinc] in *; lia.
  - destruct (nth_error (calls s) i) as [c|] eqn:E; [|discriminate].
    destruct (nth_split_set i _ _ E) as (a & b & E' & La & S1 & S2).
    pose proof (isinc_holds a) as IHa. pose proof (isinc_holds b) as IHb.
    destruct c; cbn [go] in H.
    2: { (* signal *)
      unfold signal in H. destruct (existsb sleeps (calls s)) eqn:X.
      - apply nb_existsb_t in X. specialize (IW X). destruct (nth_error (calls s) w) as [c|] eqn:Ew; [|discriminate].
        destruct c; try discriminate. injection H as <-. unfold to in *; cbn [calls value posted taken] in *.
        destruct (nth_split_set w _ _ Ew) as (a' & b' & Ew' & Lw & S1' & _). rewrite S1'.
        assert (i <> w) as NE by congruence.
        assert (nth_error (a' ++ WLock :: b') i = Some PSignal) as E2.
        { rewrite <- S1', <- E. clear - NE. revert i w NE. generalize (calls s). induction l as [|x l IHl]; intros [|i] [|w] NE; cbn; auto; try congruence. }
        destruct (nth_split_set i _ _ E2) as (a2 & b2 & E2' & _ & S2' & _). rewrite S2'.
        assert (forall f, nb f (a2 ++ PInc :: b2) + (if f PSignal then 1 else 0) + (if f WSleep then 1 else 0) =
                          nb f (calls s) + (if f PInc then 1 else 0) + (if f WLock then 1 else 0)) as Q.
        { intros f. assert (nb f (a' ++ WLock :: b') = nb f (a2 ++ PSignal :: b2)) as Q1 by (rewrite E2'; reflexivity).
          rewrite Ew'. rewrite !nb_split in *. lia. }
        pose proof (Q holds) as Q1. pose proof (Q sleeps) as Q2. pose proof (Q awake) as Q3. pose proof (Q isinc) as Q4.
        cbn [holds sleeps awake isinc] in *.
        constructor; cbn [value calls posted taken] in *; lia.
      - apply nb_existsb in X. injection H as <-. unfold to in *; cbn [calls value posted taken] in *.
        rewrite S1. rewrite E' in X, IL. constructor; cbn [value calls posted taken] in *; nbs; lia. }
    all: unfold lock, take, leave, to in H.
    all: try (destruct (existsb holds (calls s)) eqn:X; [discriminate|apply nb_existsb in X]).
    all: try (destruct (0 <? value s)%N eqn:Z).
    all: try discriminate H.
    all: injection H as <-; cbn [value calls posted taken refused] in *; rewrite ?S1, ?S2; rewrite E' in *.
    all: try (rewrite N.mod_small by lia).
    all: constructor; cbn [value calls posted taken refused] in *; nbs; try lia.
  - destruct (nth_error (calls s) w) as [c|] eqn:E; [|discriminate]. destruct c; try discriminate. injection H as <-.
    destruct (nth_split_set w _ _ E) as (a & b & E' & La & S1 & S2).
    unfold to in *; constructor; cbn [to value calls posted taken refused] in *; rewrite ?S1; rewrite E' in *; nbs; lia.
Qed.
Lemma reach_inv v s : reach v s -> fits v s -> Inv v s.
Proof.
  induction 1 as [|s c s' R IH H]; intros F.
  - unfold fits in F. cbn in F. constructor; cbn; [|lia|intros; lia]. rewrite N.mod_small by lia. lia.
  - apply (step_inv v s c s'); auto. apply IH. unfold fits in *. pose proof (posted_mono s c s' H). lia.
Qed.

Lemma conservation v s : reach v s -> fits v s -> (value s + taken s = v + posted s)%N.
Proof. intros R F. apply (reach_inv v s R F). Qed.
Lemma no_lost_wakeup v s : reach v s -> fits v s -> (0 < number sleeps s)%N -> (value s <= number awake s)%N.
Proof.
  intros R F H. destruct (reach_inv v s R F) as [_ _ W]. unfold number in *. fold (nb sleeps (calls s)) in H.
  fold (nb awake (calls s)). assert (nb sleeps (calls s) > 0) as X by lia. specialize (W X). lia.
Qed.
Lemma moves v s : reach v s -> fits v s -> (exists c, In c (calls s) /\ sleeps c = false) ->
  exists i w s', step s (Go i w) = Some s'.
Proof.
  intros R F (c & Hc & Hs).
  assert (forall (f : call -> bool) l, existsb f l = true -> exists i c, nth_error l i = Some c /\ f c = true) as EX.
  { intros f. induction l as [|x l IHl]; [discriminate|]. cbn [existsb]. destruct (f x) eqn:E; [exists 0, x; auto|].
    intros X. destruct (IHl X) as (i & y & A & B). exists (S i), y. auto. }
  destruct (existsb holds (calls s)) eqn:X.
  - destruct (EX _ _ X) as (i & d & A & B). destruct d; cbn in B; try discriminate B.
    1: destruct (existsb sleeps (calls s)) eqn:Y;
         [destruct (EX _ _ Y) as (w & d & A' & B'); destruct d; cbn in B'; try discriminate B'; exists i, w; eexists; cbn [step]; rewrite A; cbn [go]; unfold signal; rewrite Y, A'; reflexivity
         |exists i, 0; eexists; cbn [step]; rewrite A; cbn [go]; unfold signal; rewrite Y; reflexivity].
    all: exists i, 0; cbn [step]; rewrite A; cbn [go]; try (eexists; reflexivity); destruct (0 <? value s)%N; eexists; reflexivity.
  - assert (holds c = false) as Hh.
    { destruct (holds c) eqn:Y; [|reflexivity]. rewrite <- X. symmetry. apply existsb_exists. exists c. auto. }
    apply In_nth_error in Hc. destruct Hc as (i & A). exists i, 0. cbn [step]. rewrite A.
    destruct c; try discriminate Hs; try discriminate Hh; cbn [go]; unfold lock; rewrite X; eexists; reflexivity.
Qed.
(** what the tests of :69 and :82 decide *)
Lemma decided v s i w c ok no s' : reach v s -> fits v s -> nth_error (calls s) i = Some c -> step s (Go i w) = Some s' ->
  (c = WTest /\ ok = WUnlock /\ no = WSleep \/ c = TTest /\ ok = TUnlock true /\ no = TUnlock false) ->
  (taken s < v + posted s)%N /\ taken s' = (taken s + 1)%N /\ posted s' = posted s /\ nth_error (calls s') i = Some ok \/
  taken s = (v + posted s)%N /\ taken s' = taken s /\ posted s' = posted s /\ nth_error (calls s') i = Some no.
Proof.
  intros R F E H C. pose proof (conservation v s R F) as X. cbn [step] in H. rewrite E in H.
  destruct (nth_split_set i _ _ E) as (a & b & E' & La & S1 & S2).
  assert (forall y, nth_error (set_nth i y (calls s)) i = Some y) as N.
  { intros y. rewrite S1, nth_error_app2 by lia. rewrite La, Nat.sub_diag. reflexivity. }
  destruct C as [(-> & -> & ->)|(-> & -> & ->)]; cbn [go] in H; destruct (0 <? value s)%N eqn:Z; injection H as <-;
    cbn [take to taken value calls posted]; rewrite N; [left|right|left|right]; repeat split; auto; lia.
Qed.
Lemma all_asleep v s : reach v s -> fits v s -> Forall (fun c => sleeps c = true) (calls s) -> calls s <> [] ->
  value s = 0%N /\ taken s = (v + posted s)%N.
Proof.
  intros R F A NE. pose proof (conservation v s R F) as C.
  assert (number awake s = 0%N /\ (0 < number sleeps s)%N) as (X & Y).
  { unfold number. destruct (calls s) as [|c l]; [congruence|]. inversion A; subst. split.
    - assert (filter awake (c :: l) = []) as ->; [|reflexivity]. clear - A. induction A as [|x l0 Hx A IH]; [reflexivity|].
      cbn [filter]. destruct x; try discriminate Hx. exact IH.
    - cbn [filter]. rewrite H1. cbn [length]. lia. }
  pose proof (no_lost_wakeup v s R F Y). lia.
Qed.
