(** Lemmas: depth, loops, pieces, vectors. *)
From Coq Require Import Arith NArith List Bool Lia ZifyBool ZifyNat.
From Verif.Logs Require Import Model Spec Proofs Proofs2 Proofs3 Proofs4.
Import ListNotations.

(** logging returns *)
Lemma needed_outs_some : forall l hm i rec os, (forall o t, In o os -> rec (target o) t <> None) -> forall t, needed_outs l hm i rec os t <> None.
Proof.
  intros l hm i rec os. induction os as [|o os IH]; intros R t; [discriminate|]. cbn [needed_outs].
  assert (R' : forall o' t, In o' os -> rec (target o') t <> None) by (intros; apply R; now right).
  pose proof (R o t (or_introl eq_refl)) as N. destruct (rec (target o) t) as [[n t1]|]; [cbn [bind]|congruence].
  destruct n; [now apply IH| |]; (destruct (cond o); [|discriminate]; destruct (seen _ _ _) as [[]|]; [discriminate|now apply IH|]);
    (destruct (negb hm && _); [discriminate|]); cbn zeta; (destruct (run _ _); [discriminate|now apply IH]).
Qed.
Lemma needed_some : forall rank ss l hm d i t, layered ss rank -> rank i < d -> needed d ss l hm i t <> None.
Proof.
  intros rank ss l hm. induction d as [|d IH]; intros i t L H; [lia|]. cbn [needed]. destruct (negb _); [discriminate|]. destruct (writer _); [discriminate|].
  apply needed_outs_some. intros o t' I. apply IH; [exact L|]. pose proof (L i (target o) ltac:(now exists o)). lia.
Qed.
Lemma log_outs_some : forall ss l i rec os, (forall o t, In o os -> rec (target o) t <> None) -> forall t, log_outs ss l i rec os t <> None.
Proof.
  intros ss l i rec os. induction os as [|o os IH]; intros R t; [discriminate|]. cbn [log_outs].
  assert (R' : forall o' t, In o' os -> rec (target o') t <> None) by (intros; apply R; now right).
  destruct (enabled _ && _); [|now apply IH]. destruct (match cond o with None => _ | Some _ => _ end) as [b t1]. destruct b; [|now apply IH].
  pose proof (R o t1 (or_introl eq_refl)) as N. destruct (rec (target o) t1) as [[w t2]|]; [cbn [bind snd]|congruence].
  pose proof (IH R' t2) as N2. destruct (log_outs ss l i rec os t2) as [[w2 t3]|]; [discriminate|congruence].
Qed.
Lemma log_line_some : forall rank ss l d up i t, layered ss rank -> rank i < d -> log_line d ss up i l t <> None.
Proof.
  intros rank ss l. induction d as [|d IH]; intros up i t L H; [lia|]. cbn [log_line].
  destruct (log_outs _ _ _ _ _ _) as [[w t1]|] eqn:E; [discriminate|]. exfalso. revert E. apply log_outs_some. intros o t' I. apply IH; [exact L|].
  pose proof (L i (target o) ltac:(now exists o)). lia.
Qed.
Lemma log_some : forall rank ss l d i, layered ss rank -> rank i < d -> log d ss i l <> None.
Proof.
  intros rank ss l d i L H. unfold log. destruct (_ && _); [|discriminate].
  pose proof (needed_some rank ss l false d i [] L H) as N. destruct (needed d ss l false i []) as [[n t]|]; [cbn [bind]|congruence].
  assert (LL : forall t, bind (log_line d ss None i l t) (fun wt => Some (fst wt)) <> None).
  { intro t'. pose proof (log_line_some rank ss l d None i t' L H) as N2. destruct (log_line d ss None i l t'); [discriminate|congruence]. }
  destruct n; [discriminate|apply LL|]. pose proof (needed_some rank ss l true d i t L H) as N2.
  destruct (needed d ss l true i t) as [[n2 t2]|]; [cbn [bind]|congruence]. destruct n2; [discriminate|apply LL|discriminate].
Qed.

(** a graph without loops is in layers *)
Definition acyc (ss : list stream) : Prop := forall i, Acc (up ss) i.
Fixpoint height (k : nat) (ss : list stream) (i : nat) : nat :=
  match k with O => O | S k => S (list_max (map (fun o => height k ss (target o)) (outs (get ss i)))) end.
Lemma list_max_ext : forall (f g : outlet -> nat) os, (forall o, In o os -> f o = g o) -> list_max (map f os) = list_max (map g os).
Proof. intros f g os H. f_equal. apply map_ext_in. exact H. Qed.
Lemma height_settles : forall ss i, Acc (up ss) i -> exists n, forall k, n <= k -> height k ss i = height n ss i.
Proof.
  intros ss i A. induction A as [i _ IH].
  assert (X : forall os, incl os (outs (get ss i)) -> exists n, forall o k, In o os -> n <= k -> height k ss (target o) = height n ss (target o)).
  { induction os as [|o os IHo]; intro INC; [exists 0; intros o k []|].
    destruct IHo as [n1 H1]; [intros x X; apply INC; now right|]. destruct (IH (target o)) as [n2 H2]; [exists o; split; [apply INC; now left|reflexivity]|].
    exists (Nat.max n1 n2). intros o' k [<-|I] K.
    - rewrite (H2 k), (H2 (Nat.max n1 n2)) by lia. reflexivity.
    - rewrite (H1 o' k), (H1 o' (Nat.max n1 n2)) by (auto; lia). reflexivity. }
  destruct (X _ (incl_refl _)) as [n H]. exists (S n). intros k K. destruct k as [|k]; [lia|]. cbn [height]. f_equal. apply list_max_ext. intros o I. apply H; [exact I|lia].
Qed.
Lemma acyc_layered : forall ss, acyc ss -> exists rank, layered ss rank.
Proof.
  intros ss A. assert (X : forall m, exists n, forall i k, i < m -> n <= k -> height k ss i = height n ss i).
  { induction m as [|m [n1 H1]]; [exists 0; lia|]. destruct (height_settles ss m (A m)) as [n2 H2]. exists (Nat.max n1 n2). intros i k I K.
    destruct (Nat.eq_dec i m) as [->|N].
    - rewrite (H2 k), (H2 (Nat.max n1 n2)) by lia. reflexivity.
    - rewrite (H1 i k), (H1 i (Nat.max n1 n2)) by lia. reflexivity. }
  destruct (X (length ss)) as [n H]. exists (height n ss). intros i j (o & I & T). destruct (Nat.lt_ge_cases i (length ss)) as [L|L].
  - rewrite <- (H i (S n) L ltac:(lia)). cbn [height]. rewrite <- T.
    assert (M : height n ss (target o) <= list_max (map (fun o => height n ss (target o)) (outs (get ss i)))).
    { pose proof (proj1 (list_max_le _ _) (Nat.le_refl (list_max (map (fun o => height n ss (target o)) (outs (get ss i)))))) as F. rewrite Forall_forall in F. apply F.
      apply in_map_iff. now exists o. }
    lia.
  - rewrite get_beyond in I by exact L. destruct I.
Qed.
Lemma bound : forall (f : nat -> nat) n, exists d, forall i, i < n -> f i < d.
Proof. intros f. induction n as [|n [d H]]; [exists 0; lia|]. exists (Nat.max d (S (f n))). intros i I. destruct (Nat.eq_dec i n) as [->|N]; [lia|]. specialize (H i ltac:(lia)). lia. Qed.
Lemma leads_in : forall ss i j, leads ss i j -> i < length ss.
Proof.
  intros ss i j H. destruct (Nat.lt_ge_cases i (length ss)) as [L|L]; [exact L|]. exfalso. destruct H as [i j (o & I & _)|i j k (o & I & _)]; rewrite get_beyond in I by exact L; destruct I.
Qed.
(** one more outlet *)
Lemma acyc_add : forall ss i j c, i < length ss -> acyc ss -> i <> j -> ~ leads ss j i ->
  acyc (upd ss i (with_outs (mkoutlet j c :: outs (get ss i)) (get ss i))).
Proof.
  intros ss i j c L A N NL. set (s2 := upd _ _ _).
  assert (E : forall k m, edge s2 k m -> edge ss k m \/ k = i /\ m = j).
  { intros k m (o & I & T). subst s2. rewrite get_upd in I by exact L. destruct (Nat.eqb_spec k i) as [->|].
    - destruct I as [<-|I]; [right; auto|left; now exists o].
    - left. now exists o. }
  assert (Far : forall k, k <> i -> ~ leads ss k i -> Acc (up s2) k).
  { intro k. specialize (A k). induction A as [k _ IH]. intros K KL. constructor. intros m U. destruct (E k m U) as [U'|[-> _]]; [|contradiction].
    apply IH; [exact U'| |].
    - intros ->. apply KL. now constructor.
    - intro M. apply KL. now apply (l_more ss k m). }
  intro k. specialize (A k). induction A as [k _ IH]. constructor. intros m U. destruct (E k m U) as [U'|[-> ->]]; [now apply IH|]. apply Far; auto.
Qed.
Lemma acyc_alike : forall a b, alike a b -> acyc a -> acyc b.
Proof. intros a b A H i. now apply (acc_alike a). Qed.
Lemma acyc_ext : forall a b, (forall i, outs (get a i) = outs (get b i)) -> acyc a -> acyc b.
Proof. intros a b E A i. specialize (A i). induction A as [i _ IH]. constructor. intros j (o & I & T). apply IH. exists o. rewrite E. now split. Qed.
Lemma step_acyc : forall d st o st', inv (streams st) -> honest_op o -> step d st o = Some st' -> acyc (streams st) -> acyc (streams st').
Proof.
  intros d st o st' I Ho H A. destruct o as [n|n ty opens|n|i j|i j f|i n|i|i f|i b|t|]; cbn [step] in H.
  - destruct (find_stream d (streams st) n) as [[s1 i]|] eqn:E; [|discriminate H]. cbn [bind fst] in H. injection H as <-. cbn [streams].
    destruct (find_ok _ _ _ _ _ _ I E) as (_ & _ & _ & _ & S1 & S2). destruct (in_dec (list_eq_dec N.eq_dec) n (map name (streams st))) as [X|X]; [now rewrite (S2 X)|exact (proj2 (proj1 (S1 X)))].
  - destruct (new_stream d st n ty opens) as [s1|] eqn:E; [|discriminate H]. cbn [bind] in H. injection H as <-. cbn [streams].
    unfold new_stream in E. destruct (find_stream d (streams st) n) as [[s2 i]|] eqn:E2; [cbn [bind fst snd] in E|discriminate E].
    destruct (find_ok _ _ _ _ _ _ I E2) as (I2 & _ & _ & [Li Ei] & S1 & S2).
    assert (A2 : acyc s2) by (destruct (in_dec (list_eq_dec N.eq_dec) n (map name (streams st))) as [X|X]; [now rewrite (S2 X)|exact (proj2 (proj1 (S1 X)))]).
    destruct (eqb_bytes n n_stderr); [injection E as <-; exact A2|]. cbn zeta in E. destruct (_ && negb opens); [injection E as <-; exact A2|].
    apply remat_inv in E; [exact (proj2 (proj2 (proj2 E)))|]. apply inv_upd; [exact I2|exact Li|cbn; congruence|apply ok_outs_nil].
  - cbn [bind] in H. injection H as <-. cbn [streams]. unfold new_on_fd. destruct (lookup _ _); [exact A|]. apply (acyc_ext (streams st)); [|exact A].
    intro k. rewrite get_app. destruct (Nat.eqb_spec k (length (streams st))) as [->|]; [|reflexivity]. now rewrite get_beyond.
  - destruct (there (streams st) i && there (streams st) j) eqn:T; [|discriminate H]. apply andb_prop in T. destruct T as [T1 T2]. apply there_iff in T1, T2.
    destruct (add_stream d (streams st) i j None) as [s1|] eqn:E; [|discriminate H]. cbn [bind] in H. injection H as <-. cbn [streams].
    destruct (add_ok d (streams st) i j None s1 I T1 T2 ltac:(discriminate) E) as (_ & _ & [[-> _]|[S _]]); [exact A|exact (proj2 S)].
  - destruct (there (streams st) i && there (streams st) j) eqn:T; [|discriminate H]. apply andb_prop in T. destruct T as [T1 T2]. apply there_iff in T1, T2.
    destruct (add_stream d (streams st) i j (Some f)) as [s1|] eqn:E; [|discriminate H]. cbn [bind] in H. injection H as <-. cbn [streams].
    assert (Hf : forall g, Some f = Some g -> honest g) by (intros g Q; injection Q as <-; exact Ho).
    destruct (add_ok d (streams st) i j (Some f) s1 I T1 T2 Hf E) as (_ & _ & [[-> _]|[S _]]); [exact A|exact (proj2 S)].
  - destruct (there (streams st) i) eqn:T; [|discriminate H]. apply there_iff in T.
    destruct (remove_stream d (streams st) i n) as [s1|] eqn:E; [|discriminate H]. cbn [bind] in H. injection H as <-. cbn [streams].
    unfold remove_stream in E. destruct (List.find _ _); [|injection E as <-; exact A]. apply remat_inv in E; [exact (proj2 (proj2 (proj2 E)))|]. apply inv_upd; auto. cbn [with_outs outs]. apply without_ok. apply I.
  - destruct (there (streams st) i) eqn:T; [|discriminate H]. apply there_iff in T. unfold removeall in H. destruct (outs (get (streams st) i)) as [|x os].
    + cbn [bind] in H. injection H as <-. exact A.
    + destruct (rematerialize _ _) as [s1|] eqn:E; [|discriminate H]. cbn [bind] in H. injection H as <-. cbn [streams].
      apply remat_inv in E; [exact (proj2 (proj2 (proj2 E)))|]. apply inv_upd; auto. apply ok_outs_nil.
  - destruct (there (streams st) i) eqn:T; [|discriminate H]. apply there_iff in T.
    destruct (set_flags d (streams st) i f) as [s1|] eqn:E; [|discriminate H]. cbn [bind] in H. injection H as <-. cbn [streams].
    unfold set_flags in E. destruct (eqb_flags _ _).
    + injection E as <-. apply (acyc_ext (streams st)); [|exact A]. intro k. rewrite get_upd by exact T. destruct (Nat.eqb_spec k i) as [->|]; reflexivity.
    + apply remat_inv in E; [exact (proj2 (proj2 (proj2 E)))|]. apply inv_upd; auto. apply I.
  - destruct (there (streams st) i) eqn:T; [|discriminate H]. apply there_iff in T. cbn [bind] in H. injection H as <-. cbn [streams].
    destruct (writer (get (streams st) i)); [|exact A]. apply (acyc_ext (streams st)); [|exact A]. intro k. rewrite get_upd by exact T. destruct (Nat.eqb_spec k i) as [->|]; reflexivity.
  - injection H as <-. exact A.
  - cbn [bind] in H. injection H as <-. cbn [streams]. destruct (resolve_alike (types st) (streams st)) as [_ R]. apply (acyc_ext (streams st)); [|exact A]. intro k. symmetry. apply R.
Qed.
Lemma steps_acyc : forall d l st st', inv (streams st) -> Forall honest_op l -> steps d st l = Some st' -> acyc (streams st) -> acyc (streams st').
Proof.
  intros d. induction l as [|o l IH]; intros st st' I F H A; cbn [steps] in H; [injection H as <-; exact A|].
  destruct (step d st o) as [s1|] eqn:E; [|discriminate H]. cbn [bind] in H. inversion F as [|? ? Fo Fl]; subst.
  apply (IH s1 st'); auto; [apply (step_ok _ _ _ _ I Fo E)|]. now apply (step_acyc d st o).
Qed.
Lemma reached : forall d ops st, Forall honest_op ops -> steps d empty ops = Some st -> inv (streams st) /\ acyc (streams st).
Proof. intros d ops st F H. split; [apply (steps_ok d ops empty st inv_empty F H)|]. apply (steps_acyc d ops empty st inv_empty F H). exact (proj2 sound_empty). Qed.
Lemma no_loop : forall ss i, acyc ss -> ~ leads ss i i.
Proof. intros ss i A L. now apply (acc_no_cycle ss i (A i) i L). Qed.
(** when adding returns *)
Lemma add_returns : forall ss i j c, inv ss -> acyc ss -> i < length ss -> j < length ss -> (forall f, c = Some f -> honest f) ->
  (exists d, add_stream d ss i j c <> None) <-> edge ss i j \/ (i <> j /\ ~ leads ss j i).
Proof.
  intros ss i j c I A Li Lj Hc. split.
  - intros [d H]. destruct (add_stream d ss i j c) as [s1|] eqn:E; [clear H|congruence].
    destruct (add_ok d ss i j c s1 I Li Lj Hc E) as (_ & _ & [[_ X]|[S X]]).
    + left. apply in_map_iff in X. destruct X as (o & T & X). now exists o.
    + right. assert (E1 : forall k m, edge ss k m -> edge s1 k m).
      { intros k m (o & Io & T). apply (alike_edge _ _ k m X). exists o. split; [|exact T]. rewrite get_upd by exact Li. destruct (Nat.eqb_spec k i) as [->|]; [now right|exact Io]. }
      assert (E2 : edge s1 i j).
      { apply (alike_edge _ _ i j X). exists (mkoutlet j c). split; [|reflexivity]. rewrite get_upd, Nat.eqb_refl by exact Li. now left. }
      assert (L1 : forall a b, leads ss a b -> leads s1 a b) by (intros a b L; induction L; [constructor; auto|eapply l_more; eauto]).
      destruct S as [_ S]. split.
      * intros ->. apply (no_loop s1 j S). now constructor.
      * intro L. apply (no_loop s1 i S). apply (l_more s1 i j); auto.
  - intro H. unfold add_stream. destruct (List.find _ _) as [o|] eqn:E.
    + exists 0. apply find_some in E. destruct E as [Io E]. apply eqb_bytes_iff in E. apply (names_inj ss _ _ (proj1 I)) in E; [rewrite E, Nat.eqb_refl; discriminate| |exact Lj].
      now apply (inv_closed ss I i).
    + apply find_outlet_none in E. destruct H as [(o & Io & T)|[N NL]]; [exfalso; apply E; rewrite <- T; now apply in_map|].
      pose proof (acyc_add ss i j c Li A N NL) as A2. destruct (acyc_layered _ A2) as [rank R]. set (s2 := upd _ _ _) in *.
      destruct (bound (fun k => rank k + 1) (length s2)) as [d B]. exists d. apply (remat_some rank); [exact R| |exact B].
      apply inv_closed. unfold s2. apply inv_upd; auto. cbn [with_outs outs]. destruct I as [Nm O]. destruct (O i) as [F D].
      split; [constructor; [now split|exact F]|]. now constructor.
Qed.
(** delivery along the histories *)
Lemma deliver : forall d0 ops st l i, Forall honest_op ops -> Forall quiet ops -> steps d0 empty ops = Some st ->
  (exists d0, forall d, d0 <= d -> log d (streams st) i l <> None) /\
  forall d w, log d (streams st) i l = Some w ->
    exists rs, NoDup rs /\ (forall r, In r rs <-> route (streams st) l i r) /\ w = flat_map (given (streams st) l) rs.
Proof.
  intros d0 ops st l i F Q H. destruct (reached _ _ _ F H) as [I A]. destruct (steps_ok d0 ops empty st inv_empty F H) as [_ S]. specialize (S Q sound_empty). split.
  - destruct (acyc_layered _ A) as [rank R]. exists (rank i + 1). intros d D. apply (log_some rank); [exact R|lia].
  - intros d w HW. now apply (log_given (streams st) l I (proj1 S) d i).
Qed.
Lemma deliver_new : forall d0 ops st d1 n ty st' l i, Forall honest_op ops -> steps d0 empty ops = Some st -> n <> n_stderr -> step d1 st (New n ty true) = Some st' ->
  forall d w, log d (streams st') i l = Some w ->
    exists rs, NoDup rs /\ (forall r, In r rs <-> route (streams st') l i r) /\ w = flat_map (given (streams st') l) rs.
Proof.
  intros d0 ops st d1 n ty st' l i F H N E d w HW. destruct (reached _ _ _ F H) as [I A]. cbn [step] in E.
  destruct (new_stream d1 st n ty true) as [s1|] eqn:E1; [|discriminate E]. cbn [bind] in E. injection E as <-. cbn [streams] in *.
  destruct (new_ok _ _ _ _ _ _ I E1) as (I1 & _ & X). destruct (X N eq_refl) as [S1 _]. now apply (log_given s1 l I1 (proj1 S1) d i).
Qed.
Lemma deliver_flags : forall d0 ops st d1 k f st' l i, Forall honest_op ops -> steps d0 empty ops = Some st -> flg (get (streams st) k) <> f -> step d1 st (Set_flags k f) = Some st' ->
  forall d w, log d (streams st') i l = Some w ->
    exists rs, NoDup rs /\ (forall r, In r rs <-> route (streams st') l i r) /\ w = flat_map (given (streams st') l) rs.
Proof.
  intros d0 ops st d1 k f st' l i F H N E d w HW. destruct (reached _ _ _ F H) as [I A]. cbn [step] in E.
  destruct (there (streams st) k) eqn:T; [|discriminate E]. apply there_iff in T.
  destruct (set_flags d1 (streams st) k f) as [s1|] eqn:E1; [|discriminate E]. cbn [bind] in E. injection E as <-. cbn [streams] in *.
  unfold set_flags in E1. destruct (eqb_flags _ _) eqn:Q; [apply eqb_flags_iff in Q; contradiction|].
  apply remat_inv in E1; [|apply inv_upd; auto; apply I]. destruct E1 as (_ & I1 & S1). now apply (log_given s1 l I1 (proj1 S1) d i).
Qed.

(** pieces *)
Lemma cut_concat : forall t, concat (cut_lines t) = t.
Proof.
  induction t as [|x t IH]; [reflexivity|]. cbn [cut_lines]. destruct (x =? 10)%N; [cbn; now rewrite IH|].
  destruct (cut_lines t) as [|p q]; cbn in *; [now rewrite <- IH|now rewrite <- IH].
Qed.
Definition a_line (p : bytes) : Prop := exists q, p = q ++ [10%N] /\ ~ In 10%N q.
Lemma cut_shape : forall t, Forall (fun p => p <> []) (cut_lines t) /\
  (cut_lines t = [] <-> t = []) /\
  (forall a p b, cut_lines t = a ++ p :: b -> a_line p \/ b = [] /\ ~ In 10%N p).
Proof.
  induction t as [|x t (F & Z & L)]; [cbn [cut_lines]; split; [apply Forall_nil|split; [split; reflexivity|intros [|y a] p b H; cbn in H; discriminate H]]|]. cbn [cut_lines]. destruct (N.eqb_spec x 10) as [->|N].
  - split; [constructor; [discriminate|exact F]|]. split; [split; discriminate|]. intros [|y a] p b H; cbn in H; injection H as <- H.
    + left. exists []. auto.
    + now apply (L a).
  - destruct (cut_lines t) as [|p0 q] eqn:E.
    + split; [constructor; [discriminate|constructor]|]. split; [split; discriminate|]. intros [|y a] p b H; [injection H as <- <-|destruct a; discriminate H].
      right. split; [reflexivity|]. intros [B|[]]. congruence.
    + inversion F as [|? ? Fp Fq]; subst. split; [constructor; [discriminate|exact Fq]|]. split; [split; discriminate|]. intros [|y a] p b H; cbn in H; injection H as <- H.
      * destruct (L [] p0 q eq_refl) as [(s & -> & NI)|[Q NI]].
        -- left. exists (x :: s). split; [reflexivity|]. intros [B|B]; [congruence|contradiction].
        -- right. split; [congruence|]. intros [B|B]; [congruence|contradiction].
      * now apply (L (p0 :: a) p b); rewrite H.
Qed.
Lemma last_snoc : forall (q : bytes) x d, last (q ++ [x]) d = x.
Proof. intros q x d. induction q as [|y q IH]; [reflexivity|]. cbn. destruct (q ++ [x]) eqn:E; [destruct q; discriminate E|exact IH]. Qed.
Lemma nl_line : forall p, a_line p -> with_newline p = p.
Proof. intros p (q & -> & _). unfold with_newline. now rewrite last_snoc. Qed.
Lemma nl_bare : forall p, ~ In 10%N p -> with_newline p = p ++ [10%N].
Proof.
  intros p H. unfold with_newline. destruct (N.eqb_spec (last p 0%N) 10) as [E|]; [|reflexivity]. exfalso. apply H. destruct p as [|x p]; [discriminate E|].
  rewrite <- E. destruct (exists_last (l := x :: p) ltac:(discriminate)) as (q & y & ->). rewrite last_snoc. apply in_or_app. right. now left.
Qed.
Lemma split_pieces : forall t, Forall a_line (pieces true t) /\ concat (pieces true t) = (if list_eq_dec N.eq_dec t [] then [] else with_newline t) /\ length (pieces true t) = length (cut_lines t).
Proof.
  intro t. cbn [pieces]. destruct (cut_shape t) as (F & Z & L). split; [|split; [|apply map_length]].
  - apply Forall_forall. intros p I. apply in_map_iff in I. destruct I as (p0 & <- & I). apply in_split in I. destruct I as (a & b & E).
    destruct (L a p0 b E) as [A|[_ N]]; [now rewrite nl_line|]. rewrite nl_bare by exact N. now exists p0.
  - destruct (list_eq_dec N.eq_dec t []) as [->|NE]; [reflexivity|]. assert (NC : cut_lines t <> []) by (intro C; apply Z in C; contradiction).
    destruct (exists_last NC) as (a & p & E). rewrite E, map_app, concat_app. cbn. rewrite app_nil_r.
    assert (Ha : map with_newline a = a).
    { clear Z F NE NC. assert (X : forall p', In p' a -> a_line p').
      { intros p' I. apply in_split in I. destruct I as (a1 & a2 & ->). destruct (L a1 p' (a2 ++ [p])) as [A|[B _]]; [rewrite E, <- app_assoc; reflexivity|exact A|destruct a2; discriminate B]. }
      clear - X. induction a as [|q a IH]; [reflexivity|]. cbn. rewrite nl_line by (apply X; now left). f_equal. apply IH. intros; apply X. now right. }
    rewrite Ha. pose proof (cut_concat t) as C. rewrite E, concat_app in C. cbn in C. rewrite app_nil_r in C. rewrite <- C.
    destruct (L a p [] E) as [(q & -> & NI)|[_ N]].
    + rewrite nl_line by (now exists q). unfold with_newline. rewrite app_assoc, last_snoc. reflexivity.
    + rewrite nl_bare by exact N. assert (Fp : p <> []) by (rewrite Forall_forall in F; apply F; rewrite E; apply in_or_app; right; now left).
      unfold with_newline. destruct (exists_last Fp) as (q & y & ->). rewrite (app_assoc (concat a) q [y]), last_snoc. destruct (N.eqb_spec y 10) as [->|]; [exfalso; apply N; apply in_or_app; right; now left|].
      now rewrite !app_assoc.
Qed.

(** vectors *)
Lemma maxi_last : forall iov i s best, s + length (concat iov) <= STACK -> iov <> [] -> maxi i s best iov = i + length iov - 1.
Proof.
  induction iov as [|b iov IH]; intros i s best H N; [congruence|]. cbn [concat] in H. rewrite app_length in H. cbn [maxi length].
  assert (LE : (s + length b <=? STACK) = true) by (apply Nat.leb_le; lia). rewrite LE. destruct iov as [|c iov]; [cbn; lia|].
  rewrite IH; [cbn [length]; lia|lia|discriminate].
Qed.
Lemma writev_ok : forall handler iov, handler = false \/ length (concat iov) <= STACK -> writev handler iov = Some (concat iov).
Proof.
  intros handler iov H. destruct iov as [|a [|b r]]; [| cbn; now rewrite app_nil_r|].
  - destruct handler; [|reflexivity]. unfold writev. cbn [maxi concat length firstn]. reflexivity.
  - unfold writev. destruct handler; [|reflexivity]. destruct H as [H|H]; [discriminate H|].
    rewrite maxi_last by (try discriminate; lia). rewrite (firstn_all2 (a :: b :: r)) by (cbn [length]; lia).
    assert (X : (STACK <? length (concat (a :: b :: r))) = false) by (apply Nat.ltb_ge; exact H). now rewrite X, Nat.eqb_refl.
Qed.
Lemma writev_bad : forall a b r, STACK < length (concat (a :: b :: r)) -> writev true (a :: b :: r) = None.
Proof.
  intros a b r H. unfold writev. assert (X : (STACK <? length (concat (a :: b :: r))) = true) by (apply Nat.ltb_lt; exact H). rewrite X, orb_true_r. reflexivity.
Qed.
