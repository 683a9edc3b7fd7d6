From Coq Require Import Arith NArith ZArith List Bool Lia ZifyBool ZifyNat ZifyN Permutation.
From Verif.Lru Require Import Model Spec Proofs.
From Verif.Lfu Require Import Model Spec Buckets.
Import ListNotations.

Definition R (x : lru) (p : nat * nat) (y : item) : Prop := core x (fst p) = Some (kof y, Some (vof y)) /\ snd p = uses_of y.
Definition qof (c : lfu) : list nat := map fst (pairs (flist c)).

Record FInv (cap : nat) (c : lfu) (held : nat -> nat) (L : list item) : Prop := {
  f_core : Core (h c) (fun i => inq (qof c) i + held i);
  f_max : max_entries (h c) = Z.of_nat cap;
  f_wf : WF c;
  f_rel : Forall2 (R (h c)) (pairs (flist c)) L;
  f_tab : tab (table (h c)) (h c) (qof c);
  f_size : lru_cache_size (h c) = Z.of_nat (length L);
  f_le : length L <= cap
}.

(** ** the relation between entries and abstract items *)
Lemma F2_len x P L : Forall2 (R x) P L -> length P = length L.
Proof. induction 1; cbn; congruence. Qed.

Lemma F2_ins x P L p y : Forall2 (R x) P L -> R x p y -> Forall2 (R x) (pins p P) (ins y L).
Proof.
  intros F Rp. induction F as [|a b P L [A1 A2] F IH]; cbn; [constructor; [exact Rp|constructor]|].
  destruct Rp as [R1 R2]. rewrite A2, R2. destruct (Nat.leb _ _).
  - constructor; [split; assumption|exact IH].
  - constructor; [split; assumption|]. constructor; [split; assumption|exact F].
Qed.

Lemma F2_ext x x' P L : (forall i, In i (map fst P) -> core x' i = core x i) -> Forall2 (R x) P L -> Forall2 (R x') P L.
Proof.
  intros E F. induction F as [|a b P L [A1 A2] F IH]; constructor.
  - split; [|exact A2]. rewrite E by (left; reflexivity). exact A1.
  - apply IH. intros; apply E; right; assumption.
Qed.

Lemma F2_in x P L i f : Forall2 (R x) P L -> In (i, f) P -> exists y, In y L /\ core x i = Some (kof y, Some (vof y)) /\ f = uses_of y.
Proof.
  induction 1 as [|a b P L [A1 A2] F IH]; intros H; [destruct H|]. destruct H as [->|H].
  - exists b. split; [left; reflexivity|]. split; assumption.
  - destruct (IH H) as (y & Hy & E). exists y. split; [right; exact Hy|exact E].
Qed.

Lemma F2_ex x P L y : Forall2 (R x) P L -> In y L -> exists i, In i (map fst P) /\ core x i = Some (kof y, Some (vof y)).
Proof.
  induction 1 as [|a b P L [A1 A2] F IH]; intros H; [destruct H|]. destruct H as [->|H].
  - exists (fst a). split; [left; reflexivity|exact A1].
  - destruct (IH H) as (i & Hi & E). exists i. split; [right; exact Hi|exact E].
Qed.

Lemma F2_drop x i k v P : NoDup (map fst P) -> In i (map fst P) -> core x i = Some (k, Some v) ->
  (forall j w, In j (map fst P) -> core x j = Some (k, Some w) -> j = i) ->
  forall L, Forall2 (R x) P L -> Forall2 (R x) (pdrop i P) (drop L k) /\
    exists f, In (i, f) P /\ look L k = Some (k, v, f).
Proof.
  induction P as [|[a f] P IH]; intros ND Hi Ei U L F; [destruct Hi|]. inversion F as [|? y ? L' [A1 A2] F']; subst. cbn [fst snd] in A1, A2.
  cbn in ND. inversion ND as [|? ? Na ND']; subst. unfold look, drop. cbn. change keyeqb with keyb.
  destruct (Nat.eqb_spec a i) as [->|NE].
  - rewrite A1 in Ei. injection Ei as K1 K2. rewrite K1, keyb_refl. cbn. split.
    + change (filter (fun p => negb (Nat.eqb (fst p) i)) P) with (pdrop i P). rewrite pdrop_notin by exact Na.
      assert (filter (fun x0 => negb (keyb (kof x0) k)) L' = L') as ->; [|exact F'].
      assert (forall z, In z L' -> keyb (kof z) k = false) as Hz.
      { intros z Iz. destruct (keyb_spec (kof z) k) as [Ez|]; [|reflexivity]. exfalso.
        destruct (F2_ex _ _ _ _ F' Iz) as (j & Hj & Ej). apply Na. rewrite Ez in Ej.
        assert (j = i) as <-; [|exact Hj]. eapply U; [right; exact Hj|exact Ej]. }
      clear -Hz. induction L' as [|z L' IH]; [reflexivity|]. cbn. rewrite Hz by (left; reflexivity). cbn. f_equal. apply IH. intros; apply Hz; right; assumption.
    + exists (uses_of y). split; [left; reflexivity|]. destruct y as [[k0 v0] f0]. unfold kof, vof, uses_of in *. cbn in *. subst. reflexivity.
  - destruct Hi as [Hi|Hi]; [cbn in Hi; congruence|].
    destruct (keyb_spec (kof y) k) as [EK|NK].
    + exfalso. apply NE. eapply U; [left; reflexivity|]. cbn. rewrite A1, EK. reflexivity.
    + cbn. destruct (IH ND' Hi Ei) with (L := L') as [IH1 (g & IH2 & IH3)].
      * intros j w Hj Ej. eapply U; [right; exact Hj|exact Ej].
      * exact F'.
      * split; [constructor; [split; [exact A1|reflexivity]|exact IH1]|]. exists g. split; [right; exact IH2|exact IH3].
Qed.

Lemma F2_absent x P L k t : Forall2 (R x) P L -> tab t x (map fst P) -> t_get t k = None -> look L k = None /\ drop L k = L.
Proof.
  intros F T E.
  assert (forall y, In y L -> keyeqb (kof y) k = false) as H.
  { intros y Hy. change keyeqb with keyb. destruct (keyb_spec (kof y) k) as [EK|]; [|reflexivity]. exfalso.
    destruct (F2_ex _ _ _ _ F Hy) as (i & Hi & Ei). rewrite EK in Ei.
    assert (t_get t k = Some i) by (apply T; eauto). congruence. }
  clear -H. split.
  - unfold look. induction L as [|p L IH]; [reflexivity|]. cbn. rewrite H by (left; reflexivity). apply IH. intros; apply H; right; assumption.
  - unfold drop. induction L as [|p L IH]; [reflexivity|]. cbn. rewrite H by (left; reflexivity). cbn. f_equal. apply IH. intros; apply H; right; assumption.
Qed.

Lemma inq_perm q q' : (forall j, In j q <-> In j q') -> forall j, inq q j = inq q' j.
Proof.
  intros H j. destruct (in_dec Nat.eq_dec j q) as [A|A].
  - rewrite !inq_in; [reflexivity|apply H; exact A|exact A].
  - rewrite !inq_out; [reflexivity|rewrite <- H; exact A|exact A].
Qed.

Lemma tab_perm t x q q' : (forall j, In j q <-> In j q') -> tab t x q -> tab t x q'.
Proof. intros H T k i. rewrite (T k i), H. reflexivity. Qed.

Lemma tab_ext t x x' q : (forall i, In i q -> core x' i = core x i) -> tab t x q -> tab t x' q.
Proof.
  intros E T k i. rewrite (T k i). split; intros [Hi [v Ei]]; (split; [exact Hi|]; exists v); rewrite <- Ei; [|symmetry]; apply E; exact Hi.
Qed.

Lemma in_pins p P j : In j (map fst (pins p P)) <-> j = fst p \/ In j (map fst P).
Proof.
  split; intros H.
  - eapply Permutation_in in H; [|apply Permutation_map, pins_perm]. cbn in H. intuition.
  - eapply Permutation_in; [apply Permutation_map, Permutation_sym, pins_perm|]. cbn. intuition.
Qed.

Lemma WF_same c c' : flist c' = flist c -> fhead c' = fhead c -> nextb c' = nextb c -> bfreed c' = bfreed c -> WF c -> WF c'.
Proof. intros E1 E2 E3 E4 [A B C D F G]. split; rewrite ?E1, ?E2, ?E3, ?E4; assumption. Qed.

Lemma in_bucket c i : In i (qof c) -> exists pre x post, flist c = pre ++ x :: post /\ In i (items x).
Proof.
  unfold qof. intros H. apply in_map_iff in H. destruct H as ([j f] & <- & H). apply in_pairs in H. destruct H as (b & Hb & Hi & _).
  apply in_split in Hb. destruct Hb as (pre & post & E). exists pre, b, post. auto.
Qed.

(** ** steps *)
Section Bounded.
Variable cap : nat.
Hypothesis CAP : 0 < cap.

Lemma f_create : FInv cap (lfu_create (Z.of_nat cap)) (fun _ => 0) [].
Proof.
  split; cbn.
  - split; cbn; try discriminate; try reflexivity; [|constructor]. intros i. split; [tauto|intros [? ?]; lia].
  - reflexivity.
  - split; cbn; constructor.
  - constructor.
  - intros k i. cbn. split; [discriminate|intros [[] _]].
  - reflexivity.
  - lia.
Qed.

Lemma f_release c held L i n : FInv cap c held L -> held i = S n ->
  exists c', lfu_release c i = Ok c' /\ FInv cap c' (set_nat held i n) L /\ Permutation (vals (h c)) (vals (h c')) /\ next (h c') = next (h c).
Proof.
  intros V H. unfold lfu_release.
  destruct (release_ok (h c) _ i (inq (qof c) i + n) (f_core _ _ _ _ V)) as (x & E & F & C & CR & P).
  { cbn. rewrite H. lia. }
  rewrite E. cbn [bind]. eexists. split; [reflexivity|]. split; [|split; [exact P|apply F]].
  destruct F as (F1 & F2 & F3 & F4 & F5).
  assert (forall j, In j (qof c) -> core x j = core (h c) j) as Q.
  { intros j Hj. apply CR. destruct (Nat.eq_dec j i) as [->|]; [right; rewrite inq_in by exact Hj; lia|left; assumption]. }
  split; cbn [h set_h].
  - change (qof (set_h c x)) with (qof c). eapply core_ext; [|exact C]. intros j. unfold set_nat. destruct (Nat.eqb_spec j i) as [->|]; reflexivity.
  - rewrite F1. apply V.
  - eapply WF_same; [| | | |apply V]; reflexivity.
  - eapply F2_ext; [exact Q|apply V].
  - rewrite F2. eapply tab_ext; [exact Q|apply V].
  - rewrite F4. apply V.
  - apply V.
Qed.

Lemma f_get_inv c held L k : FInv cap c held L ->
  exists c' t, lfu_get c k None = Ok (c', t, answer L k) /\
    FInv cap c' (match t with None => held | Some i => set_nat held i (S (held i)) end) (f_get L k) /\
    (t = None <-> look L k = None) /\ vals (h c') = vals (h c) /\ next (h c') = next (h c).
Proof.
  intros V. unfold lfu_get. rewrite (f_max _ _ _ _ V). destruct (Z.of_nat cap =? 0)%Z eqn:EZ0; [lia|].
  destruct (t_get (table (h c)) k) as [i|] eqn:T.
  - pose proof T as T0. apply (f_tab _ _ _ _ V) in T0. destruct T0 as (Hi & v & Ei).
    destruct (F2_drop (h c) i k v (pairs (flist c)) (w_q _ (f_wf _ _ _ _ V)) Hi Ei) with (L := L) as [D1 (f & D2 & D3)].
    { intros j w Hj Ej. eapply tab_fun; [apply V|exact Hj|exact Hi|exact Ej|exact Ei]. }
    { apply V. }
    destruct (in_pairs (flist c) i f) as [IP _]. destruct (IP D2) as (x & Hx & Hix & Fx). clear IP.
    apply in_split in Hx. destruct Hx as (pre & post & EF).
    destruct (touch_ok c i pre x post (f_wf _ _ _ _ V)) as (c1 & TO & Hh & W1 & PP); [rewrite (f_max _ _ _ _ V); lia|exact EF|exact Hix|].
    rewrite TO. cbn [bind]. rewrite Hh. rewrite Fx in PP.
    pose proof Ei as Ei0. unfold core in Ei. destruct (ents (h c) i) as [e|] eqn:EE; [|discriminate]. injection Ei as K1 K2.
    unfold answer. rewrite D3. cbn [option_map]. change (vof (k, v, f)) with v. rewrite K2. eexists _, (Some i). split; [reflexivity|].
    match goal with |- FInv _ (set_h c1 ?y) _ _ /\ _ => set (y0 := y) end.
    assert (forall j, core y0 j = core (h c) j) as CC.
    { intros j. unfold core, y0. cbn. destruct (Nat.eq_dec j i) as [->|NE]; [rewrite upd_eq, EE; cbn; congruence|now rewrite upd_ne]. }
    assert (forall j, In j (map fst (pairs (flist c1))) <-> In j (qof c)) as QQ.
    { intros j. rewrite PP, in_pins, map_fst_pdrop, in_without. cbn. fold (qof c). destruct (Nat.eq_dec j i) as [->|]; intuition. }
    assert (length (f_get L k) = length L) as LL.
    { rewrite <- (F2_len _ _ _ (f_rel _ _ _ _ V)). unfold f_get. rewrite D3.
      assert (Forall2 (R (h c)) (pins (i, S f) (pdrop i (pairs (flist c)))) (ins (k, v, S f) (drop L k))) as FF.
      { apply F2_ins; [exact D1|]. split; [exact Ei0|reflexivity]. }
      change (length (ins (k, v, S f) (drop L k)) = length (pairs (flist c))). rewrite <- (F2_len _ _ _ FF).
      rewrite (Permutation_length (pins_perm _ _)). cbn. rewrite <- (map_length fst (pdrop _ _)), map_fst_pdrop.
      rewrite <- (map_length fst (pairs (flist c))). apply len_without; [apply (w_q _ (f_wf _ _ _ _ V))|exact Hi]. }
    split; [|split; [split; congruence|split]]; [| |reflexivity].
    + split; cbn [h set_h flist].
      * change (qof (set_h c1 y0)) with (qof c1).
        pose proof (f_core _ _ _ _ V) as [C1 C2 C3 C4 C5].
        assert (i < next (h c)) as Li. { destruct (Nat.le_gt_cases (next (h c)) i) as [G|G]; [apply C3 in G; congruence|exact G]. }
        destruct (C1 i e EE) as [R1 R2].
        apply (core_ext y0 (fun j => inq (qof c) j + set_nat held i (S (held i)) j)).
        { intros j. f_equal. symmetry. apply inq_perm. exact QQ. }
        split; cbn.
        -- intros j e' H. unfold set_nat. destruct (Nat.eqb_spec j i) as [->|NE].
           ++ rewrite upd_eq in H. injection H as <-. cbn. lia.
           ++ rewrite upd_ne in H by exact NE. apply C1. exact H.
        -- intros j H. unfold set_nat. destruct (Nat.eqb_spec j i) as [->|NE].
           ++ rewrite upd_eq in H. discriminate.
           ++ rewrite upd_ne in H by exact NE. apply C2. exact H.
        -- intros j H. rewrite upd_ne by lia. apply C3; exact H.
        -- intros j. rewrite C4. destruct (Nat.eq_dec j i) as [->|NE]; [rewrite upd_eq, EE; intuition discriminate|now rewrite upd_ne].
        -- exact C5.
      * apply V.
      * eapply WF_same; [| | | |exact W1]; reflexivity.
      * rewrite PP. eapply F2_ext; [intros j _; apply CC|]. unfold f_get. rewrite D3. apply F2_ins; [exact D1|]. split; [exact Ei0|reflexivity].
      * change (table y0) with (table (h c)). apply (tab_perm _ _ (qof c)); [intros j; symmetry; apply QQ|]. eapply tab_ext; [intros j _; apply CC|apply V].
      * rewrite LL. apply V.
      * rewrite LL. apply V.
    + unfold vals, live. cbn. f_equal. apply flat_map_ext_in. intros j _.
      destruct (Nat.eq_dec j i) as [->|NE]; [rewrite upd_eq, EE; unfold evals; rewrite K2; reflexivity|now rewrite upd_ne].
  - destruct (F2_absent _ _ _ _ _ (f_rel _ _ _ _ V) (f_tab _ _ _ _ V) T) as [E1 E2].
    exists c, None. unfold f_get, answer. rewrite E1. split; [reflexivity|]. split; [exact V|]. split; [tauto|]. split; reflexivity.
Qed.

Lemma drop_len c held L k i v : FInv cap c held L -> In i (qof c) -> core (h c) i = Some (k, Some v) -> S (length (drop L k)) = length L.
Proof.
  intros V Hi Ei. destruct (F2_drop (h c) i k v (pairs (flist c)) (w_q _ (f_wf _ _ _ _ V)) Hi Ei) with (L := L) as [D1 _].
  { intros j w Hj Ej. eapply tab_fun; [apply V|exact Hj|exact Hi|exact Ej|exact Ei]. }
  { apply V. }
  rewrite <- (F2_len _ _ _ D1), <- (F2_len _ _ _ (f_rel _ _ _ _ V)).
  rewrite <- (map_length fst (pdrop _ _)), map_fst_pdrop, <- (map_length fst (pairs (flist c))).
  apply len_without; [apply (w_q _ (f_wf _ _ _ _ V))|exact Hi].
Qed.

Lemma f_remove_inv c held L k : FInv cap c held L ->
  exists c', lfu_remove c k = Ok (c', answer L k) /\ FInv cap c' held (drop L k) /\
    Permutation (vals (h c)) (optl (answer L k) ++ vals (h c')) /\ next (h c') = next (h c).
Proof.
  intros V. unfold lfu_remove. rewrite (f_max _ _ _ _ V). destruct (Z.of_nat cap =? 0)%Z eqn:EZ0; [lia|].
  destruct (t_get (table (h c)) k) as [i|] eqn:T.
  - pose proof T as T0. apply (f_tab _ _ _ _ V) in T0. destruct T0 as (Hi & v & Ei).
    destruct (0 <? Z.of_nat cap)%Z eqn:EZ; [|lia].
    destruct (F2_drop (h c) i k v (pairs (flist c)) (w_q _ (f_wf _ _ _ _ V)) Hi Ei) with (L := L) as [D1 (f & D2 & D3)].
    { intros j w Hj Ej. eapply tab_fun; [apply V|exact Hj|exact Hi|exact Ej|exact Ei]. }
    { apply V. }
    set (h0 := with_table (h c) (t_del (table (h c)) k)).
    destruct (in_bucket c i Hi) as (pre & x & post & EF & Hix).
    destruct (take_out (set_h c h0) i pre x post) as (c1 & empty & RO & Hh & W1 & PP).
    { eapply WF_same; [| | | |apply V]; reflexivity. }
    { exact EF. } { exact Hix. }
    rewrite RO. cbn [bind]. cbn [set_h h flist] in Hh, PP. change (h (free_b c1 empty)) with (h c1). rewrite Hh.
    change (ents (with_size h0 (lru_cache_size h0 - 1)) i) with (ents (h c) i).
    pose proof Ei as Ei0.
    unfold core in Ei. destruct (ents (h c) i) as [e|] eqn:EE; [|discriminate]. injection Ei as K1 K2.
    unfold answer. rewrite D3. cbn [option_map]. change (vof (k, v, f)) with v. rewrite K2.
    unfold lfu_release. cbn [set_h h].
    match goal with |- context [release ?x i] => set (h3 := x) end.
    pose proof (f_core _ _ _ _ V) as [C1 C2 C3 C4 C5].
    assert (i < next (h c)) as Li. { destruct (Nat.le_gt_cases (next (h c)) i) as [G|G]; [apply C3 in G; congruence|exact G]. }
    assert (Core h3 (fun j => inq (qof c) j + held j)) as CC.
    { destruct (C1 i e EE) as [R1 R2]. split; cbn.
      - intros j e' H. destruct (Nat.eq_dec j i) as [->|NE].
        + rewrite upd_eq in H. injection H as <-. cbn. split; assumption.
        + rewrite upd_ne in H by exact NE. apply C1. exact H.
      - intros j H. destruct (Nat.eq_dec j i) as [->|NE].
        + rewrite upd_eq in H. discriminate.
        + rewrite upd_ne in H by exact NE. apply C2. exact H.
      - intros j H. rewrite upd_ne by lia. apply C3; exact H.
      - intros j. rewrite C4. destruct (Nat.eq_dec j i) as [->|NE]; [rewrite upd_eq, EE; intuition discriminate|now rewrite upd_ne].
      - exact C5. }
    destruct (release_ok h3 _ i (held i) CC) as (h' & E & F & C' & CR & P).
    { rewrite inq_in by exact Hi. reflexivity. }
    rewrite E. cbn [bind]. eexists. split; [reflexivity|].
    destruct F as (F1 & F2 & F3 & F4 & F5). cbn in F1, F4, F5. change (table h' = t_del (table (h c)) k) in F2.
    assert (forall j, j <> i -> core h' j = core (h c) j) as Q.
    { intros j NE. rewrite CR by auto. unfold core. cbn. now rewrite upd_ne. }
    assert (map fst (pairs (flist c1)) = without_id i (qof c)) as QE by (rewrite PP, map_fst_pdrop; reflexivity).
    pose proof (drop_len _ _ _ _ _ _ V Hi Ei0) as LL.
    split; [|split; [|exact F5]].
    + split; cbn [h set_h free_b flist]; unfold qof; cbn [flist set_h free_b]; rewrite ?QE.
      * eapply core_ext; [|exact C']. intros j. rewrite inq_without. unfold set_nat. destruct (Nat.eqb_spec j i) as [->|]; reflexivity.
      * rewrite F1. apply V.
      * eapply WF_same; [| | | |exact W1]; reflexivity.
      * rewrite PP. eapply F2_ext; [|exact D1]. intros j Hj. rewrite map_fst_pdrop in Hj. apply in_without in Hj. apply Q; tauto.
      * rewrite F2. intros k' j. rewrite t_get_del, in_without.
        destruct (keyb_spec k k') as [<-|NK].
        -- split; [discriminate|]. intros [[Hj NE] [w Ej]]. exfalso. apply NE. rewrite Q in Ej by exact NE.
           eapply tab_fun; [apply V|exact Hj|exact Hi|exact Ej|exact Ei0].
        -- rewrite (f_tab _ _ _ _ V k' j). split.
           ++ intros [Hj [w Ej]]. assert (j <> i) by (intros ->; congruence). rewrite Q by assumption. eauto.
           ++ intros [[Hj NE] [w Ej]]. rewrite Q in Ej by exact NE. eauto.
      * rewrite F4, (f_size _ _ _ _ V). lia.
      * pose proof (f_le _ _ _ _ V). lia.
    + cbn [h set_h]. rewrite <- P. unfold vals. rewrite app_assoc. apply Permutation_app_tail.
      unfold live. subst h3. cbn [next ents log with_size with_table h0].
      pose proof (flat_map_change (fun j => evals (ents (h c) j)) (fun j => evals (upd (ents (h c)) i (Some {| ekey := ekey e; eval := None; eref := eref e |}) j)) i (next (h c)) 0 ltac:(lia)) as PPP.
      cbn beta in PPP. rewrite EE, upd_eq in PPP. cbn [evals app optl] in PPP. rewrite K2 in PPP. cbn [evals eval optl app] in PPP.
      apply Permutation_sym. apply PPP. intros j NE. now rewrite upd_ne.
  - destruct (F2_absent _ _ _ _ _ (f_rel _ _ _ _ V) (f_tab _ _ _ _ V) T) as [E1 E2].
    exists c. unfold answer. rewrite E1, E2. split; [reflexivity|]. split; [exact V|]. split; [apply Permutation_refl|reflexivity].
Qed.

(** *** put *)
Lemma expire_ok c i held L k v :
  Core (h c) (fun j => inq (i :: qof c) j + held j) -> WF c -> ~ In i (qof c) ->
  core (h c) i = Some (k, Some v) -> Forall2 (R (h c)) (pairs (flist c)) L -> L <> [] ->
  tab (table (h c)) (h c) (i :: qof c) ->
  exists c', expire_least c = Ok c' /\ WF c' /\ pairs (flist c') = tl (pairs (flist c)) /\
    Core (h c') (fun j => inq (i :: qof c') j + held j) /\ core (h c') i = Some (k, Some v) /\
    Forall2 (R (h c')) (pairs (flist c')) (tl L) /\ tab (table (h c')) (h c') (i :: qof c') /\
    max_entries (h c') = max_entries (h c) /\ lru_cache_size (h c') = (lru_cache_size (h c) - 1)%Z /\
    next (h c') = next (h c) /\ Permutation (vals (h c)) (vals (h c')).
Proof.
  intros C W NI Ei F NL T.
  pose proof (w_ne _ W) as NE. pose proof (w_q _ W) as NQ.
  destruct (flist c) as [|e r] eqn:EF.
  { inversion F; subst. congruence. }
  inversion NE as [|? ? NEe NEr]; subst.
  destruct (items e) as [|z its] eqn:EI; [congruence|].
  assert (pairs (e :: r) = (z, freq e) :: map (fun j => (j, freq e)) its ++ pairs r) as PE.
  { cbn [pairs flat_map]. unfold pb. rewrite EI. reflexivity. }
  set (P' := map (fun j => (j, freq e)) its ++ pairs r) in *.
  unfold expire_least. rewrite EF, EI.
  destruct (take_out c z [] e r W EF) as (c1 & empty & RO & Hh & W1 & PP); [rewrite EI; left; reflexivity|].
  rewrite RO. cbn [bind]. rewrite Hh.
  rewrite PE in F, NQ. cbn in NQ. inversion NQ as [|? ? Nz NP]; subst.
  inversion F as [|? y ? L0 [A1 A2] F0]; subst. cbn [fst snd] in A1, A2.
  assert (In z (qof c)) as Hz. { unfold qof. rewrite EF, PE. left; reflexivity. }
  assert (qof c = z :: map fst P') as QC by (unfold qof; rewrite EF, PE; reflexivity).
  assert (pairs (flist c1) = P') as PP'.
  { rewrite PP, EF, PE. unfold pdrop. cbn. rewrite Nat.eqb_refl. cbn. apply pdrop_notin. exact Nz. }
  pose proof A1 as A1'. unfold core in A1'. destruct (ents (h c) z) as [en|] eqn:EE; [|discriminate]. injection A1' as K1 K2.
  unfold lfu_release. cbn [set_h h].
  match goal with |- context [release ?x z] => set (h3 := x) end.
  destruct (release_ok h3 (fun j => inq (i :: qof c) j + held j) z (held z)) as (h' & E & FR & C' & CR & P).
  { eapply core_same; [| | |exact C]; reflexivity. }
  { rewrite inq_in by (right; exact Hz). reflexivity. }
  rewrite E. cbn [bind]. destruct FR as (F1 & F2 & F3 & F4 & F5). cbn in F1, F4, F5. change (table h' = t_del (table (h c)) (ekey en)) in F2.
  eexists. split; [reflexivity|]. cbn [h set_h free_b flist]. unfold qof at 1 2. cbn [flist set_h free_b]. rewrite PP', ?EF, PE. cbn [tl].
  assert (i <> z) as NZ by congruence.
  assert (forall j, j <> z -> core h' j = core (h c) j) as QQ. { intros j NEj. rewrite CR by auto. reflexivity. }
  split; [eapply WF_same; [| | | |exact W1]; reflexivity|].
  split; [reflexivity|].
  split.
  { eapply core_ext; [|exact C']. intros j. unfold set_nat. cbn beta. rewrite !inq_cons, QC, inq_cons.
    destruct (Nat.eqb_spec j z) as [->|]; [|reflexivity]. destruct (Nat.eqb_spec z i); [congruence|]. rewrite inq_out by exact Nz. reflexivity. }
  split; [rewrite QQ by exact NZ; exact Ei|].
  split; [eapply F2_ext; [|exact F0]; intros j Hj; apply QQ; congruence|].
  split.
  { rewrite F2, K1. intros k' j. rewrite t_get_del.
    destruct (keyb_spec (kof y) k') as [<-|NK].
    - split; [discriminate|]. intros [Hj [w Ej]]. exfalso.
      assert (j <> z) as NJ by (intros ->; destruct Hj; [congruence|contradiction]).
      apply NJ. rewrite QQ in Ej by exact NJ.
      eapply tab_fun; [exact T| |right; exact Hz|exact Ej|exact A1].
      destruct Hj as [->|Hj]; [left; reflexivity|right]. rewrite QC. right; exact Hj.
    - rewrite (T k' j), QC. split.
      + intros [Hj [w Ej]]. assert (j <> z) as NJ by (intros ->; congruence).
        split; [|exists w; rewrite QQ by exact NJ; exact Ej]. destruct Hj as [->|[Hj|Hj]]; [left; reflexivity|congruence|right; exact Hj].
      + intros [Hj [w Ej]]. assert (j <> z) as NJ by (intros ->; destruct Hj; [congruence|contradiction]).
        rewrite QQ in Ej by exact NJ. split; [|eauto]. destruct Hj as [->|Hj]; [left; reflexivity|right; right; exact Hj]. }
  split; [exact F1|]. split; [exact F4|]. split; [exact F5|].
  eapply Permutation_trans; [|exact P]. apply Permutation_refl.
Qed.

Lemma add_link c i : (0 < max_entries (h c))%Z ->
  add_lfu_cache c i =
    do c0 <- (if (max_entries (h c) <? lru_cache_size (h c) + 1)%Z then expire_least c else Ok c);
    Ok (set_h (link_new c0 i) (with_size (h (link_new c0 i)) (lru_cache_size (h (link_new c0 i)) + 1))).
Proof.
  intros M. unfold add_lfu_cache. destruct (0 <? max_entries (h c))%Z eqn:EZ; [|lia].
  destruct (if (max_entries (h c) <? lru_cache_size (h c) + 1)%Z then expire_least c else Ok c) as [c0| | |]; try reflexivity.
  cbn [bind]. unfold link_new. destruct (flist c0) as [|e r]; [reflexivity|]. destruct (1 <? freq e); reflexivity.
Qed.

Lemma ins_len y L : length (ins y L) = S (length L).
Proof. induction L as [|a L IH]; [reflexivity|]. cbn. destruct (Nat.leb _ _); cbn; [now rewrite IH|reflexivity]. Qed.

Lemma f_add_inv c i held k v L :
  Core (h c) (fun j => inq (i :: qof c) j + held j) ->
  max_entries (h c) = Z.of_nat cap -> WF c -> ~ In i (qof c) ->
  core (h c) i = Some (k, Some v) -> Forall2 (R (h c)) (pairs (flist c)) L ->
  tab (table (h c)) (h c) (i :: qof c) ->
  lru_cache_size (h c) = Z.of_nat (length L) -> length L <= cap ->
  exists c', add_lfu_cache c i = Ok c' /\
    FInv cap c' held (ins (k, v, 1) (if Nat.ltb (length L) cap then L else tl L)) /\
    Permutation (vals (h c)) (vals (h c')) /\ next (h c') = next (h c).
Proof.
  intros C M W NI Ei F T SZ LE. rewrite add_link by lia. rewrite M, SZ.
  assert (forall c0 L0, Core (h c0) (fun j => inq (i :: qof c0) j + held j) -> WF c0 -> ~ In i (qof c0) ->
    core (h c0) i = Some (k, Some v) -> Forall2 (R (h c0)) (pairs (flist c0)) L0 -> tab (table (h c0)) (h c0) (i :: qof c0) ->
    max_entries (h c0) = Z.of_nat cap -> lru_cache_size (h c0) = Z.of_nat (length L0) -> length L0 < cap ->
    FInv cap (set_h (link_new c0 i) (with_size (h (link_new c0 i)) (lru_cache_size (h (link_new c0 i)) + 1))) held (ins (k, v, 1) L0) /\
    vals (h (set_h (link_new c0 i) (with_size (h (link_new c0 i)) (lru_cache_size (h (link_new c0 i)) + 1)))) = vals (h c0) /\
    next (h (set_h (link_new c0 i) (with_size (h (link_new c0 i)) (lru_cache_size (h (link_new c0 i)) + 1)))) = next (h c0)) as AD.
  { clear c C M W NI Ei F T SZ L LE. intros c L C W NI Ei F T M SZ LE.
    destruct (link_new_ok c i W NI) as (Hh & W' & PP). cbn [h set_h]. rewrite Hh.
    split; [|split; reflexivity].
    assert (forall j, In j (i :: qof c) <-> In j (map fst (pairs (flist (link_new c i))))) as QQ.
    { intros j. rewrite PP, in_pins. cbn. fold (qof c). intuition. }
    split; cbn [h set_h flist].
    - unfold qof at 1. cbn [flist set_h]. eapply (core_ext _ (fun j => inq (i :: qof c) j + held j)); [intros j; cbn beta; rewrite (inq_perm _ _ QQ); reflexivity|].
      eapply core_same; [| | |exact C]; reflexivity.
    - exact M.
    - eapply WF_same; [| | | |exact W']; reflexivity.
    - rewrite PP. apply F2_ins; [exact F|]. split; [exact Ei|reflexivity].
    - unfold qof. cbn [flist set_h]. eapply tab_perm; [exact QQ|exact T].
    - cbn. rewrite SZ, ins_len. lia.
    - rewrite ins_len. lia. }
  destruct (Nat.ltb_spec (length L) cap) as [LT|GE].
  - destruct (Z.of_nat cap <? Z.of_nat (length L) + 1)%Z eqn:E1; [lia|]. cbn [bind].
    destruct (AD c L) as (V & P & N); try assumption. eexists. split; [reflexivity|]. split; [exact V|]. split; [rewrite P; apply Permutation_refl|exact N].
  - destruct (Z.of_nat cap <? Z.of_nat (length L) + 1)%Z eqn:E1; [|lia].
    assert (L <> []) as NL. { intros ->. cbn in GE. lia. }
    destruct (expire_ok c i held L k v C W NI Ei F NL T) as (c' & E & W' & PP & C' & Ei' & F' & T' & M' & S' & N' & P').
    rewrite E. cbn [bind]. destruct (AD c' (tl L)) as (V & P & N); try assumption.
    + unfold qof. rewrite PP. intros X. apply NI. unfold qof. destruct (pairs (flist c)); [exact X|right; exact X].
    + congruence.
    + rewrite S', SZ. destruct L; [congruence|]. cbn [tl length]. lia.
    + destruct L; [congruence|]. cbn [tl length] in *. lia.
    + eexists. split; [reflexivity|]. split; [exact V|]. split; [rewrite P; exact P'|congruence].
Qed.

Lemma f_put_inv c held L k v : FInv cap c held L ->
  exists c', lfu_put c k v = Ok (c', true) /\ FInv cap c' held (f_put cap L k v) /\
    Permutation (v :: vals (h c)) (vals (h c')) /\ next (h c') = S (next (h c)).
Proof.
  intros V. unfold lfu_put. rewrite (f_max _ _ _ _ V). destruct (Z.of_nat cap =? 0)%Z eqn:EZ0; [lia|].
  match goal with |- context [with_table ?x _] => set (h0 := x) end.
  set (i := next (h c)) in *.
  pose proof (f_core _ _ _ _ V) as [C1 C2 C3 C4 C5].
  assert (ents (h c) i = None) as NI by (apply C3; unfold i; lia).
  assert (~ In i (qof c)) as NQ.
  { intros H. apply C2 in NI. rewrite inq_in in NI by exact H. lia. }
  assert (held i = 0) as HI. { apply C2 in NI. lia. }
  assert (Core h0 (fun j => inq (i :: qof c) j + held j)) as CC.
  { split; cbn.
    - intros j e H. rewrite inq_cons. destruct (Nat.eqb_spec j i) as [->|NE].
      + rewrite upd_eq in H. injection H as <-. cbn. lia.
      + rewrite upd_ne in H by exact NE. apply C1; exact H.
    - intros j H. rewrite inq_cons. destruct (Nat.eqb_spec j i) as [->|NE].
      + rewrite upd_eq in H. discriminate.
      + rewrite upd_ne in H by exact NE. apply C2; exact H.
    - intros j H. rewrite upd_ne by lia. apply C3. unfold i in H. lia.
    - intros j. rewrite C4. destruct (Nat.eq_dec j i) as [->|NE].
      + rewrite upd_eq. split; [intros [X _]; unfold i in X; lia|intros [_ X]; discriminate].
      + rewrite upd_ne by exact NE. unfold i in *. intuition lia.
    - exact C5. }
  assert (core h0 i = Some (k, Some v)) as Ei by (unfold core, h0; cbn; rewrite upd_eq; reflexivity).
  assert (forall j, j <> i -> core h0 j = core (h c) j) as EJ by (intros; unfold core, h0; cbn; now rewrite upd_ne).
  assert (Permutation (v :: vals (h c)) (vals h0)) as P0.
  { unfold vals. change (log h0) with (log (h c)). rewrite app_comm_cons. apply Permutation_app_tail.
    unfold live. change (next h0) with (S (next (h c))). rewrite seq_S, flat_map_app. cbn [Nat.add flat_map].
    replace (flat_map (fun j => evals (ents h0 j)) (seq 0 (next (h c)))) with (flat_map (fun j => evals (ents (h c) j)) (seq 0 (next (h c)))).
    2:{ apply flat_map_ext_in. intros j Hj. apply in_seq in Hj. unfold h0. cbn. rewrite upd_ne by (unfold i; lia). reflexivity. }
    replace (evals (ents h0 (next (h c)))) with [v] by (unfold h0; cbn; fold i; rewrite upd_eq; reflexivity).
    cbn. apply Permutation_cons_append. }
  change (t_get (table h0) k) with (t_get (table (h c)) k).
  set (h1 := with_table h0 (t_set (table h0) k i)).
  set (c1 := set_head (set_h c h1) i None).
  assert (WF c1) as W1.
  { pose proof (f_wf _ _ _ _ V) as [A B D E F G]. split; cbn [c1 set_head set_h flist fhead nextb bfreed]; try assumption.
    apply Forall_forall. intros b Hb. eapply hd_ok_ext; [|rewrite Forall_forall in G; apply G; exact Hb].
    intros j Hj. cbn. destruct (Nat.eqb_spec j i) as [->|]; [|reflexivity]. exfalso. apply NQ. unfold qof. eapply items_in_pairs; eassumption. }
  unfold f_put.
  destruct (t_get (table (h c)) k) as [p|] eqn:TP.
  - pose proof TP as T0. apply (f_tab _ _ _ _ V) in T0. destruct T0 as (Hp & vp & Ep).
    assert (p <> i) as NP by congruence.
    destruct (F2_drop (h c) p k vp (pairs (flist c)) (w_q _ (f_wf _ _ _ _ V)) Hp Ep) with (L := L) as [D1 (f & D2 & D3)].
    { intros j w Hj Ej. eapply tab_fun; [apply V|exact Hj|exact Hp|exact Ej|exact Ep]. }
    { apply V. }
    pose proof (drop_len _ _ _ _ _ _ V Hp Ep) as LL.
    destruct (in_bucket c p Hp) as (pre & x & post & EF & Hix).
    destruct (take_out c1 p pre x post W1 EF Hix) as (c2 & empty & RO & Hh & W2 & PP).
    rewrite RO. cbn [bind]. unfold lfu_release. cbn [c1 set_head set_h h flist] in Hh, PP. rewrite Hh.
    destruct (release_ok h1 (fun j => inq (i :: qof c) j + held j) p (held p)) as (h2 & E & FR & C' & CR & P).
    { eapply core_same; [| | |exact CC]; reflexivity. }
    { rewrite inq_in by (right; exact Hp). reflexivity. }
    rewrite E. cbn [bind]. destruct FR as (F1 & F2 & F3 & F4 & F5). cbn in F1, F4, F5. change (table h2 = t_set (table (h c)) k i) in F2.
    assert (forall j, j <> p -> j <> i -> core h2 j = core (h c) j) as Q.
    { intros j N1 N2. rewrite CR by auto. change (core h1 j) with (core h0 j). apply EJ; exact N2. }
    assert (core h2 i = Some (k, Some v)) as Ei2 by (rewrite CR by auto; exact Ei).
    cbn [h set_h free_b].
    match goal with |- context [add_lfu_cache ?x i] => set (c3 := x) end.
    assert (qof c3 = without_id p (qof c)) as QE by (unfold qof, c3; cbn [flist set_h free_b]; rewrite PP, map_fst_pdrop; reflexivity).
    destruct (f_add_inv c3 i held k v (drop L k)) as (c' & A1 & A2 & A3 & A4).
    + rewrite QE. cbn [c3 h set_h].
      eapply core_ext; [|eapply core_same; [| | |exact C']; reflexivity]. intros j. unfold set_nat. cbn beta. rewrite !inq_cons, inq_without.
      destruct (Nat.eqb_spec j p) as [->|]; [|reflexivity]. destruct (Nat.eqb_spec p i); [congruence|reflexivity].
    + cbn. exact F1.
    + eapply WF_same; [| | | |exact W2]; reflexivity.
    + rewrite QE, in_without. tauto.
    + exact Ei2.
    + cbn [c3 h set_h flist free_b]. rewrite PP. eapply F2_ext; [|exact D1]. intros j Hj. rewrite map_fst_pdrop in Hj. apply in_without in Hj.
      destruct Hj as [Hj NJ]. apply (Q j NJ). intros ->. apply NQ. exact Hj.
    + rewrite QE. cbn [c3 h set_h with_size table]. rewrite F2. unfold t_set. intros k' j. cbn [t_get]. rewrite t_get_del.
      assert (forall j, core (with_size h2 (lru_cache_size h2 - 1)) j = core h2 j) as CS by reflexivity.
      destruct (keyb_spec k k') as [<-|NK].
      * split.
        -- intros X. injection X as <-. split; [left; reflexivity|]. exists v. exact Ei2.
        -- intros [Hj [w Ej]]. f_equal. destruct Hj as [->|Hj]; [reflexivity|]. exfalso. apply in_without in Hj. destruct Hj as [Hj NE].
           assert (j <> i) as NE2 by congruence. change (core h2 j = Some (k, Some w)) in Ej. rewrite Q in Ej by assumption. apply NE.
           eapply tab_fun; [apply V|exact Hj|exact Hp|exact Ej|exact Ep].
      * rewrite (f_tab _ _ _ _ V k' j). split.
        -- intros [Hj [w Ej]]. assert (j <> p) by (intros ->; congruence). assert (j <> i) by congruence.
           split; [right; apply in_without; auto|]. exists w. change (core h2 j = Some (k', Some w)). rewrite Q by assumption. exact Ej.
        -- intros [[<-|Hj] [w Ej]]; [change (core h2 i = Some (k', Some w)) in Ej; rewrite Ei2 in Ej; congruence|].
           change (core h2 j = Some (k', Some w)) in Ej. apply in_without in Hj. destruct Hj as [Hj NE].
           assert (j <> i) by congruence. rewrite Q in Ej by assumption. eauto.
    + cbn. rewrite F4, (f_size _ _ _ _ V). lia.
    + pose proof (f_le _ _ _ _ V). lia.
    + rewrite A1. cbn [bind]. exists c'. split; [reflexivity|]. split; [exact A2|]. split.
      * eapply Permutation_trans; [exact P0|]. eapply Permutation_trans; [exact P|]. exact A3.
      * rewrite A4. cbn. rewrite F5. reflexivity.
  - cbn [bind].
    destruct (F2_absent _ _ _ _ _ (f_rel _ _ _ _ V) (f_tab _ _ _ _ V) TP) as [E1 E2]. rewrite E2.
    destruct (f_add_inv c1 i held k v L) as (c' & A1 & A2 & A3 & A4); cbn [c1 set_head set_h h flist].
    + change (qof c1) with (qof c). eapply core_same; [| | |exact CC]; reflexivity.
    + reflexivity.
    + exact W1.
    + exact NQ.
    + exact Ei.
    + eapply F2_ext; [|apply V]. intros j Hj. apply EJ. unfold qof in NQ. congruence.
    + change (qof c1) with (qof c). change (table h1) with (t_set (table (h c)) k i). unfold t_set. intros k' j. cbn [t_get]. rewrite t_get_del. change (core h1 j) with (core h0 j).
      destruct (keyb_spec k k') as [<-|NK].
      * split.
        -- intros X. injection X as <-. split; [left; reflexivity|eauto].
        -- intros [Hj [w Ej]]. f_equal. destruct Hj as [->|Hj]; [reflexivity|]. exfalso.
           assert (j <> i) by congruence. rewrite EJ in Ej by assumption.
           assert (t_get (table (h c)) k = Some j) by (apply (f_tab _ _ _ _ V); eauto). congruence.
      * rewrite (f_tab _ _ _ _ V k' j). split.
        -- intros [Hj [w Ej]]. assert (j <> i) by congruence. rewrite EJ by assumption. split; [right; exact Hj|eauto].
        -- intros [[<-|Hj] [w Ej]]; [rewrite Ei in Ej; congruence|]. assert (j <> i) by congruence. rewrite EJ in Ej by assumption. eauto.
    + apply V.
    + apply V.
    + rewrite A1. cbn [bind]. exists c'. split; [reflexivity|]. split; [exact A2|]. split; [|exact A4].
      eapply Permutation_trans; [exact P0|exact A3].
Qed.

(** *** invalidate *)
Lemma drain_items_ok held q l : forall c, NoDup (l ++ q) -> Core (h c) (fun j => inq (l ++ q) j + held j) ->
  exists x, drain_items c l = Ok (set_h c x) /\ Core x (fun j => inq q j + held j) /\
    max_entries x = max_entries (h c) /\ next x = next (h c) /\ Permutation (vals (h c)) (vals x).
Proof.
  induction l as [|i l IH]; intros c ND C; cbn [drain_items].
  - exists (h c). split; [destruct c; reflexivity|]. split; [exact C|]. repeat split; apply Permutation_refl.
  - cbn in ND. inversion ND as [|? ? Hi ND']; subst. unfold lfu_release.
    destruct (release_ok (h c) (fun j => inq (i :: l ++ q) j + held j) i (held i) C) as (x & E & F & C' & CR & P).
    { rewrite inq_in by (left; reflexivity). reflexivity. }
    rewrite E. cbn [bind]. destruct F as (F1 & F2 & F3 & F4 & F5).
    destruct (IH (set_h c x) ND') as (y & H1 & H2 & H3 & H4 & H5).
    { cbn. eapply core_ext; [|exact C']. intros j. unfold set_nat. cbn beta. rewrite inq_cons. destruct (Nat.eqb_spec j i) as [->|]; [|reflexivity].
      rewrite inq_out by exact Hi. reflexivity. }
    exists y. split; [exact H1|]. cbn in *. split; [exact H2|]. split; [congruence|]. split; [congruence|].
    eapply Permutation_trans; [exact P|exact H5].
Qed.

Lemma drain_buckets_ok held l : forall c, NoDup (flat_map items l) -> NoDup (bfreed c ++ map bid l) -> Forall (fun x => x < nextb c) (bfreed c ++ map bid l) ->
  Core (h c) (fun j => inq (flat_map items l) j + held j) ->
  exists c', drain_buckets c l = Ok c' /\ flist c' = [] /\ NoDup (bfreed c') /\ Forall (fun x => x < nextb c') (bfreed c') /\
    Core (h c') held /\ max_entries (h c') = max_entries (h c) /\ next (h c') = next (h c) /\ Permutation (vals (h c)) (vals (h c')).
Proof.
  induction l as [|b l IH]; intros c ND NB LT C; cbn [drain_buckets].
  - eexists. split; [reflexivity|]. cbn in *. rewrite app_nil_r in *. split; [reflexivity|]. split; [exact NB|]. split; [exact LT|]. split; [exact C|]. repeat split; apply Permutation_refl.
  - cbn in ND. destruct (drain_items_ok held (flat_map items l) (items b) c ND C) as (x & H1 & H2 & H3 & H4 & H5).
    rewrite H1. cbn [bind].
    destruct (IH (free_b (set_h c x) (Some (bid b)))) as (c' & G1 & G2 & G3 & G4 & G5 & G6 & G7 & G8).
    + eapply nodup_app_r; exact ND.
    + cbn in *. rewrite <- app_assoc. exact NB.
    + cbn in *. rewrite <- app_assoc. exact LT.
    + exact H2.
    + exists c'. split; [exact G1|]. split; [exact G2|]. split; [exact G3|]. split; [exact G4|]. split; [exact G5|]. cbn in *.
      split; [congruence|]. split; [congruence|]. eapply Permutation_trans; [exact H5|exact G8].
Qed.

Lemma f_invalidate_inv c held L : FInv cap c held L ->
  exists c', lfu_invalidate c = Ok c' /\ FInv cap c' held [] /\ Permutation (vals (h c)) (vals (h c')) /\ next (h c') = next (h c).
Proof.
  intros V. unfold lfu_invalidate. pose proof (f_wf _ _ _ _ V) as W.
  destruct (drain_buckets_ok held (flist c) c) as (c' & H1 & H2 & H3 & H4 & H5 & H6 & H7 & H8).
  - rewrite <- map_fst_pairs. apply W.
  - apply W.
  - apply W.
  - rewrite <- map_fst_pairs. apply V.
  - rewrite H1. cbn [bind]. eexists. split; [reflexivity|]. split; [|split; [exact H8|exact H7]].
    split; cbn [h set_h flist]; unfold qof; cbn [set_h flist]; rewrite ?H2; cbn.
    + eapply core_same; [| | |exact H5]; reflexivity.
    + rewrite H6. apply V.
    + split; cbn; rewrite ?H2; cbn; rewrite ?app_nil_r; try assumption; constructor.
    + constructor.
    + intros k i. cbn. split; [discriminate|intros [[] _]].
    + reflexivity.
    + lia.
Qed.

(** ** Histories *)
Lemma f_step_inv c held L o : FInv cap c held L ->
  lfu_step (c, held) o = Misuse \/
  exists c' held' y, lfu_step (c, held) o = Ok (c', held', y) /\ FInv cap c' held' (fst (f_step cap L o)) /\ obs y = snd (f_step cap L o) /\
    Permutation (put_value o ++ vals (h c)) (removed_value y ++ vals (h c')) /\
    next (h c') = length (put_value o) + next (h c).
Proof.
  intros V. destruct o as [k v|k|i|k|]; cbn [f_step lfu_step fst snd].
  - destruct (f_put_inv c held L k v V) as (c' & E & V' & P & N). right. rewrite E. cbn [bind]. exists c', held, ONone.
    split; [reflexivity|]. split; [exact V'|]. split; [reflexivity|]. split; [exact P|exact N].
  - destruct (f_get_inv c held L k V) as (c' & t & E & V' & HT & P & N). right. rewrite E. cbn [bind].
    exists c', (match t with None => held | Some i => set_nat held i (S (held i)) end), (OGet t (answer L k)).
    split; [destruct t; reflexivity|].
    split; [exact V'|]. split; [reflexivity|]. cbn. rewrite P. split; [apply Permutation_refl|exact N].
  - destruct (held i) as [|n] eqn:H; [left; reflexivity|]. right.
    destruct (f_release c held L i n V H) as (c' & E & V' & P & N). rewrite E. cbn [bind].
    eexists c', _, ONone. split; [reflexivity|]. split; [exact V'|]. split; [reflexivity|]. split; [exact P|exact N].
  - destruct (f_remove_inv c held L k V) as (c' & E & V' & P & N). right. rewrite E. cbn [bind].
    exists c', held, (ORemoved (answer L k)). split; [reflexivity|]. split; [exact V'|]. split; [reflexivity|]. split; [exact P|exact N].
  - destruct (f_invalidate_inv c held L V) as (c' & E & V' & P & N). right. rewrite E. cbn [bind].
    exists c', held, ONone. split; [reflexivity|]. split; [exact V'|]. split; [reflexivity|]. split; [exact P|exact N].
Qed.

Lemma f_run_inv ops : forall c held L, FInv cap c held L ->
  lfu_run (c, held) ops = Misuse \/
  exists c' held' ys, lfu_run (c, held) ops = Ok (c', held', ys) /\ FInv cap c' held' (fst (f_run cap L ops)) /\ map obs ys = snd (f_run cap L ops) /\
    Permutation (put_values ops ++ vals (h c)) (removed_values ys ++ vals (h c')) /\
    next (h c') = length (put_values ops) + next (h c).
Proof.
  induction ops as [|o ops IH]; intros c held L V; cbn [lfu_run f_run].
  - right. exists c, held, []. split; [reflexivity|]. split; [exact V|]. split; [reflexivity|]. split; [apply Permutation_refl|reflexivity].
  - destruct (f_step_inv c held L o V) as [S|(c' & held' & y & S & V' & O & P & N)]; [left; rewrite S; reflexivity|]. rewrite S. cbn [bind].
    destruct (f_step cap L o) as [L1 x]. cbn [fst snd] in *.
    destruct (IH c' held' L1 V') as [M|(c2 & h2 & ys & E2 & V2 & O2 & P2 & N2)]; [left; rewrite M; reflexivity|]. right.
    destruct (f_run cap L1 ops) as [L2 xs]. cbn [fst snd] in *. rewrite E2. cbn [bind].
    exists c2, h2, (y :: ys). split; [reflexivity|]. split; [exact V2|]. split; [cbn; congruence|].
    change (put_values (o :: ops)) with (put_value o ++ put_values ops).
    change (removed_values (y :: ys)) with (removed_value y ++ removed_values ys).
    split.
    + rewrite <- !app_assoc. eapply Permutation_trans; [apply Permutation_app_swap_app|].
      eapply Permutation_trans; [apply Permutation_app_head; exact P|].
      eapply Permutation_trans; [apply Permutation_app_swap_app|].
      apply Permutation_app_head. exact P2.
    + rewrite app_length. lia.
Qed.
End Bounded.

(** ** Facts about the textbook cache *)
Lemma uses_snoc pre o k : uses (pre ++ [o]) k =
  match o with
  | Put k' _ => if keyb k' k then 1 else uses pre k
  | Get k' => if keyb k' k then S (uses pre k) else uses pre k
  | _ => uses pre k
  end.
Proof. unfold uses. rewrite fold_left_app. destruct o; reflexivity. Qed.

Lemma in_ins y L z : In z (ins y L) <-> z = y \/ In z L.
Proof.
  induction L as [|a L IH]; cbn; [intuition|]. destruct (Nat.leb _ _); cbn; [rewrite IH|]; intuition.
Qed.
Lemma ins_perm y L : Permutation (ins y L) (y :: L).
Proof.
  induction L as [|a L IH]; cbn; [apply Permutation_refl|]. destruct (Nat.leb _ _); [|apply Permutation_refl].
  eapply Permutation_trans; [apply perm_skip; exact IH|apply perm_swap].
Qed.
Lemma in_drop L k z : In z (drop L k) <-> In z L /\ kof z <> k.
Proof.
  unfold drop. rewrite filter_In. change keyeqb with keyb. destruct (keyb_spec (kof z) k); cbn; intuition congruence.
Qed.
Lemma look_some L k x : look L k = Some x -> In x L /\ kof x = k.
Proof.
  unfold look. intros H. apply find_some in H. destruct H as [H1 H2]. split; [exact H1|]. change keyeqb with keyb in H2.
  destruct (keyb_spec (kof x) k); congruence.
Qed.
Lemma look_none L k : look L k = None <-> ~ In k (map kof L).
Proof.
  unfold look. split.
  - intros H C. apply in_map_iff in C. destruct C as (x & E & I). apply (find_none _ _ H) in I. change keyeqb with keyb in I. rewrite E, keyb_refl in I. discriminate.
  - intros H. destruct (find _ L) as [x|] eqn:E; [|reflexivity]. destruct (look_some L k x E) as [I J]. exfalso. apply H. apply in_map_iff. eauto.
Qed.

Fixpoint asc (L : list item) : Prop :=
  match L with [] => True | x :: r => (forall y, In y r -> uses_of x <= uses_of y) /\ asc r end.

Record SInv (pre : list op) (L : list item) : Prop := {
  s_nd : NoDup (map kof L);
  s_asc : asc L;
  s_val : forall x, In x L -> last_put pre (kof x) = Some (vof x) /\ uses_of x = uses pre (kof x)
}.

Lemma asc_drop L k : asc L -> asc (drop L k).
Proof.
  unfold drop. induction L as [|a L IH]; cbn; [auto|]. intros [A B]. destruct (negb _); cbn; [|auto]. split; [|auto].
  intros y H. apply filter_In in H. apply A. tauto.
Qed.
Lemma asc_ins y L : asc L -> asc (ins y L).
Proof.
  induction L as [|a L IH]; cbn; [tauto|]. intros [A B]. destruct (Nat.leb_spec (uses_of a) (uses_of y)); cbn.
  - split; [|auto]. intros z H1. apply in_ins in H1. destruct H1 as [->|H1]; auto.
  - split; [|auto]. intros z [<-|H1]; [lia|]. specialize (A z H1). lia.
Qed.
Lemma asc_tl L : asc L -> asc (tl L).
Proof. destruct L; cbn; tauto. Qed.
Lemma nd_drop L k : NoDup (map kof L) -> NoDup (map kof (drop L k)).
Proof.
  unfold drop. induction L as [|a L IH]; cbn; [auto|]. intros H. inversion H; subst. destruct (negb _); cbn; [|auto]. constructor; [|auto].
  intros C. apply in_map_iff in C. destruct C as (z & E & I). apply filter_In in I. apply H2. rewrite <- E. apply in_map. tauto.
Qed.
Lemma nd_tl L : NoDup (map kof L) -> NoDup (map kof (tl L)).
Proof. destruct L; cbn; [auto|]. intros H. now inversion H. Qed.
Lemma nd_ins y L : ~ In (kof y) (map kof L) -> NoDup (map kof L) -> NoDup (map kof (ins y L)).
Proof.
  intros A B. eapply Permutation_NoDup; [apply Permutation_map, Permutation_sym, ins_perm|]. cbn. now constructor.
Qed.
Lemma drop_no L k : ~ In k (map kof (drop L k)).
Proof. intros C. apply in_map_iff in C. destruct C as (z & E & I). apply in_drop in I. tauto. Qed.

Lemma s_step cap pre L o : SInv pre L -> SInv (pre ++ [o]) (fst (f_step cap L o)).
Proof.
  intros [A B C]. destruct o as [k v|k|i|k|]; cbn [f_step fst].
  - unfold f_put. set (L' := if Nat.ltb (length (drop L k)) cap then drop L k else tl (drop L k)).
    assert (forall x, In x L' -> In x (drop L k)) as SUB.
    { unfold L'. destruct (Nat.ltb _ _); [auto|]. intros x. destruct (drop L k); cbn; auto. }
    split.
    + apply nd_ins.
      * cbn. intros X. apply in_map_iff in X. destruct X as (z & E & I). apply SUB, in_drop in I. tauto.
      * unfold L'. destruct (Nat.ltb _ _); [|apply nd_tl]; apply nd_drop; exact A.
    + apply asc_ins. unfold L'. destruct (Nat.ltb _ _); [|apply asc_tl]; apply asc_drop; exact B.
    + intros x H. rewrite last_put_snoc, uses_snoc. apply in_ins in H. destruct H as [->|H].
      * cbn. rewrite keyb_refl. auto.
      * apply SUB, in_drop in H. destruct H as [H NE]. destruct (keyb_spec k (kof x)); [congruence|]. auto.
  - unfold f_get. destruct (look L k) as [x|] eqn:E.
    + destruct (look_some _ _ _ E) as [I K]. split.
      * apply nd_ins; [apply drop_no|apply nd_drop; exact A].
      * apply asc_ins, asc_drop; exact B.
      * intros z H. rewrite last_put_snoc, uses_snoc. apply in_ins in H. destruct H as [->|H].
        -- cbn [kof vof uses_of fst snd]. change (kof (k, vof x, S (uses_of x))) with k. change (vof (k, vof x, S (uses_of x))) with (vof x).
           change (uses_of (k, vof x, S (uses_of x))) with (S (uses_of x)). rewrite keyb_refl. destruct (C x I) as [C1 C2]. rewrite K in *. split; congruence.
        -- apply in_drop in H. destruct H as [H NE]. destruct (keyb_spec k (kof z)); [congruence|]. auto.
    + split; [exact A|exact B|]. intros z H. rewrite last_put_snoc, uses_snoc. destruct (keyb_spec k (kof z)) as [EK|]; [|auto].
      exfalso. apply look_none in E. apply E. rewrite EK. apply in_map. exact H.
  - split; [exact A|exact B|]. intros z H. rewrite last_put_snoc, uses_snoc. auto.
  - split; [apply nd_drop; exact A|apply asc_drop; exact B|]. intros z H. rewrite last_put_snoc, uses_snoc.
    apply in_drop in H. destruct H as [H NE]. destruct (keyb_spec k (kof z)); [congruence|]. auto.
  - split; cbn; [constructor|exact I|intros ? []].
Qed.

Lemma s_run cap ops : forall pre L, SInv pre L -> SInv (pre ++ ops) (fst (f_run cap L ops)).
Proof.
  induction ops as [|o ops IH]; intros pre L V; cbn [f_run].
  - rewrite app_nil_r. exact V.
  - pose proof (s_step cap pre L o V) as V1. destruct (f_step cap L o) as [L1 x]. cbn [fst] in V1.
    specialize (IH (pre ++ [o]) L1 V1). rewrite <- app_assoc in IH. destruct (f_run cap L1 ops). exact IH.
Qed.

(** ** Final statements, bounded mode *)
Lemma lfu_refines cap ops : 0 < cap ->
  lfu_run (lfu_start (Z.of_nat cap)) ops = Misuse \/
  exists c held ys, lfu_run (lfu_start (Z.of_nat cap)) ops = Ok (c, held, ys) /\ map obs ys = snd (f_run cap [] ops).
Proof.
  intros CAP. destruct (f_run_inv cap CAP ops _ _ _ (f_create cap CAP)) as [M|(c & held & ys & E & V & O & _)]; [left; exact M|right].
  exists c, held, ys. auto.
Qed.

Lemma lfu_ok cap ops c held ys : 0 < cap -> lfu_run (lfu_start (Z.of_nat cap)) ops = Ok (c, held, ys) ->
  FInv cap c held (fst (f_run cap [] ops)) /\ SInv ops (fst (f_run cap [] ops)) /\
    Permutation (put_values ops) (removed_values ys ++ vals (h c)) /\ next (h c) = length (put_values ops).
Proof.
  intros CAP E. destruct (f_run_inv cap CAP ops _ _ _ (f_create cap CAP)) as [M|(c' & held' & ys' & E' & V & O & P & N)].
  - unfold lfu_start in E. rewrite M in E. discriminate.
  - unfold lfu_start in E. rewrite E' in E. injection E as <- <- <-. split; [exact V|]. split.
    + apply (s_run cap ops []). split; cbn; [constructor|exact I|intros ? []].
    + cbn in P, N. rewrite app_nil_r in P. split; [exact P|lia].
Qed.

Lemma cached_look cap c held L k : 0 < cap -> FInv cap c held L -> (cached c k <-> In k (map kof L)).
Proof.
  intros CAP V. destruct (f_get_inv cap CAP c held L k V) as (c' & t & E & _ & HT & _). unfold cached. rewrite E.
  split.
  - intros (c2 & t2 & v & X). injection X as _ X _. destruct (in_dec (list_eq_dec N.eq_dec) k (map kof L)) as [|NI]; [assumption|].
    apply look_none in NI. apply HT in NI. congruence.
  - intros I. destruct t as [t|]; [eauto|]. exfalso. assert (look L k = None) as Q by (apply HT; reflexivity). apply look_none in Q. contradiction.
Qed.

Lemma lfu_coherent cap ops k c held ys c' t v : 0 < cap -> lfu_run (lfu_start (Z.of_nat cap)) ops = Ok (c, held, ys) ->
  lfu_get c k None = Ok (c', Some t, v) -> last_put ops k = v /\ v <> None.
Proof.
  intros CAP E G. destruct (lfu_ok _ _ _ _ _ CAP E) as (V & S & _).
  destruct (f_get_inv cap CAP c held _ k V) as (c2 & t2 & E2 & _ & HT & _). rewrite E2 in G. injection G as _ -> G.
  unfold answer in G. destruct (look _ k) as [x|] eqn:EL; [|destruct HT as [_ HT]; specialize (HT eq_refl); discriminate].
  destruct (look_some _ _ _ EL) as [I K]. destruct (s_val _ _ S x I) as [Q _]. rewrite K in Q. cbn in G. subst v. split; [exact Q|discriminate].
Qed.

Lemma lfu_bounded cap ops c held ys ks : 0 < cap -> lfu_run (lfu_start (Z.of_nat cap)) ops = Ok (c, held, ys) ->
  NoDup ks -> (forall k, In k ks <-> cached c k) -> lfu_size c = Z.of_nat (length ks) /\ length ks <= cap.
Proof.
  intros CAP E ND H. destruct (lfu_ok _ _ _ _ _ CAP E) as (V & S & _). set (L := fst (f_run cap [] ops)) in *.
  assert (length ks = length L) as EL.
  { rewrite <- (map_length kof L). apply Nat.le_antisymm; apply NoDup_incl_length; try exact ND; try apply S; intros k Hk.
    - apply (cached_look cap c held L k CAP V). apply H. exact Hk.
    - apply H. apply (cached_look cap c held L k CAP V). exact Hk. }
  unfold lfu_size. rewrite (f_size _ _ _ _ V), EL. split; [reflexivity|apply V].
Qed.

Lemma lfu_keys cap ops c held ys : 0 < cap -> lfu_run (lfu_start (Z.of_nat cap)) ops = Ok (c, held, ys) ->
  exists ks, NoDup ks /\ forall k, In k ks <-> cached c k.
Proof.
  intros CAP E. destruct (lfu_ok _ _ _ _ _ CAP E) as (V & S & _). exists (map kof (fst (f_run cap [] ops))).
  split; [apply S|]. intros k. symmetry. eapply cached_look; eassumption.
Qed.

Lemma lfu_victim cap ops c held ys k v c' b : 0 < cap -> lfu_run (lfu_start (Z.of_nat cap)) ops = Ok (c, held, ys) ->
  lfu_put c k v = Ok (c', b) ->
  b = true /\ cached c' k /\ (forall k', cached c' k' -> k' = k \/ cached c k') /\
  ((~ cached c k /\ lfu_size c = Z.of_nat cap /\
    exists z, cached c z /\ ~ cached c' z /\ forall k', cached c k' -> uses ops z <= uses ops k' /\ (k' <> z -> cached c' k'))
   \/ ((cached c k \/ (lfu_size c < Z.of_nat cap)%Z) /\ forall k', cached c k' -> cached c' k')).
Proof.
  intros CAP E P. destruct (lfu_ok _ _ _ _ _ CAP E) as (V & S & _). set (L := fst (f_run cap [] ops)) in *.
  destruct (f_put_inv cap CAP c held L k v V) as (c2 & E2 & V2 & _). rewrite E2 in P. injection P as <- <-. split; [reflexivity|].
  pose proof (fun x => cached_look cap c held L x CAP V) as H1.
  pose proof (fun x => cached_look cap c2 held _ x CAP V2) as H2.
  unfold lfu_size. rewrite (f_size _ _ _ _ V). unfold f_put in H2.
  assert (forall x L0, In x (map kof (ins (k, v, 1) L0)) <-> x = k \/ In x (map kof L0)) as MI.
  { intros x L0. split; intros H.
    - eapply Permutation_in in H; [|apply Permutation_map, ins_perm]. cbn in H. intuition.
    - eapply Permutation_in; [apply Permutation_map, Permutation_sym, ins_perm|]. cbn. intuition. }
  assert (forall x, In x (map kof (drop L k)) <-> In x (map kof L) /\ x <> k) as MD.
  { intros x. rewrite !in_map_iff. split.
    - intros (z & <- & I). apply in_drop in I. destruct I. split; [eauto|assumption].
    - intros [(z & <- & I) NE]. exists z. split; [reflexivity|]. apply in_drop. auto. }
  assert (length (drop L k) <= length L) as LEN. { unfold drop. clear. induction L as [|a L IH]; cbn; [lia|]. destruct (negb _); cbn; lia. }
  destruct (Nat.ltb_spec (length (drop L k)) cap) as [LT|GE].
  - split; [apply H2, MI; left; reflexivity|]. split.
    + intros x X. apply H2, MI in X. destruct X as [X|X]; [left; exact X|right]. apply H1. apply MD in X. tauto.
    + right. split.
      * destruct (look L k) as [y|] eqn:EL.
        -- left. apply H1. destruct (look_some _ _ _ EL) as [I <-]. apply in_map. exact I.
        -- right. apply look_none in EL. assert (drop L k = L) as DL.
           { clear -EL. unfold drop. induction L as [|a L IH]; [reflexivity|]. cbn in *. change keyeqb with keyb. destruct (keyb_spec (kof a) k); [tauto|]. cbn. f_equal. apply IH. tauto. }
           rewrite DL in LT. lia.
      * intros x X. apply H2, MI. apply H1 in X. destruct (list_eq_dec N.eq_dec x k); [left; assumption|right]. apply MD. auto.
  - pose proof (f_le _ _ _ _ V) as LE.
    assert (drop L k = L) as DL.
    { assert (length (drop L k) = length L) as Q by lia. clear -Q. unfold drop in *.
      assert (forall M : list item, length (filter (fun x : item => negb (keyeqb (kof x) k)) M) <= length M) as LF.
      { clear. induction M as [|a M IH]; cbn; [lia|]. destruct (negb _); cbn; lia. }
      induction L as [|a L IH]; [reflexivity|]. cbn in *. destruct (negb _); cbn in *; [f_equal; apply IH; lia|]. specialize (LF L). lia. }
    rewrite DL in *. destruct L as [|z L']; [cbn in GE; lia|]. cbn [tl] in *.
    pose proof (s_nd _ _ S) as ND. cbn [map] in ND. inversion ND as [|? ? Nz ND']; subst.
    assert (~ In k (map kof (z :: L'))) as NK by (intros X; apply MD in X; tauto).
    split; [apply H2, MI; left; reflexivity|]. split.
    + intros x X. apply H2, MI in X. destruct X as [X|X]; [left; exact X|right]. apply H1. right; exact X.
    + left. split; [intros X; apply H1 in X; contradiction|]. split; [lia|].
      exists (kof z). split; [apply H1; left; reflexivity|]. split.
      * intros X. apply H2, MI in X. destruct X as [X|X]; [|contradiction]. apply NK. left. exact X.
      * intros x X. apply H1 in X. split.
        -- apply in_map_iff in X. destruct X as (y & <- & I). destruct (s_val _ _ S y I) as [_ <-]. destruct (s_val _ _ S z (or_introl eq_refl)) as [_ <-].
           destruct I as [<-|I]; [reflexivity|]. apply (proj1 (s_asc _ _ S)). exact I.
        -- intros NE. apply H2, MI. right. destruct X as [X|X]; [congruence|exact X].
Qed.

Lemma lfu_ownership cap ops c held ys : 0 < cap -> lfu_run (lfu_start (Z.of_nat cap)) ops = Ok (c, held, ys) ->
  Permutation (put_values ops) (removed_values ys ++ live (h c) ++ freedv (log (h c))) /\
  NoDup (map f_id (log (h c))) /\
  forall i, In i (map f_id (log (h c))) <-> (i < length (put_values ops) /\ ~ In i (flat_map items (flist c)) /\ held i = 0).
Proof.
  intros CAP E. destruct (lfu_ok _ _ _ _ _ CAP E) as (V & S & P & N).
  split; [exact P|]. pose proof (f_core _ _ _ _ V) as [C1 C2 C3 C4 C5]. split; [exact C5|].
  intros i. rewrite <- map_fst_pairs. fold (qof c). rewrite C4, N. destruct (ents (h c) i) as [e|] eqn:EE.
  - destruct (C1 i e EE) as [_ R]. split; [intros [_ X]; discriminate|]. intros (_ & Q & H). rewrite inq_out in R by exact Q. lia.
  - pose proof (C2 i EE) as R. split; [intros [A _]; split; [exact A|]; split; [|lia]|tauto].
    intros Q. rewrite inq_in in R by exact Q. lia.
Qed.

Lemma lfu_buckets cap ops c held ys : 0 < cap -> lfu_run (lfu_start (Z.of_nat cap)) ops = Ok (c, held, ys) ->
  NoDup (bfreed c) /\ (forall b, In b (map bid (flist c)) -> ~ In b (bfreed c)) /\
  (forall b, In b (flist c) -> items b <> []) /\ NoDup (map freq (flist c)).
Proof.
  intros CAP E. destruct (lfu_ok _ _ _ _ _ CAP E) as (V & _). pose proof (f_wf _ _ _ _ V) as W.
  pose proof (w_ids _ W) as ND. split; [clear -ND; induction (bfreed c) as [|a l IH]; cbn in ND; [constructor|]; inversion ND; subst; constructor; [intros X; apply H1; apply in_or_app; left; exact X|auto]|]. split; [|split].
  - intros b Hb Hf. revert Hb Hf ND. clear. induction (bfreed c) as [|a l IH]; cbn; [tauto|]. intros Hb Hf ND. inversion ND; subst.
    destruct Hf as [->|Hf]; [|eauto]. apply H1. apply in_or_app. right; exact Hb.
  - pose proof (w_ne _ W) as NE. rewrite Forall_forall in NE. exact NE.
  - pose proof (w_inc _ W) as IN. clear -IN. revert IN. generalize 0. induction (flist c) as [|a l IH]; cbn; intros lo H; [constructor|].
    destruct H as [H1 H2]. constructor; [|eauto]. clear IH H1 lo. intros X.
    assert (forall l lo, incr lo l -> forall f, In f (map freq l) -> lo < f) as Q.
    { clear. induction l as [|b l IH]; cbn; [tauto|]. intros lo [A B] f [<-|H]; [exact A|]. specialize (IH _ B f H). lia. }
    specialize (Q _ _ H2 _ X). lia.
Qed.

(** ** Unlimited mode *)
Lemma sim_step c held o x hl y : (max_entries (h c) < 0)%Z -> queue (h c) = [] -> o <> Invalidate ->
  step (h c, held) o = Ok (x, hl, y) -> exists c', lfu_step (c, held) o = Ok (c', hl, y) /\ h c' = x /\ max_entries x = max_entries (h c) /\ queue x = [].
Proof.
  intros M Q NI S. destruct o as [k v|k|i|k|]; cbn [step lfu_step] in *; [| | | |congruence].
  - unfold put in S. cbn [table] in S. unfold lfu_put. destruct (max_entries (h c) =? 0)%Z eqn:EZ; [lia|].
    cbn [table]. destruct (t_get (table (h c)) k) as [p|].
    + unfold tailq_remove in S. cbn -[t_set] in S. rewrite Q in S. cbn in S. discriminate.
    + cbn [bind] in *. unfold add_lru_cache in S. unfold add_lfu_cache. cbn [h set_head set_h max_entries with_table] in *.
      destruct (0 <? max_entries (h c))%Z eqn:EP; [lia|]. cbn [bind] in *. injection S as <- <- <-.
      eexists. split; [reflexivity|]. split; [reflexivity|]. split; [reflexivity|exact Q].
  - unfold get in S. unfold lfu_get. destruct (max_entries (h c) =? 0)%Z eqn:EZ; [lia|].
    destruct (t_get (table (h c)) k) as [p|].
    + unfold touch in S. unfold lfu_touch. destruct (0 <? max_entries (h c))%Z eqn:EP; [lia|]. cbn [bind] in *.
      destruct (ents (h c) p) as [e|]; [|discriminate]. cbn [bind] in *. injection S as <- <- <-.
      eexists. split; [reflexivity|]. split; [reflexivity|]. split; [reflexivity|exact Q].
    + cbn [bind] in *. injection S as <- <- <-. eexists. split; [reflexivity|]. auto.
  - destruct (held i) as [|n]; [discriminate|]. unfold lfu_release. destruct (release (h c) i) as [x'| | |] eqn:R; try discriminate. cbn [bind] in *.
    injection S as <- <- <-. eexists. split; [reflexivity|]. cbn [h set_h]. split; [reflexivity|].
    unfold release in R. destruct (ents (h c) i) as [e|]; [|discriminate]. destruct (eref e) as [|[|n']]; [discriminate| |]; injection R as <-; auto.
  - unfold remove in S. unfold lfu_remove. destruct (max_entries (h c) =? 0)%Z eqn:EZ; [lia|].
    destruct (t_get (table (h c)) k) as [p|].
    + destruct (0 <? max_entries (h c))%Z eqn:EP; [lia|]. cbn [bind h set_h] in *.
      destruct (ents _ p) as [e|]; [|discriminate]. unfold lfu_release. cbn [h set_h] in *.
      match goal with H : context [release ?a p] |- _ => destruct (release a p) as [x'| | |] eqn:R; try discriminate end.
      cbn [bind] in *. injection S as <- <- <-. eexists. split; [reflexivity|]. cbn [h set_h]. split; [reflexivity|].
      unfold release in R. destruct (ents _ p) as [e'|]; [|discriminate]. destruct (eref e') as [|[|n']]; [discriminate| |]; injection R as <-; auto.
    + cbn [bind] in *. injection S as <- <- <-. eexists. split; [reflexivity|]. auto.
Qed.

Lemma sim_run ops : ~ In Invalidate ops -> forall c held x hl ys, (max_entries (h c) < 0)%Z -> queue (h c) = [] ->
  run (h c, held) ops = Ok (x, hl, ys) -> exists c', lfu_run (c, held) ops = Ok (c', hl, ys) /\ h c' = x /\ (max_entries (h c') < 0)%Z.
Proof.
  induction ops as [|o ops IH]; intros NI c held x hl ys M Q E; cbn [run lfu_run] in *.
  - injection E as <- <- <-. eexists. split; [reflexivity|]. auto.
  - destruct (step (h c, held) o) as [[[x1 h1] y]| | |] eqn:S; try discriminate. cbn [bind] in E.
    destruct (run (x1, h1) ops) as [[[x2 h2] ys2]| | |] eqn:E2; try discriminate. cbn [bind] in E. injection E as <- <- <-.
    destruct (sim_step c held o x1 h1 y M Q) as (c1 & E1 & EH & M1 & Q1); [intros ->; apply NI; left; reflexivity|exact S|].
    rewrite E1. cbn [bind]. subst x1. destruct (IH (fun H => NI (or_intror H)) c1 h1 x2 h2 ys2) as (c2 & F1 & F2 & F3); [lia|exact Q1|exact E2|].
    rewrite F1. cbn [bind]. eauto.
Qed.

Lemma sim_misuse ops : ~ In Invalidate ops -> forall c held, (max_entries (h c) < 0)%Z -> queue (h c) = [] ->
  run (h c, held) ops = Misuse -> lfu_run (c, held) ops = Misuse.
Proof.
  induction ops as [|o ops IH]; intros NI c held M Q E; cbn [run lfu_run] in *; [discriminate|].
  destruct (step (h c, held) o) as [[[x1 h1] y]| | |] eqn:S; try discriminate.
  - cbn [bind] in E. destruct (sim_step c held o x1 h1 y M Q) as (c1 & E1 & EH & M1 & Q1); [intros ->; apply NI; left; reflexivity|exact S|].
    rewrite E1. cbn [bind]. subst x1. rewrite IH; [reflexivity|intros H; apply NI; right; exact H|lia|exact Q1|].
    destruct (run (h c1, h1) ops) as [[[? ?] ?]| | |]; cbn in E; try discriminate E; reflexivity.
  - clear E IH. destruct o as [k v|k|i|k|]; cbn [step lfu_step] in *.
    + exfalso. unfold put in S. cbn [table] in S. destruct (t_get (table (h c)) k) as [p|].
      * unfold tailq_remove in S. cbn -[t_set] in S. rewrite Q in S. cbn in S. discriminate.
      * cbn [bind] in S. unfold add_lru_cache in S. cbn [max_entries with_table] in S. destruct (0 <? max_entries (h c))%Z eqn:EP; [lia|]. discriminate.
    + exfalso. unfold get in S. destruct (t_get (table (h c)) k) as [p|]; [|discriminate]. unfold touch in S. destruct (0 <? max_entries (h c))%Z eqn:EP; [lia|]. cbn [bind] in S.
      destruct (ents (h c) p); discriminate.
    + destruct (held i) as [|n]; [reflexivity|]. exfalso. unfold release in S. destruct (ents (h c) i) as [e|]; [|discriminate]. destruct (eref e) as [|[|]]; discriminate.
    + exfalso. unfold remove in S. destruct (t_get (table (h c)) k) as [p|]; [|discriminate]. destruct (0 <? max_entries (h c))%Z eqn:EP; [lia|]. cbn [bind] in S.
      destruct (ents _ p) as [e|] eqn:EE; [|discriminate]. cbn -[upd] in S. unfold release in S. cbn -[upd] in S. rewrite upd_eq in S. cbn in S. destruct (eref e) as [|[|]]; discriminate.
    + exfalso. apply NI. left; reflexivity.
Qed.

Lemma lfu_unlimited m : (m < 0)%Z -> forall ops,
  (forall a k v b, ops = a ++ Put k v :: b -> last_put a k = None) -> ~ In Invalidate ops ->
  lfu_run (lfu_start m) ops = Misuse \/
  exists c held ys, lfu_run (lfu_start m) ops = Ok (c, held, ys) /\
    (forall k old, exists c' t, lfu_get c k old = Ok (c', t, last_put ops k)) /\
    Permutation (put_values ops) (removed_values ys ++ live (h c) ++ freedv (log (h c))) /\
    NoDup (map f_id (log (h c))).
Proof.
  intros M ops NO NI. destruct (unlimited_map m ltac:(lia) ops NO NI) as [X|(x & held & ys & E & G & P & ND)].
  - left. unfold lfu_start. apply (sim_misuse ops NI); cbn; [exact M|reflexivity|exact X].
  - right. destruct (sim_run ops NI (lfu_create m) (fun _ => 0) x held ys M eq_refl E) as (c & F1 & F2 & F3).
    exists c, held, ys. split; [exact F1|]. subst x. split; [|split; assumption].
    intros k old. destruct (G k) as (c' & t & Gk). unfold get in Gk. unfold lfu_get. destruct (max_entries (h c) =? 0)%Z eqn:EZ; [lia|].
    destruct (t_get (table (h c)) k) as [p|].
    + unfold touch in Gk. unfold lfu_touch. destruct (0 <? max_entries (h c))%Z eqn:EP; [lia|]. cbn [bind] in *.
      destruct (ents (h c) p) as [e|]; [|discriminate]. injection Gk as _ _ <-. eauto.
    + injection Gk as _ _ <-. eauto.
Qed.
