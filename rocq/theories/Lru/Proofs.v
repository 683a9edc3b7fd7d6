From Coq Require Import Arith NArith ZArith List Bool Lia ZifyBool ZifyNat ZifyN Permutation.
From Verif.Lru Require Import Model Spec.
Import ListNotations.

(** ** Generalities *)
Lemma keyb_spec a b : reflect (a = b) (keyb a b).
Proof. unfold keyb. destruct (list_eq_dec N.eq_dec a b); constructor; assumption. Qed.
Lemma keyb_refl a : keyb a a = true.
Proof. destruct (keyb_spec a a); congruence. Qed.
Lemma keyeqb_keyb a b : keyeqb a b = keyb a b.
Proof. reflexivity. Qed.

Definition core (c : lru) (i : nat) : option (key * option value) :=
  match ents c i with Some e => Some (ekey e, eval e) | None => None end.
Definition inj (p : key * value) : option (key * option value) := Some (fst p, Some (snd p)).

Definition vals (c : lru) : list value := live c ++ freedv (log c).

Definition without_id (i : nat) (q : list nat) : list nat := filter (fun j => negb (Nat.eqb j i)) q.

Lemma in_without i j q : In j (without_id i q) <-> In j q /\ j <> i.
Proof. unfold without_id. rewrite filter_In. destruct (Nat.eqb_spec j i); cbn; intuition congruence. Qed.

Lemma without_notin i q : ~ In i q -> without_id i q = q.
Proof.
  unfold without_id. induction q as [|a q IH]; intros H; [reflexivity|]. cbn in *.
  destruct (Nat.eqb_spec a i); [tauto|]. cbn. f_equal. apply IH. tauto.
Qed.

Lemma nodup_without i q : NoDup q -> NoDup (without_id i q).
Proof. apply NoDup_filter. Qed.

Lemma len_without i q : NoDup q -> In i q -> S (length (without_id i q)) = length q.
Proof.
  intros ND. induction ND as [|a q Ha ND IH]; intros H; [destruct H|]. cbn.
  destruct (Nat.eqb_spec a i) as [->|NE]; cbn.
  - f_equal. change (filter (fun j => negb (Nat.eqb j i)) q) with (without_id i q). now rewrite without_notin.
  - f_equal. apply IH. destruct H; [congruence|assumption].
Qed.

Lemma mem_existsb i q : existsb (Nat.eqb i) q = true <-> In i q.
Proof.
  rewrite existsb_exists. split.
  - intros (x & Hx & E). apply Nat.eqb_eq in E. now subst.
  - intros H. exists i. split; [exact H|apply Nat.eqb_refl].
Qed.

Lemma flat_map_ext_in {A B} (f g : A -> list B) l : (forall x, In x l -> f x = g x) -> flat_map f l = flat_map g l.
Proof. induction l as [|a l IH]; intros H; [reflexivity|]. cbn. rewrite H by (left; reflexivity). f_equal. apply IH. intros; apply H; right; assumption. Qed.

(** ** The ownership part *)
Record Core (c : lru) (R : nat -> nat) : Prop := {
  r_ref : forall i e, ents c i = Some e -> eref e = R i /\ 0 < R i;
  r_none : forall i, ents c i = None -> R i = 0;
  r_next : forall i, next c <= i -> ents c i = None;
  r_log : forall i, In i (map f_id (log c)) <-> (i < next c /\ ents c i = None);
  r_nodup : NoDup (map f_id (log c))
}.

Definition set_nat (R : nat -> nat) (i n : nat) : nat -> nat := fun j => if Nat.eqb j i then n else R j.

Lemma flat_map_change (f g : nat -> list value) i n : forall s, s <= i < s + n -> (forall j, j <> i -> f j = g j) ->
  Permutation (f i ++ flat_map g (seq s n)) (g i ++ flat_map f (seq s n)).
Proof.
  induction n as [|n IH]; intros s H E; [lia|]. cbn [seq flat_map].
  destruct (Nat.eq_dec i s) as [->|NE].
  - assert (flat_map g (seq (S s) n) = flat_map f (seq (S s) n)) as ->.
    { apply flat_map_ext_in. intros j Hj. apply in_seq in Hj. symmetry. apply E. lia. }
    rewrite !app_assoc. apply Permutation_app_tail. apply Permutation_app_comm.
  - rewrite <- (E s) by congruence.
    eapply Permutation_trans; [apply Permutation_app_swap_app|].
    eapply Permutation_trans; [|apply Permutation_app_swap_app].
    apply Permutation_app_head. apply IH; [lia|exact E].
Qed.

Lemma freedv_app a b : freedv (a ++ b) = freedv a ++ freedv b.
Proof. apply flat_map_app. Qed.

Lemma upd_eq h i v : upd h i v i = v.
Proof. unfold upd. now rewrite Nat.eqb_refl. Qed.
Lemma upd_ne h i v j : j <> i -> upd h i v j = h j.
Proof. unfold upd. intros. destruct (Nat.eqb_spec j i); congruence. Qed.

(** what [release] leaves alone *)
Definition frame (c c' : lru) : Prop :=
  max_entries c' = max_entries c /\ table c' = table c /\ queue c' = queue c /\
  lru_cache_size c' = lru_cache_size c /\ next c' = next c.

Lemma release_ok c R i n : Core c R -> R i = S n ->
  exists c', release c i = Ok c' /\ frame c c' /\ Core c' (set_nat R i n) /\
    (forall j, j <> i \/ 0 < n -> core c' j = core c j) /\ Permutation (vals c) (vals c').
Proof.
  intros C E. unfold release.
  destruct (ents c i) as [e|] eqn:Ei; [|apply (r_none _ _ C) in Ei; lia].
  destruct (r_ref _ _ C i e Ei) as [ER _].
  assert (i < next c) as Li. { destruct (Nat.le_gt_cases (next c) i) as [G|G]; [apply (r_next _ _ C) in G; congruence|exact G]. }
  rewrite ER, E. destruct n as [|n].
  - eexists. split; [reflexivity|]. split; [repeat split|]. split; [|split].
    + split; cbn.
      * intros j e' H. unfold set_nat. destruct (Nat.eqb_spec j i) as [->|NE]; [rewrite upd_eq in H; discriminate|].
        rewrite upd_ne in H by exact NE. apply (r_ref _ _ C); exact H.
      * intros j H. unfold set_nat. destruct (Nat.eqb_spec j i) as [->|NE]; [reflexivity|].
        rewrite upd_ne in H by exact NE. apply (r_none _ _ C); exact H.
      * intros j H. destruct (Nat.eq_dec j i) as [->|NE]; [apply upd_eq|]. rewrite upd_ne by exact NE. apply (r_next _ _ C); exact H.
      * intros j. rewrite map_app, in_app_iff. cbn. rewrite (r_log _ _ C). destruct (Nat.eq_dec j i) as [->|NE].
        -- rewrite upd_eq. intuition.
        -- rewrite upd_ne by exact NE. intuition congruence.
      * rewrite map_app. cbn. apply (Permutation_NoDup (l := i :: map f_id (log c))).
        -- apply Permutation_cons_append.
        -- constructor; [|apply (r_nodup _ _ C)]. rewrite (r_log _ _ C). intros [_ H]. congruence.
    + intros j [NE|G]; [|lia]. unfold core. cbn. now rewrite upd_ne.
    + unfold vals. cbn [log]. rewrite freedv_app. unfold live. cbn [next ents].
      pose proof (flat_map_change (fun j => evals (ents c j)) (fun j => evals (upd (ents c) i None j)) i (next c) 0 ltac:(lia)) as P.
      cbn beta in P. rewrite Ei, upd_eq in P. cbn [evals app] in P.
      specialize (P ltac:(intros j NE; now rewrite upd_ne)).
      set (A := flat_map (fun j => evals (ents c j)) (seq 0 (next c))) in *.
      set (B := flat_map (fun j => evals (upd (ents c) i None j)) (seq 0 (next c))) in *.
      change (freedv [{| f_id := i; f_val := eval e |}]) with (optl (eval e) ++ []). rewrite app_nil_r.
      eapply Permutation_trans; [apply Permutation_app_tail; apply Permutation_sym; exact P|].
      rewrite <- app_assoc. eapply Permutation_trans; [apply Permutation_app_comm|].
      rewrite <- app_assoc. apply Permutation_refl.
  - eexists. split; [reflexivity|]. split; [repeat split|]. split; [|split].
    + split; cbn.
      * intros j e' H. unfold set_nat. destruct (Nat.eqb_spec j i) as [->|NE].
        -- rewrite upd_eq in H. injection H as <-. cbn. lia.
        -- rewrite upd_ne in H by exact NE. apply (r_ref _ _ C); exact H.
      * intros j H. unfold set_nat. destruct (Nat.eqb_spec j i) as [->|NE]; [rewrite upd_eq in H; discriminate|].
        rewrite upd_ne in H by exact NE. apply (r_none _ _ C); exact H.
      * intros j H. rewrite upd_ne by lia. apply (r_next _ _ C); exact H.
      * intros j. rewrite (r_log _ _ C). destruct (Nat.eq_dec j i) as [->|NE].
        -- rewrite upd_eq, Ei. intuition discriminate.
        -- rewrite upd_ne by exact NE. reflexivity.
      * apply (r_nodup _ _ C).
    + intros j _. unfold core. cbn. destruct (Nat.eq_dec j i) as [->|NE]; [rewrite upd_eq, Ei; reflexivity|now rewrite upd_ne].
    + unfold vals. cbn [log]. apply Permutation_app_tail. unfold live. cbn [next ents].
      match goal with |- Permutation ?a ?b => assert (a = b) as ->; [|apply Permutation_refl] end.
      apply flat_map_ext_in. intros j _.
      destruct (Nat.eq_dec j i) as [->|NE]; [rewrite upd_eq, Ei; reflexivity|now rewrite upd_ne].
Qed.

(** ** Queue, table and abstract content *)
Definition absl (c : lru) (q : list nat) (L : cache) : Prop := map (core c) q = map inj L.

Lemma absl_in c q L i : absl c q L -> In i q -> exists k v, core c i = Some (k, Some v) /\ In (k, v) L.
Proof.
  unfold absl. revert L. induction q as [|a q IH]; intros [|[k v] L] A H; cbn in *; try discriminate; [destruct H|].
  injection A as A1 A2. destruct H as [->|H].
  - exists k, v. auto.
  - destruct (IH L A2 H) as (k' & v' & E & I). exists k', v'. auto.
Qed.

Lemma absl_ex c q L k v : absl c q L -> In (k, v) L -> exists i, In i q /\ core c i = Some (k, Some v).
Proof.
  unfold absl. revert L. induction q as [|a q IH]; intros [|[k' v'] L] A H; cbn in *; try discriminate; [destruct H|].
  injection A as A1 A2. destruct H as [E|H].
  - injection E as -> ->. exists a. auto.
  - destruct (IH L A2 H) as (i & I & E). exists i. auto.
Qed.

Lemma absl_len c q L : absl c q L -> length q = length L.
Proof. unfold absl. intros H. apply (f_equal (@length _)) in H. now rewrite !map_length in H. Qed.

Lemma absl_ext c c' q L : (forall i, In i q -> core c' i = core c i) -> absl c q L -> absl c' q L.
Proof. unfold absl. intros E <-. apply map_ext_in. exact E. Qed.

Lemma absl_rm c p k v q : NoDup q -> In p q -> core c p = Some (k, Some v) ->
  (forall j w, In j q -> core c j = Some (k, Some w) -> j = p) ->
  forall L, absl c q L -> absl c (without_id p q) (without L k) /\ lookup L k = Some v.
Proof.
  intros ND. induction ND as [|a q Ha ND IH]; intros Hp Ep U L A; [destruct Hp|].
  destruct L as [|[k' v'] L]; [discriminate|]. unfold absl in A. cbn in A. injection A as A1 A2.
  unfold lookup. cbn. rewrite keyeqb_keyb. destruct (Nat.eqb_spec a p) as [->|NE].
  - rewrite A1 in Ep. injection Ep as -> ->. rewrite keyb_refl. cbn.
    split; [|reflexivity].
    (* nothing else has that key *)
    assert (without_id p q = q) as W by (now apply without_notin).
    change (filter (fun j => negb (Nat.eqb j p)) q) with (without_id p q). rewrite W.
    assert (filter (fun p0 => negb (keyeqb (fst p0) k)) L = L) as ->; [|exact A2].
    clear IH W Hp. revert L A2. induction q as [|b q IHq]; intros [|[kb vb] L] A2; cbn in *; try discriminate; [reflexivity|].
    injection A2 as B1 B2. rewrite keyeqb_keyb. destruct (keyb_spec kb k) as [->|NK].
    + exfalso. assert (b = p) by (eapply U; [right; left; reflexivity|exact B1]). subst. apply Ha. left; reflexivity.
    + cbn. f_equal. apply IHq; try assumption.
      * intros Hi; apply Ha; right; exact Hi.
      * inversion ND; assumption.
      * intros j w [Hj|Hj] Ej; [|eapply U; [right; right; exact Hj|exact Ej]]. congruence.
  - destruct Hp as [->|Hp]; [congruence|].
    destruct (keyb_spec k' k) as [->|NK].
    + exfalso. apply NE. eapply U; [left; reflexivity|exact A1].
    + cbn. destruct (IH Hp Ep) with (L := L) as [IH1 IH2].
      * intros j w Hj Ej. eapply U; [right; exact Hj|exact Ej].
      * exact A2.
      * split; [|exact IH2]. unfold absl. cbn. rewrite A1. f_equal. exact IH1.
Qed.

Definition inq (q : list nat) (i : nat) : nat := if existsb (Nat.eqb i) q then 1 else 0.

Lemma inq_in q i : In i q -> inq q i = 1.
Proof. unfold inq. intros H. apply mem_existsb in H. now rewrite H. Qed.
Lemma inq_out q i : ~ In i q -> inq q i = 0.
Proof. unfold inq. intros H. rewrite <- mem_existsb in H. destruct (existsb _ _); congruence. Qed.

(** [tab T c q]: the table maps keys to the queue members, as seen in heap [c] *)
Definition tab (t : list (key * nat)) (c : lru) (q : list nat) : Prop :=
  forall k i, t_get t k = Some i <-> (In i q /\ exists v, core c i = Some (k, Some v)).

Lemma tab_fun t c q k i j v w : tab t c q -> In i q -> In j q -> core c i = Some (k, Some v) -> core c j = Some (k, Some w) -> i = j.
Proof.
  intros T Hi Hj Ei Ej. assert (t_get t k = Some i) as A by (apply T; eauto). assert (t_get t k = Some j) as B by (apply T; eauto).
  congruence.
Qed.

Lemma t_get_del t k k' : t_get (t_del t k) k' = if keyb k k' then None else t_get t k'.
Proof.
  unfold t_del. induction t as [|[a i] t IH]; cbn; [destruct (keyb k k'); reflexivity|].
  destruct (keyb_spec a k) as [->|NE]; cbn.
  - rewrite IH. destruct (keyb k k'); reflexivity.
  - rewrite IH. destruct (keyb_spec a k') as [->|]; [|reflexivity].
    destruct (keyb_spec k k'); [congruence|reflexivity].
Qed.

Lemma lookup_none_tab t c q L k : tab t c q -> absl c q L -> t_get t k = None -> lookup L k = None /\ without L k = L.
Proof.
  intros T A E.
  assert (forall p, In p L -> keyeqb (fst p) k = false) as H.
  { intros [k' v] I. cbn. rewrite keyeqb_keyb. destruct (keyb_spec k' k) as [->|]; [|reflexivity]. exfalso.
    destruct (absl_ex _ _ _ _ _ A I) as (i & Hi & Ei).
    assert (t_get t k = Some i) by (apply T; eauto). congruence. }
  clear -H. split.
  - unfold lookup. induction L as [|p L IH]; [reflexivity|]. cbn. rewrite H by (left; reflexivity). apply IH. intros; apply H; right; assumption.
  - unfold without. induction L as [|p L IH]; [reflexivity|]. cbn. rewrite H by (left; reflexivity). cbn. f_equal. apply IH. intros; apply H; right; assumption.
Qed.

Section Bounded.
Variable cap : nat.
Hypothesis CAP : 0 < cap.

Record Inv (c : lru) (held : nat -> nat) (L : cache) (lost : nat) : Prop := {
  v_core : Core c (fun i => inq (queue c) i + held i);
  v_max : max_entries c = Z.of_nat cap;
  v_nd : NoDup (queue c);
  v_abs : absl c (queue c) L;
  v_tab : tab (table c) c (queue c);
  v_size : lru_cache_size c = Z.of_nat (length L + lost);
  v_le : length L + lost <= cap
}.

Lemma core_ext c R R' : (forall i, R i = R' i) -> Core c R -> Core c R'.
Proof.
  intros E [A B C D F]. split; try assumption.
  - intros i e H. rewrite <- E. apply A; exact H.
  - intros i H. rewrite <- E. apply B; exact H.
Qed.

(** a [Core] sees only entries, allocation number and log *)
Lemma core_same c c' R : ents c' = ents c -> next c' = next c -> log c' = log c -> Core c R -> Core c' R.
Proof. intros E1 E2 E3 [A B C D F]. split; rewrite ?E1, ?E2, ?E3; assumption. Qed.

Lemma vals_same c c' : ents c' = ents c -> next c' = next c -> log c' = log c -> vals c' = vals c.
Proof. intros E1 E2 E3. unfold vals, live. now rewrite E1, E2, E3. Qed.

Lemma create_inv : Inv (create (Z.of_nat cap)) (fun _ => 0) [] 0.
Proof.
  split; cbn.
  - split; cbn; try discriminate; try reflexivity; [|constructor]. intros i. split; [tauto|intros [? ?]; lia].
  - reflexivity.
  - constructor.
  - reflexivity.
  - intros k i. cbn. split; [discriminate|intros [[] _]].
  - reflexivity.
  - lia.
Qed.

(** *** client release *)
Lemma release_inv c held L lost i n : Inv c held L lost -> held i = S n ->
  exists c', release c i = Ok c' /\ Inv c' (set_nat held i n) L lost /\ Permutation (vals c) (vals c') /\ next c' = next c.
Proof.
  intros V H. destruct (release_ok c _ i (inq (queue c) i + n) (v_core _ _ _ _ V)) as (c' & E & F & C & CR & P).
  { cbn. rewrite H. lia. }
  exists c'. split; [exact E|]. split; [|split; [exact P|apply F]].
  destruct F as (F1 & F2 & F3 & F4 & F5).
  assert (forall j, In j (queue c) -> core c' j = core c j) as Q.
  { intros j Hj. apply CR. destruct (Nat.eq_dec j i) as [->|]; [right; rewrite inq_in by exact Hj; lia|left; assumption]. }
  split.
  - rewrite F3. eapply core_ext; [|exact C]. intros j. unfold set_nat. destruct (Nat.eqb_spec j i) as [->|]; reflexivity.
  - rewrite F1. apply V.
  - rewrite F3. apply V.
  - rewrite F3. eapply absl_ext; [exact Q|apply V].
  - rewrite F2, F3. intros k j. rewrite (v_tab _ _ _ _ V k j). split; intros [Hj [v Ej]]; (split; [exact Hj|]; exists v); rewrite <- Ej; [|symmetry]; apply Q; exact Hj.
  - rewrite F4. apply V.
  - apply V.
Qed.

(** *** taking an entry out of the queue *)
Definition nq (c : lru) (q : list nat) : lru :=
  {| max_entries := max_entries c; table := table c; queue := q;
     lru_cache_size := lru_cache_size c; ents := ents c; next := next c; log := log c |}.

Lemma tailq_remove_ok c i : In i (queue c) -> tailq_remove c i = Ok (nq c (without_id i (queue c))).
Proof. intros H. unfold tailq_remove. apply mem_existsb in H. now rewrite H. Qed.

Lemma absl_core c c' q L : (forall j, core c' j = core c j) -> absl c q L -> absl c' q L.
Proof. intros H. apply absl_ext. intros; apply H. Qed.

Lemma inq_without q i j : inq (without_id i q) j = if Nat.eqb j i then 0 else inq q j.
Proof.
  destruct (Nat.eqb_spec j i) as [->|NE].
  - apply inq_out. rewrite in_without. tauto.
  - destruct (in_dec Nat.eq_dec j q) as [H|H].
    + rewrite !inq_in; [reflexivity|exact H|]. rewrite in_without; auto.
    + rewrite !inq_out; [reflexivity|exact H|]. rewrite in_without; tauto.
Qed.

Lemma inq_cons q i j : inq (i :: q) j = if Nat.eqb j i then 1 else inq q j.
Proof. unfold inq. cbn. destruct (Nat.eqb j i); reflexivity. Qed.

(** *** get *)
Lemma get_inv c held L lost k : Inv c held L lost ->
  exists c' t, get c k = Ok (c', t, lookup L k) /\
    Inv c' (match t with None => held | Some i => set_nat held i (S (held i)) end) (lru_get L k) lost /\
    (t = None <-> lookup L k = None) /\ vals c' = vals c /\ next c' = next c.
Proof.
  intros V. unfold get. destruct (t_get (table c) k) as [i|] eqn:T.
  - pose proof T as T0. apply (v_tab _ _ _ _ V) in T0. destruct T0 as (Hi & v & Ei).
    unfold touch. rewrite (v_max _ _ _ _ V). destruct (0 <? Z.of_nat cap)%Z eqn:EZ; [|lia].
    rewrite tailq_remove_ok by exact Hi. cbn [bind].
    destruct (absl_rm c i k v (queue c) (v_nd _ _ _ _ V) Hi Ei) with (L := L) as [A1 A2].
    { intros j w Hj Ej. eapply tab_fun; [apply V|exact Hj|exact Hi|exact Ej|exact Ei]. }
    { apply V. }
    cbn [tailq_push nq ents queue table next log max_entries lru_cache_size].
    unfold core in Ei. destruct (ents c i) as [e|] eqn:EE; [|discriminate]. injection Ei as K1 K2.
    rewrite A2, K2. eexists _, (Some i). split; [reflexivity|].
    split; [|split; [split; discriminate|split]]; [| |reflexivity].
    + assert (forall j, core {| max_entries := max_entries c; table := table c; queue := i :: without_id i (queue c); lru_cache_size := lru_cache_size c;
         ents := upd (ents c) i (Some {| ekey := ekey e; eval := Some v; eref := S (eref e) |}); next := next c; log := log c |} j = core c j) as CC.
      { intros j. unfold core. cbn. destruct (Nat.eq_dec j i) as [->|NE]; [rewrite upd_eq, EE; cbn; congruence|now rewrite upd_ne]. }
      assert (forall j, In j (i :: without_id i (queue c)) <-> In j (queue c)) as QQ.
      { intros j. cbn. rewrite in_without. split; [intros [<-|[H _]]; assumption|]. intros H. destruct (Nat.eq_dec j i) as [->|]; auto. }
      assert (lru_get L k = (k, v) :: without L k) as EL by (unfold lru_get; now rewrite A2).
      assert (length (lru_get L k) = length L) as LL.
      { rewrite EL. cbn. rewrite <- (absl_len _ _ _ A1), <- (absl_len _ _ _ (v_abs _ _ _ _ V)).
        apply len_without; [apply V|exact Hi]. }
      split; cbn [ents queue table next log max_entries lru_cache_size].
      * pose proof (v_core _ _ _ _ V) as [C1 C2 C3 C4 C5].
        assert (i < next c) as Li. { destruct (Nat.le_gt_cases (next c) i) as [G|G]; [apply C3 in G; congruence|exact G]. }
        destruct (C1 i e EE) as [R1 R2].
        split; cbn.
        -- intros j e' H. rewrite inq_cons, inq_without. unfold set_nat. destruct (Nat.eqb_spec j i) as [->|NE].
           ++ rewrite upd_eq in H. injection H as <-. cbn. rewrite inq_in in R1 by exact Hi. lia.
           ++ rewrite upd_ne in H by exact NE. apply C1. exact H.
        -- intros j H. rewrite inq_cons, inq_without. unfold set_nat. destruct (Nat.eqb_spec j i) as [->|NE].
           ++ rewrite upd_eq in H. discriminate.
           ++ rewrite upd_ne in H by exact NE. apply C2. exact H.
        -- intros j H. rewrite upd_ne by lia. apply C3; exact H.
        -- intros j. rewrite C4. destruct (Nat.eq_dec j i) as [->|NE]; [rewrite upd_eq, EE; intuition discriminate|now rewrite upd_ne].
        -- exact C5.
      * apply V.
      * constructor; [rewrite in_without; tauto|apply nodup_without; apply V].
      * eapply absl_core; [exact CC|]. rewrite EL. unfold absl. cbn. f_equal; [|exact A1].
        unfold core. rewrite EE. unfold inj. cbn. congruence.
      * intros k' j. rewrite (v_tab _ _ _ _ V k' j), QQ, CC. reflexivity.
      * rewrite LL. apply V.
      * rewrite LL. apply V.
    + unfold vals, live. cbn. f_equal. apply flat_map_ext_in. intros j _.
      destruct (Nat.eq_dec j i) as [->|NE]; [rewrite upd_eq, EE; unfold evals; rewrite K2; reflexivity|now rewrite upd_ne].
  - destruct (lookup_none_tab _ _ _ _ _ (v_tab _ _ _ _ V) (v_abs _ _ _ _ V) T) as [E1 E2].
    exists c, None. unfold lru_get. rewrite E1. split; [reflexivity|]. split; [exact V|]. split; [tauto|]. split; reflexivity.
Qed.

(** *** remove *)
Lemma remove_inv c held L lost k : Inv c held L lost ->
  exists c', remove c k = Ok (c', lookup L k) /\ Inv c' held (without L k) lost /\
    Permutation (vals c) (optl (lookup L k) ++ vals c') /\ next c' = next c.
Proof.
  intros V. unfold remove. destruct (t_get (table c) k) as [i|] eqn:T.
  - pose proof T as T0. apply (v_tab _ _ _ _ V) in T0. destruct T0 as (Hi & v & Ei).
    rewrite (v_max _ _ _ _ V). destruct (0 <? Z.of_nat cap)%Z eqn:EZ; [|lia].
    rewrite tailq_remove_ok by exact Hi. cbn [bind].
    destruct (absl_rm c i k v (queue c) (v_nd _ _ _ _ V) Hi Ei) with (L := L) as [A1 A2].
    { intros j w Hj Ej. eapply tab_fun; [apply V|exact Hj|exact Hi|exact Ej|exact Ei]. }
    { apply V. }
    cbn [with_table with_size nq ents queue table next log max_entries lru_cache_size].
    pose proof Ei as Ei0.
    unfold core in Ei. destruct (ents c i) as [e|] eqn:EE; [|discriminate]. injection Ei as K1 K2.
    rewrite A2, K2.
    match goal with |- context [release ?x i] => set (c3 := x) end.
    pose proof (v_core _ _ _ _ V) as [C1 C2 C3 C4 C5].
    assert (i < next c) as Li. { destruct (Nat.le_gt_cases (next c) i) as [G|G]; [apply C3 in G; congruence|exact G]. }
    assert (Core c3 (fun j => inq (queue c) j + held j)) as CC.
    { destruct (C1 i e EE) as [R1 R2]. split; cbn.
      - intros j e' H. destruct (Nat.eq_dec j i) as [->|NE].
        + rewrite upd_eq in H. injection H as <-. cbn. split; assumption.
        + rewrite upd_ne in H by exact NE. apply C1. exact H.
      - intros j H. destruct (Nat.eq_dec j i) as [->|NE].
        + rewrite upd_eq in H. discriminate.
        + rewrite upd_ne in H by exact NE. apply C2. exact H.
      - intros j H. rewrite upd_ne by lia. apply C3; exact H.
      - intros j. rewrite C4. destruct (Nat.eq_dec j i) as [->|NE]; [rewrite upd_eq, EE; intuition discriminate|now rewrite upd_ne].
      - exact C5. }
    destruct (release_ok c3 _ i (held i) CC) as (c' & E & F & C' & CR & P).
    { rewrite inq_in by exact Hi. reflexivity. }
    rewrite E. cbn [bind]. exists c'. split; [reflexivity|].
    destruct F as (F1 & F2 & F3 & F4 & F5). cbn in F1, F2, F3, F4, F5.
    assert (forall j, j <> i -> core c' j = core c j) as Q.
    { intros j NE. rewrite CR by auto. unfold core. cbn. now rewrite upd_ne. }
    assert (S (length (without L k)) = length L) as LL.
    { rewrite <- (absl_len _ _ _ A1), <- (absl_len _ _ _ (v_abs _ _ _ _ V)). apply len_without; [apply V|exact Hi]. }
    split; [|split; [|exact F5]].
    + split.
      * rewrite F3. eapply core_ext; [|exact C']. intros j. rewrite inq_without. unfold set_nat. destruct (Nat.eqb_spec j i) as [->|]; reflexivity.
      * rewrite F1. apply V.
      * rewrite F3. apply nodup_without, V.
      * rewrite F3. eapply absl_ext; [|exact A1]. intros j Hj. apply in_without in Hj. apply Q; tauto.
      * rewrite F2, F3. intros k' j. rewrite t_get_del, in_without.
        destruct (keyb_spec k k') as [<-|NK].
        -- split; [discriminate|]. intros [[Hj NE] [w Ej]]. exfalso. apply NE. rewrite Q in Ej by exact NE.
           eapply tab_fun; [apply V|exact Hj|exact Hi|exact Ej|exact Ei0].
        -- rewrite (v_tab _ _ _ _ V k' j). split.
           ++ intros [Hj [w Ej]]. assert (j <> i) by (intros ->; congruence). rewrite Q by assumption. eauto.
           ++ intros [[Hj NE] [w Ej]]. rewrite Q in Ej by exact NE. eauto.
      * rewrite F4, (v_size _ _ _ _ V). lia.
      * pose proof (v_le _ _ _ _ V). lia.
    + rewrite <- P. unfold vals. rewrite app_assoc. apply Permutation_app_tail.
      unfold live. subst c3. cbn [next ents log].
      match type of EE with ?a = _ => idtac end.
      pose proof (flat_map_change (fun j => evals (ents c j)) (fun j => evals (upd (ents c) i (Some {| ekey := ekey e; eval := None; eref := eref e |}) j)) i (next c) 0 ltac:(lia)) as PP.
      cbn beta in PP. rewrite EE, upd_eq in PP. cbn [evals app optl] in PP. rewrite K2 in PP. cbn [evals eval optl app] in PP.
      apply Permutation_sym. apply PP. intros j NE. now rewrite upd_ne.
  - destruct (lookup_none_tab _ _ _ _ _ (v_tab _ _ _ _ V) (v_abs _ _ _ _ V) T) as [E1 E2].
    exists c. rewrite E1, E2. split; [reflexivity|]. split; [exact V|]. split; [apply Permutation_refl|reflexivity].
Qed.

(** *** put *)
Lemma add_inv c i held k v L lost :
  Core c (fun j => inq (i :: queue c) j + held j) ->
  max_entries c = Z.of_nat cap -> NoDup (i :: queue c) -> absl c (i :: queue c) ((k, v) :: L) ->
  tab (table c) c (i :: queue c) -> lru_cache_size c = Z.of_nat (length L + lost) -> length L + lost <= cap ->
  match (if Nat.ltb (length L + lost) cap then Some ((k, v) :: L)
         else match L with [] => None | _ => Some ((k, v) :: removelast L) end) with
  | None => add_lru_cache c i = Crash
  | Some L' => exists c', add_lru_cache c i = Ok c' /\ Inv c' held L' lost /\ Permutation (vals c) (vals c') /\ next c' = next c
  end.
Proof.
  intros C M ND A T SZ LE. unfold add_lru_cache. rewrite M. destruct (0 <? Z.of_nat cap)%Z eqn:EZ; [|lia]. rewrite SZ.
  destruct (Nat.ltb_spec (length L + lost) cap) as [LT|GE].
  - destruct (Z.of_nat cap <? Z.of_nat (length L + lost) + 1)%Z eqn:E1; [lia|]. cbn [bind].
    eexists. split; [reflexivity|]. split; [|split; [apply Permutation_refl|reflexivity]].
    split; cbn.
    + eapply core_same; [| | |exact C]; reflexivity.
    + exact M.
    + exact ND.
    + exact A.
    + exact T.
    + rewrite SZ. lia.
    + lia.
  - destruct (Z.of_nat cap <? Z.of_nat (length L + lost) + 1)%Z eqn:E1; [|lia].
    unfold expire_oldest, tailq_last.
    assert (absl c (queue c) L) as A'. { unfold absl in *. cbn in A. injection A as _ A. exact A. }
    destruct (rev (queue c)) as [|z r] eqn:RV.
    + assert (queue c = []) as Q0. { rewrite <- (rev_involutive (queue c)), RV. reflexivity. }
      apply absl_len in A'. rewrite Q0 in A'. destruct L; [reflexivity|discriminate].
    + set (q0 := rev r).
      assert (queue c = q0 ++ [z]) as Q. { rewrite <- (rev_involutive (queue c)), RV. reflexivity. }
      assert (In z (queue c)) as Hz. { rewrite Q, in_app_iff; right; left; reflexivity. }
      assert (exists L0 kz vz, L = L0 ++ [(kz, vz)] /\ absl c q0 L0 /\ core c z = Some (kz, Some vz)) as (L0 & kz & vz & EL & A0 & Ez).
      { pose proof (absl_len _ _ _ A') as LL. rewrite Q, app_length in LL. cbn in LL.
        destruct (exists_last (l := L)) as (L0 & (kz, vz) & ->); [intros ->; cbn in LL; lia|].
        exists L0, kz, vz. split; [reflexivity|]. unfold absl in A'. rewrite Q, !map_app in A'. cbn in A'.
        apply app_inj_tail in A'. destruct A' as [X Y]. split; [exact X|exact Y]. }
      assert (match L with [] => None | _ :: _ => Some ((k, v) :: removelast L) end = Some ((k, v) :: L0)) as ->.
      { subst L. rewrite removelast_app by discriminate. cbn [removelast]. rewrite app_nil_r. destruct L0; reflexivity. }
      assert (NoDup (queue c)) as ND' by (inversion ND; assumption).
      assert (~ In i (queue c)) as NI by (inversion ND; assumption).
      assert (without_id z (queue c) = q0) as W.
      { rewrite Q. unfold without_id. rewrite filter_app. cbn. rewrite Nat.eqb_refl. cbn. rewrite app_nil_r.
        apply without_notin. rewrite Q in ND'. apply NoDup_remove_2 in ND'. rewrite app_nil_r in ND'. exact ND'. }
      assert (core c i = Some (k, Some v)) as Ei. { unfold absl in A. cbn in A. injection A as A _. exact A. }
      destruct (ents c z) as [e|] eqn:EE; [|unfold core in Ez; rewrite EE in Ez; discriminate].
      assert (ekey e = kz) as KZ by (unfold core in Ez; rewrite EE in Ez; congruence).
      rewrite tailq_remove_ok by exact Hz. cbn [bind]. rewrite W.
      match goal with |- context [release ?x z] => set (c3 := x) end.
      destruct (release_ok c3 (fun j => inq (i :: queue c) j + held j) z (held z)) as (c' & E & F & C' & CR & P).
      { eapply core_same; [| | |exact C]; reflexivity. }
      { rewrite inq_in by (right; exact Hz). reflexivity. }
      rewrite E. cbn [bind]. destruct F as (F1 & F2 & F3 & F4 & F5). cbn in F1, F2, F3, F4, F5.
      eexists. split; [reflexivity|]. split; [|split].
      * assert (i <> z) as NZ by congruence.
        assert (forall j, j <> z -> core c' j = core c j) as QQ.
        { intros j NE. rewrite CR by auto. reflexivity. }
        assert (~ In z q0) as NZ0 by (rewrite <- W, in_without; tauto).
        split; cbn.
        -- rewrite F3. eapply (core_same c'); [reflexivity|reflexivity|reflexivity|]. eapply core_ext; [|exact C'].
           intros j. unfold set_nat. cbn beta. rewrite !inq_cons. rewrite <- W, inq_without.
           destruct (Nat.eqb_spec j z) as [->|]; [|reflexivity].
           destruct (Nat.eqb_spec z i); [congruence|reflexivity].
        -- congruence.
        -- rewrite F3. constructor; [rewrite <- W, in_without; tauto|]. rewrite <- W. apply nodup_without, ND'.
        -- rewrite F3. unfold absl. cbn. change (core c' i :: map (core c') q0 = inj (k, v) :: map inj L0). rewrite QQ by exact NZ. rewrite Ei. unfold inj at 1. cbn. f_equal.
           eapply absl_ext; [|exact A0]. intros j Hj. apply QQ. congruence.
        -- change (table c' = t_del (table c) (ekey e)) in F2. rewrite F2, F3, KZ. intros k' j. rewrite t_get_del.
           change (core (with_size (tailq_push c' i) (lru_cache_size (tailq_push c' i) + 1)) j) with (core c' j).
           destruct (keyb_spec kz k') as [<-|NK].
           ++ split; [discriminate|]. intros [Hj [w Ej]]. change (core c' j = Some (kz, Some w)) in Ej. exfalso.
              assert (j <> z) as NJ by (intros ->; destruct Hj; [congruence|contradiction]).
              apply NJ. rewrite QQ in Ej by exact NJ.
              eapply tab_fun; [exact T| |right; exact Hz|exact Ej|exact Ez].
              destruct Hj as [->|Hj]; [left; reflexivity|right]. rewrite Q, in_app_iff. auto.
           ++ rewrite (T k' j). split.
              ** intros [Hj [w Ej]]. assert (j <> z) as NJ by (intros ->; congruence). 
                 split; [|exists w; rewrite <- Ej; apply QQ; exact NJ]. destruct Hj as [->|Hj]; [left; reflexivity|right].
                 rewrite Q, in_app_iff in Hj. destruct Hj as [Hj|[Hj|[]]]; [exact Hj|congruence].
              ** intros [Hj [w Ej]]. change (core c' j = Some (k', Some w)) in Ej. assert (j <> z) as NJ by (intros ->; destruct Hj; [congruence|contradiction]).
                 rewrite QQ in Ej by exact NJ. split; [|eauto]. destruct Hj as [->|Hj]; [left; reflexivity|right].
                 rewrite Q, in_app_iff. auto.
        -- rewrite F4, SZ. rewrite EL, app_length. cbn. lia.
        -- rewrite EL, app_length in LE. cbn in *. lia.
      * eapply Permutation_trans; [|exact P]. apply Permutation_refl.
      * exact F5.
Qed.

Lemma put_inv c held L lost k v : Inv c held L lost ->
  match leaky_put cap lost L k v with
  | None => put c k v = Crash
  | Some (L', lost') => exists c', put c k v = Ok c' /\ Inv c' held L' lost' /\
      Permutation (v :: vals c) (vals c') /\ next c' = S (next c)
  end.
Proof.
  intros V. unfold put.
  match goal with |- context [with_table ?x _] => set (c0 := x) end.
  set (i := next c) in *.
  pose proof (v_core _ _ _ _ V) as [C1 C2 C3 C4 C5].
  assert (ents c i = None) as NI by (apply C3; unfold i; lia).
  assert (~ In i (queue c)) as NQ.
  { intros H. destruct (absl_in _ _ _ _ (v_abs _ _ _ _ V) H) as (k' & v' & E & _). unfold core in E. rewrite NI in E. discriminate. }
  assert (held i = 0) as HI. { apply C2 in NI. lia. }
  assert (Core c0 (fun j => inq (i :: queue c) j + held j)) as CC.
  { split; cbn.
    - intros j e H. rewrite inq_cons. destruct (Nat.eqb_spec j i) as [->|NE].
      + rewrite upd_eq in H. injection H as <-. cbn. lia.
      + rewrite upd_ne in H by exact NE. apply C1; exact H.
    - intros j H. rewrite inq_cons. destruct (Nat.eqb_spec j i) as [->|NE].
      + rewrite upd_eq in H. discriminate.
      + rewrite upd_ne in H by exact NE. apply C2; exact H.
    - intros j H. rewrite upd_ne by lia. apply C3. unfold i in H. lia.
    - intros j. rewrite C4. destruct (Nat.eq_dec j i) as [->|NE].
      + rewrite upd_eq. split; [intros [X _]; unfold i in X; lia|intros [_ X]; discriminate].
      + rewrite upd_ne by exact NE. unfold i in *. intuition lia.
    - exact C5. }
  assert (core c0 i = Some (k, Some v)) as Ei by (unfold core, c0; cbn; rewrite upd_eq; reflexivity).
  assert (forall j, j <> i -> core c0 j = core c j) as EJ by (intros; unfold core, c0; cbn; now rewrite upd_ne).
  assert (Permutation (v :: vals c) (vals c0)) as P0.
  { unfold vals. change (log c0) with (log c). rewrite app_comm_cons. apply Permutation_app_tail.
    unfold live. change (next c0) with (S (next c)). rewrite seq_S, flat_map_app. cbn [Nat.add flat_map].
    replace (flat_map (fun j => evals (ents c0 j)) (seq 0 (next c))) with (flat_map (fun j => evals (ents c j)) (seq 0 (next c))).
    2:{ apply flat_map_ext_in. intros j Hj. apply in_seq in Hj. unfold c0. cbn. rewrite upd_ne by (unfold i; lia). reflexivity. }
    replace (evals (ents c0 (next c))) with [v] by (unfold c0; cbn; fold i; rewrite upd_eq; reflexivity).
    cbn. apply Permutation_cons_append. }
  change (t_get (table c0) k) with (t_get (table c) k).
  destruct (t_get (table c) k) as [p|] eqn:TP.
  - (* overwriting *)
    pose proof TP as T0. apply (v_tab _ _ _ _ V) in T0. destruct T0 as (Hp & vp & Ep).
    assert (p <> i) as NP by congruence.
    destruct (absl_rm c p k vp (queue c) (v_nd _ _ _ _ V) Hp Ep) with (L := L) as [A1 A2].
    { intros j w Hj Ej. eapply tab_fun; [apply V|exact Hj|exact Hp|exact Ej|exact Ep]. }
    { apply V. }
    rewrite tailq_remove_ok by exact Hp. cbn [bind].
    match goal with |- context [release ?x p] => set (c1 := x) end.
    change (queue (with_table c0 (t_set (table c0) k i))) with (queue c) in c1.
    destruct (release_ok c1 (fun j => inq (i :: queue c) j + held j) p (held p)) as (c2 & E & F & C' & CR & P).
    { eapply core_same; [| | |exact CC]; reflexivity. }
    { rewrite inq_in by (right; exact Hp). reflexivity. }
    rewrite E. cbn [bind]. destruct F as (F1 & F2 & F3 & F4 & F5). cbn in F1, F2, F3, F4, F5.
    assert (forall j, j <> p -> j <> i -> core c2 j = core c j) as Q.
    { intros j N1 N2. rewrite CR by auto. change (core c1 j) with (core c0 j). apply EJ; exact N2. }
    assert (core c2 i = Some (k, Some v)) as Ei2 by (rewrite CR by auto; exact Ei).
    assert (S (length (without L k)) = length L) as LL.
    { rewrite <- (absl_len _ _ _ A1), <- (absl_len _ _ _ (v_abs _ _ _ _ V)). apply len_without; [apply V|exact Hp]. }
    pose proof (add_inv c2 i held k v (without L k) (S lost)) as AI.
    unfold leaky_put. rewrite A2.
    assert (match (if length (without L k) + S lost <? cap then Some ((k, v) :: without L k)
         else match without L k with [] => None | _ :: _ => Some ((k, v) :: removelast (without L k)) end) with
      | Some L' => exists c', add_lru_cache c2 i = Ok c' /\ Inv c' held L' (S lost) /\ Permutation (vals c2) (vals c') /\ next c' = next c2
      | None => add_lru_cache c2 i = Crash end) as AR.
    { apply AI.
      - rewrite F3. eapply core_ext; [|exact C']. intros j. unfold set_nat. cbn beta. rewrite !inq_cons, inq_without.
        destruct (Nat.eqb_spec j p) as [->|]; [|reflexivity]. destruct (Nat.eqb_spec p i); [congruence|reflexivity].
      - rewrite F1. apply V.
      - rewrite F3. constructor; [rewrite in_without; tauto|]. apply nodup_without, V.
      - rewrite F3. unfold absl. cbn. change (core c2 i :: map (core c2) (without_id p (queue c)) = inj (k, v) :: map inj (without L k)).
        rewrite Ei2. unfold inj at 1. cbn. f_equal. eapply absl_ext; [|exact A1]. intros j Hj. apply in_without in Hj.
        apply Q; [tauto|]. intros ->. tauto.
      - change (table c2 = t_set (table c) k i) in F2. rewrite F2, F3. unfold t_set. intros k' j. cbn [t_get]. rewrite t_get_del.
        destruct (keyb_spec k k') as [<-|NK].
        + split.
          * intros X. injection X as <-. split; [left; reflexivity|eauto].
          * intros [Hj [w Ej]]. f_equal. destruct Hj as [->|Hj]; [reflexivity|]. exfalso. apply in_without in Hj. destruct Hj as [Hj NE].
            assert (j <> i) as NE2 by congruence. rewrite Q in Ej by assumption. apply NE.
            eapply tab_fun; [apply V|exact Hj|exact Hp|exact Ej|exact Ep].
        + rewrite (v_tab _ _ _ _ V k' j). split.
          * intros [Hj [w Ej]]. assert (j <> p) by (intros ->; congruence). assert (j <> i) by congruence. rewrite Q by assumption.
            split; [right; apply in_without; auto|eauto].
          * intros [[<-|Hj] [w Ej]]; [rewrite Ei2 in Ej; congruence|]. apply in_without in Hj. destruct Hj as [Hj NE].
            assert (j <> i) by congruence. rewrite Q in Ej by assumption. eauto.
      - rewrite F4, (v_size _ _ _ _ V). lia.
      - pose proof (v_le _ _ _ _ V). lia. }
    assert (Permutation (v :: vals c) (vals c2)) as P2. { eapply Permutation_trans; [exact P0|exact P]. }
    destruct (length (without L k) + S lost <? cap).
    + destruct AR as (c' & H1 & H2 & H3 & H4). exists c'. split; [exact H1|]. split; [exact H2|]. split; [eapply Permutation_trans; [exact P2|exact H3]|]. rewrite H4, F5. reflexivity.
    + destruct (without L k) as [|x L']; [exact AR|].
      destruct AR as (c' & H1 & H2 & H3 & H4). exists c'. split; [exact H1|]. split; [exact H2|]. split; [eapply Permutation_trans; [exact P2|exact H3]|]. rewrite H4, F5. reflexivity.
  - (* new key *)
    cbn [bind].
    destruct (lookup_none_tab _ _ _ _ _ (v_tab _ _ _ _ V) (v_abs _ _ _ _ V) TP) as [E1 E2].
    set (c2 := with_table c0 (t_set (table c0) k i)).
    pose proof (add_inv c2 i held k v L lost) as AI.
    unfold leaky_put. rewrite E1, E2.
    assert (match (if length L + lost <? cap then Some ((k, v) :: L)
         else match L with [] => None | _ :: _ => Some ((k, v) :: removelast L) end) with
      | Some L' => exists c', add_lru_cache c2 i = Ok c' /\ Inv c' held L' lost /\ Permutation (vals c2) (vals c') /\ next c' = next c2
      | None => add_lru_cache c2 i = Crash end) as AR.
    { apply AI; cbn [c2 with_table c0 queue table max_entries lru_cache_size].
      - eapply core_same; [| | |exact CC]; reflexivity.
      - apply V.
      - constructor; [exact NQ|apply V].
      - unfold absl. cbn. change (core c0 i :: map (core c0) (queue c) = inj (k, v) :: map inj L).
        rewrite Ei. unfold inj at 1. cbn. f_equal. eapply absl_ext; [|apply V]. intros j Hj. apply EJ. congruence.
      - unfold t_set. intros k' j. cbn [t_get]. rewrite t_get_del. change (core c2 j) with (core c0 j).
        destruct (keyb_spec k k') as [<-|NK].
        + split.
          * intros X. injection X as <-. split; [left; reflexivity|eauto].
          * intros [Hj [w Ej]]. f_equal. destruct Hj as [->|Hj]; [reflexivity|]. exfalso.
            assert (j <> i) by congruence. rewrite EJ in Ej by assumption.
            assert (t_get (table c) k = Some j) by (apply (v_tab _ _ _ _ V); eauto). congruence.
        + rewrite (v_tab _ _ _ _ V k' j). split.
          * intros [Hj [w Ej]]. assert (j <> i) by congruence. rewrite EJ by assumption. split; [right; exact Hj|eauto].
          * intros [[<-|Hj] [w Ej]]; [rewrite Ei in Ej; congruence|]. assert (j <> i) by congruence. rewrite EJ in Ej by assumption. eauto.
      - apply V.
      - apply V. }
    assert (Permutation (v :: vals c) (vals c2)) as P2 by exact P0.
    destruct (length L + lost <? cap).
    + destruct AR as (c' & H1 & H2 & H3 & H4). exists c'. split; [exact H1|]. split; [exact H2|]. split; [eapply Permutation_trans; [exact P2|exact H3]|]. rewrite H4. reflexivity.
    + destruct L as [|x L']; [exact AR|].
      destruct AR as (c' & H1 & H2 & H3 & H4). exists c'. split; [exact H1|]. split; [exact H2|]. split; [eapply Permutation_trans; [exact P2|exact H3]|]. rewrite H4. reflexivity.
Qed.

(** *** invalidate *)
Lemma drain_inv held qs : forall c, NoDup qs -> queue c = qs ->
  Core c (fun j => inq qs j + held j) ->
  exists c', drain c qs = Ok c' /\ queue c' = [] /\ Core c' held /\ max_entries c' = max_entries c /\ next c' = next c /\
    Permutation (vals c) (vals c').
Proof.
  induction qs as [|i qs IH]; intros c ND Q C; cbn [drain].
  - exists c. split; [reflexivity|]. split; [exact Q|]. split; [exact C|]. repeat split; apply Permutation_refl.
  - inversion ND as [|? ? Hi ND']; subst.
    rewrite tailq_remove_ok by (rewrite Q; left; reflexivity). cbn [bind]. rewrite Q.
    assert (without_id i (i :: qs) = qs) as ->.
    { unfold without_id. cbn. rewrite Nat.eqb_refl. cbn. now apply without_notin. }
    destruct (release_ok (nq c qs) (fun j => inq (i :: qs) j + held j) i (held i)) as (c1 & E & F & C' & CR & P).
    { eapply core_same; [| | |exact C]; reflexivity. }
    { rewrite inq_in by (left; reflexivity). reflexivity. }
    rewrite E. cbn [bind]. destruct F as (F1 & F2 & F3 & F4 & F5). cbn in F1, F3, F5.
    destruct (IH c1 ND' F3) as (c' & H1 & H2 & H3 & H4 & H5 & H6).
    { eapply core_ext; [|exact C']. intros j. unfold set_nat. cbn beta. rewrite inq_cons. destruct (Nat.eqb_spec j i) as [->|]; [|reflexivity].
      rewrite inq_out by exact Hi. reflexivity. }
    exists c'. split; [exact H1|]. split; [exact H2|]. split; [exact H3|]. split; [congruence|]. split; [congruence|].
    eapply Permutation_trans; [exact P|exact H6].
Qed.

Lemma invalidate_inv c held L lost : Inv c held L lost ->
  exists c', invalidate c = Ok c' /\ Inv c' held [] 0 /\ Permutation (vals c) (vals c') /\ next c' = next c.
Proof.
  intros V. unfold invalidate.
  destruct (drain_inv held (queue c) c (v_nd _ _ _ _ V) eq_refl (v_core _ _ _ _ V)) as (c' & H1 & H2 & H3 & H4 & H5 & H6).
  rewrite H1. cbn [bind]. eexists. split; [reflexivity|]. split; [|split; [exact H6|exact H5]].
  split; cbn.
  - rewrite H2. eapply core_same; [| | |exact H3]; reflexivity.
  - rewrite H4. apply V.
  - rewrite H2. constructor.
  - rewrite H2. reflexivity.
  - intros k i. cbn. rewrite H2. split; [discriminate|intros [[] _]].
  - reflexivity.
  - lia.
Qed.


(** ** Histories *)
Lemma step_inv c held L lost o : Inv c held L lost ->
  match spec_step cap L lost o with
  | None => step (c, held) o = Crash
  | Some (L', lost', x) =>
      step (c, held) o = Misuse \/
      exists c' held' y, step (c, held) o = Ok (c', held', y) /\ Inv c' held' L' lost' /\ obs y = x /\
        Permutation (put_values [o] ++ vals c) (removed_values [y] ++ vals c') /\
        next c' = length (put_values [o]) + next c
  end.
Proof.
  intros V. destruct o as [k v|k|i|k|]; cbn [spec_step step].
  - pose proof (put_inv c held L lost k v V) as H. destruct (leaky_put cap lost L k v) as [[L' lost']|].
    + destruct H as (c' & E & V' & P & N). right. rewrite E. cbn [bind]. exists c', held, ONone.
      split; [reflexivity|]. split; [exact V'|]. split; [reflexivity|]. split; [exact P|exact N].
    + rewrite H. reflexivity.
  - destruct (get_inv c held L lost k V) as (c' & t & E & V' & HT & P & N). right. rewrite E. cbn [bind].
    exists c', (match t with None => held | Some i => set_nat held i (S (held i)) end), (OGet t (lookup L k)).
    split.
    { destruct t as [i|]; [|reflexivity]. unfold set_nat. reflexivity. }
    split; [exact V'|]. split; [reflexivity|]. cbn. rewrite P. split; [apply Permutation_refl|exact N].
  - destruct (held i) as [|n] eqn:H; [left; reflexivity|]. right.
    destruct (release_inv c held L lost i n V H) as (c' & E & V' & P & N). rewrite E. cbn [bind].
    eexists c', _, ONone. split; [reflexivity|]. split; [exact V'|]. split; [reflexivity|]. split; [exact P|exact N].
  - destruct (remove_inv c held L lost k V) as (c' & E & V' & P & N). right. rewrite E. cbn [bind].
    exists c', held, (ORemoved (lookup L k)). split; [reflexivity|]. split; [exact V'|]. split; [reflexivity|].
    cbn. rewrite app_nil_r. split; [exact P|exact N].
  - destruct (invalidate_inv c held L lost V) as (c' & E & V' & P & N). right. rewrite E. cbn [bind].
    exists c', held, ONone. split; [reflexivity|]. split; [exact V'|]. split; [reflexivity|]. split; [exact P|exact N].
Qed.

Lemma run_inv ops : forall c held L lost, Inv c held L lost ->
  run (c, held) ops = Misuse \/
  match spec_run cap L lost ops with
  | None => run (c, held) ops = Crash
  | Some (L', lost', xs) =>
      exists c' held' ys, run (c, held) ops = Ok (c', held', ys) /\ Inv c' held' L' lost' /\ map obs ys = xs /\
        Permutation (put_values ops ++ vals c) (removed_values ys ++ vals c') /\
        next c' = length (put_values ops) + next c
  end.
Proof.
  induction ops as [|o ops IH]; intros c held L lost V; cbn [run spec_run].
  - right. exists c, held, []. split; [reflexivity|]. split; [exact V|]. split; [reflexivity|]. split; [apply Permutation_refl|reflexivity].
  - pose proof (step_inv c held L lost o V) as S. destruct (spec_step cap L lost o) as [[[L' lost'] x]|].
    + destruct S as [S|(c' & held' & y & S & V' & O & P & N)]; [left; rewrite S; reflexivity|]. rewrite S. cbn [bind].
      destruct (IH c' held' L' lost' V') as [M|M]; [left; rewrite M; reflexivity|]. right.
      destruct (spec_run cap L' lost' ops) as [[[L2 l2] xs]|].
      * destruct M as (c2 & h2 & ys & E2 & V2 & O2 & P2 & N2). rewrite E2. cbn [bind].
        exists c2, h2, (y :: ys). split; [reflexivity|]. split; [exact V2|]. split; [cbn; congruence|].
        change (put_values (o :: ops)) with (flat_map put_value (o :: ops)).
        change (removed_values (y :: ys)) with (flat_map removed_value (y :: ys)).
        cbn [flat_map]. fold (put_values ops). fold (removed_values ys).
        unfold put_values, removed_values in P, N. cbn [flat_map] in P, N. rewrite app_nil_r in P, N. rewrite app_nil_r in P.
        split.
        -- rewrite <- !app_assoc. eapply Permutation_trans; [apply Permutation_app_swap_app|].
           eapply Permutation_trans; [apply Permutation_app_head; exact P|].
           eapply Permutation_trans; [apply Permutation_app_swap_app|].
           apply Permutation_app_head. exact P2.
        -- rewrite app_length. lia.
      * rewrite M. reflexivity.
    + right. rewrite S. reflexivity.
Qed.
End Bounded.

(** ** Facts about the abstract caches *)
Lemma lookup_cons k v L k' : lookup ((k, v) :: L) k' = if keyb k k' then Some v else lookup L k'.
Proof. unfold lookup. cbn. rewrite keyeqb_keyb. destruct (keyb k k'); reflexivity. Qed.

Lemma lookup_without L k k' : lookup (without L k) k' = if keyb k k' then None else lookup L k'.
Proof.
  unfold lookup, without. change keyeqb with keyb. induction L as [|[a v] L IH]; cbn; [destruct (keyb k k'); reflexivity|].
  destruct (keyb_spec a k) as [->|NE]; cbn.
  - rewrite IH. destruct (keyb k k'); reflexivity.
  - destruct (keyb_spec a k') as [->|].
    + destruct (keyb_spec k k'); [congruence|reflexivity].
    + exact IH.
Qed.

Lemma lookup_lru_get L k k' : lookup (lru_get L k) k' = lookup L k'.
Proof.
  unfold lru_get. destruct (lookup L k) as [v|] eqn:E; [|reflexivity].
  rewrite lookup_cons, lookup_without. destruct (keyb_spec k k') as [<-|]; [now rewrite E|reflexivity].
Qed.

Lemma lookup_removelast L k v : lookup (removelast L) k = Some v -> lookup L k = Some v.
Proof.
  induction L as [|[a w] L IH]; [discriminate|]. destruct L as [|p L]; [discriminate|].
  change (removelast ((a, w) :: p :: L)) with ((a, w) :: removelast (p :: L)). rewrite !lookup_cons.
  destruct (keyb a k); [trivial|exact IH].
Qed.

Lemma last_put_snoc pre o k : last_put (pre ++ [o]) k =
  match o with
  | Put k' v => if keyb k' k then Some v else last_put pre k
  | Remove k' => if keyb k' k then None else last_put pre k
  | Invalidate => None
  | _ => last_put pre k
  end.
Proof. unfold last_put. rewrite fold_left_app. destruct o; reflexivity. Qed.

Lemma spec_step_coherent cap pre L lost o L' lost' x :
  (forall k v, lookup L k = Some v -> last_put pre k = Some v) ->
  spec_step cap L lost o = Some (L', lost', x) ->
  forall k v, lookup L' k = Some v -> last_put (pre ++ [o]) k = Some v.
Proof.
  intros H S k v G. rewrite last_put_snoc. destruct o as [k0 v0|k0|i|k0|]; cbn [spec_step] in S.
  - unfold leaky_put in S. destruct (length (without L k0) + _ <? cap).
    + injection S as <- _ _. rewrite lookup_cons in G. destruct (keyb_spec k0 k); [exact G|].
      rewrite lookup_without in G. destruct (keyb_spec k0 k); [congruence|]. now apply H.
    + destruct (without L k0) as [|p W] eqn:EW; [discriminate|].
      assert (L' = (k0, v0) :: removelast (p :: W)) as -> by (injection S as <- _ _; reflexivity). clear S.
      rewrite lookup_cons in G. destruct (keyb_spec k0 k); [exact G|]. apply lookup_removelast in G. rewrite <- EW in G.
      rewrite lookup_without in G. destruct (keyb_spec k0 k); [congruence|]. now apply H.
  - injection S as <- _ _. rewrite lookup_lru_get in G. now apply H.
  - injection S as <- _ _. now apply H.
  - injection S as <- _ _. rewrite lookup_without in G. destruct (keyb k0 k); [discriminate|]. now apply H.
  - injection S as <- _ _. discriminate.
Qed.

Lemma spec_run_coherent cap ops : forall pre L lost L' lost' xs,
  (forall k v, lookup L k = Some v -> last_put pre k = Some v) ->
  spec_run cap L lost ops = Some (L', lost', xs) ->
  forall k v, lookup L' k = Some v -> last_put (pre ++ ops) k = Some v.
Proof.
  induction ops as [|o ops IH]; intros pre L lost L' lost' xs H S k v G; cbn in S.
  - injection S as <- _ _. rewrite app_nil_r. now apply H.
  - destruct (spec_step cap L lost o) as [[[L1 l1] x]|] eqn:E1; [|discriminate].
    destruct (spec_run cap L1 l1 ops) as [[[L2 l2] ys]|] eqn:E2; [|discriminate]. injection S as <- _ _.
    replace (pre ++ o :: ops) with ((pre ++ [o]) ++ ops) by (rewrite <- app_assoc; reflexivity).
    eapply IH; [|exact E2|exact G]. eapply spec_step_coherent; [exact H|exact E1].
Qed.

(** without overwriting nothing is lost *)
Lemma without_absent L k : lookup L k = None -> without L k = L.
Proof.
  unfold lookup, without. induction L as [|[a v] L IH]; [reflexivity|]. cbn. destruct (keyeqb a k); [discriminate|].
  intros H. cbn. f_equal. apply IH. exact H.
Qed.

Lemma text_spec cap ops : 0 < cap -> forall L, no_overwrite cap L ops ->
  exists L', spec_run cap L 0 ops = Some (L', 0, text_run cap L ops).
Proof.
  intros CAP. induction ops as [|o ops IH]; intros L N; cbn in *; [eexists; reflexivity|].
  destruct N as [N1 N2]. destruct o as [k v|k|i|k|]; cbn in *.
  - unfold leaky_put. rewrite N1. unfold lru_put in *. rewrite (without_absent _ _ N1) in *. rewrite Nat.add_0_r.
    destruct (length L <? cap) eqn:E.
    + destruct (IH _ N2) as [L' H]. rewrite H. eexists; reflexivity.
    + destruct L as [|p L]; [apply Nat.ltb_ge in E; cbn in E; lia|]. destruct (IH _ N2) as [L' H]. rewrite H. eexists; reflexivity.
  - destruct (IH _ N2) as [L' H]. rewrite H. eexists; reflexivity.
  - destruct (IH _ N2) as [L' H]. rewrite H. eexists; reflexivity.
  - destruct (IH _ N2) as [L' H]. rewrite H. eexists; reflexivity.
  - destruct (IH _ N2) as [L' H]. rewrite H. eexists; reflexivity.
Qed.

(** ** Final statements, bounded mode *)

Lemma bounded_run cap ops : 0 < cap ->
  run (start (Z.of_nat cap)) ops = Misuse \/
  match spec_run cap [] 0 ops with
  | None => run (start (Z.of_nat cap)) ops = Crash
  | Some (_, _, xs) => exists c held ys, run (start (Z.of_nat cap)) ops = Ok (c, held, ys) /\ map obs ys = xs
  end.
Proof.
  intros CAP. destruct (run_inv cap CAP ops _ _ _ _ (create_inv cap CAP)) as [M|M]; [left; exact M|right].
  destruct (spec_run cap [] 0 ops) as [[[L lost] xs]|]; [|exact M].
  destruct M as (c & held & ys & E & _ & O & _). exists c, held, ys. auto.
Qed.

Lemma bounded_ok cap ops c held ys : 0 < cap -> run (start (Z.of_nat cap)) ops = Ok (c, held, ys) ->
  exists L lost, spec_run cap [] 0 ops = Some (L, lost, map obs ys) /\ Inv cap c held L lost /\
    Permutation (put_values ops) (removed_values ys ++ vals c) /\ next c = length (put_values ops).
Proof.
  intros CAP E. destruct (run_inv cap CAP ops _ _ _ _ (create_inv cap CAP)) as [M|M].
  - unfold start in E. rewrite M in E. discriminate.
  - unfold start in E. destruct (spec_run cap [] 0 ops) as [[[L lost] xs]|]; [|rewrite M in E; discriminate].
    destruct M as (c' & held' & ys' & E' & V & O & P & N). rewrite E' in E. injection E as <- <- <-.
    exists L, lost. subst xs. split; [reflexivity|]. split; [exact V|]. cbn in P, N. rewrite app_nil_r in P. split; [exact P|lia].
Qed.

Lemma text_refines cap ops : 0 < cap -> no_overwrite cap [] ops ->
  run (start (Z.of_nat cap)) ops = Misuse \/
  exists c held ys, run (start (Z.of_nat cap)) ops = Ok (c, held, ys) /\ map obs ys = text_run cap [] ops.
Proof.
  intros CAP N. destruct (text_spec cap ops CAP [] N) as [L H].
  destruct (bounded_run cap ops CAP) as [M|M]; [left; exact M|right]. rewrite H in M. exact M.
Qed.

Lemma coherent cap ops k c held ys c' t v : 0 < cap -> run (start (Z.of_nat cap)) ops = Ok (c, held, ys) ->
  get c k = Ok (c', Some t, Some v) -> last_put ops k = Some v.
Proof.
  intros CAP E G. destruct (bounded_ok _ _ _ _ _ CAP E) as (L & lost & S & V & _).
  destruct (get_inv cap CAP c held L lost k V) as (c2 & t2 & E2 & _). rewrite E2 in G. injection G as _ _ G.
  apply (spec_run_coherent cap ops [] [] 0 L lost (map obs ys)); [discriminate|exact S|exact G].
Qed.

Lemma bounded_size cap ops c held ys ks : 0 < cap -> run (start (Z.of_nat cap)) ops = Ok (c, held, ys) ->
  NoDup ks -> (forall k, In k ks -> exists c' t v, get c k = Ok (c', Some t, v)) -> length ks <= cap.
Proof.
  intros CAP E ND H. destruct (bounded_ok _ _ _ _ _ CAP E) as (L & lost & S & V & _).
  apply Nat.le_trans with (length L); [|pose proof (v_le _ _ _ _ _ V); lia].
  rewrite <- (map_length fst L). apply NoDup_incl_length; [exact ND|].
  intros k Hk. destruct (H k Hk) as (c' & t & v & G).
  unfold get in G. destruct (t_get (table c) k) as [i|] eqn:T; [|discriminate].
  apply (v_tab _ _ _ _ _ V) in T. destruct T as (Hi & w & Ei).
  destruct (absl_in _ _ _ _ (v_abs _ _ _ _ _ V) Hi) as (k' & v' & E' & I). rewrite Ei in E'. injection E' as <- <-.
  apply in_map_iff. exists (k, w). auto.
Qed.

Lemma ownership cap ops c held ys : 0 < cap -> run (start (Z.of_nat cap)) ops = Ok (c, held, ys) ->
  Permutation (put_values ops) (removed_values ys ++ live c ++ freedv (log c)) /\
  NoDup (map f_id (log c)) /\
  forall i, In i (map f_id (log c)) <-> (i < length (put_values ops) /\ ~ In i (queue c) /\ held i = 0).
Proof.
  intros CAP E. destruct (bounded_ok _ _ _ _ _ CAP E) as (L & lost & S & V & P & N).
  split; [exact P|]. pose proof (v_core _ _ _ _ _ V) as [C1 C2 C3 C4 C5]. split; [exact C5|].
  intros i. rewrite C4, N. destruct (ents c i) as [e|] eqn:EE.
  - destruct (C1 i e EE) as [_ R]. split; [intros [_ X]; discriminate|]. intros (_ & Q & H). rewrite inq_out in R by exact Q. lia.
  - pose proof (C2 i EE) as R. split; [intros [A _]; split; [exact A|]; split; [|lia]|tauto].
    intros Q. rewrite inq_in in R by exact Q. lia.
Qed.

(** ** Unlimited mode (max_entries <= 0) *)
Record UInv (m : Z) (c : lru) (held : nat -> nat) (vq : list nat) (L : cache) : Prop := {
  u_core : Core c (fun i => inq vq i + held i);
  u_max : max_entries c = m;
  u_nd : NoDup vq;
  u_abs : absl c vq L;
  u_tab : tab (table c) c vq
}.

Section Unlimited.
Variable m : Z.
Hypothesis M : (m <= 0)%Z.

Lemma u_create : UInv m (create m) (fun _ => 0) [] [].
Proof.
  split; cbn.
  - split; cbn; try discriminate; try reflexivity; [|constructor]. intros i. split; [tauto|intros [? ?]; lia].
  - reflexivity.
  - constructor.
  - reflexivity.
  - intros k i. cbn. split; [discriminate|intros [[] _]].
Qed.

Lemma u_release c held vq L i n : UInv m c held vq L -> held i = S n ->
  exists c', release c i = Ok c' /\ UInv m c' (set_nat held i n) vq L /\ Permutation (vals c) (vals c') /\ next c' = next c.
Proof.
  intros V H. destruct (release_ok c _ i (inq vq i + n) (u_core _ _ _ _ _ V)) as (c' & E & F & C & CR & P).
  { cbn. rewrite H. lia. }
  exists c'. split; [exact E|]. split; [|split; [exact P|apply F]].
  destruct F as (F1 & F2 & F3 & F4 & F5).
  assert (forall j, In j vq -> core c' j = core c j) as Q.
  { intros j Hj. apply CR. destruct (Nat.eq_dec j i) as [->|]; [right; rewrite inq_in by exact Hj; lia|left; assumption]. }
  split.
  - eapply core_ext; [|exact C]. intros j. unfold set_nat. destruct (Nat.eqb_spec j i) as [->|]; reflexivity.
  - rewrite F1. apply V.
  - apply V.
  - eapply absl_ext; [exact Q|apply V].
  - rewrite F2. intros k j. rewrite (u_tab _ _ _ _ _ V k j). split; intros [Hj [v Ej]]; (split; [exact Hj|]; exists v); rewrite <- Ej; [|symmetry]; apply Q; exact Hj.
Qed.

Lemma u_get c held vq L k : UInv m c held vq L ->
  exists c' t, get c k = Ok (c', t, lookup L k) /\
    UInv m c' (match t with None => held | Some i => set_nat held i (S (held i)) end) vq L /\
    vals c' = vals c /\ next c' = next c.
Proof.
  intros V. unfold get. destruct (t_get (table c) k) as [i|] eqn:T.
  - pose proof T as T0. apply (u_tab _ _ _ _ _ V) in T0. destruct T0 as (Hi & v & Ei).
    unfold touch. rewrite (u_max _ _ _ _ _ V). destruct (0 <? m)%Z eqn:EZ; [lia|]. cbn [bind].
    destruct (absl_rm c i k v vq (u_nd _ _ _ _ _ V) Hi Ei) with (L := L) as [A1 A2].
    { intros j w Hj Ej. eapply tab_fun; [apply V|exact Hj|exact Hi|exact Ej|exact Ei]. }
    { apply V. }
    unfold core in Ei. destruct (ents c i) as [e|] eqn:EE; [|discriminate]. injection Ei as K1 K2.
    rewrite A2, K2. eexists _, (Some i). split; [reflexivity|].
    match goal with |- UInv _ ?x _ _ _ /\ _ => set (c' := x) end.
    assert (forall j, core c' j = core c j) as CC.
    { intros j. unfold core, c'. cbn. destruct (Nat.eq_dec j i) as [->|NE]; [rewrite upd_eq, EE; cbn; congruence|now rewrite upd_ne]. }
    split; [|split; [|reflexivity]].
    + split.
      * pose proof (u_core _ _ _ _ _ V) as [C1 C2 C3 C4 C5].
        assert (i < next c) as Li. { destruct (Nat.le_gt_cases (next c) i) as [G|G]; [apply C3 in G; congruence|exact G]. }
        destruct (C1 i e EE) as [R1 R2].
        split; cbn.
        -- intros j e' H. unfold set_nat. destruct (Nat.eqb_spec j i) as [->|NE].
           ++ rewrite upd_eq in H. injection H as <-. cbn. lia.
           ++ rewrite upd_ne in H by exact NE. apply C1. exact H.
        -- intros j H. unfold set_nat. destruct (Nat.eqb_spec j i) as [->|NE].
           ++ rewrite upd_eq in H. discriminate.
           ++ rewrite upd_ne in H by exact NE. apply C2. exact H.
        -- intros j H. rewrite upd_ne by lia. apply C3; exact H.
        -- intros j. rewrite C4. destruct (Nat.eq_dec j i) as [->|NE]; [rewrite upd_eq, EE; intuition discriminate|now rewrite upd_ne].
        -- exact C5.
      * apply V.
      * apply V.
      * eapply absl_core; [exact CC|apply V].
      * intros k' j. change (table c') with (table c). rewrite (u_tab _ _ _ _ _ V k' j), CC. reflexivity.
    + unfold vals, live. cbn. f_equal. apply flat_map_ext_in. intros j _.
      destruct (Nat.eq_dec j i) as [->|NE]; [rewrite upd_eq, EE; unfold evals; rewrite K2; reflexivity|now rewrite upd_ne].
  - destruct (lookup_none_tab _ _ _ _ _ (u_tab _ _ _ _ _ V) (u_abs _ _ _ _ _ V) T) as [E1 E2].
    exists c, None. rewrite E1. split; [reflexivity|]. split; [exact V|]. split; reflexivity.
Qed.

Lemma u_remove c held vq L k : UInv m c held vq L ->
  exists c' vq', remove c k = Ok (c', lookup L k) /\ UInv m c' held vq' (without L k) /\
    Permutation (vals c) (optl (lookup L k) ++ vals c') /\ next c' = next c.
Proof.
  intros V. unfold remove. destruct (t_get (table c) k) as [i|] eqn:T.
  - pose proof T as T0. apply (u_tab _ _ _ _ _ V) in T0. destruct T0 as (Hi & v & Ei).
    rewrite (u_max _ _ _ _ _ V). destruct (0 <? m)%Z eqn:EZ; [lia|]. cbn [bind].
    destruct (absl_rm c i k v vq (u_nd _ _ _ _ _ V) Hi Ei) with (L := L) as [A1 A2].
    { intros j w Hj Ej. eapply tab_fun; [apply V|exact Hj|exact Hi|exact Ej|exact Ei]. }
    { apply V. }
    cbn [with_table with_size nq ents queue table next log max_entries lru_cache_size].
    pose proof Ei as Ei0.
    unfold core in Ei. destruct (ents c i) as [e|] eqn:EE; [|discriminate]. injection Ei as K1 K2.
    rewrite A2, K2.
    match goal with |- context [release ?x i] => set (c3 := x) end.
    pose proof (u_core _ _ _ _ _ V) as [C1 C2 C3 C4 C5].
    assert (i < next c) as Li. { destruct (Nat.le_gt_cases (next c) i) as [G|G]; [apply C3 in G; congruence|exact G]. }
    assert (Core c3 (fun j => inq vq j + held j)) as CC.
    { destruct (C1 i e EE) as [R1 R2]. split; cbn.
      - intros j e' H. destruct (Nat.eq_dec j i) as [->|NE].
        + rewrite upd_eq in H. injection H as <-. cbn. split; assumption.
        + rewrite upd_ne in H by exact NE. apply C1. exact H.
      - intros j H. destruct (Nat.eq_dec j i) as [->|NE].
        + rewrite upd_eq in H. discriminate.
        + rewrite upd_ne in H by exact NE. apply C2. exact H.
      - intros j H. rewrite upd_ne by lia. apply C3; exact H.
      - intros j. rewrite C4. destruct (Nat.eq_dec j i) as [->|NE]; [rewrite upd_eq, EE; intuition discriminate|now rewrite upd_ne].
      - exact C5. }
    destruct (release_ok c3 _ i (held i) CC) as (c' & E & F & C' & CR & P).
    { rewrite inq_in by exact Hi. reflexivity. }
    rewrite E. cbn [bind]. exists c', (without_id i vq). split; [reflexivity|].
    destruct F as (F1 & F2 & F3 & F4 & F5). cbn in F1, F3, F4, F5. change (table c' = t_del (table c) k) in F2.
    assert (forall j, j <> i -> core c' j = core c j) as Q.
    { intros j NE. rewrite CR by auto. unfold core. cbn. now rewrite upd_ne. }
    split; [|split; [|exact F5]].
    + split.
      * eapply core_ext; [|exact C']. intros j. rewrite inq_without. unfold set_nat. destruct (Nat.eqb_spec j i) as [->|]; reflexivity.
      * rewrite F1. apply V.
      * apply nodup_without, V.
      * eapply absl_ext; [|exact A1]. intros j Hj. apply in_without in Hj. apply Q; tauto.
      * rewrite F2. intros k' j. rewrite t_get_del, in_without.
        destruct (keyb_spec k k') as [<-|NK].
        -- split; [discriminate|]. intros [[Hj NE] [w Ej]]. exfalso. apply NE. rewrite Q in Ej by exact NE.
           eapply tab_fun; [apply V|exact Hj|exact Hi|exact Ej|exact Ei0].
        -- rewrite (u_tab _ _ _ _ _ V k' j). split.
           ++ intros [Hj [w Ej]]. assert (j <> i) by (intros ->; congruence). rewrite Q by assumption. eauto.
           ++ intros [[Hj NE] [w Ej]]. rewrite Q in Ej by exact NE. eauto.
    + rewrite <- P. unfold vals. rewrite app_assoc. apply Permutation_app_tail.
      unfold live. subst c3. cbn [next ents log].
      pose proof (flat_map_change (fun j => evals (ents c j)) (fun j => evals (upd (ents c) i (Some {| ekey := ekey e; eval := None; eref := eref e |}) j)) i (next c) 0 ltac:(lia)) as PP.
      cbn beta in PP. rewrite EE, upd_eq in PP. cbn [evals app optl] in PP. rewrite K2 in PP. cbn [evals eval optl app] in PP.
      apply Permutation_sym. apply PP. intros j NE. now rewrite upd_ne.
  - destruct (lookup_none_tab _ _ _ _ _ (u_tab _ _ _ _ _ V) (u_abs _ _ _ _ _ V) T) as [E1 E2].
    exists c, vq. rewrite E1, E2. split; [reflexivity|]. split; [exact V|]. split; [apply Permutation_refl|reflexivity].
Qed.

Lemma u_put c held vq L k v : UInv m c held vq L -> lookup L k = None ->
  exists c', put c k v = Ok c' /\ UInv m c' held (next c :: vq) ((k, v) :: L) /\
    Permutation (v :: vals c) (vals c') /\ next c' = S (next c).
Proof.
  intros V NL. unfold put.
  match goal with |- context [with_table ?x _] => set (c0 := x) end.
  set (i := next c) in *.
  pose proof (u_core _ _ _ _ _ V) as [C1 C2 C3 C4 C5].
  assert (ents c i = None) as NI by (apply C3; unfold i; lia).
  assert (~ In i vq) as NQ.
  { intros H. destruct (absl_in _ _ _ _ (u_abs _ _ _ _ _ V) H) as (k' & v' & E & _). unfold core in E. rewrite NI in E. discriminate. }
  assert (held i = 0) as HI. { apply C2 in NI. lia. }
  assert (Core c0 (fun j => inq (i :: vq) j + held j)) as CC.
  { split; cbn.
    - intros j e H. rewrite inq_cons. destruct (Nat.eqb_spec j i) as [->|NE].
      + rewrite upd_eq in H. injection H as <-. cbn. lia.
      + rewrite upd_ne in H by exact NE. apply C1; exact H.
    - intros j H. rewrite inq_cons. destruct (Nat.eqb_spec j i) as [->|NE].
      + rewrite upd_eq in H. discriminate.
      + rewrite upd_ne in H by exact NE. apply C2; exact H.
    - intros j H. rewrite upd_ne by lia. apply C3. unfold i in H. lia.
    - intros j. rewrite C4. destruct (Nat.eq_dec j i) as [->|NE].
      + rewrite upd_eq. split; [intros [X _]; unfold i in X; lia|intros [_ X]; discriminate].
      + rewrite upd_ne by exact NE. unfold i in *. intuition lia.
    - exact C5. }
  assert (core c0 i = Some (k, Some v)) as Ei by (unfold core, c0; cbn; rewrite upd_eq; reflexivity).
  assert (forall j, j <> i -> core c0 j = core c j) as EJ by (intros; unfold core, c0; cbn; now rewrite upd_ne).
  assert (Permutation (v :: vals c) (vals c0)) as P0.
  { unfold vals. change (log c0) with (log c). rewrite app_comm_cons. apply Permutation_app_tail.
    unfold live. change (next c0) with (S (next c)). rewrite seq_S, flat_map_app. cbn [Nat.add flat_map].
    replace (flat_map (fun j => evals (ents c0 j)) (seq 0 (next c))) with (flat_map (fun j => evals (ents c j)) (seq 0 (next c))).
    2:{ apply flat_map_ext_in. intros j Hj. apply in_seq in Hj. unfold c0. cbn. rewrite upd_ne by (unfold i; lia). reflexivity. }
    replace (evals (ents c0 (next c))) with [v] by (unfold c0; cbn; fold i; rewrite upd_eq; reflexivity).
    cbn. apply Permutation_cons_append. }
  change (t_get (table c0) k) with (t_get (table c) k).
  assert (t_get (table c) k = None) as TP.
  { destruct (t_get (table c) k) as [p|] eqn:TP; [|reflexivity]. exfalso.
    apply (u_tab _ _ _ _ _ V) in TP. destruct TP as (Hp & vp & Ep).
    destruct (absl_rm c p k vp vq (u_nd _ _ _ _ _ V) Hp Ep) with (L := L) as [A1 A2].
    { intros j w Hj Ej. eapply tab_fun; [apply V|exact Hj|exact Hp|exact Ej|exact Ep]. }
    { apply V. }
    congruence. }
  rewrite TP. cbn [bind]. unfold add_lru_cache. change (max_entries (with_table c0 (t_set (table c0) k i))) with (max_entries c).
  rewrite (u_max _ _ _ _ _ V). destruct (0 <? m)%Z eqn:EZ; [lia|]. cbn [bind].
  eexists. split; [reflexivity|].
  match goal with |- UInv _ ?x _ _ _ /\ _ => set (c2 := x) end.
  split; [|split; [exact P0|reflexivity]].
  split.
  - eapply core_same; [| | |exact CC]; reflexivity.
  - apply V.
  - constructor; [exact NQ|apply V].
  - unfold absl. cbn. change (core c0 i :: map (core c0) vq = inj (k, v) :: map inj L).
    rewrite Ei. unfold inj at 1. cbn. f_equal. eapply absl_ext; [|apply V]. intros j Hj. apply EJ. congruence.
  - change (table c2) with (t_set (table c) k i). unfold t_set. intros k' j. cbn [t_get]. rewrite t_get_del. change (core c2 j) with (core c0 j).
    destruct (keyb_spec k k') as [<-|NK].
    + split.
      * intros X. injection X as <-. split; [left; reflexivity|eauto].
      * intros [Hj [w Ej]]. f_equal. destruct Hj as [->|Hj]; [reflexivity|]. exfalso.
        assert (j <> i) by congruence. rewrite EJ in Ej by assumption.
        assert (t_get (table c) k = Some j) by (apply (u_tab _ _ _ _ _ V); eauto). congruence.
    + rewrite (u_tab _ _ _ _ _ V k' j). split.
      * intros [Hj [w Ej]]. assert (j <> i) by congruence. rewrite EJ by assumption. split; [right; exact Hj|eauto].
      * intros [[<-|Hj] [w Ej]]; [rewrite Ei in Ej; congruence|]. assert (j <> i) by congruence. rewrite EJ in Ej by assumption. eauto.
Qed.

Lemma u_run ops : forall pre c held vq L, UInv m c held vq L -> (forall k, lookup L k = last_put pre k) ->
  (forall a k v b, ops = a ++ Put k v :: b -> last_put (pre ++ a) k = None) -> ~ In Invalidate ops ->
  run (c, held) ops = Misuse \/
  exists c' held' ys vq' L', run (c, held) ops = Ok (c', held', ys) /\ UInv m c' held' vq' L' /\
    (forall k, lookup L' k = last_put (pre ++ ops) k) /\
    Permutation (put_values ops ++ vals c) (removed_values ys ++ vals c') /\
    next c' = length (put_values ops) + next c.
Proof.
  induction ops as [|o ops IH]; intros pre c held vq L V HL NO NI; cbn [run].
  - right. exists c, held, [], vq, L. rewrite app_nil_r. split; [reflexivity|]. split; [exact V|]. split; [exact HL|]. split; [apply Permutation_refl|reflexivity].
  - assert (step (c, held) o = Misuse \/
      exists c' held' y vq' L', step (c, held) o = Ok (c', held', y) /\ UInv m c' held' vq' L' /\
        (forall k, lookup L' k = last_put (pre ++ [o]) k) /\
        Permutation (put_value o ++ vals c) (removed_value y ++ vals c') /\
        next c' = length (put_value o) + next c) as ST.
    { destruct o as [k v|k|i|k|]; cbn [step].
      - assert (lookup L k = None) as NL. { rewrite HL. specialize (NO [] k v ops eq_refl). now rewrite app_nil_r in NO. }
        destruct (u_put c held vq L k v V NL) as (c' & E & V' & P & N). right. rewrite E. cbn [bind].
        eexists c', held, ONone, _, _. split; [reflexivity|]. split; [exact V'|]. split; [|split; [exact P|exact N]].
        intros k'. rewrite last_put_snoc, lookup_cons, HL. reflexivity.
      - destruct (u_get c held vq L k V) as (c' & t & E & V' & P & N). right. rewrite E. cbn [bind].
        exists c', (match t with None => held | Some i => set_nat held i (S (held i)) end), (OGet t (lookup L k)), vq, L.
        split; [destruct t; reflexivity|]. split; [exact V'|]. split; [intros k'; rewrite last_put_snoc; apply HL|].
        cbn. rewrite P. split; [apply Permutation_refl|exact N].
      - destruct (held i) as [|n] eqn:H; [left; reflexivity|]. right.
        destruct (u_release c held vq L i n V H) as (c' & E & V' & P & N). rewrite E. cbn [bind].
        eexists c', _, ONone, vq, L. split; [reflexivity|]. split; [exact V'|]. split; [intros k'; rewrite last_put_snoc; apply HL|]. split; [exact P|exact N].
      - destruct (u_remove c held vq L k V) as (c' & vq' & E & V' & P & N). right. rewrite E. cbn [bind].
        exists c', held, (ORemoved (lookup L k)), vq', (without L k). split; [reflexivity|]. split; [exact V'|].
        split; [|split; [exact P|exact N]]. intros k'. rewrite last_put_snoc, lookup_without, HL. reflexivity.
      - exfalso. apply NI. left; reflexivity. }
    destruct ST as [S|(c' & held' & y & vq' & L' & S & V' & HL' & P & N)]; [left; rewrite S; reflexivity|].
    rewrite S. cbn [bind].
    destruct (IH (pre ++ [o]) c' held' vq' L' V' HL') as [Mi|(c2 & h2 & ys & vq2 & L2 & E2 & V2 & H2 & P2 & N2)].
    + intros a k v b ->. rewrite <- app_assoc. apply (NO (o :: a) k v b). reflexivity.
    + intros H. apply NI. right; exact H.
    + left. rewrite Mi. reflexivity.
    + right. rewrite E2. cbn [bind]. exists c2, h2, (y :: ys), vq2, L2. split; [reflexivity|]. split; [exact V2|].
      split; [intros k; rewrite H2; rewrite <- app_assoc; reflexivity|].
      change (put_values (o :: ops)) with (put_value o ++ put_values ops).
      change (removed_values (y :: ys)) with (removed_value y ++ removed_values ys).
      split.
      * rewrite <- !app_assoc. eapply Permutation_trans; [apply Permutation_app_swap_app|].
        eapply Permutation_trans; [apply Permutation_app_head; exact P|].
        eapply Permutation_trans; [apply Permutation_app_swap_app|].
        apply Permutation_app_head. exact P2.
      * rewrite app_length. lia.
Qed.

Lemma unlimited_map ops :
  (forall a k v b, ops = a ++ Put k v :: b -> last_put a k = None) -> ~ In Invalidate ops ->
  run (start m) ops = Misuse \/
  exists c held ys, run (start m) ops = Ok (c, held, ys) /\
    (forall k, exists c' t, get c k = Ok (c', t, last_put ops k)) /\
    Permutation (put_values ops) (removed_values ys ++ live c ++ freedv (log c)) /\
    NoDup (map f_id (log c)).
Proof.
  intros NO NI. destruct (u_run ops [] _ _ _ _ u_create (fun k => eq_refl) NO NI) as [X|(c & held & ys & vq & L & E & V & H & P & N)]; [left; exact X|].
  right. exists c, held, ys. split; [exact E|]. split; [|split].
  - intros k. destruct (u_get c held vq L k V) as (c' & t & E' & _). exists c', t. rewrite E', H. reflexivity.
  - cbn in P. rewrite app_nil_r in P. exact P.
  - apply (u_core _ _ _ _ _ V).
Qed.
End Unlimited.
