From Coq Require Import Arith List Bool Lia.
From Verif.Flow Require Import Model Spec.
Import ListNotations.

Fixpoint sum {A} (f : A -> nat) (l : list A) : nat := match l with [] => 0 | x :: r => f x + sum f r end.
Lemma sum_app {A} (f : A -> nat) a b : sum f (a ++ b) = sum f a + sum f b.
Proof. induction a as [|x a IH]; cbn [sum app]; [reflexivity|]. rewrite IH. lia. Qed.

Lemma nth_split_set {A} i : forall (l : list A) c, nth_error l i = Some c ->
  exists a b, l = a ++ c :: b /\ (forall y, set_nth i y l = a ++ y :: b) /\ remove_nth i l = a ++ b.
Proof.
  induction i as [|i IH]; intros [|x l] c; cbn; try discriminate.
  - intros [= ->]. exists [], l. auto.
  - intros H. destruct (IH l c H) as (a & b & -> & E1 & E2). exists (x :: a), b. cbn. rewrite E2. repeat split. intros. rewrite E1. reflexivity.
Qed.

Definition pend (c : call) : nat := match at_ c with LoLoad b | LoCas _ b => b | _ => 0 end.
Definition isD (c : call) : nat := match at_ c with AckD => 1 | _ => 0 end.
Definition isE (c : call) : nat := match at_ c with AckE => 1 | _ => 0 end.
Definition tD (t : toggle) : nat := match t with T_DISABLE => 1 | _ => 0 end.
Definition tE (t : toggle) : nat := match t with T_ENABLE => 1 | _ => 0 end.
Definition lowering (c : call) : Prop := match at_ c with LoLoad _ | LoCas _ _ | LoState => True | _ => False end.

Definition up_k (adj : nat) (k : cont) : Prop :=
  (adj = 1 /\ (k = Client true \/ k = SR1)) \/ (adj = 0 /\ (k = Client false \/ k = SR3 \/ k = SL T_ENABLE)).
Definition lo_k (k : cont) : Prop := k = Client false \/ k = SL T_KEEP \/ k = SR2 \/ k = SL T_DISABLE.
Definition okc (f : fr) (c : call) : Prop :=
  match at_ c with
  | UpLoad adj => up_k adj (k_ c)
  | UpCas old adj => up_k adj (k_ c) /\ old < high f
  | UpState => exists adj, up_k adj (k_ c)
  | LoLoad _ | LoState => lo_k (k_ c)
  | LoCas old b => lo_k (k_ c) /\ b <= old
  | AckD => k_ c = Client false \/ k_ c = SR2 \/ k_ c = SL T_DISABLE
  | AckE => k_ c = Client false \/ k_ c = SR3 \/ k_ c = SL T_ENABLE
  end.

Definition last_of (s : state) (l : list toggle) : Prop :=
  match s with
  | ENABLED | ENABLING => match l with [] => s = ENABLED | t :: _ => t = T_ENABLE end
  | DISABLING | DISABLED => match l with [] => False | t :: _ => t = T_DISABLE end
  end.

Record Inv (s : sys) : Prop := {
  i_lh : low (reg s) < high (reg s);
  i_cur : cur (reg s) <= high (reg s);
  i_ok : Forall (okc (reg s)) (calls s);
  i_acc : cur (reg s) = held s + sum pend (calls s);
  i_D : sum tD (toks s) + sum isD (calls s) = if state_eqb (st (reg s)) DISABLING then 1 else 0;
  i_E : sum tE (toks s) + sum isE (calls s) = if state_eqb (st (reg s)) ENABLING then 1 else 0;
  i_wake : st (reg s) = DISABLED -> cur (reg s) <= low (reg s) -> Exists lowering (calls s);
  i_log : alternating (log s);
  i_last : last_of (st (reg s)) (log s) }.

Lemma Inv_init lo hi f : create lo hi = Some f -> Inv (init f).
Proof.
  unfold create. destruct (Nat.ltb_spec lo hi) as [L|]; [|discriminate]. intros [= <-]. split; cbn; auto; try lia. discriminate.
Qed.

Lemma okc_mono f f' c : high f' = high f -> okc f c -> okc f' c.
Proof. intros H. unfold okc. destruct (at_ c); rewrite ?H; auto. Qed.

Lemma alt_log t l s : alternating l -> last_of s l -> (t = T_DISABLE /\ s = ENABLED \/ t = T_ENABLE /\ s = DISABLED) -> alternating (t :: l).
Proof.
  intros A L [[-> ->]|[-> ->]]; destruct l as [|u l]; cbn in *; subst; try contradiction; auto; split; auto.
Qed.

Lemma sum_toks_remove i : forall l t, nth_error l i = Some t -> sum tD l = tD t + sum tD (remove_nth i l) /\ sum tE l = tE t + sum tE (remove_nth i l).
Proof.
  intros l t H. destruct (nth_split_set i l t H) as (a & b & -> & _ & ->). rewrite !sum_app. cbn. lia.
Qed.

Lemma start_ok s c h tk : Inv s -> okc (reg s) c -> held s + sum pend (calls s) = h + (pend c + sum pend (calls s)) ->
  sum tD (toks s) = sum tD tk + isD c -> sum tE (toks s) = sum tE tk + isE c -> Inv (start s c h tk).
Proof.
  intros [] H1 H2 H3 H4. split; cbn; auto; try lia.
Qed.

Ltac split_calls E := destruct (nth_split_set _ _ _ E) as (ca & cb & EC & ES & ER).

(** one access keeps the invariant whatever becomes of the call *)
Lemma run_ok s i : Inv s -> match step s (Run i) with Some s' => Inv s' | None => False end.
Proof.
  intros V. cbn [step]. destruct (nth_error (calls s) i) as [c|] eqn:EN; [|exact V].
  destruct (nth_split_set _ _ _ EN) as (ca & cb & EC & ES & ER). destruct V as [V1 V2 V3 V4 V5 V6 V7 V8 V9].
  rewrite ER. rewrite EC in V3, V4, V5, V6. rewrite !sum_app in V4, V5, V6. cbn [sum] in V4, V5, V6.
  apply Forall_app in V3. destruct V3 as [F1 F2]. inversion F2 as [|? ? OC F3]; subst.
  assert (forall f, high f = high (reg s) -> Forall (okc f) (ca ++ cb)) as FK.
  { intros f E. apply Forall_app. split; eapply Forall_impl; try eassumption; intros x; apply okc_mono; exact E. }
  assert (forall f x, high f = high (reg s) -> okc f x -> Forall (okc f) (ca ++ x :: cb)) as FK2.
  { intros f x E O. specialize (FK f E). apply Forall_app in FK. destruct FK. apply Forall_app. split; [assumption|constructor; assumption]. }
  assert (forall x, ~ lowering c -> Exists lowering (calls s) -> Exists lowering (ca ++ x :: cb)) as EX.
  { intros x NL H. rewrite EC in H. apply Exists_app in H. apply Exists_app. destruct H as [H|H]; [left; exact H|]. inversion H; subst; [contradiction|]. right. apply Exists_cons_tl. assumption. }
  assert (~ lowering c -> Exists lowering (calls s) -> Exists lowering (ca ++ cb)) as EX0.
  { intros NL H. rewrite EC in H. apply Exists_app in H. apply Exists_app. destruct H as [H|H]; [left; exact H|]. inversion H; subst; [contradiction|]. right. assumption. }
  assert (forall x, lowering x -> Exists lowering (ca ++ x :: cb)) as EX1.
  { intros x H. apply Exists_app. right. apply Exists_cons_hd. exact H. }
  Ltac fin := first [ solve [match goal with F : forall f x, _ -> okc f x -> _ |- _ => apply F; [reflexivity|]; unfold okc, lo_k, up_k in *; cbn [at_ k_]; tauto end]
                    | solve [intros _ _; match goal with F : forall x, lowering x -> _ |- _ => apply F; exact I end] ].
  destruct c as [p k]. unfold okc in OC. cbn [at_ k_] in *.
  destruct p as [adj|old adj| |b|old b| | |]; cbn [access pend isD isE at_] in *.
  - (* UpLoad *)
    destruct (Nat.eqb_spec (cur (reg s)) (high (reg s))); rewrite ES; split; cbn [reg calls held toks log]; auto; rewrite ?sum_app; cbn [sum pend isD isE at_]; try lia.
    + apply FK2; [reflexivity|]. unfold okc; cbn [at_ k_]. eauto.
    + apply FK2; [reflexivity|]. unfold okc; cbn [at_ k_]. split; [exact OC|lia].
  - (* UpCas *)
    destruct OC as [OC LT]. destruct (Nat.eqb_spec (cur (reg s)) old) as [EQ|NE].
    + unfold up_k in OC. destruct OC as [[-> [->| ->]]|[-> [->|[->| ->]]]]; cbn [on_return logged]; rewrite ?ES; (split; cbn [reg calls held toks log cur st low high]; auto; rewrite ?sum_app; cbn [sum pend isD isE at_]; try lia).
      all: try (apply FK; reflexivity).
      all: try (intros A B; apply EX0; [tauto|]; apply V7; [assumption|lia]).
      * apply FK2; [reflexivity|]. unfold okc, up_k; cbn [at_ k_]. auto.
      * intros A B; apply EX; [tauto|]; apply V7; [assumption|lia].
    + rewrite ES. split; cbn [reg calls held toks log]; auto; rewrite ?sum_app; cbn [sum pend isD isE at_]; try lia.
  - (* UpState *)
    destruct OC as [adj OC]. destruct (st (reg s)) eqn:ST; cbn [state_eqb].
    + unfold up_k in OC. destruct OC as [[-> [->| ->]]|[-> [->|[->| ->]]]]; cbn [on_return ack_in_lower logged]; rewrite ?ES; (split; cbn [reg calls held toks log cur st low high state_eqb]; auto; rewrite ?sum_app; cbn [sum pend isD isE at_ tD tE]; cbn [state_eqb] in *; try lia; try discriminate).
      all: try (apply FK; reflexivity).
      all: try (eapply alt_log; [exact V8|exact V9|left; auto]).
      all: try reflexivity.
      all: apply FK2; [reflexivity|]; unfold okc; cbn [at_ k_]; auto.
    + unfold up_k in OC. destruct OC as [[-> [->| ->]]|[-> [->|[->| ->]]]]; cbn [on_return ack_in_lower logged]; rewrite ?ES; (split; cbn [reg calls held toks log cur st low high state_eqb]; rewrite ?ST; auto; rewrite ?sum_app; cbn [state_eqb] in *; try lia; try (apply FK; reflexivity); try discriminate).
    + unfold up_k in OC. destruct OC as [[-> [->| ->]]|[-> [->|[->| ->]]]]; cbn [on_return ack_in_lower logged]; rewrite ?ES; (split; cbn [reg calls held toks log cur st low high state_eqb]; rewrite ?ST; auto; rewrite ?sum_app; cbn [state_eqb] in *; try lia; try (apply FK; reflexivity)).
      all: intros A B; apply EX0; [tauto|]; apply V7; assumption.
    + unfold up_k in OC. destruct OC as [[-> [->| ->]]|[-> [->|[->| ->]]]]; cbn [on_return ack_in_lower logged]; rewrite ?ES; (split; cbn [reg calls held toks log cur st low high state_eqb]; rewrite ?ST; auto; rewrite ?sum_app; cbn [state_eqb] in *; try lia; try (apply FK; reflexivity); try discriminate).
  - (* LoLoad *)
    destruct (Nat.leb_spec b (cur (reg s))); [|lia]. rewrite ES. split; cbn [reg calls held toks log]; auto; rewrite ?sum_app; cbn [sum pend isD isE at_]; try lia.
    + apply FK2; [reflexivity|]. unfold okc; cbn [at_ k_]. auto.
    + intros _ _. apply EX1. exact I.
  - (* LoCas *)
    destruct OC as [OC LE]. destruct (Nat.eqb_spec (cur (reg s)) old) as [EQ|NE].
    + destruct (Nat.leb_spec (old - b) (low (reg s))) as [LL|GL].
      * rewrite ES. split; cbn [reg calls held toks log cur st low high]; auto; rewrite ?sum_app; cbn [sum pend isD isE at_]; try lia.
        all: solve [fin].
      * unfold lo_k in OC. destruct OC as [->|[->|[->| ->]]]; cbn [on_return logged]; (split; cbn [reg calls held toks log cur st low high]; auto; rewrite ?sum_app; try lia; try (apply FK; reflexivity)).
    + rewrite ES. split; cbn [reg calls held toks log]; auto; rewrite ?sum_app; cbn [sum pend isD isE at_]; try lia.
      all: solve [fin].
  - (* LoState *)
    destruct (st (reg s)) eqn:ST; cbn [state_eqb].
    1,2,4: unfold lo_k in OC; destruct OC as [->|[->|[->| ->]]]; cbn [on_return logged]; (split; cbn [reg calls held toks log cur st low high]; rewrite ?ST; auto; rewrite ?sum_app; cbn [state_eqb] in *; try lia; try (apply FK; reflexivity); try discriminate).
    unfold lo_k in OC; destruct OC as [->|[->|[->| ->]]]; cbn [on_return ack_in_lower logged]; rewrite ?ES; (split; cbn [reg calls held toks log cur st low high]; auto; rewrite ?sum_app; cbn [sum pend isD isE at_ tD tE]; cbn [state_eqb] in *; try lia; try discriminate).
    all: try (apply FK; reflexivity).
    all: try (eapply alt_log; [exact V8|exact V9|right; auto]).
    all: try reflexivity.
    all: apply FK2; [reflexivity|]; unfold okc; cbn [at_ k_]; auto.
  - (* AckD *)
    destruct (st (reg s)) eqn:ST; cbn [state_eqb] in *; try lia. rewrite ES.
    split; cbn [reg calls held toks log cur st low high state_eqb]; auto; rewrite ?sum_app; cbn [sum pend isD isE at_]; try lia.
    all: solve [fin].
  - (* AckE *)
    destruct (st (reg s)) eqn:ST; cbn [state_eqb] in *; try lia. rewrite ES.
    split; cbn [reg calls held toks log cur st low high state_eqb]; auto; rewrite ?sum_app; cbn [sum pend isD isE at_]; try lia; try discriminate.
    1: solve [fin].
    cbn in V9. cbn. destruct (log s); [discriminate|exact V9].
Qed.

Lemma step_ok s c : Inv s -> exists s', step s c = Some s' /\ Inv s'.
Proof.
  intros V. destruct c as [|b|i| |b|i].
  6: { pose proof (run_ok s i V) as R. destruct (step s (Run i)) as [s'|]; [eauto|contradiction]. }
  all: cbn [step]; eexists; (split; [reflexivity|]).
  - apply start_ok; auto; unfold okc, up_k; cbn; auto.
  - destruct (Nat.leb_spec b (held s)); [|exact V]. apply start_ok; auto; unfold okc, lo_k; cbn; auto; lia.
  - destruct (nth_error (toks s) i) as [t|] eqn:E; [|exact V]. pose proof (sum_toks_remove i _ _ E) as [P Q].
    destruct t; try exact V; cbn in P, Q; apply start_ok; auto; unfold okc, lo_k; cbn; auto; lia.
  - apply start_ok; auto; unfold okc, up_k; cbn; auto.
  - destruct (Nat.leb_spec b (held s)); [|exact V]. apply start_ok; auto; unfold okc, lo_k; cbn; auto; lia.
Qed.

Lemma run_Inv cs : forall s, Inv s -> exists s', run s cs = Some s' /\ Inv s'.
Proof.
  induction cs as [|c cs IH]; intros s V; cbn [run]; [eauto|].
  destruct (step_ok s c V) as (s' & -> & V'). apply IH. exact V'.
Qed.

Lemma step_marks s c s' : step s c = Some s' -> low (reg s') = low (reg s) /\ high (reg s') = high (reg s).
Proof.
  destruct c as [|b|i| |b|i]; cbn [step]; try (intros [= <-]; auto; fail).
  - intros [= <-]. destruct (b <=? held s); auto.
  - intros [= <-]. destruct (nth_error (toks s) i) as [[]|]; auto.
  - intros [= <-]. destruct (b <=? held s); auto.
  - destruct (nth_error (calls s) i) as [c|]; [|intros [= <-]; auto].
    destruct (access (reg s) (at_ c)) as [f n] eqn:A.
    assert (low f = low (reg s) /\ high f = high (reg s)) as [L H].
    { destruct (at_ c); cbn in A; repeat match goal with A : context[if ?b then _ else _] |- _ => destruct b end; injection A as <- <-; auto. }
    destruct n as [p|t|]; [intros [= <-]; auto| |discriminate].
    destruct (on_return (k_ c) t); try discriminate; intros [= <-]; auto.
Qed.
Lemma run_marks cs : forall s s', run s cs = Some s' -> low (reg s') = low (reg s) /\ high (reg s') = high (reg s).
Proof.
  induction cs as [|c cs IH]; intros s s'; cbn [run]; [intros [= <-]; auto|].
  destruct (step s c) as [s1|] eqn:E; [|discriminate]. intros H. apply IH in H. apply step_marks in E. intuition congruence.
Qed.

Lemma create_fields lo hi f : create lo hi = Some f -> low f = lo /\ high f = hi.
Proof. unfold create. destruct (lo <? hi); [|discriminate]. intros [= <-]. auto. Qed.

Definition tO (t : toggle) : nat := match t with T_KEEP | T_DISABLED => 1 | _ => 0 end.
Lemma tok_cases l : length l = sum tD l + sum tE l + sum tO l.
Proof. induction l as [|[] l IH]; cbn [length sum tD tE tO]; lia. Qed.

Definition only_DE (s : sys) : Prop := Forall (fun t => t = T_DISABLE \/ t = T_ENABLE) (toks s).
Lemma Forall_remove {A} (P : A -> Prop) i : forall l, Forall P l -> Forall P (remove_nth i l).
Proof. induction i as [|i IH]; intros [|x l] H; cbn; auto; inversion H; subst; auto. Qed.
Lemma step_DE s c s' : step s c = Some s' -> only_DE s -> only_DE s'.
Proof.
  unfold only_DE. destruct c as [|b|i| |b|i]; cbn [step]; try (intros [= <-]; auto; fail).
  - intros [= <-]. destruct (b <=? held s); auto.
  - intros [= <-]. destruct (nth_error (toks s) i) as [[]|]; auto; apply Forall_remove.
  - intros [= <-]. destruct (b <=? held s); auto.
  - destruct (nth_error (calls s) i) as [c|]; [|intros [= <-]; auto].
    destruct (access (reg s) (at_ c)) as [f n].
    destruct n as [p|t|]; [intros [= <-]; auto| |discriminate].
    destruct (on_return (k_ c) t) as [| g u | | |]; try discriminate; intros [= <-]; auto. cbn. destruct u; auto.
Qed.
Lemma run_DE cs : forall s s', run s cs = Some s' -> only_DE s -> only_DE s'.
Proof.
  induction cs as [|c cs IH]; intros s s'; cbn [run]; [intros [= <-]; auto|].
  destruct (step s c) as [s1|] eqn:E; [|discriminate]. intros H D. eapply IH; eauto. eapply step_DE; eauto.
Qed.
Lemma toks_le1 s : Inv s -> only_DE s -> length (toks s) <= 1.
Proof.
  intros V D. rewrite tok_cases. destruct V as [_ _ _ _ VD VE _ _ _].
  replace (sum tO (toks s)) with 0.
  - destruct (st (reg s)); cbn in *; lia.
  - unfold only_DE in D. clear -D. induction D as [|t l H _ IH]; [reflexivity|]. destruct H; subst; exact IH.
Qed.

Lemma limits lo hi f cs : create lo hi = Some f ->
  exists s, run (init f) cs = Some s /\ held s <= hi /\ cur (reg s) <= hi /\ length (toks s) <= 1 /\ alternating (log s).
Proof.
  intros C. destruct (run_Inv cs (init f) (Inv_init _ _ _ C)) as (s & R & V). exists s. split; [exact R|].
  pose proof (run_marks _ _ _ R) as [_ H]. pose proof (create_fields _ _ _ C) as [_ H2]. cbn in H.
  pose proof (toks_le1 s V (run_DE _ _ _ R (Forall_nil _))). destruct V. rewrite H, H2 in *. repeat split; auto. lia.
Qed.

Lemma quiet lo hi f cs s : create lo hi = Some f -> run (init f) cs = Some s -> calls s = [] -> st (reg s) = DISABLED -> lo < held s.
Proof.
  intros C R Q D. destruct (run_Inv cs (init f) (Inv_init _ _ _ C)) as (s' & R' & V). assert (s' = s) by congruence. subst s'.
  pose proof (run_marks _ _ _ R) as [H _]. pose proof (create_fields _ _ _ C) as [H2 _]. cbn in H. rewrite H2 in H.
  destruct V as [_ _ _ V4 _ _ V7 _ _]. rewrite Q in V4, V7. cbn in V4. specialize (V7 D).
  destruct (Nat.le_gt_cases (cur (reg s)) (low (reg s))) as [L|L]; [specialize (V7 L); inversion V7|lia].
Qed.

(** no call in progress and nothing to acknowledge: admission is open, or closed with more than low held *)
Lemma quiet_two lo hi f cs s : create lo hi = Some f -> run (init f) cs = Some s -> calls s = [] -> toks s = [] ->
  st (reg s) = ENABLED \/ (st (reg s) = DISABLED /\ lo < held s).
Proof.
  intros C R Q T. destruct (run_Inv cs (init f) (Inv_init _ _ _ C)) as (s' & R' & V). assert (s' = s) by congruence. subst s'.
  destruct V as [_ _ _ _ VD VE _ _ _]. rewrite Q, T in VD, VE. destruct (st (reg s)) eqn:ST; cbn in VD, VE; try lia; auto.
  right. split; [reflexivity|]. eapply quiet; eauto.
Qed.

Lemma drain lo hi f cs s b : create lo hi = Some f -> run (init f) cs = Some s -> calls s = [] -> st (reg s) = DISABLED ->
  b <= held s -> held s - b <= lo ->
  exists s', run s [Lower b; Run 0; Run 0; Run 0] = Some s' /\ toks s' = T_ENABLE :: toks s /\ calls s' = [] /\ held s' = held s - b.
Proof.
  intros C R Q D B L. destruct (run_Inv cs (init f) (Inv_init _ _ _ C)) as (s' & R' & V). assert (s' = s) by congruence. subst s'.
  pose proof (run_marks _ _ _ R) as [H _]. pose proof (create_fields _ _ _ C) as [H2 _]. cbn in H. rewrite H2 in H.
  destruct V as [_ _ _ V4 _ _ _ _ _]. rewrite Q in V4. cbn in V4. rewrite Nat.add_0_r in V4.
  destruct s as [g cl h tk lg ou]. cbn in *. subst cl h.
  cbn [run step held]. rewrite (proj2 (Nat.leb_le _ _) B). cbn [start calls nth_error reg at_ access toks log outs k_ set_nth remove_nth].
  rewrite (proj2 (Nat.leb_le _ _) B). cbn [reg at_ access toks log outs k_ calls set_nth remove_nth held nth_error on_return logged].
  rewrite Nat.eqb_refl. rewrite H. rewrite (proj2 (Nat.leb_le _ _) L). cbn [reg at_ access toks log outs k_ calls set_nth remove_nth held nth_error on_return logged st].
  rewrite D. cbn [state_eqb on_return logged]. eexists. split; [reflexivity|]. cbn. auto.
Qed.

(** ** the stable_ functions with one producer *)
Definition isP (c : call) : nat := match k_ c with SR1 | SR2 | SR3 => 1 | _ => 0 end.
Definition stablek (c : call) : Prop := match k_ c with Client _ => False | _ => True end.
Definition islo (p : pc) : bool := match p with LoLoad _ | LoCas _ _ | LoState => true | _ => false end.
Definition upSL (c : call) : Prop := (exists t, k_ c = SL t) /\ islo (at_ c) = false.
Definition loP (c : call) : Prop := isP c = 1 /\ islo (at_ c) = true.
Definition Prem (cl : list call) (o : list outcome) : Prop := (sum isP cl = 0 /\ refused o = true) \/ Exists loP cl.
Definition Conc (g : fr) (cl : list call) : Prop := st g = DISABLED \/ Exists upSL cl.
Record K (s : sys) (w : bool) : Prop := {
  k_tok : toks s = [];
  k_st : Forall stablek (calls s);
  k_one : sum isP (calls s) <= 1;
  k_J : w = false -> Prem (calls s) (outs s) -> Conc (reg s) (calls s) }.

Lemma sum_isP0 l : sum isP l = 0 -> ~ Exists loP l.
Proof.
  induction l as [|x l IH]; cbn; intros H E; inversion E; subst.
  - destruct H1. lia.
  - apply IH; [lia|assumption].
Qed.
Lemma producing_sum s : producing s = false -> sum isP (calls s) = 0.
Proof.
  unfold producing. induction (calls s) as [|x l IH]; cbn [existsb sum]; [reflexivity|]. intros H. apply orb_false_iff in H. destruct H as [A B].
  rewrite (IH B). unfold isP. destruct (k_ x); auto; discriminate.
Qed.

Lemma ack_upSL (g : call -> nat) l : (g = isD \/ g = isE) -> Forall stablek l -> sum isP l = 0 -> sum g l = 1 -> Exists upSL l.
Proof.
  intros Hg. induction l as [|x l IH]; cbn; [discriminate|]. intros F P1 H. inversion F; subst.
  destruct (g x) eqn:E.
  - right. apply IH; auto; lia.
  - left. unfold upSL. assert (islo (at_ x) = false) by (destruct Hg; subst g; unfold isD, isE in E; destruct (at_ x); auto; discriminate).
    split; [|assumption]. unfold stablek in *. unfold isP in P1. destruct (k_ x); try lia; try contradiction. eauto.
Qed.

Lemma ack_upSL' (g : call -> nat) l : (g = isD \/ g = isE) -> Forall stablek l -> sum isP l <= 1 -> Exists loP l -> sum g l = 1 -> Exists upSL l.
Proof.
  intros Hg. induction l as [|x l IH]; cbn; [discriminate|]. intros F P1 E H. inversion F; subst.
  destruct (Nat.eq_dec (isP x) 1) as [PX|PX].
  - destruct (g x) eqn:G.
    + right. apply (ack_upSL g); auto; lia.
    + exfalso. inversion E as [? ? [A B]|? ? E']; subst.
      * destruct Hg; subst g; unfold isD, isE in G; destruct (at_ x); discriminate.
      * apply (sum_isP0 l); [lia|assumption].
  - inversion E as [? ? [A B]|? ? E']; subst; [lia|]. destruct (g x) eqn:G.
    + right. apply IH; auto; lia.
    + left. unfold upSL. assert (islo (at_ x) = false) by (destruct Hg; subst g; unfold isD, isE in G; destruct (at_ x); auto; discriminate).
      split; [|assumption]. unfold stablek in *. unfold isP in PX. destruct (k_ x); try lia; try contradiction. eauto.
Qed.

Lemma Exists_mid {A} (P : A -> Prop) a x b : Exists P (a ++ x :: b) <-> P x \/ Exists P (a ++ b).
Proof.
  rewrite !Exists_app. split.
  - intros [H|H]; [auto|]. inversion H; subst; auto.
  - intros [H|[H|H]]; auto.
Qed.

Lemma restart_same l : says_restart l l = false.
Proof. destruct l as [|[|[]] l]; unfold says_restart; auto. apply Nat.ltb_irrefl. Qed.
Lemma restart_raise l b : says_restart l (DidRaise b :: l) = false.
Proof. reflexivity. Qed.
Lemma restart_false l : says_restart l (DidLower false :: l) = false.
Proof. reflexivity. Qed.
Lemma restart_true l : says_restart l (DidLower true :: l) = true.
Proof. unfold says_restart. apply Nat.ltb_lt. cbn. lia. Qed.
Ltac rst := rewrite ?restart_same, ?restart_raise, ?restart_false, ?restart_true, ?orb_false_r, ?orb_true_r in *.

Lemma run_K s w i s' : Inv s -> K s w -> step s (Run i) = Some s' -> K s' (w || says_restart (outs s) (outs s')).
Proof.
  intros V KK. cbn [step]. destruct (nth_error (calls s) i) as [c|] eqn:EN; [|intros [= <-]; rst; exact KK].
  destruct (nth_split_set _ _ _ EN) as (ca & cb & EC & ES & ER). destruct V as [_ _ V3 _ V5 V6 _ _ _]. destruct KK as [K1 K2 K3 K4].
  rewrite ER. rewrite EC in V3, V5, V6, K2, K3, K4. rewrite !sum_app in *. cbn [sum] in *.
  apply Forall_app in V3. destruct V3 as [_ F2]. inversion F2 as [|? ? OC _]; subst. clear F2.
  apply Forall_app in K2. destruct K2 as [S1 S2]. inversion S2 as [|? ? SC S3]; subst. clear S2.
  assert (Forall stablek (ca ++ cb)) as SK by (apply Forall_app; auto).
  assert (forall x, stablek x -> Forall stablek (ca ++ x :: cb)) as SK2 by (intros; apply Forall_app; auto).
  rewrite K1 in V5, V6. cbn [sum] in V5, V6.
  unfold Prem, Conc in K4. rewrite !Exists_mid, sum_app in K4. cbn [sum] in K4.
  assert (st (reg s) = DISABLING -> isD c = 0 -> sum isP (ca ++ cb) = 0 -> Exists upSL (ca ++ cb)) as HD.
  { intros A B Z. apply (ack_upSL isD); auto. rewrite sum_app. rewrite A in V5. cbn in V5. lia. }
  assert (st (reg s) = ENABLING -> isE c = 0 -> sum isP (ca ++ cb) = 0 -> Exists upSL (ca ++ cb)) as HE.
  { intros A B Z. apply (ack_upSL isE); auto. rewrite sum_app. rewrite A in V6. cbn in V6. lia. }
  rewrite sum_app in HD, HE.
  destruct c as [p k]. cbn [at_ k_] in *.
  assert (sum isP ca + sum isP cb = 0 -> ~ Exists loP (ca ++ cb)) as NP.
  { rewrite <- sum_app. apply sum_isP0. }
  Ltac kfin := rst; (split; cbn [toks calls reg outs st]; rewrite ?sum_app; cbn [sum];
     [ assumption
     | first [assumption | match goal with F : forall x, stablek x -> _ |- _ => apply F; exact I end]
     | cbn [isP k_] in *; lia
     | unfold Prem, Conc; rewrite ?Exists_mid, ?sum_app; cbn [sum refused negb st] ]).
  destruct k as [g| | | |lt]; [contradiction| | | |];
    (destruct p as [adj|old adj| |b|old b| | |]; cbn [access];
     unfold okc, up_k, lo_k in OC; cbn [at_ k_] in OC; try (exfalso; repeat match goal with H : exists _, _ |- _ => destruct H end; intuition discriminate; fail)).

  all: cbn [isP isD isE at_ k_] in *.
  Ltac nop := exfalso; match goal with NP : _ -> ~ Exists loP _ |- _ => apply NP; [lia|assumption] end.
  Ltac prem := intros W [[Z Z']|Z]; cbn [isP k_] in *; try lia; try discriminate; try nop;
               try (destruct Z as [[Z1 Z2]|Z]; [cbn in Z1, Z2; discriminate|nop]).
  - (* SR1 UpLoad *)
    destruct (cur (reg s) =? high (reg s)); rewrite ES; intros [= <-]; kfin; solve [prem].
  - (* SR1 UpCas *)
    destruct (cur (reg s) =? old); cbn [on_return]; rewrite ?ES; intros [= <-]; kfin; solve [prem].
  - (* SR1 UpState *)
    destruct (st (reg s)) eqn:ST; cbn [state_eqb on_return]; rewrite ?ES; intros [= <-]; kfin; rewrite ?ST; cbn [st]; try solve [prem].
    + intros _ _. right. apply HD; auto; lia.
    + auto.
    + intros _ _. right. apply HE; auto; lia.
  - (* SR2 LoLoad *)
    destruct (b <=? cur (reg s)); [|discriminate]. rewrite ES; intros [= <-]; kfin.
    intros W _. destruct (K4 W) as [A|[[[t A] B]|A]]; auto; [right; left; split; reflexivity|discriminate].
  - (* SR2 LoCas *)
    destruct (cur (reg s) =? old); [destruct (_ <=? low (reg s))|]; cbn [on_return]; rewrite ?ES; intros [= <-]; kfin;
      intros W _; (destruct (K4 W) as [A|[[[t A] B]|A]]; auto; [right; left; split; reflexivity|discriminate]).
  - (* SR2 LoState *)
    destruct (st (reg s)) eqn:ST; cbn [state_eqb on_return]; rewrite ?ES; intros [= <-]; kfin; rewrite ?ST; cbn [st]; try solve [prem];
      intros W _; (destruct (K4 W) as [A|[[[t A] B]|A]]; auto; [right; left; split; reflexivity|discriminate]).
  - (* SR2 AckD *)
    destruct (st (reg s)) eqn:ST; cbn [state_eqb on_return]; rewrite ?ES; try discriminate; intros [= <-]; kfin. auto.
  - (* SR3 UpLoad *)
    destruct (cur (reg s) =? high (reg s)); rewrite ES; intros [= <-]; kfin; solve [prem].
  - (* SR3 UpCas *)
    destruct (cur (reg s) =? old); cbn [on_return]; rewrite ?ES; intros [= <-]; kfin; solve [prem].
  - (* SR3 UpState *)
    destruct (st (reg s)) eqn:ST; cbn [state_eqb on_return]; rewrite ?ES; intros [= <-]; kfin; rewrite ?ST; cbn [st]; try solve [prem].
    + intros _ _. right. apply HD; auto; lia.
    + auto.
    + intros _ _. right. apply HE; auto; lia.
  - (* SR3 AckE *)
    destruct (st (reg s)) eqn:ST; cbn [state_eqb on_return]; rewrite ?ES; try discriminate; intros [= <-]; kfin. solve [prem].
  Ltac up := intros W Z; right; left; split; [eexists; reflexivity|reflexivity].
  - (* SL UpLoad *)
    destruct (cur (reg s) =? high (reg s)); rewrite ES; intros [= <-]; kfin; solve [up].
  - (* SL UpCas *)
    assert (lt = T_ENABLE) by (intuition congruence). subst lt.
    destruct (cur (reg s) =? old); cbn [on_return]; rewrite ?ES; intros [= <-]; kfin; [discriminate|solve [up]].
  - (* SL UpState *)
    assert (lt = T_ENABLE) by (destruct OC as [? OC]; intuition congruence). subst lt.
    assert (forall g, (g = isD \/ g = isE) -> sum g (ca ++ cb) = 1 -> sum isP ca + sum isP cb = 0 /\ refused (outs s) = true \/ Exists loP (ca ++ cb) -> Exists upSL (ca ++ cb)) as HX.
    { intros g Hg G [[Z _]|Z]; [apply (ack_upSL g)|apply (ack_upSL' g)]; auto; rewrite sum_app; lia. }
    destruct (st (reg s)) eqn:ST; cbn [state_eqb on_return ack_in_lower]; rewrite ?ES; intros [= <-]; kfin; rewrite ?ST; cbn [st]; try solve [up].
    + intros _ Z. right. apply (HX isD); auto. rewrite sum_app. cbn in V5. lia.
    + auto.
    + intros _ Z. right. apply (HX isE); auto. rewrite sum_app. cbn in V6. lia.
  Ltac keep K4 := intros W Z; destruct (K4 W) as [A|[[[t A] B]|A]]; [intuition|auto|discriminate|auto].
  - (* SL LoLoad *)
    destruct (b <=? cur (reg s)); [|discriminate]. rewrite ES; intros [= <-]; kfin. keep K4.
  - (* SL LoCas *)
    destruct (cur (reg s) =? old); [destruct (_ <=? low (reg s))|]; cbn [on_return]; rewrite ?ES; intros [= <-].
    1,3: kfin; keep K4.
    destruct lt; try (exfalso; intuition discriminate); kfin; keep K4.
  - (* SL LoState *)
    destruct lt; try (exfalso; intuition discriminate);
    (destruct (st (reg s)) eqn:ST; cbn [state_eqb on_return ack_in_lower]; rewrite ?ES; intros [= <-]; kfin; rewrite ?ST; cbn [st]; try solve [up]; keep K4).
  - (* SL AckD *)
    destruct (st (reg s)) eqn:ST; cbn [state_eqb on_return]; rewrite ?ES; try discriminate; intros [= <-]; kfin. auto.
  - (* SL AckE *)
    destruct (st (reg s)) eqn:ST; cbn [state_eqb on_return]; rewrite ?ES; try discriminate; intros [= <-]; kfin. up.
Qed.

Lemma start_K s w c h : K s w -> stablek c -> k_ c = SL T_KEEP -> islo (at_ c) = true -> K (start s c h (toks s)) w.
Proof.
  intros [K1 K2 K3 K4] S1 S2 S3. split; cbn [start toks calls reg outs].
  - exact K1.
  - constructor; assumption.
  - cbn. unfold isP at 1. rewrite S2. exact K3.
  - intros W P. assert (isP c = 0) as Z by (unfold isP; rewrite S2; reflexivity). destruct (K4 W) as [A|A].
    + destruct P as [[P1 P2]|P]; [left; cbn in P1; split; [lia|exact P2]|]. right. inversion P as [? ? [A B]|]; subst; [lia|assumption].
    + left. exact A.
    + right. right. exact A.
Qed.

Lemma one_producer_K cs : forall s w s' w', Inv s -> K s w -> one_producer s w cs = Some (s', w') -> Inv s' /\ K s' w' /\ run s cs = Some s'.
Proof.
  induction cs as [|c cs IH]; intros s w s' w' V KK; cbn [one_producer run]; [intros [= <- <-]; auto|].
  destruct (stable_choice c && _) eqn:E; [|discriminate]. apply andb_prop in E. destruct E as [E1 E2].
  destruct (step_ok s c V) as (s1 & S1 & V1). rewrite S1. apply IH; [exact V1|].
  destruct c as [|b|i| |b|i]; try discriminate E1.
  - apply negb_true_iff in E2. apply producing_sum in E2. injection S1 as <-. destruct KK as [K1 K2 K3 K4].
    split; cbn [start toks calls reg outs]; auto.
    + constructor; [exact I|assumption].
    + cbn. lia.
    + intros _ [[P _]|P]; [cbn in P; lia|]. inversion P as [? ? [A B]|]; subst; [discriminate|]. exfalso. eapply sum_isP0; eauto.
  - cbn [step] in S1. injection S1 as <-. destruct (b <=? held s); cbn [start outs]; rst; [|exact KK].
    apply start_K; cbn; auto.
  - eapply run_K; eauto.
Qed.

Lemma one_producer_quiet lo hi f cs s w : create lo hi = Some f -> one_producer (init f) false cs = Some (s, w) ->
  calls s = [] -> refused (outs s) = true -> w = true \/ (st (reg s) = DISABLED /\ lo < held s).
Proof.
  intros C R Q F. destruct (one_producer_K cs (init f) false s w) as (V & KK & RR); auto.
  - eapply Inv_init; eauto.
  - split; cbn; auto. unfold Prem. cbn. intros _ [[_ H]|H]; [discriminate|inversion H].
  - destruct w; [auto|right]. destruct KK as [_ _ _ K4]. rewrite Q in K4. destruct (K4 eq_refl) as [D|D].
    + left. auto.
    + split; [exact D|]. eapply quiet; eauto.
    + inversion D.
Qed.
