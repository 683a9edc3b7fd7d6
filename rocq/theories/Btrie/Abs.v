(** The trie over bit strings. *)
From Coq Require Import Arith NArith List Bool Lia Permutation.
From Verif.Btrie Require Import Model Spec.
Import ListNotations.

Inductive atree := AN0 | AN (l r : atree) (d : N) (x : list bool) (i : bool).

Definition prefixb (x p : list bool) : bool := bits_eqb x (firstn (length x) p).
Definition child (b : bool) (l r : atree) : atree := if b then r else l.
Definition bitn (p : list bool) (n : nat) : bool := nth n p false.

Lemma bits_eqb_spec a b : reflect (a = b) (bits_eqb a b).
Proof. unfold bits_eqb. destruct (list_eq_dec bool_dec a b); constructor; assumption. Qed.
Lemma bits_eqb_refl a : bits_eqb a a = true.
Proof. destruct (bits_eqb_spec a a); congruence. Qed.

Lemma prefixb_spec x p : reflect (is_prefix x p) (prefixb x p).
Proof.
  unfold prefixb. destruct (bits_eqb_spec x (firstn (length x) p)) as [E|N]; constructor.
  - exists (skipn (length x) p). rewrite E at 1. symmetry. apply firstn_skipn.
  - intros [s ->]. apply N. rewrite firstn_app, Nat.sub_diag, firstn_all, firstn_O, app_nil_r. reflexivity.
Qed.
Lemma is_prefix_len x p : is_prefix x p -> length x <= length p.
Proof. intros [s ->]. rewrite app_length. lia. Qed.
Lemma is_prefix_refl x : is_prefix x x.
Proof. exists []. now rewrite app_nil_r. Qed.
Lemma is_prefix_trans x y z : is_prefix x y -> is_prefix y z -> is_prefix x z.
Proof. intros [s ->] [t ->]. exists (s ++ t). now rewrite app_assoc. Qed.
Lemma is_prefix_eq x p : is_prefix x p -> length x = length p -> x = p.
Proof. intros [s ->] H. rewrite app_length in H. destruct s; [now rewrite app_nil_r|cbn in H; lia]. Qed.
Lemma is_prefix_bit x p n : is_prefix x p -> n < length x -> bitn p n = bitn x n.
Proof. intros [s ->] H. unfold bitn. now rewrite app_nth1. Qed.
Lemma prefix_firstn x p : is_prefix x p <-> firstn (length x) p = x.
Proof.
  split.
  - intros [s ->]. rewrite firstn_app, Nat.sub_diag, firstn_all, firstn_O, app_nil_r. reflexivity.
  - intros H. exists (skipn (length x) p). rewrite <- H at 1. symmetry. apply firstn_skipn.
Qed.
Lemma is_prefix_total x y p : is_prefix x p -> is_prefix y p -> length x <= length y -> is_prefix x y.
Proof.
  intros H1 H2 L. apply prefix_firstn in H1, H2. apply prefix_firstn. rewrite <- H2, firstn_firstn, Nat.min_l by exact L. exact H1.
Qed.

(** common prefix *)
Fixpoint lcp (x p : list bool) : list bool :=
  match x, p with a :: x', b :: p' => if Bool.eqb a b then a :: lcp x' p' else [] | _, _ => [] end.
Lemma lcp_l x p : is_prefix (lcp x p) x.
Proof.
  revert p. induction x as [|a x IH]; intros [|b p]; cbn; try apply is_prefix_refl; try (eexists; reflexivity).
  destruct (Bool.eqb a b); [|eexists; reflexivity]. destruct (IH p) as [s E]. exists s. cbn. now rewrite <- E.
Qed.
Lemma lcp_r x p : is_prefix (lcp x p) p.
Proof.
  revert p. induction x as [|a x IH]; intros [|b p]; cbn; try apply is_prefix_refl; try (eexists; reflexivity).
  destruct (Bool.eqb a b) eqn:E; [|eexists; reflexivity]. apply Bool.eqb_prop in E. subst b. destruct (IH p) as [s E]. exists s. cbn. now rewrite <- E.
Qed.
Lemma lcp_diff x p : length (lcp x p) < length x -> length (lcp x p) < length p -> bitn x (length (lcp x p)) = negb (bitn p (length (lcp x p))).
Proof.
  revert p. induction x as [|a x IH]; intros [|b p]; cbn; try lia. destruct (Bool.eqb a b) eqn:E; cbn.
  - intros H1 H2. apply (IH p); lia.
  - intros _ _. unfold bitn. cbn. destruct a, b; cbn in *; congruence.
Qed.
Lemma lcp_common y x p : is_prefix y x -> is_prefix y p -> is_prefix y (lcp x p).
Proof.
  intros [s ->] [t ->]. induction y as [|a y IH]; [eexists; reflexivity|]. cbn. rewrite Bool.eqb_reflx. destruct IH as [u ->]. exists u. reflexivity.
Qed.

(** well-formed tries *)
Definition under (x : list bool) (b : bool) (t : atree) : Prop :=
  match t with AN0 => True | AN _ _ _ y _ => is_prefix x y /\ length x < length y /\ bitn y (length x) = b end.
Fixpoint awf (t : atree) : Prop :=
  match t with
  | AN0 => True
  | AN l r d x i => (i = true -> d = 0%N) /\ under x false l /\ under x true r /\ awf l /\ awf r
  end.

Fixpoint aget (t : atree) (p : list bool) : option N :=
  match t with
  | AN0 => None
  | AN l r d x i =>
      if prefixb x p then
        if Nat.eqb (length x) (length p) then if i then None else Some d
        else aget (child (bitn p (length x)) l r) p
      else None
  end.

Lemma aget_above t x b p : under x b t -> aget t p <> None -> is_prefix x p /\ length x < length p /\ bitn p (length x) = b.
Proof.
  destruct t as [|l r d y i]; cbn; [congruence|]. intros (H1 & H2 & H3) H. destruct (prefixb_spec y p) as [P|]; [|congruence].
  split; [eapply is_prefix_trans; eassumption|]. split; [pose proof (is_prefix_len _ _ P); lia|]. rewrite (is_prefix_bit y p) by assumption. exact H3.
Qed.

Definition aset (t : atree) (b : bool) (c : atree) : atree :=
  match t with AN0 => AN0 | AN l r d x i => if b then AN l c d x i else AN c r d x i end.
Definition asplit (t : atree) (x p : list bool) (d : N) : atree :=
  let c := lcp x p in
  if Nat.eqb (length p) (length c) then aset (AN AN0 AN0 d p false) (bitn x (length p)) t
  else aset (aset (AN AN0 AN0 0%N c true) (bitn x (length c)) t) (bitn p (length c)) (AN AN0 AN0 d p false).
Fixpoint aadd (t : atree) (p : list bool) (d : N) : atree :=
  match t with
  | AN0 => AN AN0 AN0 d p false
  | AN l r d0 x i =>
      if prefixb x p then
        if Nat.eqb (length x) (length p) then AN l r d x false
        else if bitn p (length x) then AN l (aadd r p d) d0 x i else AN (aadd l p d) r d0 x i
      else asplit t x p d
  end.

Lemma asplit_ok l r d0 x i p d : awf (AN l r d0 x i) -> ~ is_prefix x p ->
  awf (asplit (AN l r d0 x i) x p d) /\
  (forall q, aget (asplit (AN l r d0 x i) x p d) q = if bits_eqb p q then Some d else aget (AN l r d0 x i) q) /\
  (forall y b, is_prefix y x -> is_prefix y p -> length y < length x -> length y < length p -> bitn x (length y) = b -> bitn p (length y) = b ->
     under y b (asplit (AN l r d0 x i) x p d)) /\
  (exists l' r' d' x' i', asplit (AN l r d0 x i) x p d = AN l' r' d' x' i' /\ is_prefix x' x /\ is_prefix x' p).
Proof.
  intros W NP. set (t := AN l r d0 x i) in *.
  pose proof (lcp_l x p) as CL. pose proof (lcp_r x p) as CR. pose proof (lcp_diff x p) as CD.
  set (c := lcp x p) in *.
  assert (length c < length x) as LX.
  { pose proof (is_prefix_len _ _ CL). destruct (Nat.eq_dec (length c) (length x)); [|lia]. exfalso. apply NP. rewrite <- (is_prefix_eq _ _ CL) by assumption. exact CR. }
  unfold asplit. fold c. destruct (Nat.eqb_spec (length p) (length c)) as [EP|NE].
  - assert (c = p) as CP by (apply is_prefix_eq; [exact CR|lia]).
    assert (is_prefix p x) as PX by (rewrite <- CP; exact CL).
    assert (length p < length x) as LPX by lia.
    assert (under p (bitn x (length p)) t) as U by (cbn; auto).
    split; [|split; [|split]].
    + unfold aset. destruct (bitn x (length p)) eqn:B; cbn [awf]; repeat split; try exact I; try discriminate; try exact W; try exact U; try apply W; cbn; auto.
    + intros q. assert (forall z, aget (if z : bool then AN AN0 t d p false else AN t AN0 d p false) q =
        if prefixb p q then if Nat.eqb (length p) (length q) then Some d else aget (child (bitn q (length p)) (if z then AN0 else t) (if z then t else AN0)) q else None) as AG by (intros [|]; reflexivity).
      change (aset (AN AN0 AN0 d p false) (bitn x (length p)) t) with (if bitn x (length p) then AN AN0 t d p false else AN t AN0 d p false).
      rewrite AG. destruct (bits_eqb_spec p q) as [<-|NQ].
      * destruct (prefixb_spec p p) as [_|C]; [|exfalso; apply C, is_prefix_refl]. rewrite Nat.eqb_refl. reflexivity.
      * destruct (prefixb_spec p q) as [PQ|NPQ].
        -- destruct (Nat.eqb_spec (length p) (length q)) as [EL|]; [exfalso; apply NQ; apply is_prefix_eq; assumption|].
           destruct (Bool.bool_dec (bitn q (length p)) (bitn x (length p))) as [EB|NB].
           ++ rewrite EB. destruct (bitn x (length p)); reflexivity.
           ++ assert (aget t q = None) as ->.
              { destruct (aget t q) eqn:G; [|reflexivity]. exfalso. apply NB. assert (aget t q <> None) as G' by congruence. apply (aget_above t p _ q U) in G'. apply G'. }
              destruct (bitn q (length p)), (bitn x (length p)); cbn; congruence.
        -- destruct (aget t q) eqn:G; [|reflexivity]. exfalso. apply NPQ. assert (aget t q <> None) as G' by congruence. apply (aget_above t p _ q U) in G'. apply G'.
    + intros y b H1 H2 H3 H4 H5 H6. unfold aset. assert (is_prefix y p /\ length y < length p /\ bitn p (length y) = b) as Q.
      { split; [exact H2|]. split; [exact H4|]. rewrite <- H5. symmetry. apply is_prefix_bit; [exact PX|lia]. }
      destruct (bitn x (length p)); exact Q.
    + unfold aset. destruct (bitn x (length p)); do 5 eexists; (split; [reflexivity|]); split; try exact PX; apply is_prefix_refl.
  - assert (length c < length p) as LP by (pose proof (is_prefix_len _ _ CR); lia).
    specialize (CD LX LP). rewrite CD. set (nw := AN AN0 AN0 d p false).
    assert (under c (bitn x (length c)) t) as UT by (cbn; auto).
    assert (under c (bitn p (length c)) nw) as UN by (cbn; auto).
    assert (aset (aset (AN AN0 AN0 0%N c true) (negb (bitn p (length c))) t) (bitn p (length c)) nw =
      AN (if bitn p (length c) then t else nw) (if bitn p (length c) then nw else t) 0%N c true) as -> by (destruct (bitn p (length c)); reflexivity).
    rewrite CD in UT.
    split; [|split; [|split]].
    + cbn [awf]. destruct (bitn p (length c)); cbn [negb] in *; repeat split; try exact I; try discriminate; try exact W; try apply W; try apply UT; try apply UN; cbn; auto.
    + intros q. cbn [aget]. destruct (bits_eqb_spec p q) as [<-|NQ].
      * destruct (prefixb_spec c p) as [_|C]; [|contradiction]. destruct (Nat.eqb_spec (length c) (length p)); [lia|].
        destruct (bitn p (length c)); cbn; (destruct (prefixb_spec p p) as [_|C]; [|exfalso; apply C, is_prefix_refl]); rewrite Nat.eqb_refl; reflexivity.
      * assert (aget nw q = None) as GN.
        { cbn. destruct (prefixb_spec p q) as [PQ|]; [|reflexivity]. destruct (Nat.eqb_spec (length p) (length q)) as [EL|].
          - exfalso. apply NQ. apply is_prefix_eq; assumption.
          - destruct (bitn q (length p)); reflexivity. }
        destruct (prefixb_spec c q) as [PQ|NPQ].
        -- destruct (Nat.eqb_spec (length c) (length q)) as [EL|].
           ++ destruct (aget t q) eqn:G; [|reflexivity]. exfalso. assert (aget t q <> None) as G' by congruence. apply (aget_above t c _ q UT) in G'. lia.
           ++ destruct (Bool.bool_dec (bitn q (length c)) (bitn p (length c))) as [EB|NB].
              ** rewrite EB. transitivity (aget nw q); [destruct (bitn p (length c)); reflexivity|]. rewrite GN.
                 destruct (aget t q) eqn:G; [|reflexivity]. exfalso. assert (aget t q <> None) as G' by congruence. apply (aget_above t c _ q UT) in G'.
                 destruct G' as (_ & _ & G'). rewrite EB in G'. destruct (bitn p (length c)); discriminate.
              ** destruct (bitn q (length c)), (bitn p (length c)); cbn; try congruence; reflexivity.
        -- destruct (aget t q) eqn:G; [|reflexivity]. exfalso. apply NPQ. assert (aget t q <> None) as G' by congruence. apply (aget_above t c _ q UT) in G'. apply G'.
    + intros y b H1 H2 H3 H4 H5 H6. cbn. assert (is_prefix y c) as YC by (apply lcp_common; assumption).
      assert (length y < length c \/ length y = length c) as [LY|LY] by (pose proof (is_prefix_len _ _ YC); lia).
      * split; [exact YC|]. split; [exact LY|]. rewrite <- H5. symmetry. apply is_prefix_bit; assumption.
      * exfalso. rewrite <- LY, H5, H6 in CD. destruct b; discriminate.
    + do 5 eexists. split; [reflexivity|]. auto.
Qed.

Lemma aadd_ok p d : forall t, awf t ->
  awf (aadd t p d) /\
  (forall q, aget (aadd t p d) q = if bits_eqb p q then Some d else aget t q) /\
  (forall y b, under y b t -> is_prefix y p -> length y < length p -> bitn p (length y) = b -> under y b (aadd t p d)) /\
  (exists l' r' d' x' i', aadd t p d = AN l' r' d' x' i' /\ is_prefix x' p /\ match t with AN0 => True | AN _ _ _ x _ => is_prefix x' x end).
Proof.
  induction t as [|l IHl r IHr d0 x i]; intros W; cbn [aadd].
  - split; [cbn; repeat split; auto; discriminate|]. split; [|split].
    + intros q. cbn. destruct (bits_eqb_spec p q) as [<-|NQ].
      * destruct (prefixb_spec p p) as [_|C]; [|exfalso; apply C, is_prefix_refl]. rewrite Nat.eqb_refl. reflexivity.
      * destruct (prefixb_spec p q) as [PQ|]; [|reflexivity]. destruct (Nat.eqb_spec (length p) (length q)).
        -- exfalso. apply NQ. apply is_prefix_eq; assumption.
        -- destruct (bitn q (length p)); reflexivity.
    + intros y b _ H1 H2 H3. cbn. auto.
    + do 5 eexists. split; [reflexivity|]. split; [apply is_prefix_refl|exact I].
  - destruct (prefixb_spec x p) as [P|NP].
    + destruct (Nat.eqb_spec (length x) (length p)) as [EL|NL].
      * pose proof (is_prefix_eq _ _ P EL) as ->. cbn in W. split; [cbn; intuition discriminate|]. split; [|split].
        -- intros q. cbn. destruct (bits_eqb_spec p q) as [<-|NQ].
           ++ destruct (prefixb_spec p p) as [_|C]; [|contradiction]. rewrite Nat.eqb_refl. reflexivity.
           ++ destruct (prefixb_spec p q) as [PQ|]; [|reflexivity]. destruct (Nat.eqb_spec (length p) (length q)); [|reflexivity].
              exfalso. apply NQ. apply is_prefix_eq; assumption.
        -- intros y b U _ _ _. exact U.
        -- do 5 eexists. split; [reflexivity|]. split; apply is_prefix_refl.
      * assert (length x < length p) as LT by (pose proof (is_prefix_len _ _ P); lia).
        destruct W as (W1 & W2 & W3 & W4 & W5).
        destruct (IHl W4) as (L1 & L2 & L3 & _). destruct (IHr W5) as (R1 & R2 & R3 & _).
        destruct (bitn p (length x)) eqn:B.
        -- split; [cbn [awf]; split; [exact W1|split; [exact W2|split; [apply R3; assumption|split; assumption]]]|]. split; [|split].
           ++ intros q. cbn [aget]. destruct (bits_eqb_spec p q) as [<-|NQ].
              ** destruct (prefixb_spec x p) as [_|C]; [|contradiction]. destruct (Nat.eqb_spec (length x) (length p)); [lia|]. rewrite B. cbn [child].
                 rewrite R2, bits_eqb_refl. reflexivity.
              ** destruct (prefixb x q); [|reflexivity]. destruct (Nat.eqb (length x) (length q)); [reflexivity|]. destruct (bitn q (length x)); cbn [child]; [|reflexivity].
                 rewrite R2. destruct (bits_eqb_spec p q); [congruence|reflexivity].
           ++ intros y b U _ _ _. exact U.
           ++ do 5 eexists. split; [reflexivity|]. split; [exact P|apply is_prefix_refl].
        -- split; [cbn [awf]; split; [exact W1|split; [apply L3; assumption|split; [exact W3|split; assumption]]]|]. split; [|split].
           ++ intros q. cbn [aget]. destruct (bits_eqb_spec p q) as [<-|NQ].
              ** destruct (prefixb_spec x p) as [_|C]; [|contradiction]. destruct (Nat.eqb_spec (length x) (length p)); [lia|]. rewrite B. cbn [child].
                 rewrite L2, bits_eqb_refl. reflexivity.
              ** destruct (prefixb x q); [|reflexivity]. destruct (Nat.eqb (length x) (length q)); [reflexivity|]. destruct (bitn q (length x)); cbn [child]; [reflexivity|].
                 rewrite L2. destruct (bits_eqb_spec p q); [congruence|reflexivity].
           ++ intros y b U _ _ _. exact U.
           ++ do 5 eexists. split; [reflexivity|]. split; [exact P|apply is_prefix_refl].
    + destruct (asplit_ok l r d0 x i p d W NP) as (H1 & H2 & H3 & H4). split; [exact H1|]. split; [exact H2|]. split.
      * intros y b (U1 & U2 & U3) Y1 Y2 Y3. apply H3; assumption.
      * destruct H4 as (l' & r' & d' & x' & i' & E & A & B). exists l', r', d', x', i'. auto.
Qed.

(** deletion; None: the root has to be collapsed *)
Definition leafish (l r : atree) : bool := match l, r with AN _ _ _ _ _, AN _ _ _ _ _ => false | _, _ => true end.
Definition other (l r : atree) : atree := match l with AN0 => r | _ => l end.
Fixpoint adel (t : atree) (p : list bool) : atree * bool * list N :=
  match t with
  | AN0 => (AN0, false, [])
  | AN l r d x i =>
      if prefixb x p then
        if Nat.eqb (length x) (length p) then
          (if leafish l r then other l r else AN l r 0%N x true, true, call_f d)
        else if bitn p (length x) then let '(c, b, f) := adel r p in (AN l c d x i, b, f)
        else let '(c, b, f) := adel l p in (AN c r d x i, b, f)
      else (t, false, [])
  end.

Lemma under_trans x y b b' t : is_prefix x y -> length x < length y -> bitn y (length x) = b -> under y b' t -> under x b t.
Proof.
  destruct t as [|l r d z i]; cbn; [auto|]. intros H1 H2 H3 (U1 & U2 & U3). split; [eapply is_prefix_trans; eassumption|]. split; [lia|].
  rewrite (is_prefix_bit y z) by assumption. exact H3.
Qed.

Lemma adel_ok p : forall t, awf t ->
  let '(t', b, f) := adel t p in
  awf t' /\
  (forall q, aget t' q = if bits_eqb p q then None else aget t q) /\
  (forall y b, under y b t -> under y b t') /\
  (b = false -> aget t p = None) /\
  f = match aget t p with Some d => call_f d | None => [] end.
Proof.
  induction t as [|l IHl r IHr d x i]; intros W; cbn [adel].
  - split; [exact I|]. split; [intros q; cbn; destruct (bits_eqb p q); reflexivity|]. split; [auto|]. split; reflexivity.
  - destruct (prefixb_spec x p) as [P|NP].
    + destruct (Nat.eqb_spec (length x) (length p)) as [EL|NL].
      * pose proof (is_prefix_eq _ _ P EL) as ->. destruct W as (W1 & W2 & W3 & W4 & W5).
        assert (aget (AN l r d p i) p = if i then None else Some d) as GP.
        { cbn. destruct (prefixb_spec p p) as [_|C]; [|contradiction]. rewrite Nat.eqb_refl. reflexivity. }
        assert (call_f d = match aget (AN l r d p i) p with Some d => call_f d | None => [] end) as CF.
        { rewrite GP. destruct i; [|reflexivity]. rewrite W1 by reflexivity. reflexivity. }
        destruct (leafish l r) eqn:LF.
        -- assert (forall q, (if bits_eqb p q then None else aget (AN l r d p i) q) = aget (other l r) q) as GQ.
           { intros q. assert (other l r = l /\ r = AN0 \/ other l r = r /\ l = AN0) as C by (destruct l, r; cbn in *; try discriminate; auto).
             destruct (bits_eqb_spec p q) as [<-|NQ].
             - destruct C as [[-> _]|[-> _]].
               + destruct (aget l p) eqn:G; [|reflexivity]. exfalso. assert (aget l p <> None) as G' by congruence. apply (aget_above l p _ p W2) in G'. lia.
               + destruct (aget r p) eqn:G; [|reflexivity]. exfalso. assert (aget r p <> None) as G' by congruence. apply (aget_above r p _ p W3) in G'. lia.
             - cbn [aget]. destruct (prefixb_spec p q) as [PQ|NPQ].
               + destruct (Nat.eqb_spec (length p) (length q)) as [E|NE]; [exfalso; apply NQ; apply is_prefix_eq; assumption|].
                 destruct C as [[-> ->]|[-> ->]]; (destruct (bitn q (length p)) eqn:B; cbn [child]; [|try reflexivity]); try reflexivity.
                 * destruct (aget l q) eqn:G; [|reflexivity]. exfalso. assert (aget l q <> None) as G' by congruence. apply (aget_above l p _ q W2) in G'. destruct G' as (_ & _ & G'). congruence.
                 * destruct (aget r q) eqn:G; [|reflexivity]. exfalso. assert (aget r q <> None) as G' by congruence. apply (aget_above r p _ q W3) in G'. destruct G' as (_ & _ & G'). congruence.
               + destruct C as [[-> _]|[-> _]].
                 * destruct (aget l q) eqn:G; [|reflexivity]. exfalso. assert (aget l q <> None) as G' by congruence. apply (aget_above l p _ q W2) in G'. tauto.
                 * destruct (aget r q) eqn:G; [|reflexivity]. exfalso. assert (aget r q <> None) as G' by congruence. apply (aget_above r p _ q W3) in G'. tauto. }
           split; [destruct l; cbn; assumption|]. split; [intros q; symmetry; apply GQ|]. split; [|split; [discriminate|exact CF]].
           intros y b (U1 & U2 & U3). destruct l; cbn [other]; [eapply (under_trans y p b true r)|eapply (under_trans y p b false)]; eassumption.
        -- split; [cbn [awf]; auto|]. split; [|split; [intros y b U; exact U|split; [discriminate|exact CF]]].
           intros q. cbn [aget]. destruct (bits_eqb_spec p q) as [<-|NQ].
           ++ destruct (prefixb_spec p p) as [_|C]; [|contradiction]. rewrite Nat.eqb_refl. reflexivity.
           ++ destruct (prefixb_spec p q) as [PQ|NPQ]; [|reflexivity]. destruct (Nat.eqb_spec (length p) (length q)) as [E|NE]; [|reflexivity].
              exfalso. apply NQ. apply is_prefix_eq; assumption.
      * assert (length x < length p) as LT by (pose proof (is_prefix_len _ _ P); lia).
        destruct W as (W1 & W2 & W3 & W4 & W5). specialize (IHl W4). specialize (IHr W5).
        destruct (bitn p (length x)) eqn:B.
        -- destruct (adel r p) as [[c b] f]. destruct IHr as (R1 & R2 & R3 & R4 & R5).
           assert (aget (AN l r d x i) p = aget r p) as GP.
           { cbn. destruct (prefixb_spec x p) as [_|C]; [|contradiction]. destruct (Nat.eqb_spec (length x) (length p)); [lia|]. rewrite B. reflexivity. }
           rewrite GP. split; [cbn [awf]; split; [exact W1|split; [exact W2|split; [apply R3; exact W3|split; assumption]]]|]. split; [|split; [intros y b' U; exact U|split; assumption]].
           intros q. cbn [aget]. destruct (prefixb x q) eqn:PQ; [|destruct (bits_eqb p q); reflexivity].
           destruct (Nat.eqb_spec (length x) (length q)) as [E|NE].
           ++ destruct (bits_eqb_spec p q) as [<-|]; [lia|reflexivity].
           ++ destruct (bitn q (length x)) eqn:BQ; cbn [child]; [apply R2|]. destruct (bits_eqb_spec p q) as [<-|]; [congruence|reflexivity].
        -- destruct (adel l p) as [[c b] f]. destruct IHl as (R1 & R2 & R3 & R4 & R5).
           assert (aget (AN l r d x i) p = aget l p) as GP.
           { cbn. destruct (prefixb_spec x p) as [_|C]; [|contradiction]. destruct (Nat.eqb_spec (length x) (length p)); [lia|]. rewrite B. reflexivity. }
           rewrite GP. split; [cbn [awf]; split; [exact W1|split; [apply R3; exact W2|split; [exact W3|split; assumption]]]|]. split; [|split; [intros y b' U; exact U|split; assumption]].
           intros q. cbn [aget]. destruct (prefixb x q) eqn:PQ; [|destruct (bits_eqb p q); reflexivity].
           destruct (Nat.eqb_spec (length x) (length q)) as [E|NE].
           ++ destruct (bits_eqb_spec p q) as [<-|]; [lia|reflexivity].
           ++ destruct (bitn q (length x)) eqn:BQ; cbn [child]; [|apply R2]. destruct (bits_eqb_spec p q) as [<-|]; [congruence|reflexivity].
    + split; [exact W|]. assert (aget (AN l r d x i) p = None) as GP by (cbn; destruct (prefixb_spec x p); [contradiction|reflexivity]).
      split; [|split; [auto|split; [auto|rewrite GP; reflexivity]]].
      intros q. destruct (bits_eqb_spec p q) as [<-|]; [exact GP|reflexivity].
Qed.

(** lookup *)
Fixpoint awalk (t : atree) (p : list bool) : list atree :=
  match t with
  | AN0 => []
  | AN l r _ x _ => if prefixb x p then if Nat.eqb (length x) (length p) then [t] else t :: awalk (child (bitn p (length x)) l r) p else []
  end.
Definition ainc (t : atree) : bool := match t with AN0 => false | AN _ _ _ _ i => i end.
Fixpoint aunwind (s : list atree) : list atree :=
  match s with x :: ((_ :: _) as r) => if ainc x then aunwind r else s | _ => s end.
Fixpoint last_real (s : list atree) : option (nat * N) :=
  match s with
  | [] => None
  | AN _ _ d x i :: r => match last_real r with Some z => Some z | None => if i then None else Some (length x, d) end
  | AN0 :: r => last_real r
  end.

Lemma longest_none f a : forall n, (forall m, m <= n -> f (firstn m a) = None) -> longest f a n = None.
Proof. induction n as [|n IH]; intros H; cbn [longest]; rewrite H by lia; [reflexivity|]. apply IH. intros; apply H; lia. Qed.

Lemma longest_shift f g a k N : (forall m, k < m <= N -> f (firstn m a) = g (firstn m a)) -> (forall m, m <= k -> g (firstn m a) = None) ->
  (forall m, m < k -> f (firstn m a) = None) -> forall n, k <= n <= N ->
  longest f a n = match longest g a n with Some r => Some r | None => option_map (fun d => (k, d)) (f (firstn k a)) end.
Proof.
  intros H1 H2 H3. induction n as [|n IH]; intros K.
  - assert (k = 0) as -> by lia. cbn [longest]. rewrite H2 by lia. destruct (f (firstn 0 a)); reflexivity.
  - destruct (Nat.eq_dec k (S n)) as [->|NE].
    + rewrite (longest_none g) by (intros; apply H2; lia). cbn [longest]. destruct (f (firstn (S n) a)); [reflexivity|]. apply longest_none. intros; apply H3; lia.
    + cbn [longest]. rewrite H1 by lia. destruct (g (firstn (S n) a)); [reflexivity|]. apply IH. lia.
Qed.

Lemma firstn_len_le {A} (l : list A) m : m <= length l -> length (firstn m l) = m.
Proof. intros H. rewrite firstn_length. lia. Qed.
Lemma is_prefix_firstn x a m : is_prefix x (firstn m a) -> is_prefix x a.
Proof. intros H. eapply is_prefix_trans; [exact H|]. exists (skipn m a). symmetry. apply firstn_skipn. Qed.

Lemma longest_ext f g a n : (forall m, m <= n -> f (firstn m a) = g (firstn m a)) -> longest f a n = longest g a n.
Proof. induction n as [|n IH]; intros H; cbn [longest]; rewrite H by lia; [reflexivity|]. rewrite IH; [reflexivity|]. intros; apply H; lia. Qed.

Lemma walk_longest a : forall t, awf t -> last_real (awalk t a) = longest (aget t) a (length a).
Proof.
  induction t as [|l IHl r IHr d x i]; intros W; cbn [awalk].
  - symmetry. apply longest_none. reflexivity.
  - destruct (prefixb_spec x a) as [P|NP].
    + pose proof (is_prefix_len _ _ P) as LE. destruct W as (W1 & W2 & W3 & W4 & W5).
      assert (aget (AN l r d x i) (firstn (length x) a) = if i then None else Some d) as GX.
      { replace (firstn (length x) a) with x by (symmetry; apply prefix_firstn; exact P). cbn.
        destruct (prefixb_spec x x) as [_|C]; [|exfalso; apply C, is_prefix_refl]. rewrite Nat.eqb_refl. reflexivity. }
      assert (forall m, m < length x -> aget (AN l r d x i) (firstn m a) = None) as GS.
      { intros m M. cbn. destruct (prefixb_spec x (firstn m a)) as [C|]; [|reflexivity]. apply is_prefix_len in C. rewrite firstn_length in C. lia. }
      destruct (Nat.eqb_spec (length x) (length a)) as [EL|NL].
      * cbn [last_real]. rewrite <- EL. rewrite (longest_shift _ (fun _ => None) a (length x) (length x)); try lia.
        -- rewrite longest_none by reflexivity. rewrite GX. destruct i; reflexivity.
        -- reflexivity.
        -- exact GS.
      * set (c := child (bitn a (length x)) l r).
        assert (awf c) as WC by (unfold c; destruct (bitn a (length x)); assumption).
        assert (under x (bitn a (length x)) c) as UC by (unfold c; destruct (bitn a (length x)); assumption).
        assert (last_real (awalk c a) = longest (aget c) a (length a)) as IH by (unfold c; destruct (bitn a (length x)); cbn [child]; [apply IHr|apply IHl]; assumption).
        cbn [last_real]. rewrite IH. rewrite (longest_shift (aget (AN l r d x i)) (aget c) a (length x) (length a)); try lia.
        -- rewrite GX. destruct (longest (aget c) a (length a)); [reflexivity|]. destruct i; reflexivity.
        -- intros m M. cbn [aget]. destruct (prefixb_spec x (firstn m a)) as [_|C].
           ++ rewrite firstn_len_le by lia. destruct (Nat.eqb_spec (length x) m); [lia|]. unfold c, bitn. 
              assert (nth (length x) (firstn m a) false = nth (length x) a false) as ->; [|reflexivity].
              rewrite <- (firstn_skipn m a) at 2. rewrite app_nth1; [reflexivity|]. rewrite firstn_len_le; lia.
           ++ exfalso. apply C. eapply (is_prefix_total x _ a); [exact P| |rewrite firstn_len_le; lia]. exists (skipn m a). symmetry. apply firstn_skipn.
        -- intros m M. destruct (aget c (firstn m a)) eqn:G; [|reflexivity]. exfalso. assert (aget c (firstn m a) <> None) as G' by congruence.
           apply (aget_above c x _ _ UC) in G'. destruct G' as (_ & G' & _). rewrite firstn_length in G'. lia.
        -- exact GS.
    + cbn [last_real]. symmetry. apply longest_none. intros m _. cbn. destruct (prefixb_spec x (firstn m a)) as [C|]; [|reflexivity].
      exfalso. apply NP. eapply is_prefix_firstn. exact C.
Qed.

Lemma last_real_app a b : last_real (a ++ b) = match last_real b with Some z => Some z | None => last_real a end.
Proof.
  induction a as [|[|l r d x i] a IH]; cbn [app last_real]; [destruct (last_real b); reflexivity|exact IH|].
  rewrite IH. destruct (last_real b); reflexivity.
Qed.

(** the node [unwind] stops at *)
Lemma unwind_real s z d : Forall (fun t => t <> AN0) s -> last_real s = Some (z, d) ->
  exists l r x, hd_error (aunwind (rev s)) = Some (AN l r d x false) /\ length x = z.
Proof.
  intros F H. rewrite <- (rev_involutive s) in F, H. remember (rev s) as u eqn:U. clear U s.
  induction u as [|t u IH]; cbn [rev] in *; [discriminate|]. rewrite last_real_app in H. apply Forall_app in F. destruct F as [F1 F2].
  inversion F2 as [|? ? NT _]; subst. destruct t as [|l r d0 x i]; [congruence|]. cbn [last_real] in H.
  destruct i.
  - destruct (IH F1 H) as (l' & r' & x' & E & L). exists l', r', x'. split; [|exact L].
    cbn [aunwind]. destruct u as [|t' u']; [discriminate|]. exact E.
  - injection H as <- <-. exists l, r, x. split; [|reflexivity]. cbn [aunwind]. destruct u; reflexivity.
Qed.
Lemma unwind_none s : Forall (fun t => t <> AN0) s -> last_real s = None ->
  match hd_error (aunwind (rev s)) with Some (AN _ _ _ _ i) => i = true | Some AN0 => False | None => True end.
Proof.
  intros F H. rewrite <- (rev_involutive s) in F, H. remember (rev s) as u eqn:U. clear U s.
  induction u as [|t u IH]; cbn [rev] in *; [exact I|]. rewrite last_real_app in H. apply Forall_app in F. destruct F as [F1 F2].
  inversion F2 as [|? ? NT _]; subst. destruct t as [|l r d0 x i]; [congruence|]. cbn [last_real] in H.
  destruct i; [|discriminate]. cbn [aunwind]. destruct u as [|t' u']; [reflexivity|]. cbn [ainc]. apply IH; assumption.
Qed.
Lemma awalk_real a : forall t, Forall (fun t => t <> AN0) (awalk t a).
Proof.
  induction t as [|l IHl r IHr d x i]; cbn [awalk]; [constructor|]. destruct (prefixb x a); [|constructor].
  destruct (Nat.eqb _ _); [repeat constructor; discriminate|]. constructor; [discriminate|]. destruct (bitn a (length x)); assumption.
Qed.

(** depth of the walk *)
Fixpoint bounded (k : nat) (t : atree) : Prop := match t with AN0 => True | AN l r _ x _ => length x <= k /\ bounded k l /\ bounded k r end.
Lemma awalk_depth k a : forall t b y, awf t -> bounded k t -> under y b t -> length y < k -> length y < length a -> length (awalk t a) <= Nat.min k (length a) - length y.
Proof.
  induction t as [|l IHl r IHr d x i]; intros b y W B U K A; cbn [awalk]; [cbn; lia|]. destruct W as (W1 & W2 & W3 & W4 & W5).
  destruct B as (B1 & B2 & B3). destruct U as (U1 & U2 & U3). destruct (prefixb_spec x a) as [P|]; [|cbn; lia].
  pose proof (is_prefix_len _ _ P). destruct (Nat.eqb_spec (length x) (length a)) as [E|NE]; [cbn; lia|]. cbn [length].
  destruct (Nat.eq_dec (length x) k) as [EK|NK].
  - assert (child (bitn a (length x)) l r = AN0) as ->; [|cbn; lia].
    destruct (bitn a (length x)); cbn [child]; [destruct r as [|? ? ? z ?]|destruct l as [|? ? ? z ?]]; try reflexivity; cbn in *; lia.
  - destruct (bitn a (length x)); cbn [child]; [specialize (IHr true x W5 B3 W3 ltac:(lia) ltac:(lia))|specialize (IHl false x W4 B2 W2 ltac:(lia) ltac:(lia))]; lia.
Qed.
Lemma awalk_depth_root k a t : awf t -> bounded k t -> length (awalk t a) <= S (Nat.min k (length a)).
Proof.
  destruct t as [|l r d x i]; cbn [awalk]; intros W B; [cbn; lia|]. destruct W as (W1 & W2 & W3 & W4 & W5). destruct B as (B1 & B2 & B3).
  destruct (prefixb_spec x a) as [P|]; [|cbn; lia]. pose proof (is_prefix_len _ _ P). destruct (Nat.eqb_spec (length x) (length a)) as [E|NE]; [cbn; lia|]. cbn [length].
  destruct (Nat.eq_dec (length x) k) as [EK|NK].
  - assert (child (bitn a (length x)) l r = AN0) as ->; [|cbn; lia].
    destruct (bitn a (length x)); cbn [child]; [destruct r as [|? ? ? z ?]|destruct l as [|? ? ? z ?]]; try reflexivity; cbn in *; lia.
  - destruct (bitn a (length x)); cbn [child]; [pose proof (awalk_depth k a r true x W5 B3 W3 ltac:(lia) ltac:(lia))|pose proof (awalk_depth k a l false x W4 B2 W2 ltac:(lia) ltac:(lia))]; lia.
Qed.

Lemma bounded_add k p d : length p <= k -> forall t, bounded k t -> bounded k (aadd t p d).
Proof.
  intros P. induction t as [|l IHl r IHr d0 x i]; intros B; cbn [aadd]; [cbn; auto|]. destruct B as (B1 & B2 & B3).
  destruct (prefixb x p).
  - destruct (Nat.eqb _ _); [cbn; auto|]. destruct (bitn p (length x)); cbn; auto.
  - unfold asplit. pose proof (is_prefix_len _ _ (lcp_l x p)). destruct (Nat.eqb _ _).
    + unfold aset. destruct (bitn x (length p)); cbn; repeat split; auto.
    + unfold aset. destruct (bitn x (length (lcp x p))), (bitn p (length (lcp x p))); cbn; repeat split; auto; lia.
Qed.
Lemma bounded_del k p : forall t, bounded k t -> bounded k (fst (fst (adel t p))).
Proof.
  induction t as [|l IHl r IHr d0 x i]; intros B; cbn [adel]; [exact I|]. pose proof B as B'. destruct B as (B1 & B2 & B3).
  destruct (prefixb x p); [|exact B'].
  destruct (Nat.eqb _ _).
  - cbn [fst]. destruct (leafish l r); [destruct l; cbn [other]; assumption|]. cbn. auto.
  - destruct (bitn p (length x)); [destruct (adel r p) as [[c b] f]|destruct (adel l p) as [[c b] f]]; cbn in *; auto.
Qed.

(** enumeration of the routes *)
Fixpoint enum (t : atree) : list (list bool * N) :=
  match t with AN0 => [] | AN l r d x i => enum l ++ enum r ++ (if i then [] else [(x, d)]) end.
Lemma enum_above x b t p d : awf t -> under x b t -> In (p, d) (enum t) -> is_prefix x p /\ length x < length p /\ bitn p (length x) = b.
Proof.
  revert x b. induction t as [|l IHl r IHr d0 y i]; intros x b W U H; cbn in H; [destruct H|]. destruct W as (W1 & W2 & W3 & W4 & W5). destruct U as (U1 & U2 & U3).
  apply in_app_or in H. destruct H as [H|H].
  - destruct (IHl y false W4 W2 H) as (A & B & C). split; [eapply is_prefix_trans; eassumption|]. split; [lia|]. rewrite (is_prefix_bit y p) by assumption. exact U3.
  - apply in_app_or in H. destruct H as [H|H].
    + destruct (IHr y true W5 W3 H) as (A & B & C). split; [eapply is_prefix_trans; eassumption|]. split; [lia|]. rewrite (is_prefix_bit y p) by assumption. exact U3.
    + destruct i; [destruct H|]. destruct H as [H|[]]. injection H as <- <-. auto.
Qed.
Lemma enum_get t : awf t -> forall p d, In (p, d) (enum t) <-> aget t p = Some d.
Proof.
  induction t as [|l IHl r IHr d0 x i]; intros W p d; cbn [enum aget]; [cbn; split; [tauto|discriminate]|]. destruct W as (W1 & W2 & W3 & W4 & W5).
  rewrite !in_app_iff. split.
  - intros [H|[H|H]].
    + destruct (enum_above x false l p d W4 W2 H) as (A & B & C). destruct (prefixb_spec x p); [|contradiction]. destruct (Nat.eqb_spec (length x) (length p)); [lia|].
      rewrite C. apply IHl; assumption.
    + destruct (enum_above x true r p d W5 W3 H) as (A & B & C). destruct (prefixb_spec x p); [|contradiction]. destruct (Nat.eqb_spec (length x) (length p)); [lia|].
      rewrite C. apply IHr; assumption.
    + destruct i; [destruct H|]. destruct H as [H|[]]. injection H as <- <-. destruct (prefixb_spec x x) as [_|C]; [|exfalso; apply C, is_prefix_refl]. rewrite Nat.eqb_refl. reflexivity.
  - destruct (prefixb_spec x p) as [P|]; [|discriminate]. destruct (Nat.eqb_spec (length x) (length p)) as [E|NE].
    + destruct i; [discriminate|]. intros H. injection H as ->. right. right. left. f_equal. apply is_prefix_eq; assumption.
    + destruct (bitn p (length x)); cbn [child]; intros H; [right; left; apply IHr; assumption|left; apply IHl; assumption].
Qed.
Lemma nodup_app {A} (a b : list A) : NoDup a -> NoDup b -> (forall x, In x a -> In x b -> False) -> NoDup (a ++ b).
Proof.
  induction 1 as [|x a N ND IH]; intros B D; [exact B|]. cbn. constructor.
  - rewrite in_app_iff. intros [H|H]; [contradiction|]. apply (D x); [left; reflexivity|exact H].
  - apply IH; [exact B|]. intros y Y. apply D. right; exact Y.
Qed.
Lemma enum_nodup t : awf t -> NoDup (map fst (enum t)).
Proof.
  induction t as [|l IHl r IHr d0 x i]; intros W; cbn [enum]; [constructor|]. destruct W as (W1 & W2 & W3 & W4 & W5).
  rewrite !map_app. apply nodup_app; [auto| |].
  - apply nodup_app; [auto|destruct i; cbn; repeat constructor; tauto|]. intros p P Q. apply in_map_iff in P. destruct P as ([p' d'] & <- & P).
    destruct (enum_above x true r p' d' W5 W3 P) as (A & B & C). destruct i; [destruct Q|]. destruct Q as [Q|[]]. cbn in Q. subst. lia.
  - intros p P Q. apply in_map_iff in P. destruct P as ([p' d'] & <- & P). destruct (enum_above x false l p' d' W4 W2 P) as (A & B & C).
    apply in_app_or in Q. destruct Q as [Q|Q].
    + apply in_map_iff in Q. destruct Q as ([p2 d2] & E & Q). cbn in E. subst p2. destruct (enum_above x true r p' d2 W5 W3 Q) as (_ & _ & C'). congruence.
    + destruct i; [destruct Q|]. destruct Q as [Q|[]]. cbn in Q. subst. lia.
Qed.
Fixpoint adrop (t : atree) : list N := match t with AN0 => [] | AN l r d _ _ => adrop l ++ adrop r ++ call_f d end.
Lemma adrop_enum t : awf t -> adrop t = flat_map (fun e => call_f (snd e)) (enum t).
Proof.
  induction t as [|l IHl r IHr d0 x i]; intros W; cbn [enum adrop]; [reflexivity|]. destruct W as (W1 & W2 & W3 & W4 & W5).
  rewrite !flat_map_app, IHl, IHr by assumption. do 2 f_equal. destruct i; cbn; [rewrite W1 by reflexivity; reflexivity|]. now rewrite app_nil_r.
Qed.
