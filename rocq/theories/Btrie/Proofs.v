From Coq Require Import Arith NArith List Bool Lia Permutation.
From Verif.Btrie Require Import Model Spec Words Abs.
Import ListNotations.

Fixpoint alpha (t : tree) : atree :=
  match t with Nil => AN0 | Nd b0 b1 d bits plen i => AN (alpha b0) (alpha b1) d (prefix bits plen) i end.
Fixpoint okt (t : tree) : Prop :=
  match t with Nil => True | Nd b0 b1 _ bits plen _ => okw bits /\ plen <= 128 /\ okt b0 /\ okt b1 end.

Lemma match_prefixb bits plen key n : okw bits -> okw key -> plen <= 128 -> n <= 128 ->
  (Nat.leb plen n && match_bpm bits key plen) = prefixb (prefix bits plen) (prefix key n).
Proof.
  intros OB OK P N. apply eq_true_iff_eq. rewrite andb_true_iff, Nat.leb_le, match_bpm_spec by assumption.
  destruct (prefixb_spec (prefix bits plen) (prefix key n)) as [H|H]; split; try discriminate; try reflexivity.
  - intros _. pose proof (is_prefix_len _ _ H) as L. rewrite !prefix_len in L by assumption. split; [exact L|].
    apply prefix_firstn in H. rewrite prefix_len in H by exact P. rewrite firstn_prefix in H by exact L. symmetry. exact H.
  - intros [L E]. exfalso. apply H. apply prefix_firstn. rewrite prefix_len by exact P. rewrite firstn_prefix by exact L. symmetry. exact E.
Qed.
Lemma bitn_prefix key n i : i < n -> n <= 128 -> bitn (prefix key n) i = bit key i.
Proof. apply prefix_nth. Qed.

Lemma alpha_child b b0 b1 : alpha (if b : bool then b1 else b0) = child b (alpha b0) (alpha b1).
Proof. destruct b; reflexivity. Qed.

Lemma alpha_walk key n : okw key -> n <= 128 -> forall t, okt t -> map alpha (fst (walk t key n)) = awalk (alpha t) (prefix key n).
Proof.
  intros OK N. induction t as [|b0 IH0 b1 IH1 d bits plen i]; intros O; [reflexivity|]. destruct O as (O1 & O2 & O3 & O4).
  cbn [walk alpha awalk]. rewrite match_prefixb by assumption. rewrite !prefix_len by assumption. destruct (prefixb _ _) eqn:P; [|reflexivity].
  destruct (Nat.eqb_spec plen n) as [E|NE]; [reflexivity|].
  assert (plen < n) as L. { destruct (prefixb_spec (prefix bits plen) (prefix key n)) as [H|]; [|discriminate]. apply is_prefix_len in H. rewrite !prefix_len in H by assumption. lia. }
  rewrite BIT_AT_bit, (bitn_prefix key n plen) by assumption. rewrite <- alpha_child.
  assert (okt (if bit key plen then b1 else b0)) as OC by (destruct (bit key plen); assumption).
  assert (map alpha (fst (walk (if bit key plen then b1 else b0) key n)) = awalk (alpha (if bit key plen then b1 else b0)) (prefix key n)) as IH by (destruct (bit key plen); [apply IH1|apply IH0]; assumption).
  destruct (walk (if bit key plen then b1 else b0) key n) as [s e]. cbn [fst map] in *. rewrite <- IH. cbn [alpha]. reflexivity.
Qed.

(** ** split *)
Lemma lcp_len x p : length (lcp x p) <= length x /\ length (lcp x p) <= length p.
Proof. split; apply is_prefix_len; [apply lcp_l|apply lcp_r]. Qed.

Lemma lcp_prefix a n b m : n <= 128 -> m <= 128 -> forall c, c <= n -> c <= m -> (forall i, i < c -> bit a i = bit b i) ->
  (c = n \/ c = m \/ bit a c <> bit b c) -> lcp (prefix a n) (prefix b m) = prefix b c.
Proof.
  intros N M c C1 C2 H E.
  assert (is_prefix (prefix b c) (prefix b m)) as P1 by (apply prefix_firstn; rewrite prefix_len by lia; apply firstn_prefix; exact C2).
  assert (is_prefix (prefix b c) (prefix a n)) as P2.
  { apply prefix_firstn; rewrite prefix_len by lia. rewrite firstn_prefix by exact C1. apply prefix_eq; [lia|exact H]. }
  pose proof (lcp_common _ _ _ P2 P1) as P3. symmetry. apply is_prefix_eq; [exact P3|]. rewrite prefix_len by lia.
  pose proof (lcp_len (prefix a n) (prefix b m)) as [L1 L2]. rewrite !prefix_len in L1, L2 by assumption.
  pose proof (is_prefix_len _ _ P3) as L3. rewrite prefix_len in L3 by lia.
  destruct (Nat.eq_dec (length (lcp (prefix a n) (prefix b m))) c) as [->|NE]; [reflexivity|]. exfalso.
  destruct E as [->|[->|E]]; try lia. apply E.
  rewrite <- (bitn_prefix a n c), <- (bitn_prefix b m c) by lia.
  rewrite (is_prefix_bit _ _ c (lcp_l (prefix a n) (prefix b m))) by lia. rewrite (is_prefix_bit _ _ c (lcp_r (prefix a n) (prefix b m))) by lia. reflexivity.
Qed.

Lemma split_ok b0 b1 d0 bits plen i parent key n d : okt (Nd b0 b1 d0 bits plen i) -> okw key -> n <= 128 ->
  ~ is_prefix (prefix bits plen) (prefix key n) ->
  (forall q, parent = Some q -> q < n /\ q < plen /\ bit bits q = bit key q) ->
  exists t', split (Nd b0 b1 d0 bits plen i) parent key n d = Ok t' /\ okt t' /\
    alpha t' = asplit (alpha (Nd b0 b1 d0 bits plen i)) (prefix bits plen) (prefix key n) d.
Proof.
  intros O OK N NP PA. destruct O as (O1 & O2 & O3 & O4). cbn [split].
  destruct (calc_spec bits plen key n O2 N) as (C1 & C2 & C3). set (c := calc_bits_in_commons bits plen key n) in *.
  set (k := if Nat.ltb n c then n else c).
  assert (k <= n) as KN by (unfold k; destruct (Nat.ltb_spec n c); lia).
  assert (k <= c) as KC by (unfold k; destruct (Nat.ltb_spec n c); lia).
  assert (k < plen) as KP.
  { destruct (Nat.lt_ge_cases k plen) as [|GE]; [assumption|]. exfalso. apply NP. apply prefix_firstn. rewrite prefix_len by exact O2.
    rewrite firstn_prefix by lia. apply prefix_eq; [exact O2|]. intros j J. symmetry. apply C2. lia. }
  assert (forall j, j < k -> bit bits j = bit key j) as AG by (intros; apply C2; lia).
  assert (k = n \/ bit bits k <> bit key k) as DIFF.
  { unfold k in *. destruct (Nat.ltb_spec n c); [left; reflexivity|]. destruct (Nat.eq_dec c n); [left; assumption|right]. apply C3. lia. }
  assert (lcp (prefix bits plen) (prefix key n) = prefix key k) as LC.
  { apply lcp_prefix; try assumption; try lia. intuition. }
  assert ((match parent with Some p => Nat.ltb p n | None => true end) = true) as ->.
  { destruct parent as [q|]; [|reflexivity]. destruct (PA q eq_refl) as (H & _). apply Nat.ltb_lt. exact H. }
  assert (prefix (new_bits key n) n = prefix key n) as NB by (apply prefix_eq; [exact N|intros; apply bit_new; assumption]).
  unfold asplit. rewrite LC, !prefix_len by lia.
  destruct (Nat.eqb_spec n k) as [EK|NK].
  - assert ((match parent with Some p => Bool.eqb (BIT_AT (new_bits key n) (p + 1)) (BIT_AT bits (p + 1)) | None => true end) = true) as ->.
    { destruct parent as [q|]; [|reflexivity]. destruct (PA q eq_refl) as (H1 & H2 & H3). rewrite !BIT_AT_bit, bit_new by lia. rewrite H3. apply Bool.eqb_reflx. }
    eexists. split; [reflexivity|]. rewrite BIT_AT_bit. rewrite (bitn_prefix bits plen n) by lia.
    destruct (bit bits n); (split; [cbn; repeat split; try assumption; try lia; apply okw_new; exact OK|]); cbn [alpha set_bit aset new_node]; rewrite NB; reflexivity.
  - destruct DIFF as [|DIFF]; [congruence|].
    assert (k < n) as KN' by lia.
    rewrite !BIT_AT_bit, bit_new by lia.
    assert (negb (Bool.eqb (bit bits k) (bit key k)) = true) as -> by (destruct (bit bits k), (bit key k); cbn; congruence).
    eexists. split; [reflexivity|]. rewrite (bitn_prefix bits plen k), (bitn_prefix key n k) by lia.
    assert (prefix (new_bits key n) k = prefix key k) as NB2 by (apply prefix_eq; [lia|intros; apply bit_new; lia]).
    destruct (bit bits k), (bit key k); try congruence; (split; [cbn; repeat split; try assumption; try lia; apply okw_new; exact OK|]); cbn [alpha set_bit aset new_node]; rewrite NB, NB2; reflexivity.
Qed.

Definition slot_ok (parent : option nat) (key : list N) (n : nat) (t : tree) : Prop :=
  match parent with None => True | Some q => q < n /\ exists x b, is_prefix x (prefix key n) /\ length x = q /\ under x b (alpha t) /\ b = bit key q end.

Lemma add_at_ok key n d : okw key -> n <= 128 -> forall t parent, okt t -> awf (alpha t) -> slot_ok parent key n t ->
  exists t', add_at t parent key n d = Ok t' /\ okt t' /\ alpha t' = aadd (alpha t) (prefix key n) d.
Proof.
  intros OK N. induction t as [|b0 IH0 b1 IH1 d0 bits plen i]; intros parent O W SL.
  - cbn. eexists. split; [reflexivity|]. split; [cbn; repeat split; try lia; apply okw_new; exact OK|]. cbn. f_equal.
    apply prefix_eq; [exact N|]. intros; apply bit_new; assumption.
  - pose proof O as O'. destruct O as (O1 & O2 & O3 & O4). cbn [add_at alpha aadd]. rewrite match_prefixb by assumption. rewrite !prefix_len by assumption.
    destruct (prefixb_spec (prefix bits plen) (prefix key n)) as [P|NP].
    + pose proof (is_prefix_len _ _ P) as L. rewrite !prefix_len in L by assumption.
      destruct (Nat.eqb_spec plen n) as [E|NE].
      * eexists. split; [reflexivity|]. split; [cbn; auto|]. reflexivity.
      * destruct W as (W1 & W2 & W3 & W4 & W5). rewrite BIT_AT_bit, (bitn_prefix key n plen) by lia.
        destruct (bit key plen) eqn:B.
        -- destruct (IH1 (Some plen) O4 W5) as (c & H1 & H2 & H3).
           { cbn. split; [lia|]. exists (prefix bits plen), true. rewrite prefix_len by lia. auto. }
           rewrite H1. cbn [bind]. eexists. split; [reflexivity|]. split; [cbn; auto|]. cbn. rewrite H3. reflexivity.
        -- destruct (IH0 (Some plen) O3 W4) as (c & H1 & H2 & H3).
           { cbn. split; [lia|]. exists (prefix bits plen), false. rewrite prefix_len by lia. auto. }
           rewrite H1. cbn [bind]. eexists. split; [reflexivity|]. split; [cbn; auto|]. cbn. rewrite H3. reflexivity.
    + apply (split_ok b0 b1 d0 bits plen i parent key n d O' OK N NP).
      intros q ->. destruct SL as (S1 & x & b & S2 & S3 & S4 & S5). cbn [alpha under] in S4. destruct S4 as (U1 & U2 & U3).
      rewrite prefix_len in U2 by lia. split; [exact S1|]. split; [lia|]. rewrite <- (bitn_prefix bits plen q) by lia. rewrite <- S5, <- S3. exact U3.
Qed.

Lemma walk_depth key n t k : okw key -> n <= 128 -> okt t -> awf (alpha t) -> bounded k (alpha t) ->
  length (fst (walk t key n)) <= S (Nat.min k n).
Proof.
  intros OK N O W B. rewrite <- (map_length alpha), alpha_walk by assumption.
  pose proof (awalk_depth_root k (prefix key n) (alpha t) W B) as H. rewrite prefix_len in H by exact N. exact H.
Qed.

Lemma add_route_ok t key n d : okw key -> n <= 128 -> okt t -> awf (alpha t) ->
  (add_route t key n d = Bad /\ n = 128 /\ ~ bounded 127 (alpha t)) \/
  exists t', add_route t key n d = Ok t' /\ okt t' /\ alpha t' = aadd (alpha t) (prefix key n) d.
Proof.
  intros OK N O W. unfold add_route, MAXBITS. destruct (Nat.leb_spec n 128); [|lia].
  destruct (Nat.ltb_spec 128 (length (fst (walk t key n)))) as [G|L].
  - left. split; [reflexivity|].
    split.
    + assert (bounded 128 (alpha t)) as B.
      { clear -O. induction t as [|b0 IH0 b1 IH1 d0 bits plen i]; [exact I|]. destruct O as (O1 & O2 & O3 & O4). cbn. rewrite prefix_len by exact O2. auto. }
      pose proof (walk_depth key n t 128 OK N O W B). lia.
    + intros B. pose proof (walk_depth key n t 127 OK N O W B). lia.
  - right. apply (add_at_ok key n d OK N t None O W). exact I.
Qed.

(** ** deletion *)
Lemma del_at_ok key n : okw key -> n <= 128 -> forall t root, okt t ->
  (root = true /\ exists b0 b1 d bits plen i, t = Nd b0 b1 d bits plen i /\ prefix bits plen = prefix key n /\ del_at t root key n = Crash) \/
  exists t' r f, del_at t root key n = Ok (t', r, f) /\ okt t' /\ (alpha t', r, f) = adel (alpha t) (prefix key n) /\
    (root = true -> match alpha t, alpha t' with AN _ _ _ x _, AN _ _ _ x' _ => x = x' | AN0, AN0 => True | _, _ => False end).
Proof.
  intros OK N. induction t as [|b0 IH0 b1 IH1 d0 bits plen i]; intros root O.
  - right. exists Nil, false, []. repeat split.
  - destruct O as (O1 & O2 & O3 & O4). cbn [del_at alpha adel]. rewrite match_prefixb by assumption. rewrite !prefix_len by assumption.
    destruct (prefixb_spec (prefix bits plen) (prefix key n)) as [P|NP].
    + pose proof (is_prefix_len _ _ P) as L. rewrite !prefix_len in L by assumption.
      destruct (Nat.eqb_spec plen n) as [E|NE].
      * assert (prefix bits plen = prefix key n) as EP by (apply is_prefix_eq; [exact P|rewrite !prefix_len by lia; exact E]).
        destruct root.
        -- destruct b0 as [|x0 x1 x2 x3 x4 x5]; [|destruct b1 as [|y0 y1 y2 y3 y4 y5]].
           ++ left. split; [reflexivity|]. do 6 eexists. split; [reflexivity|]. split; [exact EP|]. destruct b1; reflexivity.
           ++ left. split; [reflexivity|]. do 6 eexists. split; [reflexivity|]. split; [exact EP|]. reflexivity.
           ++ right. do 3 eexists. split; [reflexivity|]. split; [cbn in *; auto|]. split; [reflexivity|]. intros _. reflexivity.
        -- right. destruct b0 as [|x0 x1 x2 x3 x4 x5], b1 as [|y0 y1 y2 y3 y4 y5]; do 3 eexists; (split; [reflexivity|]); (split; [cbn in *; auto|]); (split; [reflexivity|]); discriminate.
      * rewrite BIT_AT_bit, (bitn_prefix key n plen) by lia.
        destruct (bit key plen) eqn:B.
        -- destruct (IH1 false O4) as [[X _]|(t' & r & f & H1 & H2 & H3 & _)]; [discriminate|]. right. rewrite H1. cbn [bind]. rewrite <- H3.
           do 3 eexists. split; [reflexivity|]. split; [cbn; auto|]. split; [reflexivity|]. intros _. reflexivity.
        -- destruct (IH0 false O3) as [[X _]|(t' & r & f & H1 & H2 & H3 & _)]; [discriminate|]. right. rewrite H1. cbn [bind]. rewrite <- H3.
           do 3 eexists. split; [reflexivity|]. split; [cbn; auto|]. split; [reflexivity|]. intros _. reflexivity.
    + right. do 3 eexists. split; [reflexivity|]. split; [cbn; auto|]. split; [reflexivity|]. intros _. reflexivity.
Qed.

(** ** histories *)
Definition Inv (ops : list op) (t : tree) : Prop := okt t /\ awf (alpha t) /\ forall p, aget (alpha t) p = route ops p.

Lemma route_snoc ops o p : route (ops ++ [o]) p =
  match o with
  | Add _ a n d => if bits_eqb (prefix a n) p then Some d else route ops p
  | Del _ a n => if bits_eqb (prefix a n) p then None else route ops p
  end.
Proof. unfold route. rewrite fold_left_app. destruct o; reflexivity. Qed.

(** the root's prefix covers every prefix added so far *)
Definition covers (added : list (list bool)) (t : tree) : Prop :=
  match alpha t with AN0 => added = [] | AN _ _ _ x _ => added <> [] /\ forall q, In q added -> is_prefix x q end.

Lemma add_step f t a n d ops : Inv ops t -> valid (Add f a n d) ->
  (step t (Add f a n d) = Bad /\ n = 128 /\ ~ bounded 127 (alpha t)) \/
  exists t', step t (Add f a n d) = Ok (t', true, []) /\ okt t' /\ alpha t' = aadd (alpha t) (prefix a n) d.
Proof.
  intros (O & W & _) [V1 V2]. apply address_okw in V2. destruct f; cbn [step fam_bits] in *.
  - unfold add_ipv4. destruct (Nat.leb_spec n 32); [|lia]. destruct (mask4_ok a n V2 V1) as [K1 K2].
    set (k := [_; _; _; _]) in *. destruct (add_route_ok t k n d K1 ltac:(lia) O W) as [[_ [X _]]|(t' & E & HH)]; [lia|].
    right. rewrite E. cbn [bind]. exists t'. rewrite <- K2. auto.
  - unfold add_ipv6. destruct (Nat.leb_spec n 128); [|lia]. destruct (mask6_ok a n V2 V1) as [K1 K2].
    set (k := map _ [0; 1; 2; 3]) in *. destruct (add_route_ok t k n d K1 ltac:(lia) O W) as [[E [X Y]]|(t' & E & HH)].
    + left. rewrite E. auto.
    + right. rewrite E. cbn [bind]. exists t'. rewrite <- K2. auto.
Qed.

Lemma step_ok t o ops : Inv ops t -> valid o ->
  match step t o with
  | Ok (t', r, f) => Inv (ops ++ [o]) t' /\
      (forall k, (match o with Add _ _ n _ => n <= k | Del _ _ _ => True end) -> bounded k (alpha t) -> bounded k (alpha t')) /\
      (forall added, covers added t -> covers (match o with Add _ a n _ => prefix a n :: added | Del _ _ _ => added end) t') /\
      f = deleted ops [o] /\
      (match o with Del _ a n => r = false -> route ops (prefix a n) = None | Add _ _ _ _ => True end)
  | Crash => exists fm a n, o = Del fm a n /\ forall added, covers added t -> added <> [] /\ forall q, In q added -> is_prefix (prefix a n) q
  | Bad => (exists a d, o = Add V6 a 128 d) /\ ~ bounded 127 (alpha t)
  | Abort => False
  end.
Proof.
  intros V VO. pose proof V as (O & W & R). destruct o as [f a n d|f a n].
  - destruct (add_step f t a n d ops V VO) as [(E & EN & NB)|(t' & E & O' & A)]; rewrite E.
    + split; [|exact NB]. subst n. destruct f; [destruct VO as [VO _]; cbn in VO; lia|]. eauto.
    + destruct (aadd_ok (prefix a n) d (alpha t) W) as (H1 & H2 & H3 & H4). rewrite <- A in *.
      assert (n <= 128) as N128 by (destruct VO as [VO _]; destruct f; cbn in VO; lia).
      split; [|split; [|split; [|split; [reflexivity|exact I]]]].
      * split; [exact O'|]. split; [exact H1|]. intros p. rewrite H2, route_snoc, R. reflexivity.
      * intros k K B. rewrite A. apply bounded_add; [rewrite prefix_len by exact N128; exact K|exact B].
      * intros added C. unfold covers in *. destruct H4 as (l' & r' & d' & x' & i' & EQ & P1 & P2). rewrite EQ. split; [discriminate|].
        intros q [<-|Q]; [exact P1|]. destruct (alpha t) as [|l r d0 x i]; [subst added; destruct Q|]. eapply is_prefix_trans; [exact P2|]. apply C. exact Q.
  - destruct VO as [V1 V2]. apply address_okw in V2. assert (n <= 128) as N128 by (destruct f; cbn in V1; lia).
    cbn [step]. unfold del_route. destruct (del_at_ok a n V2 N128 t true O) as [(_ & b0 & b1 & d & bits & plen & i & -> & EP & E)|(t' & r & fl & E & O' & A & RT)]; rewrite E.
    + exists f, a, n. split; [reflexivity|]. intros added C. unfold covers in C. cbn [alpha] in C. destruct C as [C1 C2]. split; [exact C1|]. rewrite <- EP. exact C2.
    + pose proof (adel_ok (prefix a n) (alpha t) W) as H. pose proof (bounded_del) as BD. specialize (RT eq_refl).
      specialize (fun k => BD k (prefix a n) (alpha t)). rewrite <- A in H, BD. destruct H as (H1 & H2 & H3 & H4 & H5). cbn [fst] in BD.
      split; [|split; [|split; [|split]]].
      * split; [exact O'|]. split; [exact H1|]. intros p. rewrite H2, route_snoc, R. reflexivity.
      * intros k _ B. apply BD. exact B.
      * intros added C. unfold covers in *. destruct (alpha t), (alpha t'); try contradiction; [exact C|]. subst. exact C.
      * rewrite H5, R. cbn [deleted]. rewrite app_nil_r. destruct (route ops (prefix a n)); reflexivity.
      * intros ->. rewrite <- R. apply H4. reflexivity.
Qed.

Lemma deleted_cons pre o ops : deleted pre (o :: ops) = deleted pre [o] ++ deleted (pre ++ [o]) ops.
Proof. cbn [deleted]. rewrite app_nil_r. reflexivity. Qed.

Lemma run_ok ops : forall pre t, Inv pre t -> Forall valid ops ->
  match run t ops with
  | Ok (t', f) => Inv (pre ++ ops) t' /\ f = deleted pre ops /\ (forall k, Forall (fun o => match o with Add _ _ n _ => n <= k | Del _ _ _ => True end) ops -> bounded k (alpha t) -> bounded k (alpha t'))
  | Abort => False
  | Crash => forall added, covers added t -> ~ guarded added ops
  | Bad => bounded 127 (alpha t) -> ~ Forall below_128 ops
  end.
Proof.
  induction ops as [|o ops IH]; intros pre t V F; cbn [run].
  - rewrite app_nil_r. split; [exact V|]. split; [reflexivity|]. auto.
  - inversion F as [|? ? F1 F2]; subst. pose proof (step_ok t o pre V F1) as S. destruct (step t o) as [[[t1 r] f1]| | |]; cbn [bind].
    + destruct S as (S1 & S2 & S3 & S4 & _). specialize (IH (pre ++ [o]) t1 S1 F2). destruct (run t1 ops) as [[t2 f2]| | |]; cbn [bind].
      * destruct IH as (I1 & I2 & I3). rewrite <- app_assoc in I1. split; [exact I1|]. split; [rewrite deleted_cons; congruence|].
        intros k K B. inversion K; subst. apply I3; [assumption|]. apply S2; assumption.
      * intros added C G. apply (IH _ (S3 added C)). destruct o; cbn in G; tauto.
      * intros B K. inversion K as [|? ? K1 K2]; subst. apply IH; [|exact K2]. apply S2; [|exact B]. destruct o; [cbn in K1; lia|exact I].
      * exact IH.
    + intros added C G. destruct S as (fm & a & n & -> & S). destruct (S added C) as [S1 S2]. cbn in G. destruct G as [[G|(q & Q1 & Q2)] _]; [contradiction|].
      apply Q2. apply S2. exact Q1.
    + intros B K. destruct S as [(a & d & ->) NB]. inversion K; subst. cbn in *. lia.
    + exact S.
Qed.

Lemma Inv0 : Inv [] Nil.
Proof. split; [exact I|]. split; [exact I|]. reflexivity. Qed.

(** ** final statements *)
Lemma lookup_ok ops t a f : Inv ops t -> address a ->
  (lookup t a (fam_bits f) = Bad /\ f = V6 /\ ~ bounded 127 (alpha t)) \/
  exists pl, lookup t a (fam_bits f) = Ok (match longest (route ops) (addr_bits a) (fam_bits f) with Some (_, d) => d | None => 0%N end, pl) /\
    (forall n d, longest (route ops) (addr_bits a) (fam_bits f) = Some (n, d) -> pl = Some n).
Proof.
  intros (O & W & R) AD. apply address_okw in AD. assert (fam_bits f <= 128) as N by (destruct f; cbn; lia). set (n := fam_bits f) in *.
  unfold lookup, find_bpm_route, MAXBITS. destruct (Nat.ltb_spec 128 (length (fst (walk t a n)))) as [G|L].
  - left. split; [reflexivity|].
    assert (bounded 128 (alpha t)) as B.
    { clear -O. induction t as [|b0 IH0 b1 IH1 d0 bits plen i]; [exact I|]. destruct O as (O1 & O2 & O3 & O4). cbn. rewrite prefix_len by exact O2. auto. }
    pose proof (walk_depth a n t 128 AD N O W B) as H.
    split; [destruct f; [cbn in n; lia|reflexivity]|]. intros B'. pose proof (walk_depth a n t 127 AD N O W B'). lia.
  - right. cbn [bind].
    assert (forall s, hd_error (aunwind (map alpha s)) = option_map alpha (hd_error (unwind s))) as UW.
    { induction s as [|x s IH]; [reflexivity|]. cbn [map aunwind unwind]. destruct s as [|y s']; [reflexivity|]. cbn [map] in *.
      replace (ainc (alpha x)) with (incidental x) by (destruct x; reflexivity). destruct (incidental x); [exact IH|reflexivity]. }
    assert (longest (route ops) (addr_bits a) n = last_real (map alpha (fst (walk t a n)))) as LR.
    { rewrite alpha_walk by assumption. rewrite walk_longest by exact W. rewrite prefix_len by exact N.
      rewrite (longest_ext (aget (alpha t)) (route ops)) by (intros; apply R).
      assert (forall g j, j <= n -> longest g (addr_bits a) j = longest g (prefix a n) j) as Q; [|apply Q; lia].
      intros g. induction j as [|j IH]; intros J; cbn [longest]; unfold prefix at 1; rewrite firstn_firstn, Nat.min_l by lia; [reflexivity|]. rewrite IH by lia. reflexivity. }
    specialize (UW (rev (fst (walk t a n)))). rewrite map_rev in UW.
    pose proof (awalk_real (prefix a n) (alpha t)) as AR. rewrite <- alpha_walk in AR by assumption.
    destruct (longest (route ops) (addr_bits a) n) as [[m d]|] eqn:EL.
    + destruct (unwind_real _ m d AR (eq_sym LR)) as (l & r & x & E & EX). rewrite E in UW.
      destruct (hd_error (unwind (rev (fst (walk t a n))))) as [u|] eqn:EU; [|discriminate]. cbn in UW. injection UW as UW.
      destruct u as [|b0 b1 d' bits plen i]; [discriminate|]. cbn in UW. injection UW as -> -> <- -> <-.
      exists (Some plen). split; [reflexivity|]. intros n' d'' X. injection X as <- <-. f_equal.
      assert (plen <= 128) as PL; [|rewrite prefix_len in EX by exact PL; exact EX].
      assert (forall s, (forall u, In u s -> okt u) -> forall u, hd_error (unwind s) = Some u -> okt u) as HU.
      { clear. induction s as [|y s IH]; [discriminate|]. intros H u E. cbn [unwind] in E. destruct s as [|z s']; [injection E as <-; apply H; left; reflexivity|].
        destruct (incidental y); [|injection E as <-; apply H; left; reflexivity]. apply IH; [intros; apply H; right; assumption|exact E]. }
      assert (forall t, okt t -> forall u, In u (fst (walk t a n)) -> okt u) as HW.
      { clear. induction t as [|b0 IH0 b1 IH1 d0 bits plen i]; intros O u H; [destruct H|]. cbn [walk] in H. destruct (_ && _); [|destruct H].
        destruct (Nat.eqb _ _); [destruct H as [<-|[]]; exact O|]. pose proof O as (_ & _ & O3 & O4).
        assert (In u (fst (walk (if BIT_AT a (plen + 1) then b1 else b0) a n)) -> okt u) as Q by (destruct (BIT_AT a (plen + 1)); [apply IH1|apply IH0]; assumption).
        destruct (walk (if BIT_AT a (plen + 1) then b1 else b0) a n) as [s e]. destruct H as [<-|H]; [exact O|]. apply Q. exact H. }
      assert (okt (Nd b0 b1 d bits plen false)) as OK; [|apply OK].
      eapply HU; [|exact EU]. intros u Hu. apply in_rev in Hu. eapply HW; [exact O|exact Hu].
    + pose proof (unwind_none _ AR (eq_sym LR)) as E. rewrite UW in E.
      destruct (hd_error (unwind (rev (fst (walk t a n))))) as [u|] eqn:EU; [|eexists; split; [reflexivity|discriminate]]. cbn in E.
      destruct u as [|b0 b1 d' bits plen i]; [contradiction|]. cbn in E. subst i.
      assert (d' = 0%N) as ->.
      { assert (forall s, hd_error (unwind s) = Some (Nd b0 b1 d' bits plen true) -> In (Nd b0 b1 d' bits plen true) s) as HU.
        { clear. induction s as [|y s IH]; [discriminate|]. intros E. cbn [unwind] in E. destruct s as [|z s']; [injection E as <-; left; reflexivity|].
          destruct (incidental y); [right; apply IH; exact E|injection E as <-; left; reflexivity]. }
        apply HU in EU. apply in_rev in EU.
        assert (forall t, awf (alpha t) -> In (Nd b0 b1 d' bits plen true) (fst (walk t a n)) -> d' = 0%N) as HW; [|eapply HW; eassumption].
        clear. induction t as [|c0 IH0 c1 IH1 d0 cb cp ci]; intros W H; [destruct H|]. cbn [walk] in H. destruct (_ && _); [|destruct H].
        destruct W as (W1 & W2 & W3 & W4 & W5).
        destruct (Nat.eqb _ _).
        - destruct H as [H|[]]. injection H as -> -> -> -> -> ->. apply W1. reflexivity.
        - assert (In (Nd b0 b1 d' bits plen true) (fst (walk (if BIT_AT a (cp + 1) then c1 else c0) a n)) -> d' = 0%N) as Q by (destruct (BIT_AT a (cp + 1)); [apply IH1|apply IH0]; assumption).
          destruct (walk (if BIT_AT a (cp + 1) then c1 else c0) a n) as [s e]. destruct H as [H|H]; [injection H as -> -> -> -> -> ->; apply W1; reflexivity|apply Q; exact H]. }
      eexists. split; [reflexivity|]. discriminate.
Qed.

Lemma find_longest ops t fs f a : Forall valid ops -> run Nil ops = Ok (t, fs) -> address a ->
  lookup t a (fam_bits f) = Bad \/
  exists pl, lookup t a (fam_bits f) = Ok (match longest (route ops) (addr_bits a) (fam_bits f) with Some (_, d) => d | None => 0%N end, pl) /\
    (forall n d, longest (route ops) (addr_bits a) (fam_bits f) = Some (n, d) -> pl = Some n).
Proof.
  intros F E A. pose proof (run_ok ops [] Nil Inv0 F) as H. rewrite E in H. destruct H as (V & _).
  destruct (lookup_ok ops t a f V A) as [[X _]|X]; [left; exact X|right; exact X].
Qed.

Lemma find_total ops t fs f a : Forall valid ops -> run Nil ops = Ok (t, fs) -> address a ->
  (f = V4 \/ Forall below_128 ops) -> lookup t a (fam_bits f) <> Bad.
Proof.
  intros F E A C. pose proof (run_ok ops [] Nil Inv0 F) as H. rewrite E in H. destruct H as (V & _ & B).
  destruct (lookup_ok ops t a f V A) as [(_ & -> & NB)|(pl & X & _)]; [|rewrite X; discriminate].
  destruct C as [|C]; [discriminate|]. exfalso. apply NB. apply B; [|exact I]. eapply Forall_impl; [|exact C]. intros [? ? n ?|? ? ?]; cbn; [lia|auto].
Qed.

Lemma run_total ops : Forall valid ops -> Forall below_128 ops -> guarded [] ops -> exists t fs, run Nil ops = Ok (t, fs).
Proof.
  intros F B G. pose proof (run_ok ops [] Nil Inv0 F) as H. destruct (run Nil ops) as [[t fs]| | |].
  - eauto.
  - exfalso. apply (H []); [reflexivity|exact G].
  - exfalso. apply H; [exact I|exact B].
  - destruct H.
Qed.

Lemma run_never_aborts ops : Forall valid ops -> run Nil ops <> Abort.
Proof. intros F E. pose proof (run_ok ops [] Nil Inv0 F) as H. rewrite E in H. exact H. Qed.

Lemma del_returns ops t fs f a n t' r l : Forall valid ops -> run Nil ops = Ok (t, fs) -> n <= fam_bits f -> address a ->
  step t (Del f a n) = Ok (t', r, l) ->
  (r = false -> route ops (prefix a n) = None) /\
  l = (match route ops (prefix a n) with Some d => if N.eqb d 0 then [] else [d] | None => [] end).
Proof.
  intros F E N A S. pose proof (run_ok ops [] Nil Inv0 F) as H. rewrite E in H. destruct H as (V & _).
  pose proof (step_ok t (Del f a n) ops V (conj N A)) as H. rewrite S in H. destruct H as (_ & _ & _ & H1 & H2). split; [exact H2|].
  rewrite H1. cbn. apply app_nil_r.
Qed.

Lemma alpha_drop t : drop_node t = adrop (alpha t).
Proof. induction t as [|b0 IH0 b1 IH1 d bits plen i]; [reflexivity|]. cbn. rewrite IH0, IH1. reflexivity. Qed.

Lemma released ops t fs : Forall valid ops -> run Nil ops = Ok (t, fs) ->
  fs = deleted [] ops /\
  exists rs, NoDup (map fst rs) /\ (forall p d, In (p, d) rs <-> route ops p = Some d) /\
    drop_node t = filter (fun d => negb (N.eqb d 0)) (map snd rs).
Proof.
  intros F E. pose proof (run_ok ops [] Nil Inv0 F) as H. rewrite E in H. destruct H as ((O & W & R) & D & _).
  split; [exact D|]. exists (enum (alpha t)). split; [apply enum_nodup; exact W|]. split.
  - intros p d. rewrite enum_get by exact W. cbn [app] in R. rewrite R. reflexivity.
  - rewrite alpha_drop, adrop_enum by exact W. induction (enum (alpha t)) as [|e l IH]; [reflexivity|]. cbn. rewrite IH. unfold call_f.
    destruct (N.eqb (snd e) 0); reflexivity.
Qed.

Lemma sole_crash f a n d : n <= fam_bits f -> address a -> run Nil [Add f a n d; Del f a n] = Crash.
Proof.
  intros N A. pose proof (add_step f Nil a n d [] Inv0 (conj N A)) as [(_ & _ & NB)|(t' & E & O & AE)]; [exfalso; apply NB; exact I|].
  cbn [run]. rewrite E. cbn [bind step]. unfold del_route. apply address_okw in A. assert (n <= 128) as N1 by (destruct f; cbn in N; lia).
  destruct t' as [|b0 b1 d' bits plen i]; [discriminate|]. cbn [alpha aadd] in AE. destruct O as (O1 & O2 & O3 & O4). injection AE as E0 E1 -> EP ->.
  destruct b0; [|discriminate]. destruct b1; [|discriminate]. cbn [del_at]. rewrite match_prefixb by assumption.
  destruct (prefixb_spec (prefix bits plen) (prefix a n)) as [|NP]; [|exfalso; apply NP; rewrite EP; apply is_prefix_refl].
  assert (plen = n) as -> by (pose proof (f_equal (@length bool) EP) as L; rewrite !prefix_len in L by assumption; exact L).
  rewrite Nat.eqb_refl. reflexivity.
Qed.


Lemma route_filter a ops m : (forall o, In o ops -> is_v6 o = false -> ~ is_prefix (op_prefix o) a) ->
  route (filter is_v6 ops) (firstn m a) = route ops (firstn m a).
Proof.
  intros H. induction ops as [|o ops IH] using rev_ind; [reflexivity|].
  assert (route (filter is_v6 ops) (firstn m a) = route ops (firstn m a)) as IH' by (apply IH; intros o' I'; apply H, in_or_app; left; exact I').
  rewrite filter_app, route_snoc. cbn [filter]. destruct (is_v6 o) eqn:V; [rewrite route_snoc, IH'; reflexivity|]. rewrite app_nil_r, IH'.
  assert (bits_eqb (op_prefix o) (firstn m a) = false) as Q.
  { destruct (bits_eqb_spec (op_prefix o) (firstn m a)) as [E|]; [|reflexivity]. exfalso. apply (H o); [apply in_or_app; right; left; reflexivity|exact V|].
    rewrite E. exists (skipn m a). symmetry. apply firstn_skipn. }
  destruct o; cbn [op_prefix] in Q; rewrite Q; reflexivity.
Qed.

Lemma v4_isolated ops t fs t' fs' a : Forall valid ops -> address a ->
  run Nil ops = Ok (t, fs) -> run Nil (filter is_v6 ops) = Ok (t', fs') ->
  (forall o, In o ops -> is_v6 o = false -> ~ is_prefix (op_prefix o) (addr_bits a)) ->
  forall r r' pl pl', find_ipv6 t a = Ok (r, pl) -> find_ipv6 t' a = Ok (r', pl') -> r = r'.
Proof.
  intros F A E E' H r r' pl pl' L L'.
  assert (Forall valid (filter is_v6 ops)) as F' by (apply Forall_forall; intros o I'; apply filter_In in I'; eapply Forall_forall in F; [exact F|apply I']).
  destruct (find_longest ops t fs V6 a F E A) as [X|(q & X & _)]; [unfold find_ipv6 in L; cbn [fam_bits] in X; congruence|].
  destruct (find_longest _ t' fs' V6 a F' E' A) as [X'|(q' & X' & _)]; [unfold find_ipv6 in L'; cbn [fam_bits] in X'; congruence|].
  unfold find_ipv6 in L, L'. cbn [fam_bits] in X, X'. rewrite L in X. rewrite L' in X'.
  apply (f_equal (fun z => match z with Ok (u, _) => u | _ => 0%N end)) in X, X'. cbv beta iota in X, X'. rewrite X, X'.
  rewrite (longest_ext (route (filter is_v6 ops)) (route ops)); [reflexivity|]. intros. apply route_filter. exact H.
Qed.
