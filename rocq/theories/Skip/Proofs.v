From Coq Require Import Arith NArith ZArith List Bool Lia.
From Verif.Skip Require Import Model Spec Rep.
Import ListNotations.

Definition frame (s s' : sl) : Prop :=
  top s' = top s /\ bottom s' = bottom s /\ height s' = height s /\ size s' = size s /\ fresh s' = fresh s.
Lemma frame_refl : forall s, frame s s. Proof. repeat split. Qed.
Lemma frame_trans : forall a b c, frame a b -> frame b c -> frame a c.
Proof. intros a b c (A1 & A2 & A3 & A4 & A5) (B1 & B2 & B3 & B4 & B5). repeat split; congruence. Qed.
Definition same_dom (h h' : nat -> option node) : Prop := forall z, h' z <> None <-> h z <> None.

Lemma upd_same : forall A (f : nat -> A) p v, upd f p v p = v.
Proof. intros. unfold upd. rewrite Nat.eqb_refl. reflexivity. Qed.
Lemma upd_other : forall A (f : nat -> A) p v x, x <> p -> upd f p v x = f x.
Proof. intros A f p v x H. unfold upd. destruct (Nat.eqb x p) eqn:E; [apply Nat.eqb_eq in E; congruence|reflexivity]. Qed.

Lemma hp_some : forall h z, h z <> None -> exists nx pv, hp h z = Some (nx, pv).
Proof. intros h z H. unfold hp. destruct (h z); [cbn; eauto|congruence]. Qed.

Lemma put_next : forall s p v, heap s p <> None -> exists s', put s p (with_next v) = Some s' /\ frame s s' /\
  (forall nx pv, hp (heap s) p = Some (nx, pv) -> hp (heap s') p = Some (v, pv)) /\ (forall z, z <> p -> hp (heap s') z = hp (heap s) z) /\
  (forall z, vp (heap s') z = vp (heap s) z) /\ same_dom (heap s) (heap s').
Proof.
  intros s p v H. unfold put. destruct (heap s p) as [n|] eqn:E; [|congruence]. eexists. split; [reflexivity|]. split; [repeat split|].
  unfold hp, vp, same_dom. cbn [set_heap heap]. split; [|split; [|split]].
  - intros nx pv X. rewrite E in X. injection X as <- <-. rewrite upd_same. reflexivity.
  - intros z Hz. rewrite upd_other by exact Hz. reflexivity.
  - intros z. destruct (Nat.eq_dec z p) as [->|Hz]; [rewrite upd_same, E; reflexivity|rewrite upd_other by exact Hz; reflexivity].
  - intros z. destruct (Nat.eq_dec z p) as [->|Hz]; [rewrite upd_same, E; split; congruence|rewrite upd_other by exact Hz; reflexivity].
Qed.
Lemma put_prev : forall s q v, (forall p, q = Some p -> heap s p <> None) ->
  exists s', match q with Some p => put s p (with_prev v) | None => Some s end = Some s' /\ frame s s' /\
  (forall p nx pv, q = Some p -> hp (heap s) p = Some (nx, pv) -> hp (heap s') p = Some (nx, v)) /\
  (forall z, q <> Some z -> hp (heap s') z = hp (heap s) z) /\
  (forall z, vp (heap s') z = vp (heap s) z) /\ same_dom (heap s) (heap s').
Proof.
  intros s [p|] v H.
  2: { exists s. split; [reflexivity|]. split; [apply frame_refl|]. split; [discriminate|]. split; [reflexivity|]. split; [reflexivity|]. intros z. reflexivity. }
  specialize (H p eq_refl). unfold put. destruct (heap s p) as [n|] eqn:E; [|congruence].
  eexists. split; [reflexivity|]. split; [repeat split|]. unfold hp, vp, same_dom. cbn [set_heap heap]. split; [|split; [|split]].
  - intros p' nx pv F X. injection F as <-. rewrite E in X. injection X as <- <-. rewrite upd_same. reflexivity.
  - intros z Hz. rewrite upd_other by congruence. reflexivity.
  - intros z. destruct (Nat.eq_dec z p) as [->|Hz]; [rewrite upd_same, E; reflexivity|rewrite upd_other by exact Hz; reflexivity].
  - intros z. destruct (Nat.eq_dec z p) as [->|Hz]; [rewrite upd_same, E; split; congruence|rewrite upd_other by exact Hz; reflexivity].
Qed.
Lemma put_up : forall s q v, (forall p, q = Some p -> heap s p <> None) ->
  exists s', match q with Some p => put s p (with_up v) | None => Some s end = Some s' /\ frame s s' /\
  (forall p d u b, q = Some p -> vp (heap s) p = Some (d, u, b) -> vp (heap s') p = Some (d, v, b)) /\
  (forall z, q <> Some z -> vp (heap s') z = vp (heap s) z) /\
  (forall z, hp (heap s') z = hp (heap s) z) /\ same_dom (heap s) (heap s').
Proof.
  intros s [p|] v H.
  2: { exists s. split; [reflexivity|]. split; [apply frame_refl|]. split; [discriminate|]. split; [reflexivity|]. split; [reflexivity|]. intros z. reflexivity. }
  specialize (H p eq_refl). unfold put. destruct (heap s p) as [n|] eqn:E; [|congruence].
  eexists. split; [reflexivity|]. split; [repeat split|]. unfold hp, vp, same_dom. cbn [set_heap heap]. split; [|split; [|split]].
  - intros p' d u b F X. injection F as <-. rewrite E in X. injection X as <- <- <-. rewrite upd_same. reflexivity.
  - intros z Hz. rewrite upd_other by congruence. reflexivity.
  - intros z. destruct (Nat.eq_dec z p) as [->|Hz]; [rewrite upd_same, E; reflexivity|rewrite upd_other by exact Hz; reflexivity].
  - intros z. destruct (Nat.eq_dec z p) as [->|Hz]; [rewrite upd_same, E; split; congruence|rewrite upd_other by exact Hz; reflexivity].
Qed.

(** a node of a column *)
Lemma rep_node : forall h fr A d l B i a, Rep h fr (A ++ (d, l) :: B) -> nth_error l i = Some a ->
  exists n, h a = Some n /\ data n = d /\ next n = hd_error (row i B) /\ prev n = last_ (row i A) /\ up n = nth_error l (S i) /\ down n = below l i.
Proof.
  intros h fr A d l B i a R Hi.
  assert (X : hp h a = Some (hd_error (row i B), last_ (row i A))).
  { apply (r_h _ _ _ R i). rewrite row_mid. unfold nthrow. cbn [snd]. rewrite Hi. reflexivity. }
  pose proof (r_v _ _ _ R (d, l) ltac:(apply in_or_app; right; left; reflexivity) i a Hi) as V. cbn [fst snd] in V.
  unfold hp in X. unfold vp in V. destruct (h a) as [n|]; [|discriminate]. cbn [option_map] in X, V.
  injection X as E1 E2. injection V as E3 E4 E5. exists n. auto 7.
Qed.
Lemma row_hd : forall i B q, hd_error (row i B) = Some q ->
  exists D1 c D2, B = D1 ++ c :: D2 /\ row i D1 = [] /\ nth_error (snd c) i = Some q.
Proof.
  induction B as [|c B IH]; intros q H; [discriminate|]. cbn [row flat_map] in H. unfold nthrow at 1 in H.
  destruct (nth_error (snd c) i) eqn:E.
  - cbn [app hd_error] in H. injection H as <-. exists [], c, B. auto.
  - cbn [app] in H. destruct (IH q H) as (D1 & c' & D2 & -> & E1 & E2). exists (c :: D1), c', D2. split; [reflexivity|].
    split; [|exact E2]. cbn [row flat_map]. unfold nthrow at 1. rewrite E. exact E1.
Qed.
Lemma rep_len : forall h fr cs, Rep h fr cs -> length (addrs cs) <= fr.
Proof. intros h fr cs R. apply nodup_lt; [apply (r_nd _ _ _ R)|apply (r_fr _ _ _ R)]. Qed.
Lemma below_some : forall (l : list nat) j a, nth_error l (S j) = Some a -> exists b, below l (S j) = Some b /\ nth_error l j = Some b.
Proof.
  intros l j a H. cbn [below]. destruct (nth_error l j) eqn:E; [eauto|]. apply nth_error_None in E.
  assert (S j < length l) by (apply nth_error_Some; congruence). lia.
Qed.

Section W.
Variable comp : N -> N -> Z.

(** the columns seen from a key: before it (after the first column), equal, behind *)
Record Cut (k : N) (Lo Mid Hi : list col) : Prop := {
  c_lo : forall c, In c Lo -> (0 < comp k (fst c))%Z;
  c_mid : forall c, In c Mid -> (comp k (fst c) = 0)%Z;
  c_hi : forall c, In c Hi -> (comp k (fst c) < 0)%Z;
  c_one : length Mid <= 1
}.
Definition lastr (cs : list col) (i : nat) : nat := match last_ (row i cs) with Some a => a | None => 0 end.

(** what the search does next *)
Lemma search_step : forall s fr k hc Lo Mid Hi, Rep (heap s) fr ((hc :: Lo) ++ Mid ++ Hi) -> Cut k Lo Mid Hi ->
  forall i A d0 l0 L2 m, hc :: Lo = A ++ (d0, l0) :: L2 -> nth_error l0 i = Some m ->
  exists n, heap s m = Some n /\ down n = below l0 i /\ prev n = last_ (row i A) /\ next n = hd_error (row i (L2 ++ Mid ++ Hi)) /\
  ( (exists D1 c D2 q nq, L2 = D1 ++ c :: D2 /\ nth_error (snd c) i = Some q /\ next n = Some q /\ heap s q = Some nq /\ (0 < comp k (data nq))%Z)
  \/ (exists c q nq, Mid = [c] /\ nth_error (snd c) i = Some q /\ next n = Some q /\ heap s q = Some nq /\ (comp k (data nq) = 0)%Z)
  \/ (row i L2 = [] /\ row i Mid = [] /\ next n = hd_error (row i Hi) /\ (forall q, next n = Some q -> exists nq, heap s q = Some nq /\ (comp k (data nq) < 0)%Z))).
Proof.
  intros s fr k hc Lo Mid Hi R C i A d0 l0 L2 m E Hm. rewrite E, <- app_assoc in R. cbn [app] in R.
  destruct (rep_node _ _ _ _ _ _ _ _ R Hm) as (n & Hn & _ & Nx & Pv & _ & Dn). exists n.
  split; [exact Hn|]. split; [exact Dn|]. split; [exact Pv|]. split; [exact Nx|].
  assert (HL2 : forall c, In c L2 -> In c Lo).
  { intros c Hc. assert (X : In c (tl (hc :: Lo))). { rewrite E. destruct A; [exact Hc|]. cbn [app tl]. apply in_or_app. right. right. exact Hc. } exact X. }
  rewrite !row_app in Nx.
  destruct (row i L2) as [|q r] eqn:EL.
  - destruct (row i Mid) as [|q r] eqn:EM.
    + right. right. split; [reflexivity|]. split; [reflexivity|]. split; [exact Nx|]. intros q Hq. rewrite Nx in Hq. cbn [app] in Hq.
      apply row_hd in Hq as (D1 & [dc lc] & D2 & -> & _ & Hq). cbn [snd] in Hq.
      assert (R' : Rep (heap s) fr ((A ++ (d0, l0) :: L2 ++ Mid ++ D1) ++ (dc, lc) :: D2)).
      { rewrite <- app_assoc. cbn [app]. rewrite <- !app_assoc. exact R. }
      destruct (rep_node _ _ _ _ _ _ _ _ R' Hq) as (nq & Hnq & Dq & _). exists nq. split; [exact Hnq|]. rewrite Dq.
      apply (c_hi _ _ _ _ C (dc, lc)). apply in_or_app. right. left. reflexivity.
    + right. left. destruct Mid as [|[dc lc] [|? ?]]; [discriminate| |pose proof (c_one _ _ _ _ C) as X; cbn [length] in X; lia].
      assert (Hq : nth_error lc i = Some q).
      { cbn [row flat_map] in EM. unfold nthrow in EM. cbn [snd] in EM. destruct (nth_error lc i); [injection EM as -> _; reflexivity|discriminate]. }
      assert (R' : Rep (heap s) fr ((A ++ (d0, l0) :: L2) ++ (dc, lc) :: Hi)).
      { rewrite <- app_assoc. cbn [app]. exact R. }
      destruct (rep_node _ _ _ _ _ _ _ _ R' Hq) as (nq & Hnq & Dq & _). exists (dc, lc), q, nq. repeat split; auto.
      rewrite Dq. apply (c_mid _ _ _ _ C (dc, lc)). left. reflexivity.
  - left. assert (X : hd_error (row i L2) = Some q) by (rewrite EL; reflexivity).
    apply row_hd in X as (D1 & [dc lc] & D2 & -> & _ & Hq). cbn [snd] in Hq.
    assert (R' : Rep (heap s) fr ((A ++ (d0, l0) :: D1) ++ (dc, lc) :: D2 ++ Mid ++ Hi)).
    { rewrite <- app_assoc. cbn [app]. rewrite <- !app_assoc in R. exact R. }
    destruct (rep_node _ _ _ _ _ _ _ _ R' Hq) as (nq & Hnq & Dq & _). exists D1, (dc, lc), D2, q, nq. repeat split; auto.
    rewrite Dq. apply (c_lo _ _ _ _ C (dc, lc)). apply HL2. apply in_or_app. right. left. reflexivity.
Qed.
Lemma lastr_here : forall (hc : col) (Lo A : list col) d0 l0 (L2 : list col) i m, hc :: Lo = A ++ (d0, l0) :: L2 -> nth_error l0 i = Some m -> row i L2 = [] ->
  last_ (row i (hc :: Lo)) = Some m.
Proof.
  intros hc Lo A d0 l0 L2 i m E Hm H. rewrite E, row_mid, H. unfold nthrow. cbn [snd]. rewrite Hm. cbn [app]. apply last_app.
Qed.

Lemma walk_ok : forall s fr k nh hc Lo Mid Hi, Rep (heap s) fr ((hc :: Lo) ++ Mid ++ Hi) -> Cut k Lo Mid Hi -> (forall c, In c Mid -> snd c <> []) ->
  forall f i A d0 l0 L2 m st, hc :: Lo = A ++ (d0, l0) :: L2 -> nth_error l0 i = Some m -> i + length L2 + 2 <= f ->
  walk comp f s k nh (S i) (Some m) st =
    Some (match Mid with [] => Stack (map (lastr (hc :: Lo)) (seq 0 (Nat.min nh (S i))) ++ st) | _ => Dup end).
Proof.
  intros s fr k nh hc Lo Mid Hi R C Hne. induction f as [|f IH]; intros i A d0 l0 L2 m st E Hm Hf; [lia|].
  cbn [walk]. destruct (search_step s fr k hc Lo Mid Hi R C i A d0 l0 L2 m E Hm) as (n & Hn & Dn & _ & _ & Cs). rewrite Hn.
  assert (DOWN : row i L2 = [] -> row i Mid = [] ->
    walk comp f s k nh (pred (S i)) (down n) (if S i <=? nh then m :: st else st) =
    Some (match Mid with [] => Stack (map (lastr (hc :: Lo)) (seq 0 (Nat.min nh (S i))) ++ st) | _ => Dup end)).
  { intros HL HM. pose proof (lastr_here _ _ _ _ _ _ _ _ E Hm HL) as La.
    assert (Lr : lastr (hc :: Lo) i = m) by (unfold lastr; rewrite La; reflexivity).
    assert (St : map (lastr (hc :: Lo)) (seq 0 (Nat.min nh (S i))) ++ st =
                 map (lastr (hc :: Lo)) (seq 0 (Nat.min nh i)) ++ (if S i <=? nh then m :: st else st)).
    { destruct (S i <=? nh) eqn:X.
      - apply Nat.leb_le in X. rewrite !Nat.min_r by lia. rewrite seq_S, map_app, <- app_assoc. cbn [map app Nat.add]. rewrite Lr. reflexivity.
      - apply Nat.leb_gt in X. rewrite !Nat.min_l by lia. reflexivity. }
    rewrite Dn. cbn [pred]. destruct i as [|j].
    - cbn [below]. destruct f as [|f]; [lia|]. cbn [walk]. destruct Mid as [|c ?].
      + rewrite St. rewrite Nat.min_0_r. reflexivity.
      + exfalso. assert (X : snd c <> []) by (apply Hne; left; reflexivity). destruct c as [dc [|x lc]]; [apply X; reflexivity|].
        cbn [row flat_map] in HM. unfold nthrow in HM. cbn [snd nth_error app] in HM. discriminate.
    - destruct (below_some _ _ _ Hm) as (b & Eb & Hb). rewrite Eb. rewrite (IH j A d0 l0 L2 b _ E Hb) by lia.
      destruct Mid; [rewrite St; reflexivity|reflexivity]. }
  destruct Cs as [(D1 & c & D2 & q & nq & EL & Hq & Nx & Hnq & Hc)|[(c & q & nq & EM & Hq & Nx & Hnq & Hc)|(HL & HM & Nx & Hc)]].
  - rewrite Nx, Hnq. replace (comp k (data nq) =? 0)%Z with false by lia. replace (comp k (data nq) <? 0)%Z with false by lia.
    destruct c as [dc lc]. cbn [snd] in Hq. apply (IH i (A ++ (d0, l0) :: D1) dc lc D2 q st).
    + rewrite E, EL, <- app_assoc. reflexivity.
    + exact Hq.
    + rewrite EL, app_length in Hf. cbn [length] in Hf. lia.
  - rewrite Nx, Hnq, Hc. cbn [Z.eqb]. rewrite EM. reflexivity.
  - destruct (next n) as [q|] eqn:Nq.
    + destruct (Hc q eq_refl) as (nq & Hnq & Hc'). rewrite Hnq. replace (comp k (data nq) =? 0)%Z with false by lia.
      replace (comp k (data nq) <? 0)%Z with true by lia. apply DOWN; assumption.
    + apply DOWN; assumption.
Qed.
End W.

(** linking the new nodes *)
Lemma fresh_out : forall s cs, Rep (heap s) (fresh s) cs -> ~ In (fresh s) (addrs cs).
Proof. intros s cs R F. pose proof (r_fr _ _ _ R _ F). lia. Qed.
Lemma link_ok : forall A d Hi n l s ret, Rep (heap s) (fresh s) (A ++ (d, l) :: Hi) ->
  (forall j, j < length l + n -> last_ (row j A) = Some (lastr A j)) -> (l <> [] -> ret = hd_error l) -> (l = [] -> ret = None) ->
  exists s' news, link s d (map (lastr A) (seq (length l) n)) (last_ l) ret = Some (s', hd_error (l ++ news)) /\ length news = n /\
    Rep (heap s') (fresh s') (A ++ (d, l ++ news) :: Hi) /\
    top s' = top s /\ bottom s' = bottom s /\ height s' = height s /\ size s' = size s.
Proof.
  intros A d Hi. induction n as [|n IH]; intros l s ret R HA HR HR0.
  - exists s, []. cbn [seq map link]. rewrite app_nil_r. repeat split; try apply R. destruct l; [rewrite HR0 by reflexivity; reflexivity|].
    rewrite HR by discriminate. reflexivity.
  - cbn [seq map link]. set (m := lastr A (length l)). assert (Hm : last_ (row (length l) A) = Some m) by (apply HA; lia).
    pose proof Hm as Hm'. apply last_in in Hm' as (r & Er).
    assert (Hpm : hp (heap s) m = Some (hd_error (row (length l) Hi), last_ r)).
    { apply (r_h _ _ _ R (length l)). rewrite row_mid, nthrow_top, Er, <- app_assoc. reflexivity. }
    destruct (heap s m) as [nm|] eqn:Hnm; [|unfold hp in Hpm; rewrite Hnm in Hpm; discriminate].
    assert (Nm : next nm = hd_error (row (length l) Hi)).
    { unfold hp in Hpm. rewrite Hnm in Hpm. cbn [option_map] in Hpm. congruence. }
    cbn [calloc]. rewrite Nm.
    set (a := fresh s). set (s1 := Sl (top s) (bottom s) (height s) (size s) (upd (heap s) a (Some (Node d (hd_error (row (length l) Hi)) (Some m) None (last_ l)))) (S a)).
    pose proof (fresh_out s _ R) as Na. fold a in Na.
    assert (Hold : forall z, z <> a -> heap s1 z = heap s z) by (intros z Hz; cbn [s1 heap]; apply upd_other; exact Hz).
    assert (Hin : forall z, In z (addrs (A ++ (d, l) :: Hi)) -> z <> a) by (intros z Hz ->; contradiction).
    assert (Hlast : forall z, last_ l = Some z -> In z (addrs (A ++ (d, l) :: Hi))).
    { intros z Hz. apply last_in in Hz as (l' & ->). rewrite addrs_mid. ina. }
    assert (Hhi : forall q, hd_error (row (length l) Hi) = Some q -> In q (addrs (A ++ (d, l) :: Hi))).
    { intros q Hq. apply hd_in in Hq as (r2 & Hq). apply (row_addrs (length l)). rewrite row_mid, Hq. ina. }
    assert (Hma : In m (addrs (A ++ (d, l) :: Hi))).
    { apply (row_addrs (length l)). rewrite row_mid, Er. ina. }
    assert (Live : forall z, In z (addrs (A ++ (d, l) :: Hi)) -> heap s1 z <> None).
    { intros z Hz. rewrite Hold by (apply Hin; exact Hz). apply (r_dom _ _ _ R). exact Hz. }
    destruct (put_prev s1 (hd_error (row (length l) Hi)) (Some a)) as (s2 & E2 & F2 & H2a & H2b & V2 & D2).
    { intros p Hp. apply Live, Hhi, Hp. }
    rewrite E2.
    destruct (put_up s2 (last_ l) (Some a)) as (s3 & E3 & F3 & V3a & V3b & H3 & D3).
    { intros p Hp. apply D2. apply Live, Hlast, Hp. }
    rewrite E3.
    destruct (put_next s3 m (Some a)) as (s4 & E4 & F4 & H4a & H4b & V4 & D4).
    { apply D3, D2. apply Live, Hma. }
    rewrite E4.
    pose proof (frame_trans _ _ _ (frame_trans _ _ _ F2 F3) F4) as (T1 & T2 & T3 & T4 & T5). cbn [s1 top bottom height size fresh] in T1, T2, T3, T4, T5.
    assert (NDm : forall q, hd_error (row (length l) Hi) = Some q -> m <> q).
    { intros q Hq ->. apply hd_in in Hq as (r2 & Hq). pose proof (row_nd _ (length l) (r_nd _ _ _ R)) as X. rewrite row_mid, nthrow_top, Er, Hq in X.
      rewrite <- app_assoc in X. cbn [app] in X. apply nodup_split in X as (_ & X & _). inversion X as [|? ? X1 _]; subst. apply X1. left. reflexivity. }
    assert (R4 : Rep (heap s4) (S (Nat.max (fresh s) a)) (A ++ (d, l ++ [a]) :: Hi)).
    { assert (Hps1 : forall z, z <> a -> hp (heap s1) z = hp (heap s) z) by (intros z Hz; unfold hp; rewrite Hold by exact Hz; reflexivity).
      assert (Vps1 : forall z, z <> a -> vp (heap s1) z = vp (heap s) z) by (intros z Hz; unfold vp; rewrite Hold by exact Hz; reflexivity).
      assert (Hpa : hp (heap s1) a = Some (hd_error (row (length l) Hi), Some m)) by (unfold hp; cbn [s1 heap]; rewrite upd_same; reflexivity).
      assert (Vpa : vp (heap s1) a = Some (d, None, last_ l)) by (unfold vp; cbn [s1 heap]; rewrite upd_same; reflexivity).
      apply (rep_add (heap s)); auto.
      - rewrite H4b by (intros F; apply (Hin m Hma); congruence). rewrite H3. rewrite H2b by (intros F; apply (Hin a); [apply Hhi; exact F|reflexivity]).
        rewrite Hpa, Hm. reflexivity.
      - intros m' nx pv X1 X2. rewrite Hm in X1. injection X1 as <-. apply (H4a nx pv). rewrite H3. rewrite H2b by (intros F; apply (NDm m F); reflexivity).
        rewrite Hps1 by (apply Hin; exact Hma). exact X2.
      - intros q nx pv X1 X2. rewrite H4b by (intros F; apply (NDm q X1); congruence). rewrite H3. apply (H2a q nx pv X1).
        rewrite Hps1 by (apply Hin, Hhi; exact X1). exact X2.
      - intros z Z1 Z2 Z3. rewrite Hm in Z2. rewrite H4b by congruence. rewrite H3. rewrite H2b by exact Z3. apply Hps1. exact Z1.
      - rewrite V4. rewrite V3b by (intros F; apply (Hin a); [apply Hlast; exact F|reflexivity]). rewrite V2. exact Vpa.
      - intros z d' u b X1 X2. rewrite V4. apply (V3a z d' u b X1). rewrite V2. rewrite Vps1 by (apply Hin, Hlast; exact X1). exact X2.
      - intros z Z1 Z2. rewrite V4, V3b by exact Z2. rewrite V2. apply Vps1. exact Z1.
      - intros z Z1. rewrite (D4 z), (D3 z), (D2 z), Hold by exact Z1. reflexivity. }
    replace (S (Nat.max (fresh s) a)) with (fresh s4) in R4 by (unfold a in *; lia).
    destruct (IH (l ++ [a]) s4 (match last_ l with None => Some a | Some _ => ret end) R4) as (s5 & news & E5 & L5 & R5 & Q1 & Q2 & Q3 & Q4).
    + intros j Hj. apply HA. rewrite app_length in Hj. cbn [length] in Hj. lia.
    + intros _. destruct l as [|x l0]; [reflexivity|]. rewrite HR by discriminate. destruct (last_ (x :: l0)) eqn:X; [reflexivity|].
      exfalso. unfold last_ in X. destruct (rev (x :: l0)) eqn:Y; [|discriminate]. apply (f_equal (@length nat)) in Y. rewrite rev_length in Y. discriminate.
    + intros F. destruct l; discriminate.
    + rewrite last_app, app_length in E5. cbn [length] in E5. rewrite Nat.add_1_r in E5.
      exists s5, (a :: news). rewrite <- app_assoc in E5, R5. cbn [app] in E5, R5. split; [exact E5|].
      split; [cbn [length]; lia|]. split; [exact R5|]. repeat split; congruence.
Qed.

(** the whole list: [hl] is the first column, [tl] the others *)
Record Inv (comp : N -> N -> Z) (s : sl) (hl : list nat) (tl : list col) : Prop := {
  v_rep : Rep (heap s) (fresh s) ((0%N, hl) :: tl);
  v_top : top s = last_ hl;
  v_bot : bottom s = hd_error hl;
  v_height : height s = length hl;
  v_size : size s = Z.of_nat (length tl);
  v_cols : forall c, In c tl -> snd c <> [] /\ length (snd c) <= length hl;
  v_max : length hl <= max_height;
  v_empty : tl = [] -> hl = [];
  v_sorted : sorted comp (map fst tl)
}.
Lemma inv_init : forall comp, Inv comp init [] [].
Proof.
  intros comp. constructor; try reflexivity; try (intros c []); try exact I; [|cbn; lia].
  constructor.
  - intros i r1 a r2 H. destruct i, r1; discriminate.
  - intros c [<-|[]] i a H. destruct i; discriminate.
  - intros a. cbn. tauto.
  - constructor.
  - intros a [].
Qed.

Lemma tall_row : forall i cs, (forall c : col, In c cs -> length (snd c) <= i) -> row i cs = [].
Proof.
  induction cs as [|c cs IH]; intros H; [reflexivity|]. cbn [row flat_map]. unfold nthrow.
  rewrite (proj2 (nth_error_None (snd c) i)) by (apply H; left; reflexivity). apply IH. intros x Hx. apply H. right. exact Hx.
Qed.
Lemma row_tall : forall i cs, row i cs = [] -> forall c : col, In c cs -> length (snd c) <= i.
Proof.
  intros i cs H c Hc. destruct (nth_error (snd c) i) eqn:E; [|apply nth_error_None; exact E].
  assert (X : In n (row i cs)) by (apply in_row; eauto). rewrite H in X. contradiction.
Qed.

(** one more row *)
Lemma grow_step : forall s hl tl, Rep (heap s) (fresh s) ((0%N, hl) :: tl) -> (forall c, In c tl -> length (snd c) <= length hl) ->
  forall s1 t, top s = last_ hl -> last_ hl = t -> s1 = fst (calloc s (Node 0 None None None t)) ->
  exists s2, match t with Some p => put s1 p (with_up (Some (fresh s))) | None => Some s1 end = Some s2 /\
    Rep (heap s2) (fresh s2) ((0%N, hl ++ [fresh s]) :: tl) /\ fresh s2 = S (fresh s) /\
    bottom s2 = bottom s /\ height s2 = height s /\ size s2 = size s.
Proof.
  intros s hl tl R Hc s1 t _ Ht ->. cbn [calloc fst]. set (a := fresh s).
  set (s1 := Sl (top s) (bottom s) (height s) (size s) (upd (heap s) a (Some (Node 0 None None None t))) (S a)).
  pose proof (fresh_out s _ R) as Na. fold a in Na.
  assert (Hold : forall z, z <> a -> heap s1 z = heap s z) by (intros z Hz; cbn [s1 heap]; apply upd_other; exact Hz).
  assert (Hlast : forall z, last_ hl = Some z -> In z (addrs ((0%N, hl) :: tl))).
  { intros z Hz. apply last_in in Hz as (l' & ->). cbn [addrs flat_map snd]. ina. }
  destruct (put_up s1 t (Some a)) as (s2 & E2 & (F1 & F2 & F3 & F4 & F5) & V1 & V2 & H2 & D2).
  { intros p Hp. rewrite <- Ht in Hp. rewrite Hold; [apply (r_dom _ _ _ R), Hlast, Hp|]. intros ->. apply Na, Hlast, Hp. }
  exists s2. split; [exact E2|]. cbn [s1 fresh bottom height size] in F2, F3, F4, F5.
  assert (R0 : row (length hl) tl = []) by (apply tall_row; exact Hc).
  split; [|auto]. replace (fresh s2) with (S (Nat.max (fresh s) a)) by (unfold a in *; lia).
  apply (rep_add (heap s) (heap s2) (fresh s) [] 0%N hl tl a R Na).
  - rewrite R0, H2. unfold hp. cbn [s1 heap]. rewrite upd_same. reflexivity.
  - discriminate.
  - rewrite R0. discriminate.
  - intros z Hz _ _. rewrite H2. unfold hp. rewrite Hold by exact Hz. reflexivity.
  - rewrite V2 by (rewrite <- Ht; intros F; apply Na, Hlast, F). unfold vp. cbn [s1 heap]. rewrite upd_same, <- Ht. reflexivity.
  - intros z d' u b Hz X. rewrite Ht in Hz. apply (V1 z d' u b Hz). unfold vp. rewrite Hold; [exact X|]. intros ->. apply Na, Hlast. congruence.
  - intros z Hz Hl. rewrite V2 by (rewrite <- Ht; exact Hl). unfold vp. rewrite Hold by exact Hz. reflexivity.
  - intros z Hz. rewrite (D2 z), Hold by exact Hz. reflexivity.
Qed.
(** the state the search of insert starts from *)
Record Inv' (comp : N -> N -> Z) (s : sl) (hl : list nat) (tl : list col) : Prop := {
  w_rep : Rep (heap s) (fresh s) ((0%N, hl) :: tl);
  w_top : top s = last_ hl;
  w_bot : bottom s = hd_error hl;
  w_height : height s = length hl;
  w_size : size s = Z.of_nat (length tl);
  w_cols : forall c, In c tl -> snd c <> [] /\ length (snd c) <= length hl;
  w_max : length hl <= max_height;
  w_ne : hl <> [];
  w_sorted : sorted comp (map fst tl)
}.
Lemma inv_weak : forall comp s hl tl, Inv' comp s hl tl -> tl <> [] -> Inv comp s hl tl.
Proof. intros comp s hl tl I H. destruct I. constructor; auto. congruence. Qed.
Lemma first_row_ok : forall comp s hl tl, Inv comp s hl tl -> exists hl', Inv' comp (first_row s) hl' tl /\ (hl <> [] -> hl' = hl).
Proof.
  intros comp s hl tl I. unfold first_row. destruct hl as [|x hl].
  - rewrite (v_top _ _ _ _ I). change (last_ (@nil nat)) with (@None nat). cbn [calloc].
    assert (E : tl = []). { destruct tl as [|c tl]; [reflexivity|]. destruct (v_cols _ _ _ _ I c (or_introl eq_refl)) as (X & Y). cbn [length] in Y.
      destruct (snd c); [congruence|cbn [length] in Y; lia]. }
    subst tl. exists [fresh s]. split; [|congruence].
    destruct (grow_step s [] [] (v_rep _ _ _ _ I) ltac:(intros c []) _ None (v_top _ _ _ _ I) eq_refl eq_refl) as (s2 & E2 & R2 & F2 & _).
    injection E2 as <-. cbn [fst calloc heap fresh] in R2. constructor; cbn [heap fresh top bottom height size]; auto.
    + apply (v_size _ _ _ _ I).
    + intros c [].
    + unfold max_height. cbn [length]. lia.
    + discriminate.
    + exact Logic.I.
  - exists (x :: hl). split; [|auto]. rewrite (v_top _ _ _ _ I). destruct (last_ (x :: hl)) eqn:E.
    + destruct I. constructor; auto. discriminate.
    + exfalso. unfold last_ in E. destruct (rev (x :: hl)) eqn:Y; [|discriminate]. apply (f_equal (@length nat)) in Y. rewrite rev_length in Y. discriminate.
Qed.
Lemma grow_ok : forall comp n s hl tl, Inv' comp s hl tl -> length hl + n <= max_height ->
  exists s' more, grow n s = Some s' /\ Inv' comp s' (hl ++ more) tl /\ length more = n.
Proof.
  induction n as [|n IH]; intros s hl tl I Hm.
  - exists s, []. rewrite app_nil_r. auto.
  - cbn [grow]. rewrite (w_top _ _ _ _ I). destruct (last_ hl) as [t|] eqn:Et.
    2: { exfalso. apply (w_ne _ _ _ _ I). unfold last_ in Et. destruct (rev hl) eqn:Y; [|discriminate]. rewrite <- (rev_involutive hl), Y. reflexivity. }
    destruct (grow_step s hl tl (w_rep _ _ _ _ I) ltac:(intros c Hc; apply (w_cols _ _ _ _ I c Hc)) _ (Some t) (w_top _ _ _ _ I) Et eq_refl)
      as (s2 & E2 & R2 & F2 & B2 & H2 & Z2).
    cbn [calloc fst] in E2 |- *. rewrite E2.
    set (s3 := Sl (Some (fresh s)) (bottom s2) (S (height s2)) (size s2) (heap s2) (fresh s2)).
    assert (I3 : Inv' comp s3 (hl ++ [fresh s]) tl).
    { constructor; cbn [s3 heap fresh top bottom height size].
      - exact R2.
      - rewrite last_app. reflexivity.
      - rewrite B2, (w_bot _ _ _ _ I). destruct hl; [destruct (w_ne _ _ _ _ I); reflexivity|reflexivity].
      - rewrite H2, (w_height _ _ _ _ I), app_length. cbn [length]. lia.
      - rewrite Z2. apply (w_size _ _ _ _ I).
      - intros c Hc. destruct (w_cols _ _ _ _ I c Hc) as (X & Y). split; [exact X|]. rewrite app_length. lia.
      - rewrite app_length. cbn [length]. lia.
      - destruct hl; discriminate.
      - apply (w_sorted _ _ _ _ I). }
    destruct (IH s3 (hl ++ [fresh s]) tl I3) as (s4 & more & E4 & I4 & L4); [rewrite app_length; cbn [length]; lia|].
    rewrite <- app_assoc in I4. exists s4, (fresh s :: more). cbn [length app] in *. rewrite L4. auto.
Qed.
Lemma pick_ok : forall h bits nh, 1 <= nh -> nh <= max_height -> nh <= S h -> nh <= pick h nh bits <= max_height /\ pick h nh bits <= S h.
Proof.
  intros h. induction bits as [|[|] bits IH]; intros nh H1 H2 H3; cbn [pick]; try lia.
  destruct ((nh <=? h) && (nh <? max_height)) eqn:E; [|lia]. apply andb_prop in E as (E1 & E2).
  apply Nat.leb_le in E1. apply Nat.ltb_lt in E2. destruct (IH (S nh)) as (A & B); lia.
Qed.

(** where a key cuts the columns *)
Lemma cut_exists : forall comp c k (tl : list col), (forall a b, (comp a b < 0)%Z -> (c k a <= 0)%Z -> (c k b < 0)%Z) ->
  sorted comp (map fst tl) -> exists Lo Mid Hi, tl = Lo ++ Mid ++ Hi /\ Cut c k Lo Mid Hi.
Proof.
  intros comp c k tl Hm. induction tl as [|x tl IH]; intros Hs.
  - exists [], [], []. split; [reflexivity|]. constructor; cbn [In length]; try contradiction; lia.
  - cbn [map sorted] in Hs. destruct Hs as (H1 & H2). rewrite Forall_forall in H1.
    destruct (Z.compare_spec (c k (fst x)) 0) as [E|E|E].
    + exists [], [x], tl. split; [reflexivity|]. constructor; cbn [In length]; try contradiction; try lia.
      * intros y [<-|[]]. exact E.
      * intros y Hy. apply (Hm (fst x)); [|lia]. apply H1. apply in_map. exact Hy.
    + exists [], [], (x :: tl). split; [reflexivity|]. constructor; cbn [In length]; try contradiction; try lia.
      intros y [<-|Hy]; [exact E|]. apply (Hm (fst x)); [|lia]. apply H1. apply in_map. exact Hy.
    + destruct (IH H2) as (Lo & Mid & Hi & -> & C). exists (x :: Lo), Mid, Hi. split; [reflexivity|]. destruct C. constructor; auto.
      intros y [<-|Hy]; auto.
Qed.
Lemma filter_all : forall A (f : A -> bool) l, (forall x, In x l -> f x = true) -> filter f l = l.
Proof. induction l as [|x l IH]; intros H; [reflexivity|]. cbn [filter]. rewrite H by (left; reflexivity). rewrite IH; [reflexivity|]. intros y Hy. apply H. right. exact Hy. Qed.
Lemma filter_none : forall A (f : A -> bool) l, (forall x, In x l -> f x = false) -> filter f l = [].
Proof. induction l as [|x l IH]; intros H; [reflexivity|]. cbn [filter]. rewrite H by (left; reflexivity). apply IH. intros y Hy. apply H. right. exact Hy. Qed.
Lemma cut_spec : forall c k Lo Mid Hi, Cut c k Lo Mid Hi -> let l := map fst (Lo ++ Mid ++ Hi) in
  before c k l = map fst Lo /\ at_key c k l = map fst Mid /\ after c k l = map fst Hi.
Proof.
  intros c k Lo Mid Hi C. cbv zeta. rewrite !map_app. unfold before, at_key, after. rewrite !filter_app.
  assert (A : forall x, In x (map fst Lo) -> (0 < c k x)%Z) by (intros x Hx; apply in_map_iff in Hx as (y & <- & Hy); apply (c_lo _ _ _ _ _ C y Hy)).
  assert (B : forall x, In x (map fst Mid) -> (c k x = 0)%Z) by (intros x Hx; apply in_map_iff in Hx as (y & <- & Hy); apply (c_mid _ _ _ _ _ C y Hy)).
  assert (D : forall x, In x (map fst Hi) -> (c k x < 0)%Z) by (intros x Hx; apply in_map_iff in Hx as (y & <- & Hy); apply (c_hi _ _ _ _ _ C y Hy)).
  repeat split.
  - rewrite (filter_all _ _ (map fst Lo)) by (intros x Hx; specialize (A x Hx); lia).
    rewrite (filter_none _ _ (map fst Mid)) by (intros x Hx; specialize (B x Hx); lia).
    rewrite (filter_none _ _ (map fst Hi)) by (intros x Hx; specialize (D x Hx); lia). apply app_nil_r.
  - rewrite (filter_none _ _ (map fst Lo)) by (intros x Hx; specialize (A x Hx); lia).
    rewrite (filter_all _ _ (map fst Mid)) by (intros x Hx; specialize (B x Hx); lia).
    rewrite (filter_none _ _ (map fst Hi)) by (intros x Hx; specialize (D x Hx); lia). apply app_nil_r.
  - rewrite (filter_none _ _ (map fst Lo)) by (intros x Hx; specialize (A x Hx); lia).
    rewrite (filter_none _ _ (map fst Mid)) by (intros x Hx; specialize (B x Hx); lia).
    rewrite (filter_all _ _ (map fst Hi)) by (intros x Hx; specialize (D x Hx); lia). reflexivity.
Qed.
Lemma ins_cut : forall comp d lo hi, (forall x, In x lo -> (0 < comp d x)%Z) -> (forall x, In x hi -> (comp d x < 0)%Z) ->
  ins comp d (lo ++ hi) = lo ++ d :: hi.
Proof.
  induction lo as [|x lo IH]; intros hi H1 H2; cbn [app ins].
  - destruct hi as [|y hi]; [reflexivity|]. cbn [ins]. specialize (H2 y (or_introl eq_refl)). replace (comp d y <? 0)%Z with true by lia. reflexivity.
  - pose proof (H1 x (or_introl eq_refl)). replace (comp d x <? 0)%Z with false by lia. rewrite IH; auto. intros y Hy. apply H1. right. exact Hy.
Qed.
Lemma sorted_app : forall comp l1 l2, sorted comp (l1 ++ l2) <-> sorted comp l1 /\ sorted comp l2 /\ forall x y, In x l1 -> In y l2 -> (comp x y < 0)%Z.
Proof.
  intros comp. induction l1 as [|x l1 IH]; intros l2; cbn [app sorted]; [firstorder|].
  rewrite IH, Forall_app, !Forall_forall. split.
  - intros ((A & B) & C & D & E). repeat split; auto. intros y z [<-|Hy] Hz; auto.
  - intros ((A & B) & C & D). repeat split; auto; intros; apply D; auto; [left; reflexivity|right; assumption].
Qed.
Lemma inv_len : forall h fr hl (tl : list col), Rep h fr ((0%N, hl) :: tl) -> (forall c, In c tl -> snd c <> [] /\ length (snd c) <= length hl) ->
  length hl + length tl <= fr.
Proof.
  intros h fr hl tl R H. pose proof (rep_len _ _ _ R) as L. cbn [addrs flat_map snd] in L. rewrite app_length in L.
  assert (X : length tl <= length (flat_map snd tl)).
  { clear -H. induction tl as [|c tl IH]; [cbn; lia|]. cbn [flat_map length]. rewrite app_length.
    destruct (H c (or_introl eq_refl)) as (A & _). assert (length (snd c) <> 0) by (destruct (snd c); [congruence|discriminate]).
    specialize (IH ltac:(intros y Hy; apply H; right; exact Hy)). lia. }
  lia.
Qed.
Lemma hl_top : forall (hl : list nat), hl <> [] -> nth_error hl (length hl - 1) = last_ hl.
Proof.
  intros hl H. destruct (@exists_last _ hl H) as (l & x & ->). rewrite last_app, app_length. cbn [length].
  replace (length l + 1 - 1) with (length l) by lia. rewrite nth_error_app2, Nat.sub_diag by lia. reflexivity.
Qed.
Lemma header_last : forall i hl (Lo : list col), i < length hl -> last_ (row i ((0%N, hl) :: Lo)) = Some (lastr ((0%N, hl) :: Lo) i).
Proof.
  intros i hl Lo H. unfold lastr. destruct (last_ (row i ((0%N, hl) :: Lo))) eqn:E; [reflexivity|]. exfalso. unfold last_ in E.
  destruct (rev (row i ((0%N, hl) :: Lo))) eqn:Y; [|discriminate]. apply (f_equal (@length nat)) in Y. rewrite rev_length in Y.
  cbn [row flat_map] in Y. unfold nthrow in Y. cbn [snd] in Y. destruct (nth_error hl i) eqn:Z; [discriminate|]. apply nth_error_None in Z. lia.
Qed.

Lemma insert_ok : forall comp compk s hl tl d bits, ordered comp compk -> Inv comp s hl tl ->
  exists s' hl' tl', Inv comp s' hl' tl' /\
    (if existsb (fun x => comp d x =? 0)%Z (map fst tl)
     then insert comp s d bits = Some (s', None) /\ map fst tl' = map fst tl
     else exists m, insert comp s d bits = Some (s', Some m) /\ data_of s' (Some m) = Some (Some d) /\ map fst tl' = ins comp d (map fst tl)).
Proof.
  intros comp compk s hl tl d bits O I. unfold insert.
  destruct (first_row_ok comp s hl tl I) as (hl1 & I1 & _). set (s1 := first_row s) in *. clearbody s1.
  assert (L1 : 1 <= length hl1) by (pose proof (w_ne _ _ _ _ I1); destruct hl1; [congruence|cbn [length]; lia]).
  pose proof (pick_ok (height s1) bits 1 ltac:(lia) ltac:(unfold max_height; lia) ltac:(lia)) as (P1 & P2).
  set (nh := pick (height s1) 1 bits) in *. rewrite (w_height _ _ _ _ I1) in *.
  pose proof (w_max _ _ _ _ I1) as M1.
  destruct (grow_ok comp (nh - length hl1) s1 hl1 tl I1 ltac:(lia)) as (s2 & more & E2 & I2 & Lm). rewrite E2.
  set (hl2 := hl1 ++ more) in *. assert (L2 : length hl2 = Nat.max nh (length hl1)) by (unfold hl2; rewrite app_length; lia). clearbody hl2.
  pose proof (w_rep _ _ _ _ I2) as R2.
  destruct (cut_exists comp comp d tl) as (Lo & Mid & Hi & Et & C); [intros a b Hab Ha; apply (o_trans _ _ O d a b Ha Hab)|apply (w_sorted _ _ _ _ I2)|].
  pose proof (inv_len _ _ _ _ R2 (w_cols _ _ _ _ I2)) as LL.
  rewrite (w_top _ _ _ _ I2), <- hl_top by apply (w_ne _ _ _ _ I2).
  destruct (nth_error hl2 (length hl2 - 1)) as [t|] eqn:Ht; [|apply nth_error_None in Ht; lia].
  rewrite (w_height _ _ _ _ I2).
  assert (Lt : length tl = length Lo + (length Mid + length Hi)) by (rewrite Et, !app_length; reflexivity).
  assert (R2m : Rep (heap s2) (fresh s2) (((0%N, hl2) :: Lo) ++ Mid ++ Hi)) by (clear -R2 Et; rewrite Et in R2; exact R2).
  assert (Cm : forall c, In c Mid -> snd c <> []) by (intros c Hc; apply (w_cols _ _ _ _ I2 c); rewrite Et; ina).
  assert (Fm : length hl2 - 1 + length Lo + 2 <= fuel s2) by (unfold fuel; lia).
  pose proof (walk_ok comp s2 (fresh s2) d nh (0%N, hl2) Lo Mid Hi R2m C Cm (fuel s2) (length hl2 - 1) [] 0%N hl2 Lo t [] eq_refl Ht Fm) as W.
  replace (S (length hl2 - 1)) with (length hl2) in W by lia. rewrite W. clear W.
  destruct Mid as [|c Mid].
  - cbn [app] in Et, Lt. assert (EX : existsb (fun x => comp d x =? 0)%Z (map fst tl) = false).
    { rewrite Et, map_app. apply not_true_is_false. intros F. apply existsb_exists in F as (x & Hx & F). apply in_app_or in Hx.
      destruct Hx as [Hx|Hx]; apply in_map_iff in Hx as (y & <- & Hy); [pose proof (c_lo _ _ _ _ _ C y Hy)|pose proof (c_hi _ _ _ _ _ C y Hy)]; lia. }
    rewrite EX. rewrite app_nil_r. replace (Nat.min nh (length hl2)) with nh by lia.
    rewrite map_length, seq_length. replace (S max_height <? nh) with false by (symmetry; apply Nat.ltb_ge; lia).
    assert (R2' : Rep (heap s2) (fresh s2) (((0%N, hl2) :: Lo) ++ (d, []) :: Hi)).
    { apply rep_empty. clear -R2 Et. rewrite Et in R2. exact R2. }
    destruct (link_ok ((0%N, hl2) :: Lo) d Hi nh [] s2 None R2') as (s3 & news & E3 & L3 & R3 & T1 & T2 & T3 & T4).
    { intros j Hj. cbn [length] in Hj. apply header_last. lia. }
    { congruence. }
    { reflexivity. }
    cbn [length app] in E3, R3. change (last_ []) with (@None nat) in E3.
    match goal with |- context [link ?a ?b ?c ?e ?g] => replace (link a b c e g) with (Some (s3, hd_error news)) by (symmetry; exact E3) end.
    destruct news as [|a news]; [cbn [length] in L3; lia|]. cbn [hd_error].
    exists (Sl (top s3) (bottom s3) (height s3) (size s3 + 1) (heap s3) (fresh s3)), hl2, (Lo ++ (d, a :: news) :: Hi). split.
    + constructor; cbn [heap fresh top bottom height size].
      * exact R3.
      * rewrite T1. apply (w_top _ _ _ _ I2).
      * rewrite T2. apply (w_bot _ _ _ _ I2).
      * rewrite T3. apply (w_height _ _ _ _ I2).
      * rewrite T4, (w_size _ _ _ _ I2), Et, !app_length. cbn [length]. unfold col in *. lia.
      * intros c Hc. apply in_app_or in Hc. destruct Hc as [Hc|[<-|Hc]].
        -- apply (w_cols _ _ _ _ I2). rewrite Et. ina.
        -- cbn [snd]. split; [discriminate|]. rewrite L3. lia.
        -- apply (w_cols _ _ _ _ I2). rewrite Et. ina.
      * apply (w_max _ _ _ _ I2).
      * intros F. destruct Lo; discriminate.
      * pose proof (w_sorted _ _ _ _ I2) as S0. rewrite Et, map_app in S0. apply sorted_app in S0 as (S1 & S2 & S3).
        rewrite map_app. cbn [map fst]. apply sorted_app. split; [exact S1|]. split.
        -- cbn [sorted]. split; [|exact S2]. apply Forall_forall. intros y Hy. apply in_map_iff in Hy as (c & <- & Hc). apply (c_hi _ _ _ _ _ C c Hc).
        -- assert (Hlo : forall x, In x (map fst Lo) -> (comp x d < 0)%Z).
           { intros x Hx. apply in_map_iff in Hx as (c & <- & Hc). pose proof (c_lo _ _ _ _ _ C c Hc). pose proof (o_anti _ _ O (fst c) d). lia. }
           intros x y Hx [<-|Hy]; [apply Hlo; exact Hx|apply S3; assumption].
    + exists a. split; [reflexivity|]. split.
      * cbn [data_of heap]. destruct (rep_node _ _ ((0%N, hl2) :: Lo) d (a :: news) Hi 0 a R3 eq_refl) as (n & Hn & Dn & _). rewrite Hn, Dn. reflexivity.
      * rewrite Et, !map_app. cbn [map fst]. symmetry. apply ins_cut.
        -- intros x Hx. apply in_map_iff in Hx as (c & <- & Hc). apply (c_lo _ _ _ _ _ C c Hc).
        -- intros x Hx. apply in_map_iff in Hx as (c & <- & Hc). apply (c_hi _ _ _ _ _ C c Hc).
  - assert (EX : existsb (fun x => comp d x =? 0)%Z (map fst tl) = true).
    { apply existsb_exists. exists (fst c). split; [apply in_map; rewrite Et; ina|]. pose proof (c_mid _ _ _ _ _ C c (or_introl eq_refl)). lia. }
    rewrite EX. exists s2, hl2, tl. split; [|auto]. apply inv_weak; [exact I2|]. rewrite Et. destruct Lo; discriminate.
Qed.
