(** Insertion with growth, deletion, and sequences of calls. *)
From Coq Require Import NArith ZArith List Bool Lia Arith ZifyBool ZifyNat ZifyN.
From Verif Require Import Linkh.Model Linkh.Spec Linkh.Proofs Linkh.Proofs2.
Import ListNotations.

(** the searches of s meet a freed entry before an empty one *)
Definition reusable (hash : key -> N) (l : list entry) (s : key) : Prop :=
  exists d, d < length l /\ k (slot l (pos (length l) (first_slot hash (length l) s) d)) = Freed /\
    forall i, i < d -> k (slot l (pos (length l) (first_slot hash (length l) s) i)) <> Empty.

Definition inserted hash (t : table) (ids : list nat) (s : key) (x : value) (t' : table) : Prop :=
  exists ids', Inv hash t' ids' /\ abs (slots t') ids' = abs (slots t) ids ++ [(s, x)]
    /\ released t' = released t /\ length (slots t) <= length (slots t')
    /\ cnt is_freed (slots t') <= cnt is_freed (slots t)
    /\ (reusable hash (slots t) s -> cnt is_freed (slots t') + 1 <= cnt is_freed (slots t)).

Lemma insert_room : forall hash t ids s x, Inv hash t ids ->
  100 * length ids <= 66 * length (slots t) -> ~ In s (map fst (abs (slots t) ids)) ->
  exists n t', find_free (length (slots t)) (slots t) (first_slot hash (length (slots t)) s) = Done n
    /\ link t n s x = Done t' /\ inserted hash t ids s x t' /\ length (slots t') = length (slots t).
Proof.
  intros hash t ids s x I Ld Ns.
  pose proof (i_size _ _ _ I) as Sz.
  set (size := length (slots t)) in *. set (f := first_slot hash size s).
  assert (Hf : f < size) by (apply first_lt; lia).
  assert (Fr : exists n, n < size /\ is_key (k (slot (slots t) n)) = false).
  { pose proof (cnt_all (slots t)) as C. rewrite (i_cnt _ _ _ I) in C. fold size in C.
    destruct (cnt is_freed (slots t)) eqn:E.
    - destruct (cnt_exists is_empty (slots t)) as (n & A & B); [lia|]. exists n. split; [exact A|].
      destruct (k (slot (slots t) n)); try discriminate B; reflexivity.
    - destruct (cnt_exists is_freed (slots t)) as (n' & A & B); [lia|]. exists n'. split; [exact A|].
      destruct (k (slot (slots t) n')); try discriminate B; reflexivity. }
  destruct Fr as (n0 & A0 & B0). destruct (pos_find size f n0 Hf A0) as (i0 & A1 & B1).
  assert (Q : is_key (k (slot (slots t) (pos size f i0))) = false) by (rewrite B1; exact B0).
  destruct (find_free_some size (slots t) f i0 Hf A1 Q) as (j & J1 & J2 & J3 & J4). fold size in J2, J3, J4.
  destruct (link_spec hash t ids (pos size f j) s x j I Ld) as (t' & L1 & L2 & L3 & L4 & L5 & L6);
    [apply pos_lt; fold size; lia|exact J3|exact Ns|reflexivity|fold size; lia|exact J4|].
  exists (pos size f j), t'. split; [exact J2|]. split; [exact L1|]. split; [|exact L5].
  exists (ids ++ [pos size f j]). split; [exact L2|]. split; [exact L3|]. split; [exact L4|].
  split; [lia|]. split; [lia|].
  intros (d & D1 & D2 & D3). fold size in D1, D2, D3. fold f in D2, D3.
  assert (L : j <= d).
  { destruct (le_lt_dec j d) as [|G]; [assumption|]. specialize (J4 d G). rewrite D2 in J4. discriminate. }
  assert (E : k (slot (slots t) (pos size f j)) = Freed).
  { destruct (Nat.eq_dec j d) as [->|N]; [exact D2|].
    specialize (D3 j ltac:(lia)). destruct (k (slot (slots t) (pos size f j))); congruence || discriminate. }
  rewrite E in L6. cbn in L6. lia.
Qed.

Lemma new_inv : forall hash size, 16 <= size -> Inv hash (table_new size) [].
Proof.
  intros hash size H.
  assert (Sl : forall n, slot (repeat unused size) n = unused) by (intros; unfold slot; apply nth_repeat).
  assert (Cn : forall n, cnt is_key (repeat unused n) = 0).
  { induction n; [reflexivity|]. cbn [repeat]. rewrite cnt_cons, IHn. reflexivity. }
  constructor; cbn [slots count head tail table_new]; rewrite ?repeat_length.
  - exact Logic.I.
  - reflexivity.
  - reflexivity.
  - reflexivity.
  - constructor.
  - intros n. rewrite Sl. cbn. split; [intros []|intros [_ X]; discriminate].
  - apply Cn.
  - constructor.
  - intros n s _ E. rewrite Sl in E. discriminate.
  - exact H.
  - cbn. lia.
Qed.
Lemma new_freed : forall size, cnt is_freed (slots (table_new size)) = 0.
Proof. unfold table_new. cbn [slots]. induction size; [reflexivity|]. cbn [repeat]. rewrite cnt_cons, IHsize. reflexivity. Qed.

Lemma crowded_spec : forall hash t ids, Inv hash t ids ->
  crowded t = Nat.ltb (66 * length (slots t)) (100 * length ids).
Proof. intros hash t ids I. unfold crowded. rewrite (i_count _ _ _ I). reflexivity. Qed.

Lemma insert_level : forall level hash t ids s x, Inv hash t ids ->
  100 * length ids <= 66 * length (slots t) -> ~ In s (map fst (abs (slots t) ids)) ->
  exists t', table_insert (S level) hash t s x = Done t' /\ inserted hash t ids s x t'
    /\ length (slots t') = length (slots t).
Proof.
  intros level hash t ids s x I Ld Ns. cbn [table_insert]. rewrite (crowded_spec _ _ _ I).
  destruct (Nat.ltb_spec (66 * length (slots t)) (100 * length ids)) as [L|_]; [lia|]. cbn [bind].
  destruct (insert_room hash t ids s x I Ld Ns) as (n & t' & A & B & C). rewrite A. cbn [bind].
  exists t'. auto.
Qed.

Lemma insert_all_spec : forall level hash l t ids, Inv hash t ids -> cnt is_freed (slots t) = 0 ->
  100 * (length ids + length l) <= 66 * length (slots t) ->
  NoDup (map fst (abs (slots t) ids ++ l)) ->
  exists t' ids', insert_all (table_insert (S level) hash) t l = Done t' /\ Inv hash t' ids'
    /\ abs (slots t') ids' = abs (slots t) ids ++ l /\ cnt is_freed (slots t') = 0
    /\ length (slots t') = length (slots t).
Proof.
  intros level hash. induction l as [|[s x] l IH]; intros t ids I F L D; cbn [insert_all].
  - exists t, ids. rewrite app_nil_r. auto.
  - cbn [length] in L.
    destruct (insert_level level hash t ids s x I) as (t1 & A & (ids1 & B1 & B2 & B3 & B4 & B5 & _) & C); [lia| |].
    { rewrite map_app in D. cbn [map fst] in D. apply NoDup_remove_2 in D. intros X. apply D.
      apply in_or_app. left. exact X. }
    rewrite A. cbn [bind].
    destruct (IH t1 ids1 B1) as (t' & ids' & E1 & E2 & E3 & E4 & E5).
    + lia.
    + assert (Ln : length ids1 = S (length ids)).
      { assert (Z : length (abs (slots t1) ids1) = length (abs (slots t) ids ++ [(s, x)])) by (rewrite B2; reflexivity).
        unfold abs in Z. rewrite app_length, !map_length in Z. cbn in Z. lia. }
      lia.
    + rewrite B2, <- app_assoc. exact D.
    + exists t', ids'. split; [exact E1|]. split; [exact E2|]. split; [|split; [exact E4|congruence]].
      rewrite E3, B2, <- app_assoc. reflexivity.
Qed.

Lemma insert_spec : forall hash t ids s x, Inv hash t ids -> ~ In s (map fst (abs (slots t) ids)) ->
  exists t', insert hash t s x = Done t' /\ inserted hash t ids s x t'.
Proof.
  intros hash t ids s x I Ns. unfold insert.
  destruct (le_lt_dec (100 * length ids) (66 * length (slots t))) as [Ld|Ld].
  { destruct (insert_level 2 hash t ids s x I Ld Ns) as (t' & A & B & _). eauto. }
  pose proof (i_size _ _ _ I) as Sz. pose proof (i_load _ _ _ I) as Lo.
  change (table_insert 3) with (fun hash t s x =>
      bind (if crowded t then table_resize (table_insert 2 hash) t (2 * length (slots t)) else Done t) (fun t =>
      bind (find_free (length (slots t)) (slots t) (first_slot hash (length (slots t)) s)) (fun n =>
      link t n s x))). cbv beta.
  rewrite (crowded_spec _ _ _ I). destruct (Nat.ltb_spec (66 * length (slots t)) (100 * length ids)) as [_|L]; [|lia].
  unfold table_resize. rewrite (entries_spec _ _ _ I). cbn [bind].
  destruct (insert_all_spec 1 hash (abs (slots t) ids) (table_new (2 * length (slots t))) [])
    as (tn & idn & A & B & C & D & E).
  - apply new_inv. lia.
  - apply new_freed.
  - cbn [length table_new slots]. rewrite repeat_length. unfold abs. rewrite map_length. lia.
  - exact (i_dist _ _ _ I).
  - change (abs (slots (table_new (2 * length (slots t)))) [] ++ abs (slots t) ids) with (abs (slots t) ids) in C.
    rewrite A. cbn [bind].
    assert (E' : length (slots tn) = 2 * length (slots t)).
    { rewrite E. cbn [table_new slots]. apply repeat_length. }
    assert (Ln : length idn = length ids).
    { assert (Z : length (abs (slots tn) idn) = length (abs (slots t) ids)) by (rewrite C; reflexivity).
      unfold abs in Z. rewrite !map_length in Z. exact Z. }
    set (tm := mkt (slots tn) (count t) (head tn) (tail tn) (released t)).
    assert (Im : Inv hash tm idn).
    { pose proof (i_count _ _ _ I) as Ct.
      destruct B. constructor; cbn [tm slots count head tail]; auto. congruence. }
    destruct (insert_room hash tm idn s x Im) as (n & t' & F1 & F2 & (ids' & G1 & G2 & G3 & G4 & G5 & _) & F4).
    + cbn [tm slots]. lia.
    + cbn [tm slots]. rewrite C. exact Ns.
    + rewrite F1. cbn [bind]. rewrite F2. exists t'. split; [reflexivity|].
      exists ids'. split; [exact G1|]. cbn [tm slots released] in *. rewrite C in G2.
      split; [exact G2|]. split; [exact G3|]. split; [lia|]. split; [lia|].
      intros (d & D1 & D2 & D3).
      assert (P : 0 < cnt is_freed (slots t)).
      { apply (cnt_pos _ _ (pos (length (slots t)) (first_slot hash (length (slots t)) s) d)).
        - apply pos_lt. lia.
        - rewrite D2. reflexivity. }
      lia.
Qed.

(** ** Deletion *)
Lemma NoDup_app_l : forall A (a b : list A), NoDup (a ++ b) -> NoDup a.
Proof.
  intros A a b H. induction a as [|x a IH]; [constructor|]. cbn in H. inversion_clear H as [|? ? N H1].
  constructor; [intros X; apply N; apply in_or_app; left; exact X|exact (IH H1)].
Qed.
Lemma NoDup_app_r : forall A (a b : list A), NoDup (a ++ b) -> NoDup b.
Proof. intros A a b H. induction a as [|x a IH]; [exact H|]. inversion_clear H. auto. Qed.
Lemma is_ptr_true : forall p n, is_ptr p n = true <-> p = Some n.
Proof.
  intros [m|] n; cbn; [|intuition discriminate]. split.
  - intros H. apply Nat.eqb_eq in H. congruence.
  - intros H. injection H as ->. apply Nat.eqb_refl.
Qed.

Lemma delete_entry_spec : forall hash t ids n s, Inv hash t ids ->
  n < length (slots t) -> k (slot (slots t) n) = Key s ->
  exists a b t', ids = a ++ n :: b /\ delete_entry t n = Done (0%Z, t') /\ Inv hash t' (a ++ b)
    /\ abs (slots t') (a ++ b) = abs (slots t) a ++ abs (slots t) b
    /\ released t' = released t ++ [(s, v (slot (slots t) n))]
    /\ length (slots t') = length (slots t)
    /\ cnt is_freed (slots t') = S (cnt is_freed (slots t))
    /\ reusable hash (slots t') s.
Proof.
  intros hash t ids n s I Hn Kn.
  assert (In_n : In n ids) by (apply (i_in _ _ _ I); rewrite Kn; auto).
  destruct (in_split _ _ In_n) as (a & b & Eids). subst ids.
  pose proof (i_nd _ _ _ I) as ND.
  assert (Nab : ~ In n (a ++ b)) by (apply NoDup_remove_2; exact ND).
  assert (Na : ~ In n a) by (intros X; apply Nab; apply in_or_app; auto).
  assert (Nb : ~ In n b) by (intros X; apply Nab; apply in_or_app; auto).
  assert (NDab : NoDup (a ++ b)) by (apply NoDup_remove_1 in ND; exact ND).
  pose proof (i_seg _ _ _ I) as Sg. apply seg_app in Sg. destruct Sg as [Sa Sb].
  cbn [seg first_of] in Sa, Sb. destruct Sb as (Pn & Nn & Sb).
  assert (InA : forall m, In m a -> m < length (slots t)) by (intros m X; apply (i_in _ _ _ I); apply in_or_app; auto).
  assert (InB : forall m, In m b -> m < length (slots t)) by (intros m X; apply (i_in _ _ _ I); apply in_or_app; right; right; exact X).
  assert (Dis : forall m, In m a -> In m b -> False).
  { clear - NDab. induction a as [|y a IH]; intros m X Y; [destruct X|].
    cbn in NDab. inversion_clear NDab as [|? ? N1 N2]. destruct X as [->|X]; [|exact (IH N2 m X Y)].
    apply N1. apply in_or_app. right. exact Y. }
  (* the slots afterwards *)
  assert (S' : exists l', delete_entry t n = Done (0%Z,
      mkt l' (count t - 1) (first_of None (a ++ b)) (last_of None (a ++ b)) (released t ++ [(s, v (slot (slots t) n))]))
    /\ length l' = length (slots t)
    /\ slot l' n = mke Freed None None None
    /\ (forall m, m <> n -> k (slot l' m) = k (slot (slots t) m) /\ v (slot l' m) = v (slot (slots t) m)
          /\ (last_of None a <> Some m -> next (slot l' m) = next (slot (slots t) m))
          /\ (last_of None a = Some m -> next (slot l' m) = first_of None b)
          /\ (first_of None b <> Some m -> prev (slot l' m) = prev (slot (slots t) m))
          /\ (first_of None b = Some m -> prev (slot l' m) = last_of None a))
    /\ (forall p, cnt p l' + b2n (p (Key s)) = cnt p (slots t) + b2n (p Freed))).
  { unfold delete_entry. rewrite (nth_slot _ _ Hn).
    assert (Hh : head t = first_of (Some n) a) by (rewrite (i_head _ _ _ I); destruct a; reflexivity).
    assert (Ht : tail t = last_of (Some n) b).
    { rewrite (i_tail _ _ _ I). destruct b as [|y b].
      - rewrite last_of_app. reflexivity.
      - unfold last_of. destruct (a ++ n :: y :: b) eqn:E; [destruct a; discriminate|]. rewrite <- E.
        f_equal. change (n :: y :: b) with ([n] ++ y :: b). rewrite app_assoc.
        generalize (a ++ [n]). intros c. induction c as [|z c IH]; [reflexivity|].
        cbn [app last]. destruct (c ++ y :: b) eqn:E2; [destruct c; discriminate|]. exact IH. }
    destruct (slot (slots t) n) as [kn vn nx pv] eqn:Esl. cbn in Kn, Pn, Nn. subst kn pv nx. cbn [v].
    assert (Hc : forall p l f, (forall e, k (f e) = k e) -> cnt p (upd l n f) = cnt p l) by (intros; apply cnt_upd_same; auto).
    assert (C0 : forall p, cnt p (upd (slots t) n (set_kv Freed None)) + b2n (p (Key s)) = cnt p (slots t) + b2n (p Freed)).
    { intros p. pose proof (cnt_upd p (slots t) n (set_kv Freed None) Hn) as C. rewrite Esl in C. cbn in C. exact C. }
    assert (Own : forall l, length l = length (slots t) -> k (slot l n) = Freed -> v (slot l n) = None ->
      slot (upd (upd l n (set_prev None)) n (set_next None)) n = mke Freed None None None).
    { intros l Ll Kl Vl. rewrite !upd_same by (rewrite ?upd_length, Ll; exact Hn). unfold set_next, set_prev. cbn.
      rewrite Kl, Vl. reflexivity. }
    destruct a as [|a0 a'] eqn:Ea; destruct b as [|b0 b'] eqn:Eb; rewrite Hh, Ht.
    - cbn [first_of last_of is_ptr]. rewrite Nat.eqb_refl. cbn [andb].
      eexists. split; [reflexivity|]. split; [rewrite !upd_length; reflexivity|].
      split; [apply Own; [apply upd_length|rewrite upd_same by exact Hn; reflexivity|rewrite upd_same by exact Hn; reflexivity]|].
      split; [|intros p; rewrite !Hc by reflexivity; apply C0].
      intros m N. rewrite !upd_other by exact N. repeat split; discriminate.
    - cbn [first_of]. assert (T : is_ptr (last_of (Some n) (b0 :: b')) n = false).
      { destruct (is_ptr _ n) eqn:E; [|reflexivity]. apply is_ptr_true in E.
        elim Nb. apply last_in. exact E. }
      rewrite T. cbn [andb is_ptr]. rewrite Nat.eqb_refl. unfold at_ptr. rewrite upd_length.
      assert (Hb0 : b0 < length (slots t)) by (apply InB; left; reflexivity).
      destruct (Nat.ltb_spec b0 (length (slots t))) as [_|]; [|lia]. cbn [bind].
      assert (Nb0 : b0 <> n) by (intros ->; apply Nb; left; reflexivity).
      eexists. split; [reflexivity|]. split; [rewrite !upd_length; reflexivity|].
      split; [apply Own; [rewrite !upd_length; reflexivity|rewrite upd_other, upd_same by (exact Hn || congruence); reflexivity|rewrite upd_other, upd_same by (exact Hn || congruence); reflexivity]|].
      split; [|intros p; rewrite !Hc by reflexivity; rewrite cnt_upd_same by reflexivity; apply C0].
      intros m N. rewrite !(upd_other _ n m) by exact N. cbn [app first_of last_of].
      destruct (Nat.eq_dec m b0) as [->|M].
      + rewrite upd_same by (rewrite upd_length; exact Hb0). rewrite upd_other by exact N.
        repeat split; try discriminate. congruence.
      + rewrite upd_other by exact M. rewrite upd_other by exact N.
        repeat split; try discriminate. congruence.
    - change (last_of (Some n) []) with (Some n). assert (T : is_ptr (first_of (Some n) (a0 :: a')) n = false).
      { cbn. apply Nat.eqb_neq. intros ->. apply Na. left. reflexivity. }
      rewrite T. cbn [is_ptr]. rewrite Nat.eqb_refl. cbn [andb]. unfold at_ptr. rewrite upd_length.
      assert (Ez : exists z, last_of None (a0 :: a') = Some z /\ In z (a0 :: a')).
      { eexists. split; [reflexivity|]. apply last_in. reflexivity. }
      destruct Ez as (z & Ez & Iz). rewrite Ez. rewrite app_nil_r.
      assert (Hz : z < length (slots t)) by (apply InA; exact Iz).
      destruct (Nat.ltb_spec z (length (slots t))) as [_|]; [|lia]. cbn [bind].
      assert (Nz : z <> n) by (intros ->; contradiction).
      rewrite Ez.
      eexists. split; [reflexivity|]. split; [rewrite !upd_length; reflexivity|].
      split; [apply Own; [rewrite !upd_length; reflexivity|rewrite upd_other, upd_same by (exact Hn || congruence); reflexivity|rewrite upd_other, upd_same by (exact Hn || congruence); reflexivity]|].
      split; [|intros p; rewrite !Hc by reflexivity; rewrite cnt_upd_same by reflexivity; apply C0].
      intros m N. rewrite !(upd_other _ n m) by exact N. cbn [first_of].
      destruct (Nat.eq_dec m z) as [->|M].
      + rewrite upd_same by (rewrite upd_length; exact Hz). rewrite upd_other by exact N.
        repeat split; try discriminate. congruence.
      + rewrite upd_other by exact M. rewrite upd_other by exact N.
        repeat split; try discriminate. congruence.
    - assert (T : is_ptr (first_of (Some n) (a0 :: a')) n = false).
      { cbn. apply Nat.eqb_neq. intros ->. apply Na. left. reflexivity. }
      assert (T2 : is_ptr (last_of (Some n) (b0 :: b')) n = false).
      { destruct (is_ptr (last_of _ _) n) eqn:E; [|reflexivity]. apply is_ptr_true in E.
        elim Nb. apply last_in. exact E. }
      rewrite T, T2. cbn [andb]. unfold at_ptr.
      assert (Ez : exists z, last_of None (a0 :: a') = Some z /\ In z (a0 :: a')).
      { eexists. split; [reflexivity|]. apply last_in. reflexivity. }
      destruct Ez as (z & Ez & Iz). rewrite Ez. rewrite upd_length.
      assert (Hz : z < length (slots t)) by (apply InA; exact Iz).
      destruct (Nat.ltb_spec z (length (slots t))) as [_|]; [|lia]. cbn [bind first_of]. rewrite !upd_length.
      assert (Hb0 : b0 < length (slots t)) by (apply InB; left; reflexivity).
      destruct (Nat.ltb_spec b0 (length (slots t))) as [_|]; [|lia]. cbn [bind].
      assert (Nz : z <> n) by (intros ->; contradiction).
      assert (Nb0 : b0 <> n) by (intros ->; apply Nb; left; reflexivity).
      assert (Zb : z <> b0) by (intros ->; apply (Dis b0 Iz); left; reflexivity).
      assert (Lst : last_of None ((a0 :: a') ++ b0 :: b') = last_of (Some n) (b0 :: b')).
      { rewrite <- Ht, (i_tail _ _ _ I). clear.
        unfold last_of. destruct ((a0 :: a') ++ b0 :: b') eqn:E; [discriminate|]. rewrite <- E.
        destruct ((a0 :: a') ++ n :: b0 :: b') eqn:E2; [discriminate|]. rewrite <- E2. f_equal.
        change (n :: b0 :: b') with ([n] ++ b0 :: b'). rewrite (app_assoc _ [n]).
        assert (G : forall c, last (c ++ b0 :: b') 0 = last (b0 :: b') 0).
        { intros c. induction c as [|w c IH]; [reflexivity|].
          cbn [app last]. destruct (c ++ b0 :: b') eqn:E3; [destruct c; discriminate|]. exact IH. }
        rewrite !G. reflexivity. }
      rewrite Lst.
      eexists. split; [reflexivity|]. split; [rewrite !upd_length; reflexivity|].
      split; [apply Own; [rewrite !upd_length; reflexivity|rewrite !upd_other, upd_same by (exact Hn || congruence); reflexivity|rewrite !upd_other, upd_same by (exact Hn || congruence); reflexivity]|].
      split; [|intros p; rewrite !Hc by reflexivity; rewrite !cnt_upd_same by reflexivity; apply C0].
      intros m N. rewrite !(upd_other _ n m) by exact N. cbn [first_of].
      destruct (Nat.eq_dec m b0) as [->|Mb].
      + rewrite upd_same by (rewrite !upd_length; exact Hb0). rewrite upd_other by congruence. rewrite upd_other by exact N.
        repeat split; try discriminate; congruence.
      + rewrite (upd_other _ b0) by exact Mb. destruct (Nat.eq_dec m z) as [->|M].
        * rewrite upd_same by (rewrite upd_length; exact Hz). rewrite upd_other by exact N.
          repeat split; try discriminate; congruence.
        * rewrite upd_other by exact M. rewrite upd_other by exact N.
          repeat split; try discriminate; congruence. }
  destruct S' as (l' & De & Len & Sn & So & Sc).
  assert (KV : forall m, m <> n -> k (slot l' m) = k (slot (slots t) m) /\ v (slot l' m) = v (slot (slots t) m)).
  { intros m N. destruct (So m N) as (A & B & _). auto. }
  assert (Ne : forall m, In m (a ++ b) -> m <> n) by (intros m X ->; contradiction).
  assert (Mono : forall q, k (slot (slots t) q) <> Empty -> k (slot l' q) <> Empty).
  { intros q Q. destruct (Nat.eq_dec q n) as [->|N]; [rewrite Sn; discriminate|].
    destruct (KV q N) as [A _]. rewrite A. exact Q. }
  eexists a, b, _. split; [reflexivity|]. split; [exact De|]. cbn [slots released].
  split; [|split; [|split; [reflexivity|split; [exact Len|split]]]].
  - constructor; cbn [slots count head tail].
    + apply seg_app. split.
      * apply (seg_last (slots t) l' a None (Some n)); [| | | |exact Sa].
        -- apply NoDup_app_l with (1 := NDab).
        -- intros m X. assert (N : m <> n) by (intros ->; contradiction).
           destruct (So m N) as (_ & _ & _ & _ & E & _). apply E.
           intros F. apply (Dis m X). destruct b; [discriminate|]. injection F as ->. left. reflexivity.
        -- intros m X F. assert (N : m <> n) by (intros ->; contradiction).
           destruct (So m N) as (_ & _ & E & _). apply E. exact F.
        -- intros m F. assert (N : m <> n) by (intros ->; apply Na; apply last_in; exact F).
           destruct (So m N) as (_ & _ & _ & E & _). apply E. exact F.
      * apply (seg_first (slots t) l' b (Some n)); [| | | |exact Sb].
        -- apply NoDup_app_r with (1 := NDab).
        -- intros m X. assert (N : m <> n) by (intros ->; contradiction).
           destruct (So m N) as (_ & _ & E & _). apply E.
           intros F. apply (Dis m); [apply last_in; exact F|exact X].
        -- intros m X F. assert (N : m <> n) by (intros ->; contradiction).
           destruct (So m N) as (_ & _ & _ & _ & E & _). apply E. exact F.
        -- intros m F. assert (N : m <> n).
           { intros ->. apply Nb. destruct b; [discriminate|]. injection F as ->. left. reflexivity. }
           destruct (So m N) as (_ & _ & _ & _ & _ & E). apply E. exact F.
    + reflexivity.
    + reflexivity.
    + rewrite (i_count _ _ _ I), !app_length. cbn. lia.
    + exact NDab.
    + intros m. rewrite Len. destruct (Nat.eq_dec m n) as [->|N].
      * rewrite Sn. cbn. split; [intros X; contradiction|intros [_ X]; discriminate].
      * destruct (KV m N) as [A _]. rewrite A, <- (i_in _ _ _ I m). rewrite !in_app_iff. cbn. intuition congruence.
    + pose proof (Sc is_key) as C. rewrite (i_cnt _ _ _ I), app_length in C. rewrite app_length. cbn in *. lia.
    + rewrite (abs_ext (slots t)) by (intros m X; apply KV; apply Ne; exact X).
      pose proof (i_dist _ _ _ I) as D. unfold abs in *. rewrite map_app in *. cbn [map] in D.
      rewrite map_app in *. cbn [map] in D. apply NoDup_remove_1 in D. exact D.
    + intros m s' Hm Em. rewrite Len in Hm. unfold found. rewrite Len.
      destruct (Nat.eq_dec m n) as [->|N]; [rewrite Sn in Em; discriminate|].
      destruct (KV m N) as [A _]. rewrite A in Em.
      destruct (i_path _ _ _ I m s' Hm Em) as (d & D1 & D2 & D3).
      exists d. split; [exact D1|]. split; [exact D2|]. intros i Hi. apply Mono. apply D3. exact Hi.
    + rewrite Len. exact (i_size _ _ _ I).
    + pose proof (i_load _ _ _ I) as L. rewrite Len. rewrite !app_length in *. cbn in L. lia.
  - rewrite (abs_ext (slots t)) by (intros m X; apply KV; apply Ne; exact X). unfold abs. apply map_app.
  - pose proof (Sc is_freed) as C. cbn in C. lia.
  - destruct (i_path _ _ _ I n s Hn Kn) as (d & D1 & D2 & D3).
    exists d. rewrite Len. split; [exact D1|]. split; [rewrite <- D2, Sn; reflexivity|].
    intros i Hi. apply Mono. apply D3. exact Hi.
Qed.
