(** The invariant of the table, and what the calls do to it. *)
From Coq Require Import NArith ZArith List Bool Lia Arith ZifyBool ZifyNat ZifyN.
From Verif Require Import Linkh.Model Linkh.Spec Linkh.Proofs.
Import ListNotations.

Definition keyof (m : mark) : key := match m with Key s => s | _ => [] end.
Definition cell (l : list entry) (n : nat) : key * value := (keyof (k (slot l n)), v (slot l n)).
Definition abs (l : list entry) (ids : list nat) : omap := map (cell l) ids.

(** every key is where the search for it gets before an empty entry *)
Definition found (hash : key -> N) (l : list entry) (n : nat) (s : key) : Prop :=
  exists d, d < length l /\ n = pos (length l) (first_slot hash (length l) s) d /\
    forall i, i < d -> k (slot l (pos (length l) (first_slot hash (length l) s) i)) <> Empty.

Record Inv (hash : key -> N) (t : table) (ids : list nat) : Prop := mkI {
  i_seg : seg (slots t) None ids None;
  i_head : head t = first_of None ids;
  i_tail : tail t = last_of None ids;
  i_count : count t = length ids;
  i_nd : NoDup ids;
  i_in : forall n, In n ids <-> n < length (slots t) /\ is_key (k (slot (slots t) n)) = true;
  i_cnt : cnt is_key (slots t) = length ids;
  i_dist : NoDup (map fst (abs (slots t) ids));
  i_path : forall n s, n < length (slots t) -> k (slot (slots t) n) = Key s -> found hash (slots t) n s;
  i_size : 16 <= length (slots t);
  i_load : 100 * length ids <= 66 * length (slots t) + 100 }.

Lemma abs_ext : forall l l' ids,
  (forall n, In n ids -> k (slot l' n) = k (slot l n) /\ v (slot l' n) = v (slot l n)) -> abs l' ids = abs l ids.
Proof.
  intros l l' ids H. unfold abs. apply map_ext_in. intros n I. unfold cell.
  destruct (H n I) as [-> ->]. reflexivity.
Qed.

(** ** Searching *)
Lemma in_abs : forall hash t ids s, Inv hash t ids ->
  (In s (map fst (abs (slots t) ids)) <-> exists n, n < length (slots t) /\ k (slot (slots t) n) = Key s).
Proof.
  intros hash t ids s I. unfold abs. rewrite map_map. split.
  - intros H. apply in_map_iff in H. destruct H as (n & A & B). apply (i_in _ _ _ I) in B.
    destruct B as [B C]. exists n. split; [exact B|]. cbn in A.
    destruct (k (slot (slots t) n)); try discriminate C. cbn in A. congruence.
  - intros (n & A & B). apply in_map_iff. exists n. split; [cbn; rewrite B; reflexivity|].
    apply (i_in _ _ _ I). split; [exact A|]. rewrite B. reflexivity.
Qed.

Lemma same_key_slot : forall hash t ids n m s, Inv hash t ids ->
  n < length (slots t) -> m < length (slots t) ->
  k (slot (slots t) n) = Key s -> k (slot (slots t) m) = Key s -> n = m.
Proof.
  intros hash t ids n m s I Hn Hm En Em.
  pose proof (i_dist _ _ _ I) as D. unfold abs in D. rewrite map_map in D.
  assert (In n ids) by (apply (i_in _ _ _ I); rewrite En; auto).
  assert (In m ids) by (apply (i_in _ _ _ I); rewrite Em; auto).
  destruct (Nat.eq_dec n m) as [|N]; [assumption|]. exfalso.
  apply in_split in H. destruct H as (a & b & ->). rewrite map_app in D. cbn [map] in D.
  apply NoDup_remove_2 in D. apply D. rewrite <- map_app.
  apply in_map_iff. exists m. split; [cbn; rewrite En, Em; reflexivity|].
  apply in_or_app. apply in_app_or in H0. destruct H0 as [H0|[H0|H0]]; [left; exact H0|congruence|right; exact H0].
Qed.

Lemma lookup_entry_spec : forall hash t ids s, Inv hash t ids ->
  match lookup_entry hash t s with
  | Done (Some n) => n < length (slots t) /\ k (slot (slots t) n) = Key s
  | Done None => forall n, n < length (slots t) -> k (slot (slots t) n) <> Key s
  | Hang => cnt is_empty (slots t) = 0 /\ forall n, n < length (slots t) -> k (slot (slots t) n) <> Key s
  | Bad => False
  end.
Proof.
  intros hash t ids s I. unfold lookup_entry.
  pose proof (i_size _ _ _ I) as Sz.
  assert (Hf : first_slot hash (length (slots t)) s < length (slots t)) by (apply first_lt; lia).
  pose proof (probe_spec (length (slots t)) (slots t) _ s Hf) as P.
  destruct (probe _ _ _ _) as [[n|]| |]; [| | |exact P].
  - destruct P as (i & A & -> & B & _). split; [apply pos_lt; lia|exact B].
  - destruct P as (i & A & B & C). intros n Hn E.
    destruct (i_path _ _ _ I n s Hn E) as (d & D1 & D2 & D3).
    destruct (le_lt_dec d i) as [L|L].
    + destruct (Nat.eq_dec d i) as [->|]; [rewrite D2 in E; congruence|].
      destruct (C d) as [_ C2]; [lia|]. rewrite <- D2 in C2. congruence.
    + exact (D3 i L B).
  - assert (All : forall n, n < length (slots t) -> k (slot (slots t) n) <> Empty /\ k (slot (slots t) n) <> Key s).
    { intros n Hn. destruct (pos_find _ _ n Hf Hn) as (i & A & B). rewrite <- B. apply P. exact A. }
    split; [|intros n Hn; apply All; exact Hn].
    destruct (cnt is_empty (slots t)) as [|c0] eqn:E; [reflexivity|]. exfalso.
    destruct (cnt_exists is_empty (slots t)) as (n & A & B); [lia|].
    destruct (All n A) as [C _]. destruct (k (slot (slots t) n)); try discriminate B. congruence.
Qed.

Lemma same_true : forall a b, same a b = true <-> a = b.
Proof. intros. unfold same. destruct (list_eq_dec _ a b); intuition congruence. Qed.
Lemma same_false : forall a b, same a b = false <-> a <> b.
Proof. intros. unfold same. destruct (list_eq_dec _ a b); intuition congruence. Qed.

Lemma absent_map : forall (m : omap) s, ~ In s (map fst m) -> has m s = false /\ get m s = None /\ del m s = m /\ gone m s = [].
Proof.
  induction m as [|[s' x] m IH]; intros s H; [repeat split|].
  cbn [map fst] in H. destruct (IH s) as (A & B & C & D); [intros I; apply H; right; exact I|].
  assert (E : same s' s = false) by (apply same_false; intros ->; apply H; left; reflexivity).
  unfold has, get, del, gone in *. cbn. rewrite E. cbn [negb]. rewrite A, C, D. repeat split. exact B.
Qed.
Lemma present_map : forall a b s x, NoDup (map fst (a ++ (s, x) :: b : omap)) ->
  has (a ++ (s, x) :: b) s = true /\ get (a ++ (s, x) :: b) s = x /\
  del (a ++ (s, x) :: b) s = a ++ b /\ gone (a ++ (s, x) :: b) s = [(s, x)].
Proof.
  intros a b s x D. rewrite map_app in D. cbn [map fst] in D. apply NoDup_remove_2 in D.
  assert (Na : ~ In s (map fst a)) by (intros I; apply D; apply in_or_app; left; exact I).
  assert (Nb : ~ In s (map fst b)) by (intros I; apply D; apply in_or_app; right; exact I).
  destruct (absent_map a s Na) as (A1 & A2 & A3 & A4). destruct (absent_map b s Nb) as (B1 & B2 & B3 & B4).
  assert (E : same s s = true) by (apply same_true; reflexivity).
  unfold has, get, del, gone in *. rewrite existsb_app, !filter_app. cbn. rewrite E. cbn [negb].
  rewrite A1, A3, A4, B3, B4. repeat split.
  clear -Na E. induction a as [|[s' y] a IH]; cbn; [rewrite E; reflexivity|].
  assert (F : same s' s = false) by (apply same_false; intros ->; apply Na; left; reflexivity).
  rewrite F. apply IH. intros I. apply Na. right. exact I.
Qed.

(** ** Walking *)
Lemma walk_seg : forall l ids p fuel, seg l p ids None -> length ids < fuel ->
  (forall n, In n ids -> n < length l /\ is_key (k (slot l n)) = true) ->
  walk fuel l (first_of None ids) = Done (abs l ids).
Proof.
  intros l. induction ids as [|x ids IH]; intros p fuel S L H; [destruct fuel; reflexivity|].
  destruct fuel as [|fuel]; [cbn in L; lia|]. destruct S as (A & B & C).
  destruct (H x (or_introl eq_refl)) as [D E]. cbn [first_of walk]. rewrite (nth_slot l x D).
  cbn [abs map]. unfold cell at 1. destruct (slot l x) as [kx vx nx px]. cbn in *.
  destruct kx as [| |s]; try discriminate E. rewrite B.
  rewrite (IH (Some x) fuel C); [reflexivity|lia|]. intros n I. apply H. right. exact I.
Qed.
Lemma ids_length : forall hash t ids, Inv hash t ids -> length ids <= length (slots t).
Proof. intros hash t ids I. rewrite <- (i_cnt _ _ _ I). rewrite (cnt_all (slots t)). lia. Qed.
Lemma entries_spec : forall hash t ids, Inv hash t ids -> entries t = Done (abs (slots t) ids).
Proof.
  intros hash t ids I. unfold entries. rewrite (i_head _ _ _ I).
  apply (walk_seg _ _ None); [exact (i_seg _ _ _ I)| |].
  - pose proof (ids_length _ _ _ I). lia.
  - intros n H. apply (i_in _ _ _ I). exact H.
Qed.

(** ** Linking at the tail *)
Lemma NoDup_app_iff_local : forall A (l : list A) x, NoDup l -> ~ In x l -> NoDup (l ++ [x]).
Proof.
  intros A l x H N. induction l as [|y l IH]; [constructor; [exact N|constructor]|].
  inversion_clear H as [|? ? Ny H1]. cbn. constructor.
  - intros I. apply in_app_or in I. destruct I as [I|[I|[]]]; [contradiction|]. subst. apply N. left. reflexivity.
  - apply IH; [exact H1|]. intros I. apply N. right. exact I.
Qed.
Lemma last_in : forall ids n, last_of None ids = Some n -> In n ids.
Proof.
  intros ids n H. destruct ids as [|x ids]; [discriminate|]. unfold last_of in H. injection H as <-.
  assert (Q : In (last (x :: ids) 0) (removelast (x :: ids) ++ [last (x :: ids) 0]))
    by (apply in_or_app; right; left; reflexivity).
  rewrite <- app_removelast_last in Q by discriminate. exact Q.
Qed.

Lemma link_spec : forall hash t ids n s x j, Inv hash t ids ->
  100 * length ids <= 66 * length (slots t) ->
  n < length (slots t) -> is_key (k (slot (slots t) n)) = false ->
  ~ In s (map fst (abs (slots t) ids)) ->
  n = pos (length (slots t)) (first_slot hash (length (slots t)) s) j -> j < length (slots t) ->
  (forall i, i < j -> is_key (k (slot (slots t) (pos (length (slots t)) (first_slot hash (length (slots t)) s) i))) = true) ->
  exists t', link t n s x = Done t' /\ Inv hash t' (ids ++ [n])
    /\ abs (slots t') (ids ++ [n]) = abs (slots t) ids ++ [(s, x)]
    /\ released t' = released t /\ length (slots t') = length (slots t)
    /\ cnt is_freed (slots t') + b2n (is_freed (k (slot (slots t) n))) = cnt is_freed (slots t).
Proof.
  intros hash t ids n s x j I Ld Hn Kn Ns En Hj Pj.
  assert (Nn : ~ In n ids).
  { intros X. apply (i_in _ _ _ I) in X. destruct X as [_ X]. congruence. }
  set (z := last_of None ids).
  assert (S' : exists l', link t n s x = Done (mkt l' (S (count t)) (first_of None (ids ++ [n])) (Some n) (released t))
    /\ length l' = length (slots t)
    /\ slot l' n = mke (Key s) x None z
    /\ (forall m, m <> n -> k (slot l' m) = k (slot (slots t) m) /\ v (slot l' m) = v (slot (slots t) m)
          /\ prev (slot l' m) = prev (slot (slots t) m)
          /\ (z <> Some m -> next (slot l' m) = next (slot (slots t) m))
          /\ (z = Some m -> next (slot l' m) = Some n))
    /\ (forall p, cnt p l' + b2n (p (k (slot (slots t) n))) = cnt p (slots t) + b2n (p (Key s)))).
  { unfold link. rewrite (i_head _ _ _ I), (i_tail _ _ _ I). fold z.
    destruct ids as [|i0 ids0].
    - cbn [first_of app]. eexists. split; [reflexivity|]. split; [rewrite !upd_length; reflexivity|].
      split; [rewrite !upd_same by (rewrite ?upd_length; exact Hn); reflexivity|].
      split.
      { intros m N. rewrite !upd_other by exact N. repeat split. intros Z. discriminate Z. }
      intros p. rewrite !cnt_upd_same by reflexivity. rewrite cnt_upd by exact Hn. reflexivity.
    - cbn [first_of app]. assert (Ez : exists y, z = Some y) by (eexists; reflexivity).
      destruct Ez as [y Ez]. rewrite Ez.
      assert (Iy : In y (i0 :: ids0)) by (apply last_in; exact Ez).
      assert (Hy : y < length (slots t)) by (apply (i_in _ _ _ I); exact Iy).
      assert (Ny : y <> n) by (intros ->; contradiction).
      eexists. split; [reflexivity|]. split; [rewrite !upd_length; reflexivity|].
      split.
      { rewrite !upd_same by (rewrite ?upd_length; exact Hn). rewrite upd_other by congruence.
        rewrite upd_same by exact Hn. reflexivity. }
      split.
      { intros m N. rewrite !(upd_other _ n m) by exact N.
        destruct (Nat.eq_dec m y) as [->|My].
        - rewrite upd_same by (rewrite upd_length; exact Hy). rewrite upd_other by exact N.
          repeat split. congruence.
        - rewrite upd_other by exact My. rewrite upd_other by exact N.
          repeat split. congruence. }
      intros p. rewrite !cnt_upd_same by reflexivity. rewrite cnt_upd by exact Hn. reflexivity. }
  destruct S' as (l' & Lk & Len & Sn & So & Sc).
  assert (Kn' : is_key (k (slot l' n)) = true) by (rewrite Sn; reflexivity).
  assert (Ab : abs l' (ids ++ [n]) = abs (slots t) ids ++ [(s, x)]).
  { unfold abs at 1. rewrite map_app. fold (abs l' ids). rewrite (abs_ext (slots t) l').
    - cbn [map]. unfold cell. rewrite Sn. reflexivity.
    - intros m Hm. destruct (So m) as (A & B & _); [intros ->; contradiction|]. auto. }
  exists (mkt l' (S (count t)) (first_of None (ids ++ [n])) (Some n) (released t)).
  split; [exact Lk|]. split; [|split; [exact Ab|split; [reflexivity|split; [exact Len|]]]].
  2:{ cbn [slots]. pose proof (Sc is_freed) as C. change (b2n (is_freed (Key s))) with 0 in C. lia. }
  constructor; cbn [slots count head tail].
  - apply seg_app. split.
    + apply (seg_last (slots t) l' ids None None (Some n) (i_nd _ _ _ I)); [| | |exact (i_seg _ _ _ I)].
      * intros m Hm. destruct (So m) as (_ & _ & A & _); [intros ->; contradiction|exact A].
      * intros m Hm Z. destruct (So m) as (_ & _ & _ & A & _); [intros ->; contradiction|]. apply A. exact Z.
      * intros m Z. destruct (So m) as (_ & _ & _ & _ & A).
        { intros ->. apply Nn. apply last_in. exact Z. }
        apply A. exact Z.
    + cbn [seg first_of]. rewrite Sn. auto.
  - reflexivity.
  - rewrite last_of_app. reflexivity.
  - rewrite app_length, (i_count _ _ _ I). cbn. lia.
  - apply NoDup_app_iff_local; [exact (i_nd _ _ _ I)|exact Nn].
  - intros m. rewrite in_app_iff, Len. destruct (Nat.eq_dec m n) as [->|N].
    + rewrite Kn'. split; [auto|]. intros _. right. left. reflexivity.
    + destruct (So m N) as (A & _). rewrite A, <- (i_in _ _ _ I m).
      split; [intros [H|[H|[]]]; [exact H|congruence]|intros H; left; exact H].
  - pose proof (Sc is_key) as C. rewrite Kn, (i_cnt _ _ _ I) in C. rewrite app_length. cbn in *. lia.
  - rewrite Ab, map_app. cbn [map fst]. apply NoDup_app_iff_local; [exact (i_dist _ _ _ I)|exact Ns].
  - intros m s' Hm Em. rewrite Len in Hm. unfold found. rewrite Len.
    assert (Mono : forall q, k (slot (slots t) q) <> Empty -> k (slot l' q) <> Empty).
    { intros q Q. destruct (Nat.eq_dec q n) as [->|N]; [rewrite Sn; discriminate|].
      destruct (So q N) as (A & _). rewrite A. exact Q. }
    destruct (Nat.eq_dec m n) as [->|N].
    + rewrite Sn in Em. cbn in Em. injection Em as <-. exists j. split; [exact Hj|]. split; [exact En|].
      intros i Hi. apply Mono. specialize (Pj i Hi). intros Z. rewrite Z in Pj. discriminate.
    + destruct (So m N) as (A & _). rewrite A in Em.
      destruct (i_path _ _ _ I m s' Hm Em) as (d & D1 & D2 & D3).
      exists d. split; [exact D1|]. split; [exact D2|]. intros i Hi. apply Mono. apply D3. exact Hi.
  - rewrite Len. exact (i_size _ _ _ I).
  - rewrite Len, app_length. cbn. lia.
Qed.
