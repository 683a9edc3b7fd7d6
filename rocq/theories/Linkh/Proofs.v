(** The table as slots: probing, and the linked list through it. *)
From Coq Require Import NArith ZArith List Bool Lia Arith ZifyBool ZifyNat ZifyN.
From Verif Require Import Linkh.Model Linkh.Spec.
Import ListNotations.

Lemma done_inj : forall A (a b : A), Done a = Done b -> a = b.
Proof. congruence. Qed.

Definition slot (l : list entry) (n : nat) : entry := nth n l unused.

Lemma nth_slot : forall l n, n < length l -> nth_error l n = Some (slot l n).
Proof. intros. unfold slot. apply nth_error_nth'. assumption. Qed.

Lemma upd_length : forall l n f, length (upd l n f) = length l.
Proof. induction l as [|x l IH]; destruct n; intros; cbn; auto. Qed.

Lemma upd_same : forall l n f, n < length l -> slot (upd l n f) n = f (slot l n).
Proof. induction l as [|x l IH]; destruct n; intros f H; cbn in *; try lia; auto. apply IH. lia. Qed.

Lemma upd_other : forall l n m f, m <> n -> slot (upd l n f) m = slot l m.
Proof.
  induction l as [|x l IH]; destruct n, m; intros f H; cbn; try congruence; auto.
  apply (IH n m f). congruence.
Qed.

(** ** Counting marks *)
Definition cnt (p : mark -> bool) (l : list entry) : nat := length (filter (fun e => p (k e)) l).
Definition b2n (b : bool) : nat := if b then 1 else 0.
Lemma cnt_cons : forall p e l, cnt p (e :: l) = b2n (p (k e)) + cnt p l.
Proof. intros. unfold cnt. cbn. destruct (p (k e)); reflexivity. Qed.
Lemma cnt_upd : forall p l n f, n < length l ->
  cnt p (upd l n f) + b2n (p (k (slot l n))) = cnt p l + b2n (p (k (f (slot l n)))).
Proof.
  intros p. induction l as [|x l IH]; destruct n; intros f H; cbn [length] in H; try lia.
  - cbn [upd]. rewrite !cnt_cons. change (slot (x :: l) 0) with x. lia.
  - cbn [upd]. rewrite !cnt_cons. change (slot (x :: l) (S n)) with (slot l n).
    specialize (IH n f). lia.
Qed.
Lemma cnt_upd_same : forall p l n f, (forall e, k (f e) = k e) -> cnt p (upd l n f) = cnt p l.
Proof.
  intros p. induction l as [|x l IH]; destruct n; intros f H; cbn [upd]; auto.
  - rewrite !cnt_cons, H. reflexivity.
  - rewrite !cnt_cons, IH by assumption. reflexivity.
Qed.
Definition is_key (m : mark) := match m with Key _ => true | _ => false end.
Definition is_freed (m : mark) := match m with Freed => true | _ => false end.
Definition is_empty (m : mark) := match m with Empty => true | _ => false end.
Lemma cnt_all : forall l, length l = cnt is_key l + cnt is_freed l + cnt is_empty l.
Proof.
  induction l as [|x l IH]; [reflexivity|]. rewrite !cnt_cons. cbn [length]. rewrite IH.
  destruct (k x); cbn; lia.
Qed.
Lemma cnt_exists : forall p l, 0 < cnt p l -> exists n, n < length l /\ p (k (slot l n)) = true.
Proof.
  intros p. induction l as [|x l IH]; intros H; [cbn in H; lia|].
  rewrite cnt_cons in H. destruct (p (k x)) eqn:E.
  - exists 0. split; [cbn; lia|exact E].
  - destruct IH as (n & A & B); [cbn in H; lia|]. exists (S n). split; [cbn; lia|exact B].
Qed.
Lemma cnt_pos : forall p l n, n < length l -> p (k (slot l n)) = true -> 0 < cnt p l.
Proof.
  intros p. induction l as [|x l IH]; intros n H E; [cbn in H; lia|].
  rewrite cnt_cons. destruct n; [change (slot (x :: l) 0) with x in E; rewrite E; cbn; lia|].
  specialize (IH n). change (slot (x :: l) (S n)) with (slot l n) in E. cbn in H. lia.
Qed.

(** ** Probing *)
Definition pos (size f i : nat) : nat := (f + i) mod size.
Lemma pos_lt : forall size f i, 0 < size -> pos size f i < size.
Proof. intros. apply Nat.mod_upper_bound. lia. Qed.
Lemma pos_0 : forall size f, f < size -> pos size f 0 = f.
Proof. intros. unfold pos. rewrite Nat.add_0_r. apply Nat.mod_small. assumption. Qed.
Lemma succ_lt : forall size f, f < size -> succ_slot size f < size.
Proof. intros size f H. unfold succ_slot. destruct (Nat.eqb_spec (S f) size); lia. Qed.
Lemma pos_succ : forall size f i, f < size -> pos size (succ_slot size f) i = pos size f (S i).
Proof.
  intros size f i H. unfold pos, succ_slot. destruct (Nat.eqb_spec (S f) size) as [E|E].
  - replace (f + S i) with (0 + i + 1 * size) by lia. rewrite Nat.mod_add by lia. reflexivity.
  - f_equal. lia.
Qed.
Lemma pos_find : forall size f n, f < size -> n < size -> exists i, i < size /\ pos size f i = n.
Proof.
  intros size f n Hf Hn. destruct (le_lt_dec f n).
  - exists (n - f). split; [lia|]. unfold pos. rewrite Nat.mod_small; lia.
  - exists (n + size - f). split; [lia|]. unfold pos.
    replace (f + (n + size - f)) with (n + 1 * size) by lia. rewrite Nat.mod_add by lia. apply Nat.mod_small. lia.
Qed.
Lemma first_lt : forall hash size s, 0 < size -> first_slot hash size s < size.
Proof.
  intros hash size s H. unfold first_slot.
  assert (L : (hash s mod N.of_nat size < N.of_nat size)%N) by (apply N.mod_lt; lia). lia.
Qed.

(** what the insertion finds *)
Lemma find_free_some : forall fuel l f i, f < length l -> i < fuel -> is_key (k (slot l (pos (length l) f i))) = false ->
  exists j, j <= i /\ find_free fuel l f = Done (pos (length l) f j)
    /\ is_key (k (slot l (pos (length l) f j))) = false
    /\ forall j', j' < j -> is_key (k (slot l (pos (length l) f j'))) = true.
Proof.
  induction fuel as [|fuel IH]; intros l f i Hf Hi E; [lia|].
  cbn [find_free]. rewrite (nth_slot l f Hf).
  destruct (is_key (k (slot l f))) eqn:K.
  - destruct i as [|i]; [rewrite pos_0 in E by exact Hf; congruence|].
    assert (X : is_key (k (slot l (pos (length l) (succ_slot (length l) f) i))) = false)
      by (rewrite pos_succ by exact Hf; exact E).
    destruct (IH l (succ_slot (length l) f) i (succ_lt _ _ Hf)) as (j & A & B & C & D); [lia|exact X|].
    exists (S j). split; [lia|]. rewrite <- pos_succ by exact Hf. split.
    { destruct (k (slot l f)); try discriminate K. exact B. }
    split; [exact C|]. intros [|j'] L; [rewrite pos_0 by exact Hf; exact K|].
    rewrite <- pos_succ by exact Hf. apply D. lia.
  - exists 0. split; [lia|]. rewrite pos_0 by exact Hf. split.
    { destruct (k (slot l f)); try discriminate K; reflexivity. }
    split; [exact K|]. intros. lia.
Qed.

(** what the search finds *)
Definition passed (l : list entry) (f : nat) (s : key) (i : nat) : Prop :=
  forall j, j < i -> k (slot l (pos (length l) f j)) <> Empty /\ k (slot l (pos (length l) f j)) <> Key s.
Lemma probe_spec : forall fuel l f s, f < length l ->
  match probe fuel l f s with
  | Done (Some n) => exists i, i < fuel /\ n = pos (length l) f i /\ k (slot l n) = Key s /\ passed l f s i
  | Done None => exists i, i < fuel /\ k (slot l (pos (length l) f i)) = Empty /\ passed l f s i
  | Hang => passed l f s fuel
  | Bad => False
  end.
Proof.
  induction fuel as [|fuel IH]; intros l f s Hf; cbn [probe]; [intros j L; lia|].
  rewrite (nth_slot l f Hf).
  assert (Go : k (slot l f) <> Empty -> k (slot l f) <> Key s ->
    match probe fuel l (succ_slot (length l) f) s with
    | Done (Some n) => exists i, i < S fuel /\ n = pos (length l) f i /\ k (slot l n) = Key s /\ passed l f s i
    | Done None => exists i, i < S fuel /\ k (slot l (pos (length l) f i)) = Empty /\ passed l f s i
    | Hang => passed l f s (S fuel)
    | Bad => False
    end).
  { intros N1 N2. pose proof (IH l (succ_slot (length l) f) s (succ_lt _ _ Hf)) as Q.
    assert (P : forall i, passed l (succ_slot (length l) f) s i -> passed l f s (S i)).
    { intros i P [|j] L; [rewrite pos_0 by exact Hf; split; assumption|].
      rewrite <- pos_succ by exact Hf. apply P. lia. }
    destruct (probe fuel l (succ_slot (length l) f) s) as [[n|]| |]; [| |exact (P _ Q)|exact Q].
    - destruct Q as (i & A & B & C & D). exists (S i). rewrite <- pos_succ by exact Hf.
      split; [lia|]. split; [exact B|]. split; [exact C|]. apply P. exact D.
    - destruct Q as (i & A & B & D). exists (S i). rewrite <- pos_succ by exact Hf.
      split; [lia|]. split; [exact B|]. apply P. exact D. }
  destruct (k (slot l f)) as [| |s'] eqn:K.
  - exists 0. rewrite pos_0 by exact Hf. split; [lia|]. split; [exact K|]. intros j L; lia.
  - apply Go; discriminate.
  - unfold char_equal. destruct (list_eq_dec N.eq_dec s' s) as [->|N].
    + exists 0. rewrite pos_0 by exact Hf. split; [lia|]. split; [reflexivity|]. split; [exact K|]. intros j L; lia.
    + apply Go; congruence.
Qed.

(** a search that has seen every entry once never ends *)
Lemma probe_forever : forall l f s, f < length l -> probe (length l) l f s = Hang ->
  forall fuel, probe fuel l f s = Hang.
Proof.
  intros l f s Hf H fuel.
  pose proof (probe_spec (length l) l f s Hf) as P. rewrite H in P.
  assert (All : forall n, n < length l -> k (slot l n) <> Empty /\ k (slot l n) <> Key s).
  { intros n Hn. destruct (pos_find (length l) f n Hf Hn) as (i & A & B). rewrite <- B. apply P. exact A. }
  pose proof (probe_spec fuel l f s Hf) as Q.
  assert (Lp : forall i, pos (length l) f i < length l) by (intros; apply pos_lt; lia).
  destruct (probe fuel l f s) as [[n|]| |]; [| |reflexivity|destruct Q].
  - destruct Q as (i & _ & -> & B & _). destruct (All _ (Lp i)). congruence.
  - destruct Q as (i & _ & B & _). destruct (All _ (Lp i)). congruence.
Qed.

(** ** The linked list *)
Definition last_of (d : option nat) (l : list nat) : option nat :=
  match l with [] => d | _ => Some (last l 0) end.
Definition first_of (d : option nat) (l : list nat) : option nat :=
  match l with [] => d | x :: _ => Some x end.

Fixpoint seg (l : list entry) (p : option nat) (ids : list nat) (q : option nat) : Prop :=
  match ids with
  | [] => True
  | x :: ids' => prev (slot l x) = p /\ next (slot l x) = first_of q ids' /\ seg l (Some x) ids' q
  end.

Lemma last_of_cons : forall d x l, last_of d (x :: l) = last_of (Some x) l.
Proof. intros d x [|y l]; reflexivity. Qed.
Lemma last_of_app : forall d a x, last_of d (a ++ [x]) = Some x.
Proof.
  intros d a x. unfold last_of. destruct (a ++ [x]) eqn:E; [destruct a; discriminate|].
  rewrite <- E, last_last. reflexivity.
Qed.

Lemma seg_app : forall l a p b q,
  seg l p (a ++ b) q <-> seg l p a (first_of q b) /\ seg l (last_of p a) b q.
Proof.
  intros l. induction a as [|x a IH]; intros p b q; [cbn; tauto|].
  cbn [app seg]. rewrite IH, last_of_cons.
  assert (E : first_of q (a ++ b) = first_of (first_of q b) a) by (destruct a; reflexivity).
  rewrite E. tauto.
Qed.

Lemma seg_ext : forall l l' ids p q,
  (forall n, In n ids -> prev (slot l' n) = prev (slot l n) /\ next (slot l' n) = next (slot l n)) ->
  seg l p ids q -> seg l' p ids q.
Proof.
  intros l l'. induction ids as [|x ids IH]; intros p q H S; [exact Logic.I|].
  destruct S as (A & B & C). destruct (H x (or_introl eq_refl)) as (D & E).
  cbn [seg]. rewrite D, E. split; [exact A|]. split; [exact B|]. apply IH; [|exact C].
  intros n I. apply H. right. exact I.
Qed.

(** change where the last element points *)
Lemma seg_last : forall l l' ids p q q', NoDup ids ->
  (forall n, In n ids -> prev (slot l' n) = prev (slot l n)) ->
  (forall n, In n ids -> last_of None ids <> Some n -> next (slot l' n) = next (slot l n)) ->
  (forall n, last_of None ids = Some n -> next (slot l' n) = q') ->
  seg l p ids q -> seg l' p ids q'.
Proof.
  intros l l'. induction ids as [|x ids IH]; intros p q q' ND H1 H2 H3 S; [exact Logic.I|].
  destruct S as (A & B & C). inversion_clear ND as [|? ? Nx ND'].
  cbn [seg]. rewrite H1 by (left; reflexivity). split; [exact A|].
  destruct ids as [|y ids].
  - split; [|exact Logic.I]. cbn. apply H3. reflexivity.
  - assert (L : last_of None (x :: y :: ids) = last_of None (y :: ids)) by reflexivity.
    rewrite L in *. split.
    + rewrite H2; [exact B|left; reflexivity|].
      intros E. apply Nx. unfold last_of in E. injection E as <-.
      rewrite (app_removelast_last 0 (l := y :: ids)) by discriminate.
      apply in_or_app. right. left. reflexivity.
    + apply (IH (Some x) q q' ND'); [| | |exact C]; intros n I; [apply H1|apply H2|apply H3]; auto; right; exact I.
Qed.

(** change what the first element's predecessor is *)
Lemma seg_first : forall l l' ids p p' q, NoDup ids ->
  (forall n, In n ids -> next (slot l' n) = next (slot l n)) ->
  (forall n, In n ids -> first_of None ids <> Some n -> prev (slot l' n) = prev (slot l n)) ->
  (forall n, first_of None ids = Some n -> prev (slot l' n) = p') ->
  seg l p ids q -> seg l' p' ids q.
Proof.
  intros l l' ids p p' q ND H1 H2 H3 S. destruct ids as [|x ids]; [exact Logic.I|].
  destruct S as (A & B & C). inversion_clear ND as [|? ? Nx ND'].
  cbn [seg]. split; [apply H3; reflexivity|]. split; [rewrite H1 by (left; reflexivity); exact B|].
  apply (seg_ext l); [|exact C]. intros n I. split; [apply H2; [right; exact I|]|apply H1; right; exact I].
  cbn. intros E. injection E as <-. contradiction.
Qed.
