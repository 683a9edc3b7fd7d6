(** Offsets, sums, and the advance of the head. *)
From Coq Require Import ZArith NArith Arith List Bool Lia ZifyBool ZifyNat.
From Verif.Membuf Require Import Model Spec.
Import ListNotations.
Local Open Scope nat_scope.

Lemma put_length : forall l i v, length (put l i v) = length l.
Proof. induction l as [|x l IH]; intros [|i] v; cbn; congruence || now rewrite IH. Qed.
Lemma put_nth : forall l i v j d, i < length l -> nth j (put l i v) d = if j =? i then v else nth j l d.
Proof.
  induction l as [|x l IH]; intros [|i] v [|j] d H; cbn in *; try lia; try reflexivity.
  rewrite IH by lia. reflexivity.
Qed.
Lemma mod_inj : forall n i j, n <> 0 -> i <= j -> j - i < n -> (i mod n = j mod n <-> i = j).
Proof.
  intros n i j N H D. split; [|now intros ->]. intro E.
  pose proof (Nat.div_mod i n N) as A. pose proof (Nat.div_mod j n N) as B.
  rewrite E in A.
  assert (j / n = i / n); [|lia].
  assert (n * (j / n) - n * (i / n) < n) by lia.
  assert (i / n <= j / n) by (apply Nat.div_le_mono; lia).
  nia.
Qed.
Lemma off_set : forall b i v j, length (offsets b) = cap b -> cap b <> 0 ->
  off (set_off b i v) j = if j mod cap b =? i mod cap b then v else off b j.
Proof.
  intros b i v j L N. unfold off, set_off. cbn. rewrite put_nth; [reflexivity|].
  rewrite L. now apply Nat.mod_upper_bound.
Qed.
Lemma off_set_same : forall b i v, length (offsets b) = cap b -> cap b <> 0 -> off (set_off b i v) i = v.
Proof. intros. rewrite off_set by assumption. now rewrite Nat.eqb_refl. Qed.
Lemma off_set_other : forall b i v j, length (offsets b) = cap b -> cap b <> 0 -> j < i -> i - j < cap b ->
  off (set_off b i v) j = off b j.
Proof.
  intros. rewrite off_set by assumption. destruct (Nat.eqb_spec (j mod cap b) (i mod cap b)) as [E|E]; [|reflexivity].
  apply mod_inj in E; lia.
Qed.

(** * Sums *)
Definition full (m : message) : bytes := fst m ++ snd m.
Definition pre (l : list message) (i : nat) : nat := rooms (firstn i l).
Lemma rooms_app : forall a b, rooms (a ++ b) = rooms a + rooms b.
Proof. induction a as [|x a IH]; intro b; [reflexivity|].
  change (room x + rooms (a ++ b) = room x + rooms a + rooms b). rewrite IH. lia. Qed.
Definition sz (l : list message) (i : nat) : nat := room (nth i l ([], [])).
Lemma pre_S : forall l i, i < length l -> pre l (i + 1) = pre l i + sz l i.
Proof.
  intros l. unfold pre, sz. induction l as [|m l IH]; intros [|i] H; try (cbn -[room] in *; lia).
  specialize (IH i). cbn [length] in H. change (room m + rooms (firstn (i + 1) l) = room m + rooms (firstn i l) + room (nth i l ([], []))). rewrite IH by lia. lia.
Qed.
Lemma pre_mono : forall l i j, i <= j -> pre l i <= pre l j.
Proof.
  intros l i j H. unfold pre. replace j with (i + (j - i)) by lia. generalize (j - i). intro d.
  rewrite <- (firstn_skipn i (firstn (i + d) l)). rewrite firstn_firstn, rooms_app.
  replace (Nat.min i (i + d)) with i by lia. lia.
Qed.
Lemma pre_app : forall l m i, i <= length l -> pre (l ++ [m]) i = pre l i.
Proof. intros l m i H. unfold pre. rewrite firstn_app. replace (i - length l) with 0 by lia. cbn. now rewrite app_nil_r. Qed.
Lemma pre_last : forall l m, pre (l ++ [m]) (length l + 1) = pre l (length l) + room m.
Proof.
  intros l m. rewrite pre_S by (rewrite app_length; cbn; lia). rewrite pre_app by lia.
  unfold sz. rewrite app_nth2 by lia. now rewrite Nat.sub_diag.
Qed.
Lemma sz_app : forall l m i, i < length l -> sz (l ++ [m]) i = sz l i.
Proof. intros. unfold sz. now rewrite app_nth1. Qed.
Lemma sz_bounds : forall l L i, Forall (fun m => stamped m /\ room m <= L) l -> i < length l -> 16 <= sz l i <= L.
Proof.
  intros l L i F H. rewrite Forall_forall in F. unfold sz. split; [unfold room; lia|]. apply F. now apply nth_In.
Qed.

(** * The advance *)
Definition hit (b : membuf) (att tl : Z * Z) (i : nat) : bool :=
  intersect_seg (fst (bounds b i)) (snd (bounds b i) - 1) (fst att) (snd att - 1)
  || intersect_seg (fst (bounds b i)) (snd (bounds b i) - 1) (fst tl) (snd tl - 1).
Lemma advance_spec : forall b att tl n h,
  (forall i, h <= i < h + n -> (forall j, h <= j <= i -> hit b att tl j = true) -> improper (bounds b (i + 1)) att tl = false) ->
  exists h', h <= h' <= h + n /\ advance b att tl n h = Some h' /\
    (forall i, h <= i < h' -> hit b att tl i = true) /\ (h' < h + n -> hit b att tl h' = false).
Proof.
  intros b att tl. induction n as [|n IH]; intros h H; cbn [advance].
  - exists h. repeat split; try lia.
  - fold (hit b att tl h). destruct (hit b att tl h) eqn:E.
    + rewrite (H h); [|lia|intros j J; replace j with h by lia; exact E]. destruct (IH (h + 1)) as [h' [A [B [C D]]]].
      { intros i I1 I2. apply H; [lia|]. intros j J. destruct (Nat.eq_dec j h) as [->|]; [exact E|]. apply I2. lia. }
      exists h'. split; [lia|]. split; [exact B|]. split.
      * intros i I. destruct (Nat.eq_dec i h) as [->|]; [exact E|]. apply C. lia.
      * intro. apply D. lia.
    + exists h. split; [lia|]. split; [reflexivity|]. split; [intros; lia|]. now intros _.
Qed.
(** * Memory *)
Lemma store_in : forall m o d i, o <= i < o + length d -> store m o d i = nth (i - o) d 0%N.
Proof. intros m o d i H. unfold store. replace ((o <=? i) && (i <? o + length d)) with true by lia. reflexivity. Qed.
Lemma store_out : forall m o d i, i < o \/ o + length d <= i -> store m o d i = m i.
Proof. intros m o d i H. unfold store. replace ((o <=? i) && (i <? o + length d)) with false by lia. reflexivity. Qed.
Lemma load_ok : forall m o d, (forall j, j < length d -> m (o + j) = nth j d 0%N) -> load m o (length d) = d.
Proof.
  intros m o d. unfold load. revert o. induction d as [|x d IH]; intros o H; cbn; [reflexivity|].
  f_equal.
  - specialize (H 0). cbn in H. rewrite Nat.add_0_r in H. apply H. lia.
  - apply IH. intros j J. specialize (H (S j)). cbn in H. rewrite Nat.add_succ_r in H. apply H. lia.
Qed.
