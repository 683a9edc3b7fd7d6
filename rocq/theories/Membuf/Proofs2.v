(** The layout of the segment, and that a write keeps it. *)
From Coq Require Import ZArith NArith Arith List Bool Lia ZifyBool ZifyNat.
From Verif.Membuf Require Import Model Spec Proofs.
Import ListNotations.
Local Open Scope nat_scope.

(** The offsets [f] of the lines [h .. t-1]: those before [k] at the end of the segment, up to the
    cut [c]; those from [k] on from its beginning. [k = h]: all in one piece. *)
Record lay (f : nat -> nat) (c h t : nat) (l : list message) (Sz L k : nat) : Prop := mklay {
  l_k : h <= k <= t;
  l_low : forall i, k <= i <= t -> f i = f k + (pre l i - pre l k);
  l_high : h < k -> forall i, h <= i < k -> f i = f h + (pre l i - pre l h);
  l_cut : h < k -> f h + (pre l k - pre l h) = c;
  l_zero : h < k -> f k = 0;
  l_kt : h < k -> k < t;
  l_apart : h < k -> f t <= f h;
  l_near : h < k -> Sz < c + L;
  l_end : f t <= Sz
}.
Record inv (n Sz L : nat) (b : membuf) (l : list message) : Prop := mkinv {
  i_tail : tail b = length l;
  i_head : head b <= tail b;
  i_cap : cap b = n;
  i_off : length (offsets b) = n;
  i_size : size b = Sz;
  i_cut : cut b <= Sz;
  i_few : tail b - head b < n;
  i_two : 2 <= tail b - head b \/ head b = 0 /\ tail b <= 1 /\ off b 0 = 0;
  i_lay : exists k, lay (off b) (cut b) (head b) (tail b) l Sz L k;
  i_data : forall i, head b <= i < tail b -> forall j, j < sz l i -> segment b (off b i + j) = nth j (full (nth i l ([], []))) 0%N;
  i_ret : head b = 0 \/ n <= tail b + 1 - head b \/ Sz + pre l (head b - 1) < L + pre l (tail b)
}.

Lemma lay_ext : forall f g c h t l Sz L k, (forall i, h <= i <= t -> g i = f i) ->
  lay f c h t l Sz L k -> lay g c h t l Sz L k.
Proof.
  intros f g c h t l Sz L k E [K A B C D F G N M]. constructor; try assumption.
  - intros i I. rewrite !E by lia. now apply A.
  - intros H i I. rewrite !E by lia. now apply B.
  - intro H. rewrite E by lia. now apply C.
  - intro H. rewrite E by lia. now apply D.
  - intro H. rewrite !E by lia. now apply G.
  - rewrite E by lia. exact M.
Qed.
Lemma lay_shrink : forall f c h t l Sz L k, h < t -> lay f c h t l Sz L k -> exists k', lay f c (h + 1) t l Sz L k'.
Proof.
  intros f c h t l Sz L k H [K A B C D F G N M].
  destruct (Nat.eq_dec h k) as [E|E].
  - exists (k + 1). subst h. constructor; try lia; intros; try lia.
    rewrite (A i) by lia. rewrite (A (k + 1)) by lia.
    pose proof (pre_mono l k (k + 1) ltac:(lia)). pose proof (pre_mono l (k + 1) i ltac:(lia)). lia.
  - assert (HK : h < k) by lia. specialize (B HK). specialize (C HK). specialize (D HK). specialize (F HK). specialize (G HK).
    exists k. constructor; try lia; intros; try lia; try (now auto).
    + rewrite (B i) by lia. rewrite (B (h + 1)) by lia.
      pose proof (pre_mono l h (h + 1) ltac:(lia)). pose proof (pre_mono l (h + 1) i ltac:(lia)). lia.
    + rewrite (B (h + 1)) by lia. pose proof (pre_mono l h (h + 1) ltac:(lia)). pose proof (pre_mono l (h + 1) k ltac:(lia)). lia.
    + rewrite (B (h + 1)) by lia. lia.
Qed.

(** A head that would meet the tail moves. *)
Lemma finish : forall n Sz L b l f, 3 <= n -> tail b = length l -> head b < tail b -> cap b = n -> length (offsets b) = n ->
  size b = Sz -> cut b <= Sz -> tail b - head b <= n ->
  (forall i, head b <= i <= tail b -> tail b - i < n -> off b i = f i) ->
  2 <= tail b - head b \/ head b = 0 /\ tail b <= 1 /\ f 0 = 0 ->
  (exists k, lay f (cut b) (head b) (tail b) l Sz L k) ->
  (forall i, head b <= i < tail b -> forall j, j < sz l i -> segment b (f i + j) = nth j (full (nth i l ([], []))) 0%N) ->
  head b = 0 \/ n <= tail b + 1 - head b \/ Sz + pre l (head b - 1) < L + pre l (tail b) ->
  inv n Sz L (mkbuf (if tail b mod cap b =? head b mod cap b then head b + 1 else head b) (tail b) (cap b) (offsets b) (size b) (cut b) (segment b)) l.
Proof.
  intros n Sz L b l f N3 T H C O Z K F EF W [k LY] D R.
  set (b' := mkbuf _ _ _ _ _ _ _).
  assert (HC : (tail b mod cap b =? head b mod cap b) = (tail b - head b =? n)).
  { destruct (Nat.eqb_spec (tail b - head b) n) as [E|E].
    - apply Nat.eqb_eq. rewrite C. replace (tail b) with (head b + 1 * n) by lia. apply Nat.mod_add. lia.
    - apply Nat.eqb_neq. intro E'. symmetry in E'. apply mod_inj in E'; lia. }
  assert (OF : forall i, off b' i = off b i) by reflexivity.
  destruct (Nat.eqb_spec (tail b - head b) n) as [E|E].
  - assert (HB : head b' = head b + 1) by (unfold b'; cbn; now rewrite HC).
    destruct (lay_shrink _ _ _ _ _ _ _ _ H LY) as [k' LY'].
    constructor; rewrite ?HB; try assumption; try (unfold b'; cbn; lia).
    + exists k'. apply (lay_ext f); [|exact LY']. change (tail b') with (tail b). intros i I. rewrite OF. apply EF; lia.
    + change (tail b') with (tail b). intros i I j J. rewrite OF. rewrite EF by lia. apply D; [lia|exact J].
  - assert (HB : head b' = head b) by (unfold b'; cbn; now rewrite HC).
    constructor; rewrite ?HB; try assumption; try (unfold b'; cbn; lia).
    + change (tail b') with (tail b). rewrite OF. destruct W as [W|[W1 [W2 W3]]]; [now left|]. right. rewrite EF by lia. auto.
    + exists k. apply (lay_ext f); [|exact LY]. change (tail b') with (tail b). intros i I. rewrite OF. apply EF; lia.
    + change (tail b') with (tail b). intros i I j J. rewrite OF. rewrite EF by lia. apply D; [lia|exact J].
Qed.
(** A line added, the head as [advance] leaves it, before a head that would meet the tail moves. *)
Set Default Proof Using "All".
Section Step.
  Variables (n Sz L : nat) (b : membuf) (l : list message) (m : message).
  Hypothesis N3 : 3 <= n.
  Hypothesis SL : 4 * L <= Sz.
  Hypothesis FL : Forall (fun m => stamped m /\ room m <= L) l.
  Hypothesis ST : stamped m.
  Hypothesis RM : room m <= L.
  Hypothesis I : inv n Sz L b l.

  Let t := tail b.
  Let o := off b t.
  Let len := room m.
  Lemma len16 : 16 <= len. Proof. unfold len, room. lia. Qed.
  Lemma szb : forall i, i < t -> 16 <= sz l i <= L.
  Proof. intros i H. apply sz_bounds; [exact FL|]. unfold t in H. now rewrite <- (i_tail _ _ _ _ _ I). Qed.
  Lemma preS : forall i, i < t -> pre l (i + 1) = pre l i + sz l i.
  Proof. intros i H. apply pre_S. unfold t in H. now rewrite <- (i_tail _ _ _ _ _ I). Qed.

  Section Lay.
    Variable k : nat.
    Hypothesis LY : lay (off b) (cut b) (head b) t l Sz L k.
    Lemma low_next : forall i, k <= i < t -> off b (i + 1) = off b i + sz l i.
    Proof.
      intros i H. rewrite (l_low _ _ _ _ _ _ _ _ LY (i + 1)) by lia. rewrite (l_low _ _ _ _ _ _ _ _ LY i) by lia.
      rewrite preS by lia. pose proof (pre_mono l k i ltac:(lia)). lia.
    Qed.
    Lemma low_le : forall i, k <= i <= t -> off b i <= o.
    Proof.
      intros i H. unfold o. rewrite (l_low _ _ _ _ _ _ _ _ LY t) by lia. rewrite (l_low _ _ _ _ _ _ _ _ LY i) by lia.
      pose proof (pre_mono l i t ltac:(lia)). lia.
    Qed.
    Lemma high_next : forall i, head b <= i -> i + 1 < k -> off b (i + 1) = off b i + sz l i.
    Proof.
      intros i H H'. assert (KT : k <= t) by apply LY.
      rewrite (l_high _ _ _ _ _ _ _ _ LY ltac:(lia) (i + 1)) by lia.
      rewrite (l_high _ _ _ _ _ _ _ _ LY ltac:(lia) i) by lia.
      rewrite preS by lia. pose proof (pre_mono l (head b) i ltac:(lia)). lia.
    Qed.
    Lemma high_last : forall i, head b <= i -> i + 1 = k -> off b i + sz l i = cut b.
    Proof.
      intros i H H'. assert (KT : k <= t) by apply LY.
      rewrite <- (l_cut _ _ _ _ _ _ _ _ LY ltac:(lia)).
      rewrite (l_high _ _ _ _ _ _ _ _ LY ltac:(lia) i) by lia. subst k.
      rewrite preS by lia. pose proof (pre_mono l (head b) i ltac:(lia)). lia.
    Qed.
    Lemma high_ge : forall i j, head b <= i <= j -> j < k -> off b i <= off b j.
    Proof.
      intros i j H H'. rewrite (l_high _ _ _ _ _ _ _ _ LY ltac:(lia) i) by lia.
      rewrite (l_high _ _ _ _ _ _ _ _ LY ltac:(lia) j) by lia. pose proof (pre_mono l i j ltac:(lia)). lia.
    Qed.
    Lemma high_apart : forall i, head b <= i < k -> o <= off b i.
    Proof.
      intros i H. pose proof (l_apart _ _ _ _ _ _ _ _ LY ltac:(lia)). pose proof (high_ge (head b) i ltac:(lia) ltac:(lia)).
      unfold o. lia.
    Qed.
    Lemma high_end : forall i, head b <= i < k -> off b i + sz l i <= cut b.
    Proof.
      intros i H. destruct (Nat.eq_dec (i + 1) k) as [E|E].
      - rewrite (high_last i) by lia. lia.
      - rewrite <- (high_next i) by lia. pose proof (high_ge (i + 1) (k - 1) ltac:(lia) ltac:(lia)).
        pose proof (high_last (k - 1) ltac:(lia) ltac:(lia)). lia.
    Qed.
    Lemma wrapped_pos : head b < k -> 16 <= o.
    Proof.
      intro H. pose proof (l_kt _ _ _ _ _ _ _ _ LY H). pose proof (low_next k ltac:(lia)).
      pose proof (low_le (k + 1) ltac:(lia)). pose proof (szb k ltac:(lia)). lia.
    Qed.
    (** Where a line begins and ends. *)
    Lemma bounds_low : forall i, k <= i < t -> bounds b i = (Z.of_nat (off b i), Z.of_nat (off b i + sz l i)).
    Proof.
      intros i H. unfold bounds. rewrite low_next by lia.
      replace (Z.of_nat (off b i + sz l i) <? Z.of_nat (off b i))%Z with false by lia. reflexivity.
    Qed.
    Lemma bounds_high : forall i, head b <= i -> i + 1 < k -> bounds b i = (Z.of_nat (off b i), Z.of_nat (off b i + sz l i)).
    Proof.
      intros i H H'. unfold bounds. rewrite high_next by lia.
      replace (Z.of_nat (off b i + sz l i) <? Z.of_nat (off b i))%Z with false by lia. reflexivity.
    Qed.
    Lemma bounds_last : forall i, head b <= i -> i + 1 = k -> bounds b i = (Z.of_nat (off b i), Z.of_nat Sz).
    Proof.
      intros i H H'. unfold bounds. rewrite H'. rewrite (l_zero _ _ _ _ _ _ _ _ LY ltac:(lia)).
      pose proof (wrapped_pos ltac:(lia)). pose proof (high_apart i ltac:(lia)).
      replace (Z.of_nat 0 <? Z.of_nat (off b i))%Z with true by lia. now rewrite (i_size _ _ _ _ _ I).
    Qed.
    (** ** No wrap *)
    Let b1 := if cut b <? o + len then mkbuf (head b) (tail b) (cap b) (offsets b) (size b) (size b) (segment b) else b.
    Let tl1 := (Z.of_nat o, Z.of_nat (o + len)).
    Lemma bounds_b1 : forall i, bounds b1 i = bounds b i.
    Proof. intro i. unfold b1. now destruct (cut b <? o + len). Qed.
    Lemma hitA : forall i, o + len <= Sz -> head b <= i < t -> hit b1 (-3, -1)%Z tl1 i = (i <? k) && (off b i <? o + len).
    Proof.
      intros i NW H. unfold hit. rewrite bounds_b1. unfold intersect_seg, tl1. pose proof len16. pose proof (szb i ltac:(lia)).
      destruct (Nat.ltb_spec i k) as [E|E].
      - pose proof (high_apart i ltac:(lia)). pose proof (high_end i ltac:(lia)).
        assert (cut b <= Sz) by apply I.
        destruct (Nat.eq_dec (i + 1) k) as [E'|E'].
        + rewrite bounds_last by lia. cbn [fst snd]. lia.
        + rewrite bounds_high by lia. cbn [fst snd]. lia.
      - rewrite bounds_low by lia. cbn [fst snd]. pose proof (low_next i ltac:(lia)). pose proof (low_le (i + 1) ltac:(lia)). lia.
    Qed.
    Lemma properA : forall i, o + len <= Sz -> head b <= i < t -> improper (bounds b1 i) (-3, -1)%Z tl1 = false.
    Proof.
      intros i NW H. rewrite bounds_b1. unfold improper, tl1. pose proof len16. pose proof (szb i ltac:(lia)).
      destruct (Nat.lt_ge_cases i k) as [E|E].
      - pose proof (high_end i ltac:(lia)). assert (cut b <= Sz) by apply I.
        destruct (Nat.eq_dec (i + 1) k) as [E'|E'].
        + rewrite bounds_last by lia. cbn [fst snd]. lia.
        + rewrite bounds_high by lia. cbn [fst snd]. lia.
      - rewrite bounds_low by lia. cbn [fst snd]. lia.
    Qed.
    Lemma advanceA : o + len <= Sz -> exists h, advance b1 (-3, -1)%Z tl1 (t - head b) (head b) = Some h /\
      head b <= h <= k /\ (h = k \/ o + len <= off b h) /\ (head b < h -> off b (h - 1) < o + len).
    Proof.
      intro NW. assert (HT : head b <= t) by apply I. assert (K : head b <= k <= t) by apply LY.
      destruct (advance_spec b1 (-3, -1)%Z tl1 (t - head b) (head b)) as [h [A [B [C D]]]].
      { intros i H H'. pose proof (H' i ltac:(lia)) as E. rewrite hitA in E by lia.
        assert (i < k) by lia. pose proof (l_kt _ _ _ _ _ _ _ _ LY ltac:(lia)). apply properA; lia. }
      exists h. split; [exact B|].
      assert (h <= k).
      { destruct (Nat.le_gt_cases h k) as [|G]; [assumption|]. specialize (C (h - 1) ltac:(lia)). rewrite hitA in C by lia. lia. }
      split; [lia|]. split.
      - destruct (Nat.eq_dec h k) as [|E]; [now left|]. right. specialize (D ltac:(lia)). rewrite hitA in D by lia. lia.
      - intro G. specialize (C (h - 1) ltac:(lia)). rewrite hitA in C by lia. lia.
    Qed.
    (** ** A wrap *)
    Let b2 := set_off (mkbuf (head b) (tail b) (cap b) (offsets b) (size b) o (segment b)) (tail b) 0.
    Let att2 := (Z.of_nat o, Z.of_nat (o + len)).
    Let tl2 := (0%Z, Z.of_nat len).
    Lemma b2_off : forall i, head b <= i < t -> off b2 i = off b i.
    Proof.
      intros i H. unfold b2. assert (cap b = n) by apply I. assert (length (offsets b) = n) by apply I.
      assert (tail b - head b < n) by apply I. unfold t in H.
      rewrite off_set_other; cbn; try lia. reflexivity.
    Qed.
    Lemma b2_off_t : off b2 t = 0.
    Proof.
      unfold b2, t. assert (cap b = n) by apply I. assert (length (offsets b) = n) by apply I.
      apply off_set_same; cbn; lia.
    Qed.
    Hypothesis WR : Sz < o + len.
    Lemma far : head b + 2 <= t /\ k <= t - 2 /\ len <= off b (t - 2) /\ 0 < off b (t - 1) /\ off b (t - 1) + sz l (t - 1) = o.
    Proof.
      pose proof len16. assert (HT : head b <= t) by apply I. assert (K : head b <= k <= t) by apply LY.
      pose proof (i_two _ _ _ _ _ I) as W. fold t in W.
      assert (W2 : head b + 2 <= t).
      { destruct W as [W|[W1 [W2 W3]]]; [lia|exfalso]. assert (OO : o <= L); [|unfold len in *; lia].
        assert (k = head b) by (destruct (Nat.eq_dec k (head b)); [assumption|pose proof (l_kt _ _ _ _ _ _ _ _ LY ltac:(lia)); lia]).
        destruct (Nat.eq_dec t 0) as [E|E].
        - unfold o. rewrite E, W3. lia.
        - pose proof (low_next 0 ltac:(lia)) as G. pose proof (szb 0 ltac:(lia)). unfold o.
          replace t with (0 + 1) by lia. lia. }
      assert (KT : k < t) by (destruct (Nat.eq_dec k (head b)); [lia|apply (l_kt _ _ _ _ _ _ _ _ LY); lia]).
      pose proof (low_next (t - 1) ltac:(lia)) as E1. replace (t - 1 + 1) with t in E1 by lia. fold o in E1.
      pose proof (szb (t - 1) ltac:(lia)).
      assert (K2 : k <= t - 2).
      { destruct (Nat.eq_dec k (t - 1)) as [E|E]; [exfalso|lia].
        pose proof (l_zero _ _ _ _ _ _ _ _ LY ltac:(lia)) as Z. rewrite E in Z. unfold len in *. lia. }
      pose proof (low_next (t - 2) ltac:(lia)) as E2. replace (t - 2 + 1) with (t - 1) in E2 by lia.
      pose proof (szb (t - 2) ltac:(lia)). unfold len in *. lia.
    Qed.
    Lemma bounds_b2 : forall i, head b <= i -> i + 1 < t -> bounds b2 i = bounds b i.
    Proof. intros i H H'. unfold bounds. rewrite !b2_off by lia. reflexivity. Qed.
    Lemma hitB : forall i, head b <= i -> i + 1 < t -> hit b2 att2 tl2 i = (i <? k) || (off b i <? len).
    Proof.
      intros i H H'. unfold hit. rewrite bounds_b2 by lia. unfold intersect_seg, att2, tl2. pose proof len16. pose proof (szb i ltac:(lia)).
      destruct far as [F1 [F2 [F3 [F4 F5]]]].
      destruct (Nat.ltb_spec i k) as [E|E].
      - pose proof (high_apart i ltac:(lia)). pose proof (high_end i ltac:(lia)).
        assert (cut b <= Sz) by apply I.
        destruct (Nat.eq_dec (i + 1) k) as [E'|E'].
        + rewrite bounds_last by lia. cbn [fst snd]. lia.
        + rewrite bounds_high by lia. cbn [fst snd]. lia.
      - rewrite bounds_low by lia. cbn [fst snd]. pose proof (low_next i ltac:(lia)). pose proof (low_le (i + 1) ltac:(lia)). lia.
    Qed.
    Lemma properB : forall i, head b <= i < t -> improper (bounds b2 i) att2 tl2 = false.
    Proof.
      intros i H. destruct far as [F1 [F2 [F3 [F4 F5]]]]. pose proof len16. pose proof (szb i ltac:(lia)).
      destruct (Nat.eq_dec (i + 1) t) as [E0|E0].
      - unfold bounds. rewrite E0, b2_off_t, b2_off by lia. replace (t - 1) with i in * by lia.
        replace (Z.of_nat 0 <? Z.of_nat (off b i))%Z with true by lia.
        change (size b2) with (size b). rewrite (i_size _ _ _ _ _ I). pose proof (l_end _ _ _ _ _ _ _ _ LY) as OE. fold o in OE.
        unfold improper, att2, tl2. cbn [fst snd]. lia.
      - rewrite bounds_b2 by lia. unfold improper, att2, tl2.
        destruct (Nat.lt_ge_cases i k) as [E|E].
        + pose proof (high_end i ltac:(lia)). assert (cut b <= Sz) by apply I.
          destruct (Nat.eq_dec (i + 1) k) as [E'|E'].
          * rewrite bounds_last by lia. cbn [fst snd]. lia.
          * rewrite bounds_high by lia. cbn [fst snd]. lia.
        + rewrite bounds_low by lia. cbn [fst snd]. lia.
    Qed.
    Lemma advanceB : exists h, advance b2 att2 tl2 (t - head b) (head b) = Some h /\
      head b <= h /\ k <= h <= t - 2 /\ len <= off b h /\ (head b < h -> h = k \/ k <= h - 1 /\ off b (h - 1) < len).
    Proof.
      destruct far as [F1 [F2 [F3 [F4 F5]]]]. assert (K : head b <= k <= t) by apply LY.
      destruct (advance_spec b2 att2 tl2 (t - head b) (head b)) as [h [A [B [C D]]]].
      { intros i H H'. assert (i < t - 2).
        { destruct (Nat.lt_ge_cases i (t - 2)) as [|G]; [assumption|]. specialize (H' (t - 2) ltac:(lia)). rewrite hitB in H' by lia. lia. }
        apply properB. lia. }
      exists h. split; [exact B|].
      assert (h <= t - 2).
      { destruct (Nat.le_gt_cases h (t - 2)) as [|G]; [assumption|]. specialize (C (t - 2) ltac:(lia)). rewrite hitB in C by lia. lia. }
      specialize (D ltac:(lia)). rewrite hitB in D by lia.
      repeat split; try lia.
      intro G. specialize (C (h - 1) ltac:(lia)). rewrite hitB in C by lia. lia.
    Qed.
  End Lay.
End Step.
