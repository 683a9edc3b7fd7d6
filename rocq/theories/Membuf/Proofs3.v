(** A write keeps the layout. *)
From Coq Require Import ZArith NArith Arith List Bool Lia ZifyBool ZifyNat.
From Verif.Membuf Require Import Model Spec Proofs Proofs2.
Import ListNotations.
Local Open Scope nat_scope.

Definition recut (b : membuf) (c : nat) : membuf :=
  mkbuf (head b) (tail b) (cap b) (offsets b) (size b) c (segment b).
Definition added (b : membuf) (h e : nat) (s : nat -> N) : membuf :=
  mkbuf h (tail b + 1) (cap b) (offsets (set_off b (tail b + 1) e)) (size b) (cut b) s.
Definition moved (b : membuf) : membuf :=
  mkbuf (if tail b mod cap b =? head b mod cap b then head b + 1 else head b) (tail b) (cap b) (offsets b) (size b) (cut b) (segment b).

Lemma writev_A : forall b m h, let o := off b (tail b) in let len := room m in
  let b1 := if cut b <? o + len then recut b (size b) else b in
  o + len <= size b -> head b = tail b \/ improper (bounds b1 (head b)) (-3, -1)%Z (Z.of_nat o, Z.of_nat (o + len)) = false ->
  advance b1 (-3, -1)%Z (Z.of_nat o, Z.of_nat (o + len)) (tail b - head b) (head b) = Some h ->
  writev b (fst m) (snd m) = (Some len, moved (added b1 h (o + len) (store (segment b) o (full m)))).
Proof.
  intros b m h o len b1 W P A. unfold writev.
  change (STAMP + length (snd m)) with len. change (off b (tail b)) with o.
  replace (size b <? len) with false by lia.
  fold (recut b (size b)). fold b1.
  assert (S1 : size b1 = size b) by (unfold b1; now destruct (cut b <? o + len)).
  assert (H1 : head b1 = head b) by (unfold b1; now destruct (cut b <? o + len)).
  assert (T1 : tail b1 = tail b) by (unfold b1; now destruct (cut b <? o + len)).
  assert (G1 : segment b1 = segment b) by (unfold b1; now destruct (cut b <? o + len)).
  assert (O1 : off b1 (tail b) = o) by (unfold b1; now destruct (cut b <? o + len)).
  rewrite S1. replace (size b <? o + len) with false by lia. cbv zeta. rewrite S1, H1, T1, G1, O1.
  replace (size b <? o + len) with false by lia.
  replace (negb (head b =? tail b) && improper (bounds b1 (head b)) (-3, -1)%Z (Z.of_nat o, Z.of_nat (o + len))) with false
    by (destruct P as [P|P]; [rewrite P, Nat.eqb_refl; reflexivity|rewrite P; now rewrite andb_false_r]).
  rewrite A. unfold moved, added. cbn [tail cap head offsets size cut segment]. rewrite T1, S1. unfold full. reflexivity.
Qed.
Lemma writev_B : forall b m h, let o := off b (tail b) in let len := room m in
  let b2 := set_off (recut b o) (tail b) 0 in
  len <= size b -> size b < o + len -> length (offsets b) = cap b -> cap b <> 0 ->
  improper (bounds b2 (head b)) (Z.of_nat o, Z.of_nat (o + len)) (0%Z, Z.of_nat len) = false ->
  advance b2 (Z.of_nat o, Z.of_nat (o + len)) (0%Z, Z.of_nat len) (tail b - head b) (head b) = Some h ->
  writev b (fst m) (snd m) = (Some len, moved (added b2 h len (store (segment b) 0 (full m)))).
Proof.
  intros b m h o len b2 L W OL C P A. unfold writev.
  change (STAMP + length (snd m)) with len. change (off b (tail b)) with o.
  replace (size b <? len) with false by lia.
  fold (recut b (size b)).
  assert (O2 : off b2 (tail b) = 0) by (unfold b2; apply off_set_same; assumption).
  set (b1 := if cut b <? o + len then recut b (size b) else b).
  assert (S1 : size b1 = size b) by (unfold b1; now destruct (cut b <? o + len)).
  rewrite S1. replace (size b <? o + len) with true by lia. cbv zeta.
  replace (set_off (mkbuf (head b1) (tail b1) (cap b1) (offsets b1) (size b) o (segment b1)) (tail b1) 0) with b2
    by (unfold b1; now destruct (cut b <? o + len)).
  change (head b2) with (head b). change (tail b2) with (tail b). change (size b2) with (size b). change (segment b2) with (segment b).
  rewrite O2. change (Z.of_nat 0) with 0%Z. change (0 + len) with len. rewrite P, andb_false_r, A.
  replace (size b <? len) with false by lia. reflexivity.
Qed.

Set Default Proof Using "All".
Section Step.
  Variables (n Sz L : nat) (b : membuf) (l : list message) (m : message).
  Hypothesis N3 : 3 <= n.
  Hypothesis SL : 4 * L <= Sz.
  Hypothesis FL : Forall (fun m => stamped m /\ room m <= L) l.
  Hypothesis ST : stamped m.
  Hypothesis RM : room m <= L.
  Hypothesis I : inv n Sz L b l.
  Variable k : nat.
  Hypothesis LY : lay (off b) (cut b) (head b) (tail b) l Sz L k.
  Let t := tail b.
  Let o := off b t.
  Let len := room m.

  Lemma full_length : length (full m) = len.
  Proof. unfold full, len, room. rewrite app_length. now rewrite ST. Qed.
  Lemma TL : t = length l. Proof. apply I. Qed.

  Lemma stepA : o + len <= Sz -> exists b', writev b (fst m) (snd m) = (Some len, b') /\ inv n Sz L b' (l ++ [m]).
  Proof.
    intro W. pose proof (len16 n Sz L b l m N3 SL FL ST RM I) as L16. fold len in L16.
    destruct (advanceA n Sz L b l m N3 SL FL ST RM I k LY W) as [h [A [B [C D]]]].
    fold t o len in A, C, D.
    set (b1 := if cut b <? o + len then recut b (size b) else b).
    assert (SS : size b = Sz) by apply I.
    eexists. split.
    - apply (writev_A b m h); [fold t o len; lia| |exact A].
      destruct (Nat.eq_dec (head b) t) as [E|E]; [now left|right].
      apply (properA n Sz L b l m N3 SL FL ST RM I k LY (head b) W). fold t. pose proof (i_head _ _ _ _ _ I) as IH. fold t in IH. lia.
    - fold t o len b1. set (b3 := added _ _ _ _).
      assert (K : head b <= k <= t) by apply LY.
      assert (CP : cap b1 = n) by (unfold b1; destruct (cut b <? o + len); apply I).
      assert (OL : length (offsets b1) = n) by (unfold b1; destruct (cut b <? o + len); apply I).
      assert (T1 : tail b1 = t) by (unfold b1; destruct (cut b <? o + len); reflexivity).
      assert (FW : t - head b < n) by apply I.
      assert (OB : forall i, off b1 i = off b i) by (intro i; unfold b1; now destruct (cut b <? o + len)).
      set (f := fun i => if i =? t + 1 then o + len else off b i).
      assert (O3 : forall i, i <= t -> f i = off b i).
      { intros i H. unfold f. replace (i =? t + 1) with false by lia. reflexivity. }
      assert (OT : f (t + 1) = o + len) by (unfold f; now rewrite Nat.eqb_refl).
      assert (O3' : forall i, h <= i <= t -> t + 1 - i < n -> off b3 i = off b i).
      { intros i H H'. rewrite <- OB. change (off b3 i) with (off (set_off b1 (tail b1 + 1) (o + len)) i).
        apply off_set_other; lia. }
      assert (OT' : off b3 (t + 1) = o + len).
      { rewrite <- T1. change (off b3 (tail b1 + 1)) with (off (set_off b1 (tail b1 + 1) (o + len)) (tail b1 + 1)). apply off_set_same; lia. }
      pose proof TL as TL.
      assert (PL : pre (l ++ [m]) (t + 1) = pre l t + len) by (rewrite TL; apply pre_last).
      assert (PI : forall i, i <= t -> pre (l ++ [m]) i = pre l i) by (intros i H; apply pre_app; lia).
      assert (T3 : tail b3 = t + 1) by (unfold b3, added; cbn; now rewrite T1).
      assert (C3 : cut b3 = cut b1) by reflexivity.
      assert (CB : cut b <= Sz) by apply I.
      assert (C1 : cut b1 <= Sz) by (unfold b1; destruct (cut b <? o + len); [change (cut (recut b (size b))) with (size b); lia|exact CB]).
      pose proof (l_low _ _ _ _ _ _ _ _ LY) as LOW. pose proof (l_high _ _ _ _ _ _ _ _ LY) as HIGH. fold t in LOW.
      assert (OO : o = off b k + (pre l t - pre l k)) by (apply LOW; lia).
      apply (finish n Sz L b3 (l ++ [m]) f); try assumption; rewrite ?T3.
      + rewrite app_length. cbn. lia.
      + change (head b3) with h. lia.
      + unfold b3, added. cbn [offsets]. unfold set_off. cbn. now rewrite put_length.
      + change (size b3) with (size b1). unfold b1. now destruct (cut b <? o + len).
      + change (head b3) with h. lia.
      + change (head b3) with h. intros i H H'. destruct (Nat.eq_dec i (t + 1)) as [->|X]; [now rewrite OT|]. rewrite O3' by lia. rewrite O3 by lia. reflexivity.
      + change (head b3) with h. pose proof (i_two _ _ _ _ _ I) as W2. fold t in W2.
        destruct (Nat.eq_dec (head b) k) as [E|E].
        * assert (h = head b) by lia.
          destruct W2 as [W2|[W2 [W3 W4]]]; [lia|]. destruct (Nat.eq_dec t 0); [|lia].
          right. split; [lia|]. split; [lia|]. rewrite O3 by lia. exact W4.
        * pose proof (l_kt _ _ _ _ _ _ _ _ LY ltac:(lia)) as KT. fold t in KT. lia.
      + change (head b3) with h. exists k. constructor.
        * lia.
        * intros i H. destruct (Nat.eq_dec i (t + 1)) as [->|E].
          -- rewrite OT, O3, PL, PI by lia. pose proof (pre_mono l k t ltac:(lia)). lia.
          -- rewrite !O3, !PI by lia. apply LOW. lia.
        * intros HK i H. rewrite !O3, !PI by lia. rewrite (HIGH ltac:(lia) i), (HIGH ltac:(lia) h) by lia.
          pose proof (pre_mono l (head b) h ltac:(lia)). pose proof (pre_mono l h i ltac:(lia)). lia.
        * intro HK. rewrite O3, !PI by lia. rewrite C3. rewrite (HIGH ltac:(lia) h) by lia.
          pose proof (l_cut _ _ _ _ _ _ _ _ LY ltac:(lia)) as LC.
          pose proof (pre_mono l (head b) h ltac:(lia)). pose proof (pre_mono l h k ltac:(lia)).
          pose proof (high_end n Sz L b l m N3 SL FL ST RM I k LY h ltac:(lia)).
          replace (cut b1) with (cut b); [lia|]. unfold b1. replace (cut b <? o + len) with false by lia. reflexivity.
        * intro HK. rewrite O3 by lia. apply (l_zero _ _ _ _ _ _ _ _ LY). lia.
        * lia.
        * intro HK. rewrite OT, O3 by lia. lia.
        * intro HK. rewrite C3. pose proof (l_near _ _ _ _ _ _ _ _ LY ltac:(lia)).
          unfold b1. destruct (cut b <? o + len); [change (cut (recut b (size b))) with (size b); lia|assumption].
        * rewrite OT. lia.
      + change (head b3) with h. intros i H j J.
        change (segment b3) with (store (segment b) o (full m)).
        destruct (Nat.eq_dec i t) as [->|E].
        * rewrite O3 by lia. fold o. rewrite app_nth2 by lia. replace (t - length l) with 0 by lia. cbn [nth].
          unfold sz in J. rewrite app_nth2 in J by lia. replace (t - length l) with 0 in J by lia. cbn [nth] in J. fold len in J.
          rewrite store_in by (rewrite full_length; lia). f_equal. lia.
        * rewrite O3 by lia. rewrite sz_app in J by lia. rewrite app_nth1 by lia.
          rewrite store_out; [apply (i_data _ _ _ _ _ I); [fold t; lia|exact J]|].
          rewrite full_length. destruct (Nat.lt_ge_cases i k) as [G|G].
          -- right. pose proof (high_ge n Sz L b l m N3 SL FL ST RM I k LY h i ltac:(lia) G). lia.
          -- left. pose proof (low_next n Sz L b l m N3 SL FL ST RM I k LY i ltac:(fold t; lia)). pose proof (low_le n Sz L b l m N3 SL FL ST RM I k LY (i + 1) ltac:(fold t; lia)) as G2.
             fold t o in G2. lia.
      + change (head b3) with h. rewrite PL, PI by lia.
        pose proof (i_ret _ _ _ _ _ I) as R. fold t in R.
        destruct (Nat.eq_dec h (head b)) as [->|E]; [lia|].
        right. right. specialize (D ltac:(lia)). pose proof (l_near _ _ _ _ _ _ _ _ LY ltac:(lia)).
        pose proof (l_zero _ _ _ _ _ _ _ _ LY ltac:(lia)). pose proof (l_cut _ _ _ _ _ _ _ _ LY ltac:(lia)).
        pose proof (HIGH ltac:(lia) (h - 1) ltac:(lia)).
        pose proof (pre_mono l (head b) (h - 1) ltac:(lia)). pose proof (pre_mono l (h - 1) k ltac:(lia)). pose proof (pre_mono l k t ltac:(lia)). lia.
  Qed.
  Lemma stepB : Sz < o + len -> exists b', writev b (fst m) (snd m) = (Some len, b') /\ inv n Sz L b' (l ++ [m]).
  Proof.
    intro W. pose proof (len16 n Sz L b l m N3 SL FL ST RM I) as L16. fold len in L16.
    destruct (far n Sz L b l m N3 SL FL ST RM I k LY W) as [F1 [F2 [F3 [F4 F5]]]].
    destruct (advanceB n Sz L b l m N3 SL FL ST RM I k LY W) as [h [A [B [C [D E]]]]].
    fold t o len in A, B, C, D, E, F1, F2, F3, F4, F5.
    set (b2 := set_off (recut b o) (tail b) 0).
    assert (SS : size b = Sz) by apply I.
    assert (CP : cap b = n) by apply I.
    assert (OL : length (offsets b) = n) by apply I.
    eexists. split.
    - apply (writev_B b m h); fold t o len; try lia; [|exact A].
      apply (properB n Sz L b l m N3 SL FL ST RM I k LY W). fold t. lia.
    - fold t o len b2. set (b3 := added _ _ _ _).
      assert (K : head b <= k <= t) by apply LY.
      assert (FW : t - head b < n) by apply I.
      assert (CP2 : cap b2 = n) by exact CP.
      assert (OL2 : length (offsets b2) = n) by (unfold b2, set_off; cbn; now rewrite put_length).
      set (f := fun i => if i =? t + 1 then len else if i =? t then 0 else off b i).
      assert (O3 : forall i, i < t -> f i = off b i).
      { intros i H. unfold f. replace (i =? t + 1) with false by lia. replace (i =? t) with false by lia. reflexivity. }
      assert (OT1 : f (t + 1) = len) by (unfold f; now rewrite Nat.eqb_refl).
      assert (OT : f t = 0) by (unfold f; replace (t =? t + 1) with false by lia; now rewrite Nat.eqb_refl).
      assert (O3' : forall i, h <= i < t -> t + 1 - i < n -> off b3 i = off b i).
      { intros i H H'. change (off b3 i) with (off (set_off b2 (tail b2 + 1) len) i).
        change (tail b2) with t. rewrite off_set_other by lia.
        unfold b2. rewrite off_set_other; try (change (tail b) with t); cbn; try lia. reflexivity. }
      assert (OT' : off b3 t = 0).
      { change (off b3 t) with (off (set_off b2 (tail b2 + 1) len) t). change (tail b2) with t. rewrite off_set_other by lia.
        unfold b2. apply off_set_same; cbn; lia. }
      assert (OT1' : off b3 (t + 1) = len).
      { change (off b3 (t + 1)) with (off (set_off b2 (tail b2 + 1) len) (t + 1)). change (tail b2) with t. apply off_set_same; lia. }
      pose proof TL as TL.
      assert (PL : pre (l ++ [m]) (t + 1) = pre l t + len) by (rewrite TL; apply pre_last).
      assert (PI : forall i, i <= t -> pre (l ++ [m]) i = pre l i) by (intros i H; apply pre_app; lia).
      assert (T3 : tail b3 = t + 1) by reflexivity.
      assert (C3 : cut b3 = o) by reflexivity.
      pose proof (l_low _ _ _ _ _ _ _ _ LY) as LOW. fold t in LOW.
      assert (OO : o = off b k + (pre l t - pre l k)) by (apply LOW; lia).
      pose proof (l_end _ _ _ _ _ _ _ _ LY) as OE. fold t o in OE.
      assert (HO : off b h = off b k + (pre l h - pre l k)) by (apply LOW; lia).
      pose proof (pre_mono l k h ltac:(lia)) as P1. pose proof (pre_mono l h t ltac:(lia)) as P2.
      apply (finish n Sz L b3 (l ++ [m]) f); try assumption; rewrite ?T3.
      + rewrite app_length. cbn. lia.
      + change (head b3) with h. lia.
      + unfold b3, added. cbn [offsets]. unfold set_off. cbn. rewrite !put_length. exact OL.
      + change (head b3) with h. lia.
      + change (head b3) with h. intros i H H'. destruct (Nat.eq_dec i (t + 1)) as [->|X]; [now rewrite OT1|].
        destruct (Nat.eq_dec i t) as [->|X']; [now rewrite OT|]. rewrite O3' by lia. rewrite O3 by lia. reflexivity.
      + change (head b3) with h. lia.
      + change (head b3) with h. exists t. constructor.
        * lia.
        * intros i H. destruct (Nat.eq_dec i (t + 1)) as [->|X].
          -- rewrite OT1, OT, PL, PI by lia. lia.
          -- replace i with t by lia. rewrite OT. lia.
        * intros HK i H. rewrite !O3, !PI by lia. rewrite (LOW i), HO by lia.
          pose proof (pre_mono l h i ltac:(lia)). lia.
        * intro HK. rewrite O3, !PI by lia. rewrite C3. lia.
        * intro HK. exact OT.
        * lia.
        * intro HK. rewrite OT1, O3 by lia. lia.
        * intro HK. rewrite C3. unfold len in *. lia.
        * rewrite OT1. unfold len in *. lia.
      + change (head b3) with h. intros i H j J.
        change (segment b3) with (store (segment b) 0 (full m)).
        destruct (Nat.eq_dec i t) as [->|X].
        * rewrite OT. rewrite app_nth2 by lia. replace (t - length l) with 0 by lia. cbn [nth].
          unfold sz in J. rewrite app_nth2 in J by lia. replace (t - length l) with 0 in J by lia. cbn [nth] in J. fold len in J.
          rewrite store_in by (rewrite full_length; lia). f_equal. lia.
        * rewrite O3 by lia. rewrite sz_app in J by lia. rewrite app_nth1 by lia.
          rewrite store_out; [apply (i_data _ _ _ _ _ I); [fold t; lia|exact J]|].
          rewrite full_length. right. rewrite (LOW i) by lia. pose proof (pre_mono l h i ltac:(lia)). lia.
      + change (head b3) with h. rewrite PL, PI by lia.
        pose proof (i_ret _ _ _ _ _ I) as R. fold t in R.
        destruct (Nat.eq_dec h (head b)) as [->|X]; [lia|].
        right. right. destruct (E ltac:(lia)) as [E1|[E1 E2]].
        * pose proof (f_equal (pre l) E1). pose proof (l_zero _ _ _ _ _ _ _ _ LY ltac:(lia)). pose proof (pre_mono l (h - 1) h ltac:(lia)). unfold len in *. lia.
        * pose proof (LOW (h - 1) ltac:(lia)). pose proof (pre_mono l k (h - 1) ltac:(lia)). pose proof (pre_mono l (h - 1) h ltac:(lia)). unfold len in *. lia.
  Qed.
End Step.

Lemma step : forall n Sz L b l m, 3 <= n -> 4 * L <= Sz -> Forall (fun m => stamped m /\ room m <= L) l -> stamped m -> room m <= L ->
  inv n Sz L b l -> exists b', writev b (fst m) (snd m) = (Some (room m), b') /\ inv n Sz L b' (l ++ [m]).
Proof.
  intros n Sz L b l m N SL F S R I. destruct (i_lay _ _ _ _ _ I) as [k LY].
  destruct (Nat.le_gt_cases (off b (tail b) + room m) Sz) as [W|W].
  - now apply (stepA n Sz L b l m N SL F S R I k).
  - now apply (stepB n Sz L b l m N SL F S R I k).
Qed.
