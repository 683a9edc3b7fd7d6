(** Reading; all writes; logs that lines do not fit in. *)
From Coq Require Import ZArith NArith Arith List Bool Lia ZifyBool ZifyNat.
From Verif.Membuf Require Import Model Spec Proofs Proofs2 Proofs3.
Import ListNotations.
Local Open Scope nat_scope.

Lemma inv_init : forall n Sz L junk, 3 <= n -> inv n Sz L (init n Sz junk) [].
Proof.
  intros n Sz L junk N.
  assert (Z : forall i, off (init n Sz junk) i = 0).
  { intro i. unfold off, init. cbn [cap offsets]. apply nth_repeat. }
  constructor; rewrite ?Z; try (cbn; lia).
  - cbn. apply repeat_length.
  - exists 0. cbn [cut head tail init]. constructor; intros; rewrite ?Z; try lia.
    unfold pre. rewrite !firstn_nil. reflexivity.
Qed.
Lemma inv_more : forall n Sz L l2 l1 b, 3 <= n -> 4 * L <= Sz -> Forall (fun m => stamped m /\ room m <= L) (l1 ++ l2) ->
  inv n Sz L b l1 -> inv n Sz L (write_all b l2) (l1 ++ l2) /\ answers b l2 = map (fun m => Some (room m)) l2.
Proof.
  intros n Sz L. induction l2 as [|m l2 IH]; intros l1 b N SL F I.
  - rewrite app_nil_r. cbn. auto.
  - pose proof F as F'. rewrite Forall_app in F'. destruct F' as [F1 F2]. inversion_clear F2 as [|x y [A B] C].
    destruct (step n Sz L b l1 m N SL F1 A B I) as [b' [W I']].
    unfold write_all. cbn [fold_left answers map]. rewrite W. cbn [fst snd].
    destruct (IH (l1 ++ [m]) b' N SL) as [J K].
    + now rewrite <- app_assoc.
    + exact I'.
    + rewrite <- app_assoc in J. cbn [app] in J. split; [exact J|]. now rewrite K.
Qed.
Lemma inv_all : forall n Sz L junk l, 3 <= n -> small L Sz l ->
  inv n Sz L (write_all (init n Sz junk) l) l /\ answers (init n Sz junk) l = map (fun m => Some (room m)) l.
Proof. intros n Sz L junk l N [SL F]. apply (inv_more n Sz L l [] (init n Sz junk)); try assumption. now apply inv_init. Qed.

(** * A line read *)
Lemma line_ok : forall n Sz L b l i, 4 * L <= Sz -> (Z.of_nat Sz < 2 ^ 32)%Z -> Forall (fun m => stamped m /\ room m <= L) l ->
  inv n Sz L b l -> head b <= i < tail b ->
  line b i = Some (i, fst (nth i l ([], [])), snd (nth i l ([], []))).
Proof.
  intros n Sz L b l i SL S32 F I H.
  assert (TL : tail b = length l) by apply I.
  destruct (i_lay _ _ _ _ _ I) as [k LY].
  assert (B : 16 <= sz l i <= L) by (apply sz_bounds; [exact F|lia]).
  assert (P : pre l (i + 1) = pre l i + sz l i) by (apply pre_S; lia).
  assert (K : head b <= k <= tail b) by apply LY.
  assert (CS : cut b <= Sz) by apply I.
  assert (SZ : size b = Sz) by apply I.
  assert (G : off b i + sz l i <= Sz /\
              ((if (off b i <? off b (i + 1))%nat then Z.of_nat (off b (i + 1)) - Z.of_nat (off b i) else (Z.of_nat (cut b) - Z.of_nat (off b i)) mod 2 ^ 32) = Z.of_nat (sz l i))%Z).
  { destruct (Nat.lt_ge_cases i k) as [E|E].
    - pose proof (l_high _ _ _ _ _ _ _ _ LY ltac:(lia)) as HI. pose proof (l_cut _ _ _ _ _ _ _ _ LY ltac:(lia)) as HC.
      pose proof (pre_mono l (head b) i ltac:(lia)). pose proof (pre_mono l (i + 1) k ltac:(lia)).
      pose proof (HI i ltac:(lia)).
      destruct (Nat.eq_dec (i + 1) k) as [E'|E'].
      + rewrite E' in *. rewrite (l_zero _ _ _ _ _ _ _ _ LY ltac:(lia)).
        split; [lia|]. replace (off b i <? 0)%nat with false by lia.
        rewrite Z.mod_small by lia. lia.
      + pose proof (HI (i + 1) ltac:(lia)). split; [lia|].
        replace (off b i <? off b (i + 1))%nat with true by lia. lia.
    - pose proof (l_low _ _ _ _ _ _ _ _ LY) as LO. pose proof (LO i ltac:(lia)). pose proof (LO (i + 1) ltac:(lia)).
      pose proof (LO (tail b) ltac:(lia)). pose proof (l_end _ _ _ _ _ _ _ _ LY).
      pose proof (pre_mono l k i ltac:(lia)). pose proof (pre_mono l (i + 1) (tail b) ltac:(lia)).
      split; [lia|]. replace (off b i <? off b (i + 1))%nat with true by lia. lia. }
  destruct G as [G1 G2]. unfold line. rewrite G2. unfold STAMP.
  rewrite Z.mod_small by lia. replace (Z.of_nat (off b i) + Z.of_nat 16 + (Z.of_nat (sz l i) - Z.of_nat 16) <=? Z.of_nat (size b))%Z with true by lia.
  pose proof (i_data _ _ _ _ _ I i H) as D.
  assert (ST : stamped (nth i l ([], []))) by (rewrite Forall_forall in F; apply F; apply nth_In; lia).
  unfold sz, room, full, stamped in *. destruct (nth i l ([], [])) as [s x]. cbn [fst snd] in *.
  f_equal. f_equal; [f_equal|].
  - rewrite <- ST. apply load_ok. intros j J. rewrite D by lia. now apply app_nth1.
  - replace (Z.to_nat (Z.of_nat (16 + length x) - Z.of_nat 16)) with (length x) by lia.
    apply load_ok. intros j J. rewrite <- Nat.add_assoc. rewrite D by lia.
    rewrite app_nth2 by lia. f_equal. lia.
Qed.

Lemma numbered_nth : forall l i, numbered i l = map (fun j => (i + j, fst (nth j l ([], [])), snd (nth j l ([], [])))) (seq 0 (length l)).
Proof.
  induction l as [|m l IH]; intro i; cbn [numbered length seq map]; [reflexivity|].
  rewrite Nat.add_0_r. cbn [nth]. f_equal. rewrite IH. rewrite <- seq_shift, map_map. apply map_ext. intro j.
  cbn [nth]. now rewrite Nat.add_succ_r.
Qed.
Lemma nth_skip : forall (l : list message) i j d, nth j (skipn i l) d = nth (i + j) l d.
Proof. induction l as [|m l IH]; intros [|i] j d; cbn; try reflexivity; [now destruct j|apply IH]. Qed.
Lemma from_seq : forall l i, from l i = map (fun j => (j, fst (nth j l ([], [])), snd (nth j l ([], [])))) (seq i (length l - i)).
Proof.
  intros l i. unfold from. rewrite numbered_nth, skipn_length.
  replace (seq i (length l - i)) with (map (fun j => i + j) (seq 0 (length l - i))).
  - rewrite map_map. apply map_ext. intro j. now rewrite nth_skip.
  - generalize (length l - i). intro d. clear. revert i. induction d as [|d IH]; intro i; [reflexivity|].
    cbn [seq map]. f_equal; [lia|]. rewrite <- seq_shift, map_map. rewrite <- (IH (S i)). apply map_ext. intro. lia.
Qed.
Lemma from_tl : forall l i, tl (from l i) = from l (i + 1).
Proof.
  intros l i. rewrite !from_seq. destruct (length l - i) as [|d] eqn:E.
  - replace (length l - (i + 1)) with 0 by lia. reflexivity.
  - replace (length l - (i + 1)) with d by lia. cbn. now rewrite Nat.add_1_r.
Qed.
Lemma from_end : forall l i, length l <= i -> from l i = [].
Proof. intros l i H. unfold from. now rewrite skipn_all2. Qed.

Lemma inv_holds : forall n Sz L b l, 4 * L <= Sz -> (Z.of_nat Sz < 2 ^ 32)%Z -> Forall (fun m => stamped m /\ room m <= L) l ->
  inv n Sz L b l -> holds b l (head b).
Proof.
  intros n Sz L b l SL S32 F I. assert (TL : tail b = length l) by apply I. assert (HT : head b <= tail b) by apply I.
  split; [lia|]. intro a. unfold lines_since. rewrite <- TL.
  destruct (Nat.eqb_spec (head b) (tail b)) as [E|E].
  - pose proof (i_two _ _ _ _ _ I) as [W|[W1 [W2 _]]]; [lia|]. destruct l; [|cbn in TL; lia].
    now destruct (_ && _); rewrite from_end by (cbn; lia).
  - cbv zeta. destruct (Nat.eqb_spec (a + 1) (tail b)) as [E'|E'].
    + replace ((head b <=? a + 1) && (a + 1 <=? tail b)) with true by lia. rewrite from_end by lia. reflexivity.
    + assert (G : forall i, head b <= i -> map (line b) (seq i (tail b - i)) = map Some (from l i)).
      { intros i Hi. rewrite from_seq, map_map. rewrite <- TL. apply map_ext_in. intros j J. rewrite in_seq in J.
        apply (line_ok n Sz L); try assumption. lia. }
      destruct ((head b <=? a + 1) && (a + 1 <=? tail b)) eqn:C.
      * replace ((tail b <? head b) && (a + 1 <? head b) && (tail b <=? a + 1) || (head b <? tail b) && ((tail b <=? a + 1) || (a + 1 <? head b)))
          with false by lia. apply G. lia.
      * replace ((tail b <? head b) && (a + 1 <? head b) && (tail b <=? a + 1) || (head b <? tail b) && ((tail b <=? a + 1) || (a + 1 <? head b)))
          with true by lia. apply G. lia.
Qed.
Lemma count_mod : forall n h t, n <> 0 -> h <= t -> t - h < n ->
  (if h mod n <=? t mod n then t mod n - h mod n else t mod n + n - h mod n) = t - h.
Proof.
  intros n h t N H D.
  pose proof (Nat.div_mod h n N) as A. pose proof (Nat.div_mod t n N) as B.
  pose proof (Nat.mod_upper_bound h n N). pose proof (Nat.mod_upper_bound t n N).
  pose proof (Nat.div_le_mono h t n N H).
  assert (t / n = h / n \/ t / n = h / n + 1) as [E|E].
  { assert (n * (t / n) - n * (h / n) < 2 * n) by lia. assert (t / n < h / n + 2) by nia. lia. }
  - rewrite E in B. destruct (Nat.leb_spec (h mod n) (t mod n)); lia.
  - rewrite E in B. replace (n * (h / n + 1)) with (n * (h / n) + n) in B by lia.
    destruct (Nat.leb_spec (h mod n) (t mod n)); lia.
Qed.
Lemma inv_memory : forall n Sz L b l q, 3 <= n -> 4 * L <= Sz -> (Z.of_nat Sz < 2 ^ 32)%Z -> Forall (fun m => stamped m /\ room m <= L) l ->
  inv n Sz L b l -> memory_lines b q = map Some (tl (last_lines l (head b) q)).
Proof.
  intros n Sz L b l q N SL S32 F I. pose proof (inv_holds _ _ _ _ _ SL S32 F I) as [_ H].
  assert (TL : tail b = length l) by apply I. assert (HT : head b <= tail b) by apply I.
  assert (C : cap b = n) by apply I. assert (FW : tail b - head b < n) by apply I.
  unfold memory_lines. rewrite C. cbv zeta. rewrite count_mod by lia. unfold last_lines. rewrite from_tl.
  set (k := Nat.min (if q =? 0 then tail b - head b else q) (tail b - head b)).
  assert (KL : k <= tail b - head b) by (unfold k; lia).
  replace (k <=? tail b) with true by lia. rewrite H.
  assert (KK : tail b - k = if q =? 0 then head b else Nat.max (head b) (length l - q)).
  { unfold k. rewrite <- TL. destruct (Nat.eqb_spec q 0) as [E|E]; lia. }
  rewrite <- KK, <- TL.
  destruct (Nat.eq_dec (tail b - head b) 0) as [E|E].
  - pose proof (i_two _ _ _ _ _ I) as [W|[W1 [W2 _]]]; [lia|]. destruct l; [|cbn in TL; lia].
    rewrite from_end; [|cbn; lia]. rewrite from_end; [reflexivity|cbn; lia].
  - destruct (Nat.eq_dec k 0) as [E'|E'].
    + destruct (Nat.eqb_spec q 0); unfold k in E'; lia.
    + replace ((head b <=? tail b - k + 1) && (tail b - k + 1 <=? tail b)) with true by lia. reflexivity.
Qed.

(** * What is kept *)
Lemma rooms_skip : forall l i, rooms (skipn i l) + pre l i = pre l (length l).
Proof. intros l i. unfold pre. rewrite firstn_all. rewrite <- (firstn_skipn i l) at 3. rewrite rooms_app. lia. Qed.
Lemma inv_kept : forall n Sz L b l i, inv n Sz L b l -> i <= length l -> length l - i < n -> rooms (skipn i l) + L <= Sz -> head b <= i.
Proof.
  intros n Sz L b l i I H D R. pose proof (i_ret _ _ _ _ _ I) as RR. rewrite (i_tail _ _ _ _ _ I) in RR.
  pose proof (rooms_skip l i). destruct RR as [RR|[RR|RR]]; try lia.
  destruct (Nat.le_gt_cases (head b) i) as [|G]; [assumption|].
  pose proof (pre_mono l i (head b - 1) ltac:(lia)). lia.
Qed.

(** * Any line *)
Lemma writev_inside : forall b s x, length s = 16 ->
  fst (writev b s x) <> None /\ (fst (writev b s x) <> Some 0 -> fst (writev b s x) = Some (16 + length x)) /\
  size (snd (writev b s x)) = size b /\
  forall i, size b <= i -> segment (snd (writev b s x)) i = segment b i.
Proof.
  intros b s x HS. unfold writev. change (STAMP + length x) with (16 + length x).
  destruct (Nat.ltb_spec (size b) (16 + length x)) as [E|E].
  { cbn [fst snd]. repeat split; try discriminate. intro X. now contradiction X. }
  set (b1 := if cut b <? _ then _ else b).
  assert (S1 : size b1 = size b) by (unfold b1; now destruct (cut b <? _)).
  assert (G1 : segment b1 = segment b) by (unfold b1; now destruct (cut b <? _)).
  cbv zeta. rewrite S1.
  set (w := size b <? off b (tail b) + (16 + length x)).
  set (b2 := if w then _ else b1).
  assert (S2 : size b2 = size b) by (unfold b2; now destruct w).
  assert (G2 : segment b2 = segment b) by (unfold b2; now destruct w).
  set (o := if w then 0 else off b (tail b)).
  assert (OK : o + (16 + length x) <= size b) by (unfold o, w; destruct (Nat.ltb_spec (size b) (off b (tail b) + (16 + length x))); lia).
  destruct (negb _ && _).
  { cbn [fst snd]. rewrite S2, G2. repeat split; try discriminate. intro X. now contradiction X. }
  destruct (advance _ _ _ _ _) as [h|].
  - rewrite S2. replace (size b <? o + (16 + length x)) with false by lia.
    cbn [fst snd size segment]. repeat split; try discriminate.
    intros i H. rewrite store_out; [now rewrite G2|]. rewrite app_length, HS. lia.
  - cbn [fst snd]. rewrite S2, G2. repeat split; try discriminate. intro X. now contradiction X.
Qed.

(** * Stuck *)
Record stuck (b : membuf) : Prop := mkstuck {
  s_one : tail b = head b + 1;
  s_head : off b (head b) = 0;
  s_tail : off b (tail b) = 0;
  s_cap : cap b <> 0;
  s_len : length (offsets b) = cap b
}.
Lemma stuck_write : forall b s x, stuck b -> fst (writev b s x) = Some 0 /\ stuck (snd (writev b s x)).
Proof.
  intros b s x H. unfold writev. destruct (size b <? STAMP + length x); [now split|].
  set (b1 := if cut b <? _ then _ else b).
  assert (T1 : stuck b1) by (unfold b1; destruct (cut b <? _); [|exact H]; now constructor; apply H).
  set (w := size b1 <? _). cbv zeta. set (b2 := if w then _ else b1).
  assert (T2 : stuck b2).
  { unfold b2. destruct w; [|exact T1]. destruct T1 as [A B C D F].
    set (b0 := mkbuf _ _ _ _ _ _ _).
    assert (OF : forall j, off (set_off b0 (tail b1) 0) j = if j mod cap b1 =? tail b1 mod cap b1 then 0 else off b1 j)
      by (intro j; apply (off_set b0); assumption).
    constructor.
    - exact A.
    - change (head (set_off b0 (tail b1) 0)) with (head b1). rewrite OF, B. now destruct (_ =? _).
    - change (tail (set_off b0 (tail b1) 0)) with (tail b1). rewrite OF. now rewrite Nat.eqb_refl.
    - exact D.
    - cbn. now rewrite put_length. }
  replace (head b2 =? tail b2) with false by (rewrite (s_one _ T2); lia).
  replace (improper (bounds b2 (head b2)) _ _) with true; [now split|].
  unfold improper, bounds. rewrite <- (s_one _ T2), (s_head _ T2), (s_tail _ T2). reflexivity.
Qed.
Lemma stuck_all : forall l b, stuck b -> answers b l = map (fun _ => Some 0) l.
Proof.
  induction l as [|m l IH]; intros b H; [reflexivity|]. cbn [answers map].
  destruct (stuck_write b (fst m) (snd m) H) as [A B]. rewrite A. f_equal. now apply IH.
Qed.
Lemma stuck_two : forall n Sz junk a m, 2 <= n -> room a <= Sz -> room m <= Sz -> Sz < room a + room m ->
  fst (writev (init n Sz junk) (fst a) (snd a)) = Some (room a) /\
  fst (writev (snd (writev (init n Sz junk) (fst a) (snd a))) (fst m) (snd m)) = Some 0 /\
  stuck (snd (writev (snd (writev (init n Sz junk) (fst a) (snd a))) (fst m) (snd m))).
Proof.
  intros n Sz junk a m N A M W.
  set (b0 := init n Sz junk).
  assert (Z : forall i, off b0 i = 0) by (intro i; unfold off, b0, init; cbn [cap offsets]; apply nth_repeat).
  assert (C0 : cap b0 = n) by reflexivity.
  assert (L0 : length (offsets b0) = n) by (cbn; apply repeat_length).
  set (b1 := moved (added b0 0 (room a) (store junk 0 (full a)))).
  assert (W1 : writev b0 (fst a) (snd a) = (Some (room a), b1)).
  { pose proof (writev_A b0 a 0) as H. cbv zeta in H. rewrite Z in H. change (0 + room a) with (room a) in H.
    change (cut b0) with Sz in H. replace (Sz <? room a) with false in H by lia. apply H.
    - exact A.
    - now left.
    - reflexivity. }
  rewrite W1. cbn [fst snd]. split; [reflexivity|].
  assert (M1 : 1 mod n <> 0) by (rewrite Nat.mod_small; lia).
  assert (H1 : head b1 = 0).
  { unfold b1, moved, added. cbn [tail head cap]. change (tail b0 + 1) with 1. rewrite C0.
    replace (1 mod n =? 0 mod n) with false; [reflexivity|]. rewrite Nat.mod_0_l by lia. lia. }
  assert (T1 : tail b1 = 1) by reflexivity.
  assert (C1 : cap b1 = n) by reflexivity.
  assert (L1 : length (offsets b1) = n) by (cbn; rewrite put_length; exact L0).
  assert (O0 : off b1 0 = 0).
  { change (off b1 0) with (off (set_off b0 1 (room a)) 0). rewrite off_set_other by lia. apply Z. }
  assert (O1 : off b1 1 = room a) by (apply (off_set_same b0 1 (room a)); lia).
  assert (S1 : size b1 = Sz) by reflexivity.
  assert (K1 : cut b1 = Sz) by reflexivity.
  clearbody b1. unfold writev. change (STAMP + length (snd m)) with (room m). rewrite S1, K1.
  replace (Sz <? room m) with false by lia. rewrite T1, O1.
  replace (Sz <? room a + room m) with true by lia. cbv zeta. cbn [size].
  replace (Sz <? room a + room m) with true by lia. cbn [head tail cap offsets segment].
  set (b2 := set_off _ _ _).
  assert (T2 : stuck b2).
  { unfold b2. constructor.
    - cbn. rewrite H1. exact eq_refl.
    - cbn [head set_off]. rewrite H1. rewrite off_set_other; cbn; try lia. rewrite C1. unfold off in O0. now rewrite C1 in O0.
    - cbn [tail set_off]. apply off_set_same; cbn; lia.
    - cbn. lia.
    - cbn. rewrite put_length. lia. }
  replace (head b2 =? tail b2) with false by (rewrite (s_one _ T2); lia).
  replace (improper (bounds b2 (head b2)) _ _) with true; [now split|].
  unfold improper, bounds. rewrite <- (s_one _ T2), (s_head _ T2), (s_tail _ T2). reflexivity.
Qed.
