From Coq Require Import Arith NArith ZArith List Bool Lia ZifyBool ZifyNat ZifyN.
From Verif.Kmp Require Import Model Spec.
Import ListNotations.

Section K.
(** the pattern including the byte after it, as a total function *)
Variable P : nat -> N.
Variable n : nat.
Variable pat : nat -> option N.
Hypothesis Hpat : forall i, i <= n -> pat i = Some (P i).

(** the prefix of length [b] ends text [t] at position [k] *)
Definition suf (t : nat -> N) (b k : nat) : Prop := b <= k /\ forall x, x < b -> P x = t (k - b + x).

Definition strong (c : nat) (v : Z) : Prop :=
  (v = (-1)%Z /\ forall b, b < c -> suf P b c -> P b = P c) \/
  (exists b0, v = Z.of_nat b0 /\ b0 < c /\ suf P b0 c /\ P b0 <> P c /\
     forall b, b0 < b -> b < c -> suf P b c -> P b = P c).

Lemma suf_0 t k : suf t 0 k.
Proof. split; [lia|]. intros; lia. Qed.

Lemma suf_trans t b c k : suf P b c -> suf t c k -> suf t b k.
Proof.
  intros [L1 H1] [L2 H2]. split; [lia|]. intros x Hx. rewrite H1 by lia. rewrite H2 by lia. f_equal; lia.
Qed.

Lemma suf_down t b c k : suf t b k -> suf t c k -> b <= c -> suf P b c.
Proof.
  intros [L1 H1] [L2 H2] L. split; [lia|]. intros x Hx. rewrite H1 by lia. rewrite H2 by lia. f_equal; lia.
Qed.

Lemma suf_S t b k : suf t (S b) (S k) <-> suf t b k /\ P b = t k.
Proof.
  split.
  - intros [L H]. split; [split; [lia|]|].
    + intros x Hx. rewrite H by lia. f_equal; lia.
    + rewrite H by lia. f_equal; lia.
  - intros [[L H] E]. split; [lia|]. intros x Hx. destruct (Nat.eq_dec x b) as [->|].
    + rewrite E. f_equal; lia.
    + rewrite H by lia. f_equal; lia.
Qed.

(** [i] is a match of text [t] at [k] and longer candidates cannot be extended by [c] *)
Definition cand (t : nat -> N) (k lim : nat) (c : N) (i : Z) : Prop :=
  (-1 <= i < Z.of_nat lim)%Z /\ ((0 <= i)%Z -> suf t (Z.to_nat i) k) /\
  (forall b, (i < Z.of_nat b)%Z -> b < lim -> suf t b k -> P b <> c).

Lemma advance_ok tb t k lim c : lim <= S n ->
  (forall i, i < lim -> exists v, tb i = Some v /\ strong i v) ->
  forall fuel i, (i + 1 < Z.of_nat fuel)%Z -> cand t k lim c i ->
  exists r, advance fuel pat tb c i = Some r /\ cand t k lim c r /\ ((0 <= r)%Z -> P (Z.to_nat r) = c).
Proof.
  intros LN T. induction fuel as [|f IH]; intros i F C; [destruct C; lia|].
  cbn [advance]. destruct (Z.ltb_spec (-1) i) as [L|L].
  2:{ exists i. split; [reflexivity|]. split; [exact C|lia]. }
  destruct C as (R & S & A).
  rewrite Hpat by lia. destruct (N.eqb_spec (P (Z.to_nat i)) c) as [E|E].
  { exists i. split; [reflexivity|]. split; [split; [exact R|split; assumption]|auto]. }
  destruct (T (Z.to_nat i)) as (v & -> & SV); [lia|].
  specialize (S ltac:(lia)).
  apply IH.
  - destruct SV as [[-> _]|(b0 & -> & Lb & _)]; lia.
  - destruct SV as [[-> HB]|(b0 & -> & Lb & SB & NE & HB)].
    + split; [lia|]. split; [lia|]. intros b _ Lb SB.
      destruct (Z_lt_le_dec i (Z.of_nat b)) as [G|G]; [apply A; assumption|].
      destruct (Nat.eq_dec b (Z.to_nat i)) as [->|]; [exact E|].
      assert (suf P b (Z.to_nat i)) as SP by (eapply suf_down; [exact SB|exact S|lia]).
      rewrite (HB b) by (assumption || lia). exact E.
    + split; [lia|]. split.
      * intros _. rewrite Nat2Z.id. eapply suf_trans; eassumption.
      * intros b Lb' Llim SB'.
        destruct (Z_lt_le_dec i (Z.of_nat b)) as [G|G]; [apply A; assumption|].
        destruct (Nat.eq_dec b (Z.to_nat i)) as [->|]; [exact E|].
        assert (suf P b (Z.to_nat i)) as SP by (eapply suf_down; [exact SB'|exact S|lia]).
        rewrite (HB b) by (assumption || lia). exact E.
Qed.

Lemma pre_loop_ok : forall m fuel tb i j,
  i + m = n -> n < KMPPATSIZE -> S n < fuel ->
  (forall k, k <= i -> exists v, tb k = Some v /\ strong k v) ->
  (-1 <= j < Z.of_nat i)%Z \/ (i = 0 /\ j = (-1)%Z) ->
  ((0 <= j)%Z -> suf P (Z.to_nat j) i) ->
  (forall b, (j < Z.of_nat b)%Z -> b < i -> ~ suf P b i) ->
  exists tb', pre_loop m fuel pat tb i j = Some tb' /\ forall k, k <= n -> exists v, tb' k = Some v /\ strong k v.
Proof.
  induction m as [|m IH]; intros fuel tb i j E B F T J SJ MX.
  - exists tb. split; [reflexivity|]. replace i with n in T by lia. exact T.
  - cbn [pre_loop]. rewrite Hpat by lia.
    destruct (advance_ok tb P i i (P i)) with (fuel := fuel) (i := j) as (r & -> & (R & SR & MR) & ER).
    + lia.
    + intros k Hk. apply T. lia.
    + lia.
    + split; [lia|]. split; [exact SJ|]. intros b Hb Li SB. exfalso. eapply MX; eassumption.
    + (* the longest proper border of length i+1 is r+1 *)
      assert (suf P (Z.to_nat (r + 1)) (S i)) as SB.
      { destruct (Z_lt_le_dec r 0) as [G|G].
        - replace (Z.to_nat (r + 1)) with 0 by lia. apply suf_0.
        - replace (Z.to_nat (r + 1)) with (S (Z.to_nat r)) by lia. apply suf_S. auto. }
      assert (forall b, (r + 1 < Z.of_nat b)%Z -> b < S i -> ~ suf P b (S i)) as MB.
      { intros b Hb Li SB'. destruct b as [|b]; [lia|]. apply suf_S in SB' as [SB' EB].
        apply (MR b); [lia|lia|exact SB'|exact EB]. }
      rewrite (Hpat (S i)), (Hpat (Z.to_nat (r + 1))) by lia.
      set (q := Z.to_nat (r + 1)) in *.
      assert (q < S i) as Lq by lia.
      assert (exists v, (if N.eqb (P (S i)) (P q) then tb q else Some (r + 1)%Z) = Some v /\ strong (S i) v) as (v & EV & SV).
      { destruct (N.eqb_spec (P (S i)) (P q)) as [EQ|NQ].
        - destruct (T q) as (v & Ev & Sv); [lia|]. exists v. split; [exact Ev|].
          assert (forall b, b < S i -> suf P b (S i) -> b = q \/ (b < q /\ suf P b q)) as DEC.
          { intros b Lb Sb. destruct (Nat.lt_total b q) as [G|[G|G]]; [|left; exact G|].
            - right. split; [exact G|]. eapply suf_down; [exact Sb|exact SB|lia].
            - exfalso. apply (MB b); [lia|exact Lb|exact Sb]. }
          destruct Sv as [[-> HB]|(b0 & -> & Lb0 & Sb0 & N0 & HB)].
          + left. split; [reflexivity|]. intros b Lb Sb. rewrite EQ.
            destruct (DEC b Lb Sb) as [->|[G Sq]]; [reflexivity|]. apply HB; assumption.
          + right. exists b0. split; [reflexivity|]. split; [lia|]. split; [eapply suf_trans; eassumption|].
            split; [rewrite EQ; exact N0|]. intros b G Lb Sb. rewrite EQ.
            destruct (DEC b Lb Sb) as [->|[G' Sq]]; [reflexivity|]. apply HB; assumption.
        - exists (r + 1)%Z. split; [reflexivity|]. right. exists q. split; [lia|]. split; [exact Lq|].
          split; [exact SB|]. split; [congruence|]. intros b G Lb Sb. exfalso. apply (MB b); [lia|exact Lb|exact Sb]. }
      cbv zeta. rewrite EV. unfold store. destruct (Nat.ltb_spec (S i) KMPPATSIZE) as [Lt|]; [|lia].
      apply IH.
      * lia.
      * exact B.
      * exact F.
      * intros k Hk. destruct (Nat.eqb_spec k (S i)) as [->|]; [exists v; auto|]. apply T. lia.
      * left. lia.
      * intros _. exact SB.
      * exact MB.
Qed.

Lemma precompute_ok : n < KMPPATSIZE ->
  exists tb, precompute pat n = Some tb /\ forall k, k <= n -> exists v, tb k = Some v /\ strong k v.
Proof.
  intros B. unfold precompute, store. destruct (Nat.ltb_spec 0 KMPPATSIZE) as [_|G]; [|unfold KMPPATSIZE in G; lia].
  apply pre_loop_ok.
  - lia.
  - exact B.
  - lia.
  - intros k Hk. assert (k = 0) as -> by lia. exists (-1)%Z. split; [reflexivity|]. left. split; [reflexivity|]. intros; lia.
  - lia.
  - lia.
  - intros; lia.
Qed.

Lemma match_loop_ok tb (t : nat -> N) hl : 0 < n ->
  (forall k, k <= n -> exists v, tb k = Some v /\ strong k v) ->
  forall hay i j fuel, j + length hay = hl -> (forall x, x < length hay -> nth_error hay x = Some (t (j + x))) ->
  S n < fuel -> (0 <= i < Z.of_nat n)%Z -> suf t (Z.to_nat i) j ->
  (forall b, (i < Z.of_nat b)%Z -> b <= n -> ~ suf t b j) ->
  (forall k, k <= j -> ~ suf t n k) ->
  match match_loop fuel pat n tb hay i j with
  | Found off => off + n <= hl /\ suf t n (off + n) /\ forall k, k < off + n -> ~ suf t n k
  | NotFound => forall k, k <= hl -> ~ suf t n k
  | _ => False
  end.
Proof.
  intros NP T. induction hay as [|c r IH]; intros i j fuel E H F I SI MX NO.
  - cbn [match_loop]. cbn in E. intros k Hk. apply NO. lia.
  - cbn [match_loop].
    assert (c = t j) as -> by (specialize (H 0 ltac:(cbn; lia)); cbn in H; rewrite Nat.add_0_r in H; congruence).
    destruct (advance_ok tb t j n (t j)) with (fuel := fuel) (i := i) as (q & -> & (Q & SQ & MQ) & EQ).
    + lia.
    + intros k Hk. apply T. lia.
    + lia.
    + split; [lia|]. split; [intros _; exact SI|]. intros b Hb Lb SB. exfalso. apply (MX b); [exact Hb|lia|exact SB].
    + assert (suf t (Z.to_nat (q + 1)) (S j)) as SB.
      { destruct (Z_lt_le_dec q 0) as [G|G].
        - replace (Z.to_nat (q + 1)) with 0 by lia. apply suf_0.
        - replace (Z.to_nat (q + 1)) with (S (Z.to_nat q)) by lia. apply suf_S. auto. }
      assert (forall b, (q + 1 < Z.of_nat b)%Z -> b <= n -> ~ suf t b (S j)) as MB.
      { intros b Hb Lb SB'. destruct b as [|b]; [lia|]. apply suf_S in SB' as [SB' EB].
        apply (MQ b); [lia|lia|exact SB'|exact EB]. }
      cbn [length] in E.
      destruct (Z.leb_spec (Z.of_nat n) (q + 1)) as [L|L].
      * assert (Z.to_nat (q + 1) = n) as EN by lia. rewrite EN in *.
        pose proof (proj1 SB) as LE.
        replace (S j - n + n) with (S j) by lia.
        split; [lia|]. split; [exact SB|]. intros k Hk. apply NO. lia.
      * apply IH.
        -- lia.
        -- intros x Hx. specialize (H (S x) ltac:(cbn; lia)). cbn [nth_error] in H. rewrite H. do 2 f_equal; lia.
        -- exact F.
        -- lia.
        -- exact SB.
        -- exact MB.
        -- intros k Hk. destruct (Nat.eq_dec k (S j)) as [->|]; [apply MB; lia|apply NO; lia].
Qed.
End K.

(** ** Lists *)
Lemma occurs_iff (needle hay : list N) p :
  occurs_at needle hay p <->
  p + length needle <= length hay /\ forall x, x < length needle -> nth x needle 0%N = nth (p + x) hay 0%N.
Proof.
  split.
  - intros (pre & post & -> & <-). rewrite !app_length. split; [lia|]. intros x Hx.
    rewrite (app_nth2 pre) by lia. replace (length pre + x - length pre) with x by lia.
    rewrite app_nth1 by lia. reflexivity.
  - intros [L H]. exists (firstn p hay), (skipn (length needle) (skipn p hay)). split.
    + rewrite <- (firstn_skipn p hay) at 1. f_equal.
      rewrite <- (firstn_skipn (length needle) (skipn p hay)) at 1. f_equal.
      assert (length (firstn (length needle) (skipn p hay)) = length needle) as LL by (rewrite firstn_length, skipn_length; lia).
      apply (nth_ext _ _ 0%N 0%N); [exact LL|]. intros x Hx. rewrite LL in Hx. rewrite H by exact Hx.
      rewrite <- (firstn_skipn p hay) at 2. rewrite app_nth2; rewrite firstn_length; [|lia].
      replace (p + x - Nat.min p (length hay)) with x by lia.
      rewrite <- (firstn_skipn (length needle) (skipn p hay)) at 2.
      rewrite app_nth1 by lia. reflexivity.
    + rewrite firstn_length. lia.
Qed.

Lemma suf_occurs (needle hay : list N) (pb : N) k : k <= length hay ->
  suf (fun i => nth i (needle ++ [pb]) 0%N) (fun i => nth i hay 0%N) (length needle) k <->
  (length needle <= k /\ occurs_at needle hay (k - length needle)).
Proof.
  intros Lk. unfold suf. split.
  - intros [L H]. split; [exact L|]. apply occurs_iff. split; [lia|]. intros x Hx.
    specialize (H x Hx). rewrite app_nth1 in H by exact Hx. exact H.
  - intros [L H]. apply occurs_iff in H as [_ H]. split; [exact L|]. intros x Hx.
    rewrite app_nth1 by exact Hx. apply H. exact Hx.
Qed.

Lemma strnstrn_ok needle b hay : length needle < KMPPATSIZE ->
  match strnstrn needle (Some b) hay with
  | Found off => first_occurrence needle hay off
  | NotFound => forall p, ~ occurs_at needle hay p
  | _ => False
  end.
Proof.
  intros B. unfold strnstrn.
  destruct (Nat.eqb_spec (length needle) 0) as [E0|E0].
  { apply length_zero_iff_nil in E0. subst. split; [|lia]. exists [], hay. auto. }
  destruct (Nat.ltb_spec KMPPATSIZE (length needle)) as [G|_]; [lia|].
  set (P := fun i => nth i (needle ++ [b]) 0%N).
  assert (forall i, i <= length needle -> rd needle (Some b) i = Some (P i)) as HP.
  { intros i Hi. unfold rd, P. destruct (Nat.ltb_spec i (length needle)) as [L|L].
    - rewrite app_nth1 by exact L. rewrite (nth_error_nth' needle 0%N L). reflexivity.
    - assert (i = length needle) as -> by lia. rewrite Nat.eqb_refl. rewrite app_nth2 by lia. rewrite Nat.sub_diag. reflexivity. }
  destruct (precompute_ok P (length needle) _ HP B) as (tb & -> & T).
  pose proof (match_loop_ok P (length needle) _ HP tb (fun i => nth i hay 0%N) (length hay) ltac:(lia) T hay 0%Z 0 (S (S (length needle)))) as M.
  specialize (M eq_refl).
  assert (forall x, x < length hay -> nth_error hay x = Some (nth (0 + x) hay 0%N)) as HX.
  { intros x Hx. cbn. now apply nth_error_nth'. }
  assert (suf P (fun i => nth i hay 0%N) (Z.to_nat 0) 0) as M0 by (split; [cbn; lia|cbn; intros; lia]).
  specialize (M HX ltac:(lia) ltac:(lia) M0).
  assert (forall b0, (0 < Z.of_nat b0)%Z -> b0 <= length needle -> ~ suf P (fun i => nth i hay 0%N) b0 0) as M1.
  { intros b0 L1 L2 [L3 _]. lia. }
  assert (forall k, k <= 0 -> ~ suf P (fun i => nth i hay 0%N) (length needle) k) as M2.
  { intros k L1 [L3 _]. lia. }
  specialize (M M1 M2).
  destruct (match_loop _ _ _ _ _ _ _) as [off| | |].
  - destruct M as (L & S & U). split.
    + apply suf_occurs in S; [|exact L]. replace (off + length needle - length needle) with off in S by lia. tauto.
    + intros q OC. destruct (Nat.le_gt_cases off q) as [|G]; [assumption|]. exfalso.
      pose proof OC as OC'. apply occurs_iff in OC' as [L' _].
      apply (U (q + length needle)); [lia|]. apply suf_occurs; [lia|].
      replace (q + length needle - length needle) with q by lia. split; [lia|exact OC].
  - intros p OC. pose proof OC as OC'. apply occurs_iff in OC' as [L' _].
    apply (M (p + length needle)); [lia|]. apply suf_occurs; [lia|].
    replace (p + length needle - length needle) with p by lia. split; [lia|exact OC].
  - exact M.
  - exact M.
Qed.

(** ** Where the code goes wrong *)
Lemma advance_Some_range (pat : nat -> option N) tb c : forall fuel i r, advance fuel pat tb c i = Some r -> (-1 <= i)%Z ->
  (forall k v, tb k = Some v -> (-1 <= v)%Z) -> (-1 <= r)%Z.
Proof.
  induction fuel as [|f IH]; intros i r H L T; [discriminate|]. cbn in H.
  destruct (Z.ltb_spec (-1) i).
  - destruct (pat (Z.to_nat i)) as [x|]; [|discriminate]. destruct (N.eqb x c); [injection H as <-; lia|].
    destruct (tb (Z.to_nat i)) as [v|] eqn:E; [|discriminate]. eapply IH; [exact H|eapply T; exact E|exact T].
  - injection H as <-. exact L.
Qed.

(** the last round always reads pattern[len] and stores compile_buf[len] *)
Lemma pre_loop_last pat : forall m fuel tb i j, 0 < m -> pat (i + m) = None \/ KMPPATSIZE <= i + m ->
  pre_loop m fuel pat tb i j = None.
Proof.
  induction m as [|m IH]; intros fuel tb i j M H; [lia|]. cbn [pre_loop].
  destruct (pat i); [|reflexivity]. destruct (advance fuel pat tb n j) as [j1|]; [|reflexivity].
  destruct (pat (S i)) as [a|] eqn:EA; [|reflexivity]. destruct (pat (Z.to_nat (j1 + 1))) as [b|]; [|reflexivity].
  cbv zeta. destruct (if N.eqb a b then tb (Z.to_nat (j1 + 1)) else Some (j1 + 1)%Z) as [v|]; [|reflexivity].
  destruct (store tb (S i) v) as [tb'|] eqn:ES; [|reflexivity].
  destruct m as [|m].
  - exfalso. replace (i + 1) with (S i) in H by lia. destruct H as [H|H]; [congruence|].
    unfold store in ES. destruct (Nat.ltb_spec (S i) KMPPATSIZE); [lia|discriminate].
  - apply IH; [lia|]. replace (S i + S m) with (i + S (S m)) by lia. exact H.
Qed.

Lemma strnstrn_fault needle past hay : 0 < length needle <= KMPPATSIZE -> past = None \/ length needle = KMPPATSIZE ->
  strnstrn needle past hay = Fault.
Proof.
  intros L H. unfold strnstrn. destruct (Nat.eqb_spec (length needle) 0); [lia|].
  destruct (Nat.ltb_spec KMPPATSIZE (length needle)); [lia|].
  unfold precompute. destruct (store empty 0 (-1)) as [tb|]; [|reflexivity].
  rewrite pre_loop_last; [reflexivity|lia|]. rewrite Nat.add_0_l. destruct H as [->|H]; [left|right; lia].
  unfold rd. rewrite Nat.ltb_irrefl, Nat.eqb_refl. reflexivity.
Qed.

Lemma strnstrn_abort needle past hay : KMPPATSIZE < length needle -> strnstrn needle past hay = Abort.
Proof.
  intros L. unfold strnstrn. destruct (Nat.eqb_spec (length needle) 0); [lia|].
  destruct (Nat.ltb_spec KMPPATSIZE (length needle)); [reflexivity|lia].
Qed.

Lemma strnstrn_exact needle b hay : length needle < KMPPATSIZE -> forall p,
  (strnstrn needle (Some b) hay = Found p <-> first_occurrence needle hay p).
Proof.
  intros L p. pose proof (strnstrn_ok needle b hay L) as H. split.
  - intros E. rewrite E in H. exact H.
  - intros [O U]. destruct (strnstrn needle (Some b) hay) as [off| | |]; [|exfalso; eapply H; exact O|contradiction|contradiction].
    destruct H as [O' U']. f_equal. pose proof (U off O'). pose proof (U' p O). lia.
Qed.

Lemma strnstrn_null needle b hay : length needle < KMPPATSIZE ->
  (strnstrn needle (Some b) hay = NotFound <-> forall p, ~ occurs_at needle hay p).
Proof.
  intros L. pose proof (strnstrn_ok needle b hay L) as H. split.
  - intros E. rewrite E in H. exact H.
  - intros U. destruct (strnstrn needle (Some b) hay) as [off| | |]; [|reflexivity|contradiction|contradiction].
    exfalso. destruct H as [O _]. eapply U; exact O.
Qed.

Lemma strnstrn_total needle b hay : length needle < KMPPATSIZE ->
  (exists p, strnstrn needle (Some b) hay = Found p) \/ strnstrn needle (Some b) hay = NotFound.
Proof.
  intros L. pose proof (strnstrn_ok needle b hay L) as H. destruct (strnstrn needle (Some b) hay) as [off| | |]; eauto; contradiction.
Qed.

Lemma strnstrn_past_irrelevant needle b b' hay : length needle < KMPPATSIZE ->
  strnstrn needle (Some b) hay = strnstrn needle (Some b') hay.
Proof.
  intros L. destruct (strnstrn_total needle b hay L) as [[p E]|E]; rewrite E; symmetry.
  - apply strnstrn_exact; [exact L|]. apply (strnstrn_exact needle b hay L p). exact E.
  - apply strnstrn_null; [exact L|]. apply (strnstrn_null needle b hay L). exact E.
Qed.
