From Coq Require Import ZArith NArith List Bool Lia ZifyBool ZifyNat ZifyN.
From Verif.Common Require Import Bits.
From Verif.Url Require Import Model Spec.
Import ListNotations.
Ltac Zify.zify_post_hook ::= Z.div_mod_to_equations.
Open Scope Z_scope.

(** ** Tables *)
Lemma isallowed_spec c : isallowed c = true <-> unreserved c.
Proof.
  destruct (N.lt_ge_cases c 256) as [H|H].
  - pose (u := fun c => (((65 <=? c) && (c <=? 90)) || ((97 <=? c) && (c <=? 122)) || ((48 <=? c) && (c <=? 57))
       || (c =? 45) || (c =? 46) || (c =? 95) || (c =? 126))%N%bool).
    assert (isallowed c = u c) as ->.
    { apply eqb_prop. apply (all_below_spec 256 (fun c => Bool.eqb (isallowed c) (u c))); [vm_compute; reflexivity|exact H]. }
    unfold u, unreserved. lia.
  - assert (isallowed c = false) as ->.
    { unfold isallowed. rewrite nth_overflow; [apply N.bits_0|]. change (length isallowed_words) with 8%nat. lia. }
    unfold unreserved. split; [discriminate|lia].
Qed.

Lemma hexval_digit c v : hexdigit c v -> hexval c = v.
Proof.
  unfold hexdigit, hexval. intros H.
  destruct ((49 <=? c) && (c <=? 57))%N eqn:E1; [lia|].
  destruct ((65 <=? c) && (c <=? 70))%N eqn:E2; [lia|].
  destruct ((97 <=? c) && (c <=? 102))%N eqn:E3; lia.
Qed.

Lemma hexok_cases c : hexok c = true <-> (48 <= c <= 57 \/ 65 <= c <= 70 \/ 97 <= c <= 102)%N.
Proof.
  unfold hexok, hexval.
  destruct ((49 <=? c) && (c <=? 57))%N eqn:E1; [lia|].
  destruct ((65 <=? c) && (c <=? 70))%N eqn:E2; [lia|].
  destruct ((97 <=? c) && (c <=? 102))%N eqn:E3; lia.
Qed.

Lemma hexok_spec c : (hexok c = true <-> hexdigit c (hexval c)) /\ (forall v, hexdigit c v -> hexok c = true /\ v = hexval c).
Proof.
  assert (forall v, hexdigit c v -> hexok c = true) as A.
  { intros v Hv. apply hexok_cases. unfold hexdigit in Hv. lia. }
  split; [split; [|apply A]|].
  - intros H. apply hexok_cases in H.
    assert (exists v, hexdigit c v) as [v Hv].
    { unfold hexdigit. destruct H as [H|[H|H]];
        [exists (c - 48)%N|exists (c - 55)%N|exists (c - 87)%N]; lia. }
    rewrite (hexval_digit _ _ Hv). exact Hv.
  - intros v Hv. split; [eapply A; eassumption|symmetry; apply hexval_digit; exact Hv].
Qed.

Lemma hex_byte x y : (x < 16)%N -> (y < 16)%N -> N.lor (N.shiftl x 4) y = (16 * x + y)%N.
Proof. intros. rewrite shiftl_mul, (lor_disjoint x y 4) by (change (2 ^ 4)%N with 16%N; lia). lia. Qed.

Lemma hexval_lt c : (hexval c < 16)%N.
Proof. unfold hexval.
  destruct ((49 <=? c) && (c <=? 57))%N eqn:E1; [lia|].
  destruct ((65 <=? c) && (c <=? 70))%N eqn:E2; [lia|].
  destruct ((97 <=? c) && (c <=? 102))%N eqn:E3; lia.
Qed.

Lemma hexchar_spec v : (v < 16)%N -> hexchar v = updigit v.
Proof.
  intros H. apply N.eqb_eq. apply (all_below_spec 16 (fun v => N.eqb (hexchar v) (updigit v))); [vm_compute; reflexivity|exact H].
Qed.

Lemma updigit_hex v : (v < 16)%N -> hexdigit (updigit v) v.
Proof. intros H. unfold updigit, hexdigit. destruct (N.ltb_spec v 10); lia. Qed.

(** ** Spec-level facts *)
Lemma encodes_decodes l t : bytes l -> pct_encodes l t -> pct_decodes t l.
Proof.
  intros HB H. induction H as [|c l t U H IH|c l t U H IH]; inversion HB; subst.
  - constructor.
  - constructor; auto.
  - unfold is_byte in *. replace c with (16 * (c / 16) + c mod 16)%N at 3 by lia.
    constructor; [apply updigit_hex; lia|apply updigit_hex; lia|auto].
Qed.

Lemma encodes_length l t : pct_encodes l t -> (length l <= length t <= 3 * length l)%nat.
Proof. induction 1; cbn; lia. Qed.

Lemma decodes_fun t l : pct_decodes t l -> forall l', pct_decodes t l' -> l = l'.
Proof.
  induction 1 as [|c t l U H IH|a b x y t l Ha Hb H IH]; intros l' H'; inversion H'; subst; auto.
  - f_equal. auto.
  - unfold unreserved in U. lia.
  - match goal with U : unreserved 37 |- _ => unfold unreserved in U; lia end.
  - f_equal; [|auto]. unfold hexdigit in *. lia.
Qed.

Lemma decodes_length t l : pct_decodes t l -> (length l <= length t)%nat.
Proof. induction 1; cbn; lia. Qed.

(** ** Memory *)
Lemma block_length m a n : length (block m a n) = n.
Proof. revert a. induction n; intros; cbn; auto. Qed.

Lemma block_ext m m' a n : (forall x, a <= x < a + Z.of_nat n -> m x = m' x) -> block m a n = block m' a n.
Proof.
  revert a. induction n as [|n IH]; intros a H; [reflexivity|].
  cbn [block]. rewrite (H a) by lia. f_equal. apply IH. intros x Hx. apply H. lia.
Qed.

Lemma put_same m a v : put m a v a = v.
Proof. unfold put. now rewrite Z.eqb_refl. Qed.
Lemma put_other m a v x : x <> a -> put m a v x = m x.
Proof. intros H. unfold put. destruct (Z.eqb_spec x a); [contradiction|reflexivity]. Qed.

Lemma block_put m a v b n : a < b \/ b + Z.of_nat n <= a -> block (put m a v) b n = block m b n.
Proof. intros H. apply block_ext. intros x Hx. apply put_other. lia. Qed.

(** ** Encoder *)
Lemma encode_loop_spec k : forall m src dest outp w,
  (src + Z.of_nat k <= outp \/ outp + 2 * Z.of_nat k <= src) ->
  bytes (block m src k) ->
  let r := encode_loop k m src dest outp w in
  exists t, pct_encodes (block m src k) t /\
    ret r = Some (outp - dest + Z.of_nat (length t)) /\
    block (rmem r) outp (length t) = t /\
    rmem r (outp + Z.of_nat (length t)) = 0%N /\
    (forall x, x < outp -> rmem r x = m x) /\
    (forall x, In x (wrote r) <-> In x w \/ outp <= x <= outp + Z.of_nat (length t)).
Proof.
  induction k as [|k IH]; intros m src dest outp w HS HB r.
  - exists []. cbn in r. cbn [length block]. subst r. cbn [ret rmem wrote].
    split; [constructor|]. split; [f_equal; lia|]. split; [reflexivity|].
    split; [replace (outp + Z.of_nat 0) with outp by lia; apply put_same|].
    split; [intros; apply put_other; lia|]. intros x. cbn [In]. intuition lia.
  - cbn [block] in HB. inversion HB as [|? ? HB0 HB1]; subst.
    cbn [encode_loop] in r. destruct (isallowed (m src)) eqn:A.
    + destruct (IH (put m outp (m src)) (src + 1) dest (outp + 1) (outp :: w)) as (t & T1 & T2 & T3 & T4 & T5 & T6).
      * lia.
      * rewrite block_put by lia. exact HB1.
      * fold r in T2, T3, T4, T5, T6. rewrite block_put in T1 by lia.
        exists (m src :: t). split; [constructor; [apply isallowed_spec; exact A|exact T1]|].
        split; [rewrite T2; cbn [length]; f_equal; lia|].
        split; [cbn [length block]; rewrite T3, T5 by lia; rewrite put_same; reflexivity|].
        split; [rewrite <- T4; f_equal; cbn [length]; lia|].
        split; [intros x Hx; rewrite T5 by lia; apply put_other; lia|].
        intros x. rewrite T6. cbn [In length]. intuition lia.
    + match type of r with ?T => idtac end.
      set (m1 := put m outp 37%N) in r.
      set (m2 := put m1 (outp + 1) (hexchar (N.shiftr (m1 src) 4))) in r.
      set (m3 := put m2 (outp + 2) (hexchar (N.land (m2 src) 15))) in r.
      assert (m1 src = m src) as E1 by (apply put_other; lia).
      assert (m2 src = m src) as E2 by (unfold m2; rewrite put_other by lia; exact E1).
      assert (block m3 (src + 1) k = block m (src + 1) k) as EB.
      { unfold m3, m2, m1. rewrite !block_put by lia. reflexivity. }
      destruct (IH m3 (src + 1) dest (outp + 3) (outp + 2 :: outp + 1 :: outp :: w)) as (t & T1 & T2 & T3 & T4 & T5 & T6).
      * lia.
      * rewrite EB. exact HB1.
      * fold r in T2, T3, T4, T5, T6. rewrite EB in T1.
        unfold is_byte in HB0.
        exists (37%N :: updigit (m src / 16) :: updigit (m src mod 16) :: t).
        split. { constructor; [|exact T1]. intros U. apply isallowed_spec in U. congruence. }
        split; [rewrite T2; cbn [length]; f_equal; lia|].
        split.
        { cbn [length block].
          replace (outp + 1 + 1 + 1) with (outp + 3) by lia. rewrite T3.
          replace (outp + 1 + 1) with (outp + 2) by lia.
          rewrite !T5 by lia. unfold m3 at 3. rewrite put_same.
          unfold m3. rewrite !(put_other _ (outp + 2)) by lia.
          unfold m2 at 2. rewrite put_same. unfold m2 at 1. rewrite put_other by lia.
          unfold m1 at 1. rewrite put_same. rewrite E1, E2.
          rewrite !hexchar_spec.
          - rewrite shiftr_div. change (2 ^ 4)%N with 16%N.
            replace (N.land (m src) 15) with (m src mod 16)%N by (symmetry; apply (N.land_ones _ 4)). reflexivity.
          - change 15%N with (N.ones 4). rewrite N.land_ones. change (2 ^ 4)%N with 16%N. lia.
          - rewrite shiftr_div. change (2 ^ 4)%N with 16%N. lia. }
        split; [rewrite <- T4; f_equal; cbn [length]; lia|].
        split.
        { intros x Hx. rewrite T5 by lia. unfold m3, m2, m1. rewrite !put_other by lia. reflexivity. }
        intros x. rewrite T6. cbn [In length]. intuition lia.
Qed.

Lemma block_memmove m dst src n : block (memmove m dst src (Z.of_nat n)) dst n = block m src n.
Proof.
  enough (forall k a, a + Z.of_nat k <= Z.of_nat n -> 0 <= a ->
    block (memmove m dst src (Z.of_nat n)) (dst + a) k = block m (src + a) k) as H.
  { specialize (H n 0 ltac:(lia) ltac:(lia)). now rewrite !Z.add_0_r in H. }
  induction k as [|k IH]; intros a Ha H0; [reflexivity|].
  cbn [block]. rewrite <- !Z.add_assoc, IH by lia. f_equal.
  unfold memmove. destruct (Z.leb_spec dst (dst + a)); [|lia].
  destruct (Z.ltb_spec (dst + a) (dst + Z.of_nat n)); [|lia]. cbn [andb]. f_equal. lia.
Qed.

Lemma in_addrs n : forall a x, In x (addrs a n) <-> a <= x < a + Z.of_nat n.
Proof. induction n as [|n IH]; intros a x; cbn [addrs In]; [lia|]. rewrite IH. lia. Qed.

Definition layout_enc (src n dest dlen : Z) : Prop :=
  disjoint src n dest (3 * n + 1) \/ dest <= src < dest + dlen.

Lemma url_encode_full m src n dest dlen :
  bytes (block m src n) -> 3 * Z.of_nat n <= dlen -> layout_enc src (Z.of_nat n) dest dlen ->
  let r := url_encode m src n dest dlen in
  exists t, pct_encodes (block m src n) t /\
    ret r = Some (Z.of_nat (length t)) /\ block (rmem r) dest (length t) = t /\
    rmem r (dest + Z.of_nat (length t)) = 0%N /\
    (forall x, In x (wrote r) <->
       (dest <= src < dest + dlen /\ dest + dlen - Z.of_nat n <= x < dest + dlen) \/
       dest <= x <= dest + Z.of_nat (length t)).
Proof.
  intros HB HD HL r. unfold url_encode in r.
  destruct (Z.ltb_spec dlen (Z.of_nat n * 3)); [lia|].
  destruct ((dest <=? src) && (src <? dest + dlen)) eqn:I.
  - destruct (encode_loop_spec n (memmove m (dest + dlen - Z.of_nat n) src (Z.of_nat n)) (dest + dlen - Z.of_nat n) dest dest (addrs (dest + dlen - Z.of_nat n) n))
      as (t & T1 & T2 & T3 & T4 & T5 & T6).
    + lia.
    + rewrite block_memmove. exact HB.
    + fold r in T2, T3, T4, T6. rewrite block_memmove in T1. exists t.
      split; [exact T1|]. split; [rewrite T2; f_equal; lia|]. split; [exact T3|]. split; [exact T4|].
      intros x. rewrite T6, in_addrs. intuition lia.
  - destruct (encode_loop_spec n m src dest dest []) as (t & T1 & T2 & T3 & T4 & T5 & T6).
    + unfold layout_enc, disjoint in HL. lia.
    + exact HB.
    + fold r in T2, T3, T4, T6. exists t.
      split; [exact T1|]. split; [rewrite T2; f_equal; lia|]. split; [exact T3|]. split; [exact T4|].
      intros x. rewrite T6. cbn [In]. intuition lia.
Qed.

(** ** Decoder *)
Lemma decode_loop_spec fuel : forall m src i n dest outp w,
  0 <= i <= n -> n - i <= Z.of_nat fuel ->
  (outp <= src + i \/ src + n <= outp) ->
  let txt := block m (src + i) (Z.to_nat (n - i)) in
  let r := decode_loop fuel m src i n dest outp w in
  (match ret r with
  | Some k => exists l, pct_decodes txt l /\ k = outp - dest + Z.of_nat (length l) /\
                block (rmem r) outp (length l) = l
  | None => forall l, ~ pct_decodes txt l
  end) /\
  (forall x, x < outp -> rmem r x = m x) /\
  (forall x, In x (wrote r) -> In x w \/ outp <= x < outp + (n - i)).
Proof.
  induction fuel as [|f IH]; intros m src i n dest outp w Hi Hf HL txt r.
  - assert (i = n) by lia. subst i. cbn [decode_loop] in r.
    destruct (Z.ltb_spec n n); [lia|]. cbn [negb] in r. subst r. cbn [ret rmem wrote].
    unfold txt. replace (Z.to_nat (n - n)) with 0%nat by lia. cbn [block].
    split; [exists []; split; [constructor|]; split; [cbn; lia|reflexivity]|].
    split; [reflexivity|auto].
  - cbn [decode_loop] in r. destruct (Z.ltb_spec i n) as [Hin|Hin]; cbn [negb] in r.
    2:{ subst r. cbn [ret rmem wrote]. unfold txt. replace (Z.to_nat (n - i)) with 0%nat by lia. cbn [block].
        split; [exists []; split; [constructor|]; split; [cbn; lia|reflexivity]|].
        split; [reflexivity|auto]. }
    assert (txt = m (src + i) :: block m (src + (i + 1)) (Z.to_nat (n - (i + 1)))) as ET.
    { unfold txt. replace (Z.to_nat (n - i)) with (S (Z.to_nat (n - (i + 1)))) by lia.
      cbn [block]. now rewrite <- Z.add_assoc. }
    destruct (N.eqb_spec (m (src + i)) 37) as [E|E].
    + destruct (Z.leb_spec n (i + 2)) as [Hs|Hs].
      * subst r. cbn [ret rmem wrote]. split; [|split; auto].
        intros l H. rewrite ET, E in H.
        inversion H as [|c t l' U H'|a b x y t l' Ha Hb H' E1]; subst.
        -- unfold unreserved in U. lia.
        -- assert (length (block m (src + (i + 1)) (Z.to_nat (n - (i + 1)))) = 2 + length t)%nat as HLn
             by (rewrite <- E1; reflexivity).
           rewrite block_length in HLn. lia.
      * assert (txt = 37%N :: m (src + i + 1) :: m (src + i + 2) :: block m (src + (i + 3)) (Z.to_nat (n - (i + 3)))) as ET2.
        { rewrite ET, E. f_equal. replace (Z.to_nat (n - (i + 1))) with (S (S (Z.to_nat (n - (i + 3))))) by lia.
          cbn [block]. f_equal; [f_equal; lia|]. f_equal; [f_equal; lia|]. f_equal; lia. }
        destruct (hexok (m (src + i + 1)) && hexok (m (src + i + 2))) eqn:HX.
        -- apply andb_prop in HX as [HX1 HX2].
           set (v := N.lor (N.shiftl (hexval (m (src + i + 1))) 4) (hexval (m (src + i + 2)))) in r.
           assert (v = N.add (N.mul 16 (hexval (m (src + i + 1)))) (hexval (m (src + i + 2)))) as EV
             by (apply hex_byte; apply hexval_lt).
           destruct (IH (put m outp v) src (i + 3) n dest (outp + 1) (outp :: w)) as (R1 & R2 & R3); [lia..|].
           rewrite block_put in R1 by lia. fold r in R1, R2, R3.
           split; [|split].
           ++ destruct (ret r) as [k|].
              ** destruct R1 as (l & D & K & B). exists (v :: l).
                 split; [rewrite ET2, EV; constructor; [apply hexok_spec; exact HX1|apply hexok_spec; exact HX2|exact D]|].
                 split; [cbn [length]; lia|]. cbn [length block]. rewrite B, R2 by lia. now rewrite put_same.
              ** intros l H. rewrite ET2 in H. inversion H as [|c t l' U H'|a b x y t l' Ha Hb H' E1]; subst.
                 --- unfold unreserved in U. lia.
                 --- eapply R1; eassumption.
           ++ intros x Hx. rewrite R2 by lia. apply put_other. lia.
           ++ intros x Hx. apply R3 in Hx. cbn [In] in Hx. intuition lia.
        -- subst r. cbn [ret rmem wrote]. split; [|split; auto].
           intros l H. rewrite ET2 in H. inversion H as [|c t l' U H'|a b x y t l' Ha Hb H' E1]; subst.
           ++ unfold unreserved in U. lia.
           ++ apply hexok_spec in Ha as [Ha _]. apply hexok_spec in Hb as [Hb _]. rewrite Ha, Hb in HX. discriminate.
    + destruct (isallowed (m (src + i))) eqn:A.
      * destruct (IH (put m outp (m (src + i))) src (i + 1) n dest (outp + 1) (outp :: w)) as (R1 & R2 & R3); [lia..|].
        rewrite block_put in R1 by lia. fold r in R1, R2, R3.
        split; [|split].
        -- destruct (ret r) as [k|].
           ++ destruct R1 as (l & D & K & B). exists (m (src + i) :: l).
              split; [rewrite ET; constructor; [apply isallowed_spec; exact A|exact D]|].
              split; [cbn [length]; lia|]. cbn [length block]. rewrite B, R2 by lia. now rewrite put_same.
           ++ intros l H. rewrite ET in H. inversion H as [|c t l' U H'|a b x y t l' Ha Hb H' E1]; subst.
              ** eapply R1; eassumption.
              ** congruence.
        -- intros x Hx. rewrite R2 by lia. apply put_other. lia.
        -- intros x Hx. apply R3 in Hx. cbn [In] in Hx. intuition lia.
      * subst r. cbn [ret rmem wrote]. split; [|split; auto].
        intros l H. rewrite ET in H. inversion H as [|c t l' U H'|a b x y t l' Ha Hb H' E1]; subst.
        -- apply isallowed_spec in U. congruence.
        -- congruence.
Qed.

Definition layout_dec (src n dest : Z) : Prop := dest <= src \/ src + n <= dest.

Lemma url_decode_full m src n dest dlen :
  Z.of_nat n + 1 <= dlen -> layout_dec src (Z.of_nat n) dest ->
  let r := url_decode m src n dest dlen in
  forall l, pct_decodes (block m src n) l <->
    ret r = Some (Z.of_nat (length l)) /\ block (rmem r) dest (length l) = l.
Proof.
  intros HD HL r l. unfold url_decode in r. destruct (Z.ltb_spec dlen (Z.of_nat n + 1)); [lia|].
  destruct (decode_loop_spec n m src 0 (Z.of_nat n) dest dest [] ltac:(lia) ltac:(lia)) as (R1 & _ & _).
  { unfold layout_dec in HL. lia. }
  fold r in R1. rewrite Z.add_0_r in R1. replace (Z.to_nat (Z.of_nat n - 0)) with n in R1 by lia.
  destruct (ret r) as [k|].
  - destruct R1 as (l' & D & K & B). split.
    + intros D'. pose proof (decodes_fun _ _ D _ D') as <-. split; [f_equal; lia|exact B].
    + intros [E B']. assert (length l = length l') as EL by (injection E; lia).
      rewrite EL in B'. rewrite B in B'. subst l'. exact D.
  - split; [intros D; elim (R1 l D)|intros [E _]; discriminate].
Qed.

Lemma url_roundtrip m src n dest dlen dest2 dlen2 :
  bytes (block m src n) -> 3 * Z.of_nat n <= dlen -> layout_enc src (Z.of_nat n) dest dlen ->
  let e := url_encode m src n dest dlen in
  exists k, ret e = Some (Z.of_nat k) /\
  (Z.of_nat k + 1 <= dlen2 -> layout_dec dest (Z.of_nat k) dest2 ->
   let d := url_decode (rmem e) dest k dest2 dlen2 in
   ret d = Some (Z.of_nat n) /\ block (rmem d) dest2 n = block m src n).
Proof.
  intros HB HD HL e.
  destruct (url_encode_full m src n dest dlen HB HD HL) as (t & T1 & T2 & T3 & _).
  fold e in T2, T3. exists (length t). split; [exact T2|]. intros HD2 HL2 d.
  pose proof (url_decode_full (rmem e) dest (length t) dest2 dlen2 HD2 HL2 (block m src n)) as H.
  rewrite T3, block_length in H. apply H. apply encodes_decodes; assumption.
Qed.

Lemma url_decode_bounds m src n dest dlen x :
  layout_dec src (Z.of_nat n) dest ->
  In x (wrote (url_decode m src n dest dlen)) -> dest <= x < dest + dlen.
Proof.
  intros HL. unfold url_decode. destruct (Z.ltb_spec dlen (Z.of_nat n + 1)); [intros []|].
  intros Hx. destruct (decode_loop_spec n m src 0 (Z.of_nat n) dest dest [] ltac:(lia) ltac:(lia)) as (_ & _ & R3).
  { unfold layout_dec in HL. lia. }
  apply R3 in Hx. cbn [In] in Hx. intuition lia.
Qed.

Lemma url_encode_bounds m src n dest dlen x :
  bytes (block m src n) -> layout_enc src (Z.of_nat n) dest dlen ->
  url_encode_len (Z.of_nat n) <= dlen ->
  In x (wrote (url_encode m src n dest dlen)) -> dest <= x < dest + dlen.
Proof.
  intros HB HL HD Hx. unfold url_encode_len in HD.
  destruct (url_encode_full m src n dest dlen HB ltac:(lia) HL) as (t & T1 & _ & _ & _ & T6).
  apply T6 in Hx. apply encodes_length in T1. rewrite block_length in T1. lia.
Qed.

(** ** HTML *)
Lemma repl_slack c : html_slack c = Z.of_nat (length (html_repl c)) + 1.
Proof.
  unfold html_slack, html_repl.
  destruct (N.eqb_spec c 60); [reflexivity|]. destruct (N.eqb_spec c 62); [reflexivity|].
  destruct (N.eqb_spec c 38); [reflexivity|]. destruct (N.eqb_spec c 34); [reflexivity|].
  destruct (N.eqb_spec c 39); reflexivity.
Qed.

Lemma repl_len c : (1 <= length (html_repl c) <= 5)%nat.
Proof.
  unfold html_repl. repeat match goal with |- context[if ?x then _ else _] => destruct x end; cbn; lia.
Qed.

Definition html_text (l : list N) : list N := flat_map html_repl l.

Lemma html_loop_ok src : forall off dlen, off + 1 <= dlen ->
  (cstring src = [] \/ off + Z.of_nat (length (html_text (cstring src))) + 2 <= dlen) ->
  html_loop src off dlen =
  {| hret := Some (length (html_text (cstring src))); hstores := html_text (cstring src) ++ [0%N] |}.
Proof.
  induction src as [|c r IH]; intros off dlen H1 H2; [reflexivity|].
  cbn [html_loop cstring] in *. destruct (c =? 0)%N; [reflexivity|].
  destruct H2 as [H2|H2]; [discriminate|].
  cbn [html_text flat_map] in *. fold (html_text (cstring r)) in *.
  rewrite app_length in H2. pose proof (repl_len c). rewrite repl_slack.
  destruct (Z.leb_spec (dlen - (Z.of_nat (length (html_repl c)) + 1)) off); [lia|].
  rewrite IH; [cbn [hret hstores]|lia|right; lia]. now rewrite app_length, app_assoc.
Qed.

Lemma html_loop_fail src : forall off dlen,
  cstring src <> [] -> dlen < off + Z.of_nat (length (html_text (cstring src))) + 2 ->
  off + 1 <= dlen ->
  hret (html_loop src off dlen) = None /\ off + Z.of_nat (length (hstores (html_loop src off dlen))) <= dlen.
Proof.
  induction src as [|c r IH]; intros off dlen H1 H2 H3; [contradiction|].
  cbn [html_loop cstring] in *. destruct (c =? 0)%N; [contradiction|].
  cbn [html_text flat_map] in *. fold (html_text (cstring r)) in *.
  rewrite app_length in H2. pose proof (repl_len c). rewrite repl_slack.
  destruct (Z.leb_spec (dlen - (Z.of_nat (length (html_repl c)) + 1)) off); [cbn; split; [reflexivity|lia]|].
  cbn [hret hstores]. rewrite app_length.
  assert (cstring r <> []) as Hne by (intros E; rewrite E in H2; cbn in H2; lia).
  destruct (IH (off + Z.of_nat (length (html_repl c))) dlen Hne) as [-> B]; [lia|lia|].
  split; [reflexivity|lia].
Qed.

Lemma html_unescapes_text l : html_unescapes (html_text l) l.
Proof.
  induction l as [|c l IH]; [constructor|]. cbn [html_text flat_map]. fold (html_text l).
  unfold html_repl.
  destruct (N.eqb_spec c 60) as [->|]; [apply HLt; exact IH|].
  destruct (N.eqb_spec c 62) as [->|]; [apply HGt; exact IH|].
  destruct (N.eqb_spec c 38) as [->|]; [apply HAmp; exact IH|].
  destruct (N.eqb_spec c 34) as [->|]; [apply HQuot; exact IH|].
  destruct (N.eqb_spec c 39) as [->|]; [apply HApos; exact IH|].
  cbn [app]. apply HLit; [assumption|exact IH].
Qed.

Lemma html_inert_text l : Forall (fun c => ~ html_active c) (html_text l).
Proof.
  induction l as [|c l IH]; [constructor|]. cbn [html_text flat_map]. apply Forall_app. split; [|exact IH].
  unfold html_repl, html_active.
  destruct (N.eqb_spec c 60) as [->|]; [repeat constructor; lia|].
  destruct (N.eqb_spec c 62) as [->|]; [repeat constructor; lia|].
  destruct (N.eqb_spec c 38) as [->|]; [repeat constructor; lia|].
  destruct (N.eqb_spec c 34) as [->|]; [repeat constructor; lia|].
  destruct (N.eqb_spec c 39) as [->|]; [repeat constructor; lia|].
  repeat constructor; lia.
Qed.

Lemma html_ok src dlen k : hret (html_encode src dlen) = Some k ->
  exists t, hstores (html_encode src dlen) = t ++ [0%N] /\ length t = k /\
    html_unescapes t (cstring src) /\ Forall (fun c => ~ html_active c) t.
Proof.
  unfold html_encode. destruct (Z.ltb_spec dlen 1); [discriminate|]. intros H1.
  destruct (list_eq_dec N.eq_dec (cstring src) []) as [E|E].
  - rewrite html_loop_ok in * by (auto; lia). cbn [hret hstores] in *. injection H1 as <-.
    eexists; repeat split; [apply html_unescapes_text|apply html_inert_text].
  - destruct (Z.lt_ge_cases dlen (0 + Z.of_nat (length (html_text (cstring src))) + 2)) as [L|L].
    + destruct (html_loop_fail src 0 dlen E L ltac:(lia)) as [F _]. congruence.
    + rewrite html_loop_ok in * by (auto; lia). cbn [hret hstores] in *. injection H1 as <-.
      eexists; repeat split; [apply html_unescapes_text|apply html_inert_text].
Qed.

Lemma html_bounds src dlen : Z.of_nat (length (hstores (html_encode src dlen))) <= Z.max 0 dlen.
Proof.
  unfold html_encode. destruct (Z.ltb_spec dlen 1); [cbn; lia|].
  destruct (list_eq_dec N.eq_dec (cstring src) []) as [E|E].
  - rewrite html_loop_ok by (auto; lia). rewrite E. cbn. lia.
  - destruct (Z.lt_ge_cases dlen (0 + Z.of_nat (length (html_text (cstring src))) + 2)) as [L|L].
    + destruct (html_loop_fail src 0 dlen E L ltac:(lia)) as [_ F]. lia.
    + rewrite html_loop_ok by (auto; lia). cbn [hstores]. rewrite app_length. cbn [length]. lia.
Qed.

Lemma html_text_length l : (length (html_text l) <= 5 * length l)%nat.
Proof.
  induction l as [|c l IH]; [cbn; lia|]. cbn [html_text flat_map]. fold (html_text l). rewrite app_length.
  pose proof (repl_len c). cbn [length]. lia.
Qed.

Lemma cstring_length l : (length (cstring l) <= length l)%nat.
Proof. induction l as [|c l IH]; [cbn; lia|]. cbn [cstring]. destruct (c =? 0)%N; cbn [length]; lia. Qed.

Lemma html_enough src dlen : html_encode_len (Z.of_nat (length src)) + 1 <= dlen ->
  hret (html_encode src dlen) <> None.
Proof.
  unfold html_encode_len. intros H. unfold html_encode. destruct (Z.ltb_spec dlen 1); [lia|].
  rewrite html_loop_ok; [discriminate|lia|].
  right. pose proof (html_text_length (cstring src)). pose proof (cstring_length src). lia.
Qed.
