From Coq Require Import NArith ZArith List Lia Bool ZifyBool ZifyNat ZifyN Arith.
From Verif.Common Require Import Bits.
From Verif.B32 Require Import Model Spec.
Import ListNotations.
Ltac Zify.zify_post_hook ::= Z.div_mod_to_equations.
Open Scope N_scope.

(** ** Induction by groups of five bytes *)
Lemma group5_ind (P : list N -> Prop) :
  P [] -> (forall a, P [a]) -> (forall a b, P [a;b]) -> (forall a b c, P [a;b;c]) ->
  (forall a b c d, P [a;b;c;d]) ->
  (forall a b c d e r, P r -> P (a::b::c::d::e::r)) -> forall l, P l.
Proof.
  intros H0 H1 H2 H3 H4 H5.
  fix IH 1. intros [|a [|b [|c [|d [|e r]]]]];
  [exact H0|apply H1|apply H2|apply H3|apply H4|apply H5, IH].
Qed.

(** ** Table facts (finite sweeps) *)
Definition dec_ok (v : N) : bool :=
  (ub32 (b32 v) =? v) && negb (is_space (b32 v)) && negb (b32 v =? 45) && (b32 v =? letter v).

Lemma dec_ok_all v : v < 32 -> dec_ok v = true.
Proof. apply (all_below_spec 32). vm_compute. reflexivity. Qed.

Lemma b32_letter v : v < 32 -> b32 v = letter v.
Proof. intros H. apply dec_ok_all in H. unfold dec_ok in H. lia. Qed.

Lemma decode_step v r b ib ob : v < 32 ->
  decode_loop (b32 v :: r) b ib ob =
  let '(b', ib', out) := push b ib ob v in out ++ decode_loop r b' ib' ob.
Proof.
  intros Hv. pose proof (dec_ok_all v Hv) as H. unfold dec_ok in H.
  apply andb_true_iff in H as [H _]. apply andb_true_iff in H as [H H3].
  apply andb_true_iff in H as [H1 H2].
  apply N.eqb_eq in H1. apply negb_true_iff in H2, H3.
  cbn [decode_loop]. rewrite H2, H3, H1.
  destruct (N.eqb_spec v 254) as [|_]; [lia|].
  destruct (N.eqb_spec v 255) as [|_]; [lia|]. reflexivity.
Qed.

(** ** Bit arithmetic as div/mod *)
Lemma land_7 x : N.land x 7 = x mod 8.   Proof. apply (N.land_ones x 3). Qed.
Lemma land_1 x : N.land x 1 = x mod 2.   Proof. apply (N.land_ones x 1). Qed.
Lemma land_3 x : N.land x 3 = x mod 4.   Proof. apply (N.land_ones x 2). Qed.
Lemma land_15 x : N.land x 15 = x mod 16. Proof. apply (N.land_ones x 4). Qed.
Lemma land_31 x : N.land x 31 = x mod 32. Proof. apply (N.land_ones x 5). Qed.

Lemma land_62 x : x < 256 -> N.shiftr (N.land x 62) 1 = x / 2 mod 32.
Proof.
  intros H. apply N.eqb_eq.
  apply (all_below_spec 256 (fun x => N.shiftr (N.land x 62) 1 =? x / 2 mod 32)); [|exact H].
  vm_compute. reflexivity.
Qed.

Lemma land_124 x : x < 256 -> N.shiftr (N.land x 124) 2 = x / 4 mod 32.
Proof.
  intros H. apply N.eqb_eq.
  apply (all_below_spec 256 (fun x => N.shiftr (N.land x 124) 2 =? x / 4 mod 32)); [|exact H].
  vm_compute. reflexivity.
Qed.

Lemma shr k x : N.shiftr x k = x / 2 ^ k. Proof. apply N.shiftr_div_pow2. Qed.
Lemma shl k x : N.shiftl x k = x * 2 ^ k. Proof. apply N.shiftl_mul_pow2. Qed.

Ltac arith_bits :=
  rewrite ?land_62, ?land_124 by assumption;
  rewrite ?land_7, ?land_1, ?land_3, ?land_15, ?land_31, ?shr, ?shl;
  change (2 ^ 1) with 2; change (2 ^ 2) with 4; change (2 ^ 3) with 8;
  change (2 ^ 4) with 16; change (2 ^ 5) with 32; change (2 ^ 6) with 64;
  change (2 ^ 7) with 128.

(** ** The decoded group *)
Lemma lor2 a b k m : b < m -> m = 2 ^ k -> N.lor (a * m) b = a * m + b.
Proof. intros Hb ->. apply lor_disjoint. exact Hb. Qed.

Lemma group_out_arith v0 v1 v2 v3 v4 v5 v6 v7 :
  v0 < 32 -> v1 < 32 -> v2 < 32 -> v3 < 32 -> v4 < 32 -> v5 < 32 -> v6 < 32 ->
  firstn 4 (group_out [v0;v1;v2;v3;v4;v5;v6;v7]) =
  [ v0 * 8 + v1 / 4;
    (v1 mod 4) * 64 + v2 * 2 + v3 / 16;
    (v3 mod 16) * 16 + v4 / 2;
    (v4 mod 2) * 128 + v5 * 4 + v6 / 8 ].
Proof.
  intros. unfold group_out, u8. cbn [nth firstn]. arith_bits.
  assert (forall k m a b c (Hm : m = 2 ^ k), b + c < m ->
          N.lor (N.lor (a * m) b) c = a * m + N.lor b c) as L3.
  { intros k m a b c Hm Hbc. rewrite <- N.lor_assoc. apply (lor2 a _ k m); [|exact Hm].
    rewrite Hm in *. apply lor_lt; lia. }
  rewrite (lor2 v0 (v1 / 4) 3 8) by (reflexivity || lia).
  rewrite (L3 6 64 (v1 mod 4) (v2 * 2) (v3 / 16)) by (reflexivity || lia).
  rewrite (lor2 v2 (v3 / 16) 1 2) by (reflexivity || lia).
  rewrite (lor2 (v3 mod 16) (v4 / 2) 4 16) by (reflexivity || lia).
  rewrite (L3 7 128 (v4 mod 2) (v5 * 4) (v6 / 8)) by (reflexivity || lia).
  rewrite (lor2 v5 (v6 / 8) 2 4) by (reflexivity || lia).
  rewrite !(fun x => N.mod_small x 256) by lia.
  rewrite !N.add_assoc. reflexivity.
Qed.

Lemma group_out_last v0 v1 v2 v3 v4 v5 v6 v7 : v7 < 32 -> v6 < 32 ->
  nth 4 (group_out [v0;v1;v2;v3;v4;v5;v6;v7]) 0 = (v6 mod 8) * 32 + v7.
Proof.
  intros. unfold group_out, u8. cbn [nth]. arith_bits.
  rewrite (lor2 (v6 mod 8) v7 5 32) by (reflexivity || lia).
  rewrite (fun x => N.mod_small x 256) by lia. reflexivity.
Qed.

Lemma firstn5 {A} (l : list A) d : length l = 5%nat ->
  l = firstn 4 l ++ [nth 4 l d].
Proof.
  destruct l as [|a [|b [|c [|e [|f [|]]]]]]; try discriminate. reflexivity.
Qed.

Lemma group_out_full v0 v1 v2 v3 v4 v5 v6 v7 :
  v0 < 32 -> v1 < 32 -> v2 < 32 -> v3 < 32 -> v4 < 32 -> v5 < 32 -> v6 < 32 -> v7 < 32 ->
  group_out [v0;v1;v2;v3;v4;v5;v6;v7] =
  [ v0 * 8 + v1 / 4;
    (v1 mod 4) * 64 + v2 * 2 + v3 / 16;
    (v3 mod 16) * 16 + v4 / 2;
    (v4 mod 2) * 128 + v5 * 4 + v6 / 8;
    (v6 mod 8) * 32 + v7 ].
Proof.
  intros. rewrite (firstn5 (group_out _) 0) by reflexivity.
  rewrite group_out_arith by assumption. rewrite group_out_last by assumption. reflexivity.
Qed.

(** ** Decoding runs of characters *)
Lemma decode_nil b ib ob : decode_loop [] b ib ob = [].
Proof. reflexivity. Qed.

Lemma decode_pad_stop r ob b : decode_loop (61 :: r) b 0 ob = [].
Proof. reflexivity. Qed.

Lemma decode_pad r b ib ob : ib <> 0%nat ->
  decode_loop (61 :: r) b ib ob =
  firstn (pad_ob ib) (group_out (upd b 7 255)) ++ decode_loop r zero8 0 (pad_ob ib).
Proof.
  intros H. cbn [decode_loop]. change (is_space 61) with false. change (61 =? 45) with false.
  change (ub32 61) with 255. cbn [N.eqb]. destruct (Nat.eqb_spec ib 0); [contradiction|].
  reflexivity.
Qed.

Ltac tail_step := rewrite decode_step; [cbn [push Nat.eqb upd zero8 app]|].

Lemma decode_encode_group v0 v1 v2 v3 v4 v5 v6 v7 r :
  v0 < 32 -> v1 < 32 -> v2 < 32 -> v3 < 32 -> v4 < 32 -> v5 < 32 -> v6 < 32 -> v7 < 32 ->
  decode_loop (b32 v0::b32 v1::b32 v2::b32 v3::b32 v4::b32 v5::b32 v6::b32 v7::r) zero8 0 5
  = group_out [v0;v1;v2;v3;v4;v5;v6;v7] ++ decode_loop r zero8 0 5.
Proof.
  intros. unfold zero8 at 1. do 8 (tail_step; [|assumption]).
  reflexivity.
Qed.

Lemma push_short b ib ob v : (ib < 7)%nat -> push b ib ob v = (upd b ib v, S ib, []).
Proof.
  intros H. unfold push. destruct (Nat.eqb_spec (S ib) 8); [lia|reflexivity].
Qed.

Lemma decode_chars vs : forall rest b ib ob,
  Forall (fun v => v < 32) vs -> (ib + length vs < 8)%nat ->
  exists b', decode_loop (map b32 vs ++ rest) b ib ob = decode_loop rest b' (ib + length vs) ob
   /\ b' = fst (fold_left (fun s v => (upd (fst s) (snd s) v, S (snd s))) vs (b, ib)).
Proof.
  induction vs as [|v vs IH]; intros rest b ib ob HF Hl.
  - exists b. cbn. rewrite Nat.add_0_r. auto.
  - inversion HF as [|? ? Hv HF']; subst. cbn [map app length fold_left fst snd] in *.
    rewrite decode_step by exact Hv. rewrite push_short by lia. cbn [app].
    destruct (IH rest (upd b ib v) (S ib) ob HF' ltac:(lia)) as [b' [E1 E2]].
    exists b'. split; [|exact E2]. rewrite E1. f_equal. lia.
Qed.

Lemma roundtrip_loop l : bytes l -> decode_loop (encode_loop l) zero8 0 5 = l.
Proof.
  induction l as [ |a|a b|a b c|a b c d|a b c d e r IH] using group5_ind; intros HB.
  - reflexivity.
  - inversion HB as [|? ? Ha _]; subst. unfold is_byte in *.
    cbn [encode_loop]. arith_bits.
    change [b32 (a/8); b32 (a mod 8 * 4); 61;61;61;61;61;61]
      with (map b32 [a/8; a mod 8 * 4] ++ [61;61;61;61;61;61]).
    destruct (decode_chars [a/8; a mod 8 * 4] [61;61;61;61;61;61] zero8 0 5) as [b' [E ->]].
    { repeat constructor; lia. } { cbn; lia. }
    rewrite E. cbn [length Nat.add]. rewrite decode_pad by lia. rewrite decode_pad_stop, app_nil_r.
    cbn [fold_left fst snd upd zero8 pad_ob Nat.eqb orb].
    match goal with |- firstn 1 ?g = _ => change (firstn 1 g) with (firstn 1 (firstn 4 g)) end.
    rewrite group_out_arith by lia. cbn [firstn]. f_equal. lia.
  - inversion HB as [|? ? Ha HB1]; subst. inversion HB1 as [|? ? Hb _]; subst. unfold is_byte in *.
    cbn [encode_loop]. arith_bits.
    match goal with |- decode_loop [b32 ?x0; b32 ?x1; b32 ?x2; b32 ?x3; 61;61;61;61] _ _ _ = _ =>
      change [b32 x0; b32 x1; b32 x2; b32 x3; 61;61;61;61]
        with (map b32 [x0;x1;x2;x3] ++ [61;61;61;61]);
      destruct (decode_chars [x0;x1;x2;x3] [61;61;61;61] zero8 0 5) as [b' [E ->]];
      [repeat constructor; lia | cbn; lia | ] end.
    rewrite E. cbn [length Nat.add]. rewrite decode_pad by lia. rewrite decode_pad_stop, app_nil_r.
    cbn [fold_left fst snd upd zero8 pad_ob Nat.eqb orb].
    match goal with |- firstn 2 ?g = _ => change (firstn 2 g) with (firstn 2 (firstn 4 g)) end.
    rewrite group_out_arith by lia. cbn [firstn]. repeat f_equal; lia.
  - inversion HB as [|? ? Ha HB1]; subst. inversion HB1 as [|? ? Hb HB2]; subst.
    inversion HB2 as [|? ? Hc _]; subst. unfold is_byte in *.
    cbn [encode_loop]. arith_bits.
    match goal with |- decode_loop [b32 ?x0; b32 ?x1; b32 ?x2; b32 ?x3; b32 ?x4; 61;61;61] _ _ _ = _ =>
      change [b32 x0; b32 x1; b32 x2; b32 x3; b32 x4; 61;61;61]
        with (map b32 [x0;x1;x2;x3;x4] ++ [61;61;61]);
      destruct (decode_chars [x0;x1;x2;x3;x4] [61;61;61] zero8 0 5) as [b' [E ->]];
      [repeat constructor; lia | cbn; lia | ] end.
    rewrite E. cbn [length Nat.add]. rewrite decode_pad by lia. rewrite decode_pad_stop, app_nil_r.
    cbn [fold_left fst snd upd zero8 pad_ob Nat.eqb orb].
    match goal with |- firstn 3 ?g = _ => change (firstn 3 g) with (firstn 3 (firstn 4 g)) end.
    rewrite group_out_arith by lia. cbn [firstn]. repeat f_equal; lia.
  - inversion HB as [|? ? Ha HB1]; subst. inversion HB1 as [|? ? Hb HB2]; subst.
    inversion HB2 as [|? ? Hc HB3]; subst. inversion HB3 as [|? ? Hd _]; subst. unfold is_byte in *.
    cbn [encode_loop]. arith_bits.
    match goal with |- decode_loop [b32 ?x0; b32 ?x1; b32 ?x2; b32 ?x3; b32 ?x4; b32 ?x5; b32 ?x6; 61] _ _ _ = _ =>
      change [b32 x0; b32 x1; b32 x2; b32 x3; b32 x4; b32 x5; b32 x6; 61]
        with (map b32 [x0;x1;x2;x3;x4;x5;x6] ++ [61]);
      destruct (decode_chars [x0;x1;x2;x3;x4;x5;x6] [61] zero8 0 5) as [b' [E ->]];
      [repeat constructor; lia | cbn; lia | ] end.
    rewrite E. cbn [length Nat.add]. rewrite decode_pad by lia. rewrite decode_nil, app_nil_r.
    cbn [fold_left fst snd upd zero8 pad_ob Nat.eqb orb].
    rewrite group_out_arith by lia. repeat f_equal; lia.
  - inversion HB as [|? ? Ha HB1]; subst. inversion HB1 as [|? ? Hb HB2]; subst.
    inversion HB2 as [|? ? Hc HB3]; subst. inversion HB3 as [|? ? Hd HB4]; subst.
    inversion HB4 as [|? ? He HB5]; subst. unfold is_byte in *.
    cbn [encode_loop]. arith_bits.
    rewrite decode_encode_group by lia. rewrite IH by exact HB5.
    rewrite group_out_full by lia. cbn [app]. repeat f_equal; lia.
Qed.

(** ** Ignorable characters *)
Lemma ignorable_spec c : ignorable c = (is_space c || (c =? 45))%bool.
Proof. unfold ignorable, is_space. lia. Qed.

Lemma decode_strip txt : forall b ib ob,
  decode_loop txt b ib ob = decode_loop (filter (fun c => negb (ignorable c)) txt) b ib ob.
Proof.
  induction txt as [|c r IH]; intros b ib ob; [reflexivity|].
  cbn [filter]. rewrite ignorable_spec.
  destruct (is_space c) eqn:Hs; cbn [orb negb].
  - cbn [decode_loop]. rewrite Hs. apply IH.
  - destruct (c =? 45) eqn:Hd; cbn [negb].
    + cbn [decode_loop]. rewrite Hs, Hd. apply IH.
    + cbn [decode_loop]. rewrite Hs, Hd.
      destruct (ub32 c =? 254); [reflexivity|].
      destruct (ub32 c =? 255).
      * destruct (Nat.eqb ib 0); [reflexivity|].
        destruct (push b 7 (pad_ob ib) (ub32 c)) as [[b' ib'] out]. rewrite IH. reflexivity.
      * destruct (push b ib ob (ub32 c)) as [[b' ib'] out]. rewrite IH. reflexivity.
Qed.

(** ** Lengths *)
Lemma encode_loop_length l : length (encode_loop l) = encode_len (length l).
Proof.
  induction l as [ |a|a b|a b c|a b c d|a b c d e r IH] using group5_ind;
    try reflexivity.
  cbn [encode_loop length]. rewrite IH. unfold encode_len.
  replace (S (S (S (S (S (length r))))) + 4)%nat with (length r + 4 + 1 * 5)%nat by lia.
  rewrite Nat.div_add by lia. lia.
Qed.

Lemma roundtrip l txt n m : bytes l ->
  (encode_len (length l) <= n)%nat ->
  filter (fun c => negb (ignorable c)) txt = stores (encode l n) ->
  (max_decode_len (length txt) <= m)%nat ->
  stores (decode txt m) = l /\ ret (decode txt m) = length l.
Proof.
  intros HB Hn Htxt Hm.
  unfold encode in Htxt. destruct (Nat.ltb_spec n (encode_len (length l))); [lia|].
  cbn [stores] in Htxt.
  unfold decode. destruct (Nat.ltb_spec m (max_decode_len (length txt))); [lia|].
  cbn [stores ret]. rewrite decode_strip, Htxt, roundtrip_loop by exact HB. auto.
Qed.

Lemma enc_not_ignorable l : bytes l -> Forall (fun c => ignorable c = false) (encode_loop l).
Proof.
  assert (forall v, v < 32 -> ignorable (b32 v) = false) as K.
  { intros v Hv. pose proof (dec_ok_all v Hv) as H. unfold dec_ok in H.
    rewrite ignorable_spec. destruct (is_space (b32 v)), (b32 v =? 45); cbn [negb] in H;
      rewrite ?andb_false_r in H; cbn in H; try reflexivity; discriminate. }
  assert (ignorable 61 = false) as K61 by reflexivity.
  induction l as [ |a|a b|a b c|a b c d|a b c d e r IH] using group5_ind; intros HB;
    repeat match goal with H : bytes (_ :: _) |- _ => inversion H; clear H; subst
           | H : Forall _ (_ :: _) |- _ => inversion H; clear H; subst end;
    unfold is_byte in *; cbn [encode_loop]; arith_bits;
    repeat (constructor; [first [exact K61 | apply K; lia]|]); auto.
Qed.

Lemma roundtrip_plain l n m : bytes l ->
  (encode_len (length l) <= n)%nat ->
  (max_decode_len (length (stores (encode l n))) <= m)%nat ->
  ret (encode l n) = encode_len (length l) /\
  stores (decode (stores (encode l n)) m) = l /\ ret (decode (stores (encode l n)) m) = length l.
Proof.
  intros HB Hn Hm. split.
  { unfold encode. destruct (Nat.ltb_spec n (encode_len (length l))); [lia|]. cbn.
    apply encode_loop_length. }
  apply (roundtrip l _ n m HB Hn); [|exact Hm].
  unfold encode. destruct (Nat.ltb_spec n (encode_len (length l))); [lia|]. cbn [stores].
  pose proof (enc_not_ignorable l HB) as HF. induction HF as [|c r Hc HF IH]; [reflexivity|].
  cbn [filter]. rewrite Hc. cbn [negb]. rewrite IH. reflexivity.
Qed.

(** ** RFC 4648 *)
Lemma val_slice_gen i j x : x < 256 -> (i <= j)%nat -> (j <= 8)%nat ->
  bits_val (firstn (j - i) (skipn i (byte_bits x))) = x / 2 ^ N.of_nat (8 - j) mod 2 ^ N.of_nat (j - i).
Proof.
  intros Hx Hij Hj.
  assert (all_below 256 (fun x => forallb (fun j => forallb (fun i =>
     bits_val (firstn (j - i) (skipn i (byte_bits x))) =? x / 2 ^ N.of_nat (8 - j) mod 2 ^ N.of_nat (j - i))
      (seq 0 (S j))) (seq 0 9)) = true) as H by (vm_compute; reflexivity).
  apply (all_below_spec 256 _ H) in Hx. cbv beta in Hx.
  rewrite forallb_forall in Hx. specialize (Hx j ltac:(apply in_seq; lia)).
  rewrite forallb_forall in Hx. specialize (Hx i ltac:(apply in_seq; lia)).
  apply N.eqb_eq in Hx. exact Hx.
Qed.

Lemma groups5_fuel l : forall f g, (length l <= f)%nat -> (length l <= g)%nat ->
  groups5 f l = groups5 g l.
Proof.
  intros f. revert l. induction f as [|f IH]; intros l g Hf Hg.
  - destruct l; [|cbn in Hf; lia]. destruct g; reflexivity.
  - destruct l as [|b l]; [destruct g; reflexivity|].
    destruct g as [|g]; [cbn in Hg; lia|]. cbn [groups5]. f_equal.
    apply IH; rewrite skipn_length; cbn [length] in *; lia.
Qed.

Lemma groups5_cons a b c d e r f : (5 <= f)%nat -> (length r <= f - 1)%nat ->
  groups5 f (a::b::c::d::e::r) = [a;b;c;d;e] :: groups5 (length r) r.
Proof.
  intros Hf Hr. destruct f as [|f]; [lia|].
  change (groups5 (S f) (a :: b :: c :: d :: e :: r)) with ([a;b;c;d;e] :: groups5 f r).
  f_equal. apply groups5_fuel; lia.
Qed.

Definition chars_of (bits : list bool) : list N :=
  map (fun g => letter (bits_val g)) (groups5 (length bits) bits).

Lemma chars_of_cons5 a b c d e r :
  chars_of (a::b::c::d::e::r) = letter (bits_val [a;b;c;d;e]) :: chars_of r.
Proof.
  unfold chars_of. rewrite groups5_cons by (cbn [length]; lia). reflexivity.
Qed.

Lemma chars_of_app5 g r : length g = 5%nat ->
  chars_of (g ++ r) = letter (bits_val g) :: chars_of r.
Proof.
  destruct g as [|a [|b [|c [|d [|e [|]]]]]]; try discriminate. intros _.
  apply chars_of_cons5.
Qed.

(** slices of a byte *)
Definition sl (x : N) (i j : nat) := firstn (j - i) (skipn i (byte_bits x)).

Lemma byte_bits_split x i : (i <= 8)%nat -> byte_bits x = sl x 0 i ++ sl x i 8.
Proof.
  intros H. unfold sl. rewrite Nat.sub_0_r. cbn [skipn].
  rewrite (firstn_all2 (n := (8 - i)%nat)) by (rewrite skipn_length; cbn; lia).
  symmetry. apply firstn_skipn.
Qed.

Lemma byte_bits_split3 x i j : (i <= j)%nat -> (j <= 8)%nat ->
  byte_bits x = sl x 0 i ++ sl x i j ++ sl x j 8.
Proof.
  intros Hi Hj. rewrite (byte_bits_split x i) at 1 by lia. f_equal.
  unfold sl. rewrite (firstn_all2 (n := (8 - i)%nat)) by (rewrite skipn_length; cbn; lia).
  rewrite (firstn_all2 (n := (8 - j)%nat)) by (rewrite skipn_length; cbn; lia).
  rewrite <- (firstn_skipn (j - i) (skipn i (byte_bits x))) at 1. f_equal.
  assert (forall A (m : list A) p q, skipn p (skipn q m) = skipn (p + q) m) as SS.
  { intros A m p q. revert m. induction q as [|q IH]; intros m.
    - rewrite Nat.add_0_r. reflexivity.
    - destruct m; [rewrite !skipn_nil; reflexivity|].
      rewrite Nat.add_succ_r. cbn [skipn]. apply IH. }
  rewrite SS. f_equal. lia.
Qed.

Lemma sl_length x i j : (i <= j)%nat -> (j <= 8)%nat -> length (sl x i j) = (j - i)%nat.
Proof. intros. unfold sl. rewrite firstn_length, skipn_length.
  change (length (byte_bits x)) with 8%nat. lia. Qed.

Lemma sl_val x i j : x < 256 -> (i <= j)%nat -> (j <= 8)%nat ->
  bits_val (sl x i j) = x / 2 ^ N.of_nat (8 - j) mod 2 ^ N.of_nat (j - i).
Proof. apply val_slice_gen. Qed.

Lemma val2 x y i j : x < 256 -> y < 256 -> (i <= 8)%nat -> (j <= 8)%nat ->
  bits_val (sl x i 8 ++ sl y 0 j) =
  x mod 2 ^ N.of_nat (8 - i) * 2 ^ N.of_nat j + y / 2 ^ N.of_nat (8 - j).
Proof.
  intros Hx Hy Hi Hj. rewrite bits_val_app, !sl_val, sl_length by lia.
  rewrite !Nat.sub_0_r. change (2 ^ N.of_nat (8 - 8)) with 1. rewrite N.div_1_r.
  f_equal. apply N.mod_small. apply N.div_lt_upper_bound; [apply N.pow_nonzero; lia|].
  rewrite <- N.pow_add_r. replace (N.of_nat (8 - j) + N.of_nat j) with 8 by lia. exact Hy.
Qed.

Lemma val_zeros l n : bits_val (l ++ repeat false n) = bits_val l * 2 ^ N.of_nat n.
Proof.
  rewrite bits_val_app, repeat_length.
  assert (bits_val (repeat false n) = 0) as ->; [|lia].
  unfold bits_val. induction n as [|n IH]; [reflexivity|]. cbn [repeat fold_left]. exact IH.
Qed.

Lemma chars_of_last l : (0 < length l < 5)%nat ->
  chars_of l = [letter (bits_val l * 2 ^ N.of_nat (5 - length l))].
Proof.
  intros [H1 H2]. rewrite <- val_zeros.
  destruct l as [|a [|b [|c [|d [|e r]]]]]; cbn [length] in *; try lia; reflexivity.
Qed.

Lemma bit_string_cons x l : bit_string (x :: l) = byte_bits x ++ bit_string l.
Proof. reflexivity. Qed.

Definition pad8 (n : nat) := repeat 61 ((8 - n mod 8) mod 8)%nat.

Lemma rfc_unfold l : rfc4648_base32 l =
  chars_of (bit_string l) ++ pad8 (length (chars_of (bit_string l))).
Proof. reflexivity. Qed.

Lemma pad8_plus8 n : pad8 (S (S (S (S (S (S (S (S n)))))))) = pad8 n.
Proof. unfold pad8. replace (S (S (S (S (S (S (S (S n)))))))) with (n + 1 * 8)%nat by lia.
  rewrite Nat.mod_add by lia. reflexivity. Qed.

Ltac list_eq := repeat match goal with
  | |- _ :: _ = _ :: _ => apply f_equal2
  | |- letter _ = letter _ => apply f_equal
  end; try reflexivity; try lia.

Ltac numpow := cbn [Nat.sub N.of_nat Pos.of_succ_nat Pos.succ];
  change (2 ^ 0) with 1; change (2 ^ 1) with 2; change (2 ^ 2) with 4; change (2 ^ 3) with 8;
  change (2 ^ 4) with 16; change (2 ^ 5) with 32; change (2 ^ 6) with 64;
  change (2 ^ 7) with 128; change (2 ^ 8) with 256.

(** first two characters of x, leaving the last three bits of x *)
Lemma chars_x_r x r : chars_of (byte_bits x ++ r) = letter (bits_val (sl x 0 5)) :: chars_of (sl x 5 8 ++ r).
Proof.
  rewrite (byte_bits_split x 5) by lia. rewrite <- app_assoc.
  rewrite chars_of_app5 by (apply sl_length; lia). reflexivity.
Qed.

Lemma chars_3_y x y r : chars_of (sl x 5 8 ++ byte_bits y ++ r) =
  letter (bits_val (sl x 5 8 ++ sl y 0 2)) :: letter (bits_val (sl y 2 7)) :: chars_of (sl y 7 8 ++ r).
Proof.
  rewrite (byte_bits_split3 y 2 7) by lia. rewrite <- !app_assoc.
  rewrite (app_assoc (sl x 5 8)).
  rewrite chars_of_app5 by (rewrite app_length, !sl_length; lia).
  rewrite chars_of_app5 by (apply sl_length; lia). reflexivity.
Qed.

Lemma chars_1_y x y r : chars_of (sl x 7 8 ++ byte_bits y ++ r) =
  letter (bits_val (sl x 7 8 ++ sl y 0 4)) :: chars_of (sl y 4 8 ++ r).
Proof.
  rewrite (byte_bits_split y 4) by lia. rewrite <- !app_assoc.
  rewrite (app_assoc (sl x 7 8)).
  rewrite chars_of_app5 by (rewrite app_length, !sl_length; lia). reflexivity.
Qed.

Lemma chars_4_y x y r : chars_of (sl x 4 8 ++ byte_bits y ++ r) =
  letter (bits_val (sl x 4 8 ++ sl y 0 1)) :: letter (bits_val (sl y 1 6)) :: chars_of (sl y 6 8 ++ r).
Proof.
  rewrite (byte_bits_split3 y 1 6) by lia. rewrite <- !app_assoc.
  rewrite (app_assoc (sl x 4 8)).
  rewrite chars_of_app5 by (rewrite app_length, !sl_length; lia).
  rewrite chars_of_app5 by (apply sl_length; lia). reflexivity.
Qed.

Lemma chars_2_y x y r : chars_of (sl x 6 8 ++ byte_bits y ++ r) =
  letter (bits_val (sl x 6 8 ++ sl y 0 3)) :: letter (bits_val (sl y 3 8)) :: chars_of r.
Proof.
  rewrite (byte_bits_split y 3) by lia. rewrite <- !app_assoc.
  rewrite (app_assoc (sl x 6 8)).
  rewrite chars_of_app5 by (rewrite app_length, !sl_length; lia).
  rewrite chars_of_app5 by (apply sl_length; lia). reflexivity.
Qed.

Ltac finish_rfc :=
  rewrite ?val2, ?sl_val, ?sl_length by lia;
  numpow; arith_bits; rewrite ?b32_letter by lia; cbn [app]; list_eq.

Lemma encode_rfc l : bytes l -> encode_loop l = rfc4648_base32 l.
Proof.
  induction l as [ |a|a b|a b c|a b c d|a b c d e r IH] using group5_ind; intros HB;
    repeat match goal with H : bytes (_ :: _) |- _ => inversion H; clear H; subst
           | H : Forall _ (_ :: _) |- _ => inversion H; clear H; subst end;
    unfold is_byte in *; cbn [encode_loop].
  - reflexivity.
  - rewrite rfc_unfold, !bit_string_cons. cbn [bit_string flat_map].
    rewrite !chars_x_r, ?app_nil_r.
    rewrite !(chars_of_last (sl a 5 8)) by (rewrite sl_length by lia; lia).
    cbn [length]. unfold pad8. cbn [Nat.modulo Nat.divmod fst snd Nat.sub repeat].
    finish_rfc.
  - rewrite rfc_unfold, !bit_string_cons. cbn [bit_string flat_map].
    rewrite !chars_x_r, !chars_3_y, ?app_nil_r.
    rewrite !(chars_of_last (sl b 7 8)) by (rewrite sl_length by lia; lia).
    cbn [length]. unfold pad8. cbn [Nat.modulo Nat.divmod fst snd Nat.sub repeat].
    finish_rfc.
  - rewrite rfc_unfold, !bit_string_cons. cbn [bit_string flat_map].
    rewrite !chars_x_r, !chars_3_y, !chars_1_y, ?app_nil_r.
    rewrite !(chars_of_last (sl c 4 8)) by (rewrite sl_length by lia; lia).
    cbn [length]. unfold pad8. cbn [Nat.modulo Nat.divmod fst snd Nat.sub repeat].
    finish_rfc.
  - rewrite rfc_unfold, !bit_string_cons. cbn [bit_string flat_map].
    rewrite !chars_x_r, !chars_3_y, !chars_1_y, !chars_4_y, ?app_nil_r.
    rewrite !(chars_of_last (sl d 6 8)) by (rewrite sl_length by lia; lia).
    cbn [length]. unfold pad8. cbn [Nat.modulo Nat.divmod fst snd Nat.sub repeat].
    finish_rfc.
  - rewrite rfc_unfold, !bit_string_cons.
    rewrite !chars_x_r, !chars_3_y, !chars_1_y, !chars_4_y, !chars_2_y.
    cbn [length]. rewrite pad8_plus8.
    rewrite IH by assumption. rewrite rfc_unfold.
    finish_rfc.
Qed.

Lemma encode_spec l n : bytes l -> (encode_len (length l) <= n)%nat ->
  stores (encode l n) = rfc4648_base32 l /\ ret (encode l n) = length (rfc4648_base32 l).
Proof.
  intros HB Hn. unfold encode. destruct (Nat.ltb_spec n (encode_len (length l))); [lia|].
  cbn [stores ret]. rewrite encode_rfc by exact HB. auto.
Qed.

(** ** Store bounds *)
Lemma encode_bound l n : (length (stores (encode l n)) <= n)%nat.
Proof.
  unfold encode. destruct (Nat.ltb_spec n (encode_len (length l))) as [|H]; cbn [stores length]; [lia|].
  rewrite encode_loop_length. exact H.
Qed.

Lemma group_out_len b : length (group_out b) = 5%nat. Proof. reflexivity. Qed.

Lemma pad_ob_le ib : (ib < 8)%nat -> ib <> 0%nat -> (8 * pad_ob ib <= 5 * (ib + 1))%nat /\ (pad_ob ib <= 5)%nat.
Proof.
  intros H1 H2. do 8 (destruct ib as [|ib]; [first [lia | cbn; lia]|]). lia.
Qed.

Lemma decode_loop_count src : forall b ib ob, (ib < 8)%nat -> (ob <= 5)%nat ->
  (8 * length (decode_loop src b ib ob) <= 5 * (ib + length src))%nat.
Proof.
  induction src as [|c r IH]; intros b ib ob Hib Hob; [cbn; lia|].
  cbn [decode_loop length].
  destruct (is_space c); [specialize (IH b ib ob Hib Hob); lia|].
  destruct (c =? 45); [specialize (IH b ib ob Hib Hob); lia|].
  destruct (ub32 c =? 254); [cbn; lia|].
  destruct (ub32 c =? 255).
  - destruct (Nat.eqb_spec ib 0); [cbn; lia|].
    destruct (pad_ob_le ib Hib n) as [Hp1 Hp2].
    unfold push. cbn [Nat.eqb]. rewrite app_length, firstn_length, group_out_len.
    specialize (IH zero8 0%nat (pad_ob ib) ltac:(lia) Hp2). lia.
  - unfold push. destruct (Nat.eqb_spec (S ib) 8).
    + rewrite app_length, firstn_length, group_out_len.
      specialize (IH zero8 0%nat ob ltac:(lia) Hob). lia.
    + cbn [app]. specialize (IH (upd b ib (ub32 c)) (S ib) ob ltac:(lia) Hob). lia.
Qed.

Lemma decode_bound src n :
  (8 * length (stores (decode src n)) <= 5 * length src)%nat.
Proof.
  unfold decode. destruct (Nat.ltb _ _); cbn [stores length]; [lia|].
  pose proof (decode_loop_count src zero8 0 5 ltac:(lia) ltac:(lia)). lia.
Qed.

Lemma decode_bound_mult8 src n k : length src = (8 * k)%nat ->
  (length (stores (decode src n)) <= n)%nat.
Proof.
  intros Hk. pose proof (decode_bound src n) as H. unfold decode in *.
  destruct (Nat.ltb_spec n (max_decode_len (length src))) as [|Hn]; cbn [stores length] in *; [lia|].
  unfold max_decode_len in Hn. rewrite Hk in Hn, H.
  rewrite (Nat.mul_comm 8 k), Nat.div_mul in Hn by lia. lia.
Qed.

Lemma decode_overflow :
  length (stores (decode [65;65;61] 0)) = 1%nat.
Proof. vm_compute. reflexivity. Qed.


Lemma decode_full_groups k rest :
  decode_loop (repeat 65 (8 * k) ++ rest) zero8 0 5
  = repeat 0 (5 * k) ++ decode_loop rest zero8 0 5.
Proof.
  induction k as [|k IH]; [reflexivity|].
  replace (8 * S k)%nat with (8 + 8 * k)%nat by lia.
  replace (5 * S k)%nat with (5 + 5 * k)%nat by lia.
  rewrite !repeat_app, <- !app_assoc, <- IH. reflexivity.
Qed.

Lemma decode_overflow_any n : (n mod 5 <> 4)%nat -> exists src,
  (n < length (stores (decode src n)))%nat.
Proof.
  intros Hn. pose (k := (n / 5)%nat).
  exists (repeat 65 (8 * k) ++ [65;65;65;65;65;65;61]).
  unfold decode, max_decode_len. rewrite app_length, repeat_length. cbn [length].
  replace ((8 * k + 7) / 8)%nat with k by lia.
  destruct (Nat.ltb_spec n (k * 5)); [lia|]. cbn [stores].
  rewrite decode_full_groups, app_length, repeat_length.
  change (length (decode_loop [65;65;65;65;65;65;61] zero8 0 5)) with 4%nat. lia.
Qed.

Lemma decode_safe_mod4 n src : (n mod 5 = 4)%nat ->
  (length (stores (decode src n)) <= n)%nat.
Proof.
  intros Hn. pose proof (decode_bound src n) as H. unfold decode, max_decode_len in *.
  destruct (Nat.ltb_spec n (length src / 8 * 5)) as [|Hl]; cbn [stores length] in *; lia.
Qed.

Lemma decode_safe_iff n :
  (forall src, (length (stores (decode src n)) <= n)%nat) <-> (n mod 5 = 4)%nat.
Proof.
  split.
  - intros H. destruct (Nat.eq_dec (n mod 5) 4) as [|Hn]; [assumption|].
    destruct (decode_overflow_any n Hn) as [src Hs]. specialize (H src). lia.
  - intros Hn src. apply decode_safe_mod4. exact Hn.
Qed.

(** ** Case insensitivity. *)
Definition case_ok (a : N) : bool :=
  negb ((65 <=? a) && (a <=? 90)) ||
  (Bool.eqb (is_space a) (is_space (a + 32)) && Bool.eqb (a =? 45) (a + 32 =? 45)
   && (ub32 a =? ub32 (a + 32))).

Lemma case_class a : 65 <= a <= 90 ->
  is_space a = is_space (a + 32) /\ (a =? 45) = (a + 32 =? 45) /\ ub32 a = ub32 (a + 32).
Proof.
  intros H. assert (case_ok a = true) as C.
  { apply (all_below_spec 91); [vm_compute; reflexivity|lia]. }
  unfold case_ok in C.
  rewrite (proj2 (N.leb_le 65 a)), (proj2 (N.leb_le a 90)) in C by apply H.
  cbn [andb negb orb] in C. apply andb_prop in C as [C C3]. apply andb_prop in C as [C1 C2].
  apply eqb_prop in C1, C2. apply N.eqb_eq in C3. auto.
Qed.

Lemma same_letter_class a b : same_letter a b ->
  is_space a = is_space b /\ (a =? 45) = (b =? 45) /\ ub32 a = ub32 b.
Proof.
  intros [->|[[H ->]|[H ->]]]; [auto|apply case_class, H|].
  destruct (case_class _ H) as (E1 & E2 & E3). auto.
Qed.

Lemma decode_loop_case s t : Forall2 same_letter s t ->
  forall b ib ob, decode_loop s b ib ob = decode_loop t b ib ob.
Proof.
  induction 1 as [|x y s t Hxy Hst IH]; intros; [reflexivity|].
  destruct (same_letter_class _ _ Hxy) as (E1 & E2 & E3).
  cbn [decode_loop]. rewrite E1, E2, E3.
  destruct (is_space y), (y =? 45), (ub32 y =? 254), (ub32 y =? 255), (Nat.eqb ib 0);
    auto; destruct (push _ _ _ _) as [[b' ib'] o]; now rewrite IH.
Qed.

Lemma decode_case s t n : Forall2 same_letter s t -> decode s n = decode t n.
Proof.
  intros H. unfold decode.
  assert (length s = length t) as -> by (clear - H; induction H; cbn; congruence).
  now rewrite (decode_loop_case _ _ H).
Qed.
