From Coq Require Import List ZArith NArith Bool Lia ZifyBool.
From Verif.Bit Require Import Model Spec.
Import ListNotations.
Open Scope Z_scope.

Lemma mod_bits : forall a k, 0 <= k < 32 -> Z.testbit (a mod 2 ^ 32) k = Z.testbit a k.
Proof. intros a k H. apply Z.mod_pow2_bits_low. lia. Qed.
Lemma mod_range : forall a, 0 <= a mod 2 ^ 32 < 2 ^ 32.
Proof. intros a. apply Z.mod_pos_bound. lia. Qed.
Lemma high : forall b k, 0 <= b < 2 ^ 32 -> 32 <= k -> Z.testbit b k = false.
Proof. intros b k H K. rewrite <- (Z.mod_small b (2 ^ 32) H). apply Z.mod_pow2_bits_high. lia. Qed.
Lemma sbits_range : forall z, - 2 ^ 31 <= sbits z < 2 ^ 31.
Proof. intros z. unfold sbits, ubits. pose proof (mod_range z). change (2 ^ 32) with 4294967296 in *. change (2 ^ 31) with 2147483648. destruct (Z.ltb_spec (z mod 4294967296) 2147483648); lia. Qed.
Lemma sbits_mod : forall z, sbits z mod 2 ^ 32 = z mod 2 ^ 32.
Proof.
  intros z. unfold sbits, ubits. destruct (z mod 2 ^ 32 <? 2 ^ 31).
  - apply Z.mod_mod. lia.
  - replace (z mod 2 ^ 32 - 2 ^ 32) with (z mod 2 ^ 32 + (-1) * 2 ^ 32) by lia. rewrite Z.mod_add by lia. apply Z.mod_mod. lia.
Qed.
Lemma sbits_bits : forall z k, 0 <= k < 32 -> Z.testbit (sbits z) k = Z.testbit z k.
Proof. intros z k H. rewrite <- (mod_bits (sbits z)), sbits_mod by exact H. now apply mod_bits. Qed.
Lemma sbits_sign : forall z k, 31 <= k -> Z.testbit (sbits z) k = Z.testbit z 31.
Proof.
  intros z k H. rewrite <- (sbits_bits z 31) by lia. pose proof (sbits_range z) as R.
  destruct (Z.neg_nonneg_cases (sbits z)) as [N|N].
  - assert (E : forall j, 31 <= j -> Z.testbit (sbits z) j = true).
    { intros j J. replace (sbits z) with (- (- sbits z)) by lia. rewrite Z.bits_opp by lia.
      replace (Z.pred (- sbits z)) with ((- sbits z - 1) mod 2 ^ 31) by (rewrite Z.mod_small by lia; lia).
      now rewrite Z.mod_pow2_bits_high by lia. }
    rewrite !E; [reflexivity|lia|exact H].
  - assert (E : forall j, 31 <= j -> Z.testbit (sbits z) j = false).
    { intros j J. rewrite <- (Z.mod_small (sbits z) (2 ^ 31)) by lia. now apply Z.mod_pow2_bits_high. }
    rewrite !E; [reflexivity|lia|exact H].
Qed.
Lemma answer : forall z f, (forall k, 0 <= k < 32 -> Z.testbit z k = f k) -> bits f (Ok (sbits z)).
Proof. intros z f H. exists (sbits z). split; [reflexivity|]. split; [apply sbits_range|]. intros k K. rewrite sbits_bits by exact K. now apply H. Qed.

Lemma barg_ok : forall z, fits z -> barg (Num z) = Ok (z mod 2 ^ 32).
Proof.
  intros z [A B]. unfold barg. cbn [tonumber isnumber negb]. rewrite andb_false_r.
  replace ((z + MAGIC <? 2 ^ 52) || (2 ^ 53 <=? z + MAGIC)) with false by (unfold MAGIC; change (2 ^ 51) with 2251799813685248 in *; change (2 ^ 52) with 4503599627370496; change (2 ^ 53) with 9007199254740992; lia).
  f_equal. unfold low_word, MAGIC. replace (z + (2 ^ 52 + 2 ^ 51) - 2 ^ 52) with (z + 2 ^ 19 * 2 ^ 32) by (change (2 ^ 19 * 2 ^ 32) with (2 ^ 51); lia).
  apply Z.mod_add. lia.
Qed.
Lemma barg_thing : barg Thing = Err.
Proof. reflexivity. Qed.

Lemma tobit_bits : forall z l, fits z -> bits (Z.testbit z) (bit_tobit (Num z :: l)).
Proof. intros z l H. unfold bit_tobit, at_. cbn [nth Nat.sub]. rewrite barg_ok by exact H. cbn [bind]. apply answer. intros k K. now apply mod_bits. Qed.
Lemma bnot_bits : forall z l, fits z -> bits (fun k => negb (Z.testbit z k)) (bit_bnot (Num z :: l)).
Proof.
  intros z l H. unfold bit_bnot, at_. cbn [nth Nat.sub]. rewrite barg_ok by exact H. cbn [bind]. apply answer. intros k K.
  unfold ubits. rewrite mod_bits, Z.lnot_spec, mod_bits by lia. reflexivity.
Qed.
Section Op.
Variables (opr : Z -> Z -> Z) (o : bool -> bool -> bool).
Hypothesis spec : forall a b k, Z.testbit (opr a b) k = o (Z.testbit a k) (Z.testbit b k).
Hypothesis swap : forall a b c, o (o a b) c = o (o a c) b.
Lemma loop_bits : forall l b, Forall fits l -> bits (fun k => fold_left o (map (fun z => Z.testbit z k) l) (Z.testbit b k)) (op_loop opr b (map Num l)).
Proof.
  induction l as [|z l IH]; intros b H; cbn [map op_loop fold_left].
  - apply answer. reflexivity.
  - inversion H as [|z0 l0 Hz Hl]; subst. rewrite barg_ok by exact Hz. cbn [bind].
    destruct (IH (opr b (z mod 2 ^ 32)) Hl) as (r & E & R & K). exists r. split; [exact E|]. split; [exact R|].
    intros k Hk. rewrite (K k Hk), spec, mod_bits by exact Hk. reflexivity.
Qed.
Lemma fold_out : forall l a b, fold_left o l (o a b) = o (fold_left o l a) b.
Proof. induction l as [|c l IH]; intros a b; cbn [fold_left]; [reflexivity|]. now rewrite swap, IH. Qed.
Lemma fold_rev : forall l a, fold_left o (rev l) a = fold_left o l a.
Proof. induction l as [|c l IH]; intros a; cbn [rev fold_left]; [reflexivity|]. rewrite fold_left_app. cbn [fold_left]. now rewrite IH, fold_out. Qed.
Lemma op_bits : forall z l, fits z -> Forall fits l ->
  bits (fun k => fold_left o (map (fun x => Z.testbit x k) l) (Z.testbit z k)) (bit_op opr (map Num (z :: l))).
Proof.
  intros z l Hz Hl. unfold bit_op, at_. cbn [map nth Nat.sub tl]. rewrite barg_ok by exact Hz. cbn [bind]. rewrite <- map_rev.
  destruct (loop_bits (rev l) (z mod 2 ^ 32)) as (r & E & R & K); [now apply Forall_rev|].
  exists r. split; [exact E|]. split; [exact R|]. intros k Hk. rewrite (K k Hk), map_rev, fold_rev, mod_bits by exact Hk. reflexivity.
Qed.
Lemma loop_err : forall l b, Forall (fun a => match a with Num z => fits z | Thing => True end) l -> In Thing l -> op_loop opr b l = Err.
Proof.
  induction l as [|a l IH]; intros b F H; [destruct H|]. inversion F as [|a0 l0 Fa Fl]; subst. cbn [op_loop].
  destruct a as [z|]; [|now rewrite barg_thing]. rewrite barg_ok by exact Fa. cbn [bind]. apply IH; [exact Fl|]. destruct H as [H|H]; [discriminate H|exact H].
Qed.
Lemma op_err : forall l, Forall (fun a => match a with Num z => fits z | Thing => True end) l -> l = [] \/ In Thing l -> bit_op opr l = Err.
Proof.
  intros l F H. destruct l as [|a l]; [reflexivity|]. inversion F as [|a0 l0 Fa Fl]; subst. unfold bit_op, at_. cbn [nth Nat.sub tl].
  destruct a as [z|]; [|now rewrite barg_thing]. rewrite barg_ok by exact Fa. cbn [bind]. apply loop_err; [now apply Forall_rev|].
  rewrite <- in_rev. destruct H as [H|[H|H]]; [discriminate H|discriminate H|exact H].
Qed.
End Op.

Lemma land31 : forall m, Z.land (m mod 2 ^ 32) 31 = m mod 32.
Proof.
  intros m. change 31 with (Z.ones 5). rewrite Z.land_ones by lia. change (2 ^ 5) with 32. symmetry. apply Znumtheory.Zmod_div_mod; [lia|lia|]. exists (2 ^ 27). reflexivity.
Qed.
Lemma sh_ok : forall fn z m l, fits z -> fits m -> bit_sh fn (Num z :: Num m :: l) = bind (fn (z mod 2 ^ 32) (m mod 32)) (fun r => Ok (sbits r)).
Proof. intros fn z m l Hz Hm. unfold bit_sh, at_. cbn [nth Nat.sub]. rewrite !barg_ok by assumption. cbn [bind]. now rewrite land31. Qed.
Lemma shl_ok : forall b n, 0 <= n < 32 -> shl b n = Ok (ubits (Z.shiftl b n)).
Proof. intros b n H. unfold shl. now replace ((0 <=? n) && (n <? 32)) with true by lia. Qed.
Lemma shr_ok : forall b n, 0 <= n < 32 -> shr b n = Ok (Z.shiftr b n).
Proof. intros b n H. unfold shr. now replace ((0 <=? n) && (n <? 32)) with true by lia. Qed.
Lemma shl_bits : forall z n k, 0 <= n -> 0 <= k < 32 -> Z.testbit (ubits (Z.shiftl (z mod 2 ^ 32) n)) k = (n <=? k) && Z.testbit z (k - n).
Proof.
  intros z n k N K. unfold ubits. rewrite mod_bits, Z.shiftl_spec by lia. destruct (Z.leb_spec n k) as [H|H]; cbn [andb].
  - apply mod_bits. lia.
  - apply Z.testbit_neg_r. lia.
Qed.
Lemma shr_bits : forall z n k, 0 <= n -> 0 <= k < 32 -> Z.testbit (Z.shiftr (z mod 2 ^ 32) n) k = (k + n <? 32) && Z.testbit z (k + n).
Proof.
  intros z n k N K. rewrite Z.shiftr_spec by lia. destruct (Z.ltb_spec (k + n) 32) as [H|H]; cbn [andb].
  - apply mod_bits. lia.
  - apply high; [apply mod_range|lia].
Qed.
Lemma m32 : forall m, 0 <= m mod 32 < 32.
Proof. intros m. apply Z.mod_pos_bound. lia. Qed.
Lemma lshift_bits : forall z m l, fits z -> fits m -> bits (fun k => (m mod 32 <=? k) && Z.testbit z (k - m mod 32)) (bit_lshift (Num z :: Num m :: l)).
Proof. intros z m l Hz Hm. pose proof (m32 m). unfold bit_lshift. rewrite sh_ok by assumption. unfold bshl. rewrite shl_ok by lia. cbn [bind]. apply answer. intros k K. apply shl_bits; lia. Qed.
Lemma rshift_bits : forall z m l, fits z -> fits m -> bits (fun k => (k + m mod 32 <? 32) && Z.testbit z (k + m mod 32)) (bit_rshift (Num z :: Num m :: l)).
Proof. intros z m l Hz Hm. pose proof (m32 m). unfold bit_rshift. rewrite sh_ok by assumption. unfold bshr. rewrite shr_ok by lia. cbn [bind]. apply answer. intros k K. apply shr_bits; lia. Qed.
Lemma arshift_bits : forall z m l, fits z -> fits m -> bits (fun k => Z.testbit z (Z.min 31 (k + m mod 32))) (bit_arshift (Num z :: Num m :: l)).
Proof.
  intros z m l Hz Hm. pose proof (m32 m). unfold bit_arshift. rewrite sh_ok by assumption. unfold bsar. rewrite shr_ok by lia. cbn [bind]. apply answer. intros k K.
  rewrite Z.shiftr_spec by lia. destruct (Z.ltb_spec (k + m mod 32) 31) as [H1|H1].
  - rewrite Z.min_r by lia. rewrite sbits_bits by lia. apply mod_bits. lia.
  - rewrite Z.min_l by lia. rewrite sbits_sign by lia. apply mod_bits. lia.
Qed.
Lemma rol_bits : forall z m l, fits z -> fits m -> m mod 32 <> 0 -> bits (fun k => Z.testbit z ((k - m) mod 32)) (bit_rol (Num z :: Num m :: l)).
Proof.
  intros z m l Hz Hm N. pose proof (m32 m). unfold bit_rol. rewrite sh_ok by assumption. unfold brol. rewrite shl_ok, shr_ok by lia. cbn [bind]. apply answer. intros k K.
  rewrite Z.lor_spec, shl_bits, shr_bits by lia.
  assert (E : (k - m) mod 32 = (k - m mod 32) mod 32) by (rewrite Zminus_mod_idemp_r; reflexivity). rewrite E.
  destruct (Z.leb_spec (m mod 32) k) as [A|A]; cbn [andb orb].
  - rewrite (Z.mod_small (k - m mod 32)) by lia. replace (k + (32 - m mod 32) <? 32) with false by lia. apply orb_false_r.
  - replace (k + (32 - m mod 32) <? 32) with true by lia. cbn [andb]. f_equal. rewrite <- (Z.mod_add (k - m mod 32) 1 32) by lia. rewrite (Z.mod_small (k - m mod 32 + 1 * 32)) by lia. lia.
Qed.
Lemma ror_bits : forall z m l, fits z -> fits m -> m mod 32 <> 0 -> bits (fun k => Z.testbit z ((k + m) mod 32)) (bit_ror (Num z :: Num m :: l)).
Proof.
  intros z m l Hz Hm N. pose proof (m32 m). unfold bit_ror. rewrite sh_ok by assumption. unfold bror. rewrite shl_ok, shr_ok by lia. cbn [bind]. apply answer. intros k K.
  rewrite Z.lor_spec, shl_bits, shr_bits by lia.
  assert (E : (k + m) mod 32 = (k + m mod 32) mod 32) by (rewrite Zplus_mod_idemp_r; reflexivity). rewrite E.
  destruct (Z.ltb_spec (k + m mod 32) 32) as [A|A]; cbn [andb orb].
  - rewrite (Z.mod_small (k + m mod 32)) by lia. replace (32 - m mod 32 <=? k) with false by lia. reflexivity.
  - replace (32 - m mod 32 <=? k) with true by lia. cbn [andb]. rewrite orb_false_r. f_equal.
    rewrite <- (Z.mod_add (k + m mod 32) (-1) 32) by lia. rewrite (Z.mod_small (k + m mod 32 + -1 * 32)) by lia. lia.
Qed.
Lemma rot_zero : forall z m l, fits z -> fits m -> m mod 32 = 0 -> bit_rol (Num z :: Num m :: l) = Out /\ bit_ror (Num z :: Num m :: l) = Out.
Proof. intros z m l Hz Hm N. unfold bit_rol, bit_ror. rewrite !sh_ok, N by assumption. now split. Qed.
Lemma sh_err : forall fn a b l, match a with Num z => fits z | Thing => True end -> match b with Num z => fits z | Thing => True end ->
  a = Thing \/ b = Thing -> bit_sh fn (a :: b :: l) = Err.
Proof.
  intros fn a b l A B H. unfold bit_sh, at_. cbn [nth Nat.sub]. destruct a as [z|]; [|reflexivity]. rewrite barg_ok by exact A. cbn [bind].
  destruct b as [m|]; [|reflexivity]. destruct H; discriminate.
Qed.
Lemma mask_bits : forall b k, 0 <= k < 32 -> Z.testbit (Z.land b 65280) k = (8 <=? k) && (k <? 16) && Z.testbit b k.
Proof.
  intros b k K. rewrite Z.land_spec. change 65280 with (Z.shiftl (Z.ones 8) 8). rewrite Z.shiftl_spec, Z.testbit_ones by lia.
  rewrite (andb_comm (Z.testbit b k)). f_equal. lia.
Qed.
Lemma bswap_bits : forall z l, fits z -> bits (fun k => Z.testbit z (8 * (3 - k / 8) + k mod 8)) (bit_bswap (Num z :: l)).
Proof.
  intros z l Hz. unfold bit_bswap, at_. cbn [nth Nat.sub]. rewrite barg_ok by exact Hz. cbn [bind]. apply answer. intros k K.
  rewrite !Z.lor_spec, shr_bits, mask_bits, shr_bits, shl_bits by lia. unfold ubits. rewrite mod_bits, Z.shiftl_spec by lia.
  assert (D : k = 8 * (k / 8) + k mod 8) by (apply Z.div_mod; lia). assert (M : 0 <= k mod 8 < 8) by (apply Z.mod_pos_bound; lia).
  set (q := k / 8) in *. set (r := k mod 8) in *. clearbody q r.
  assert (X : Z.testbit (Z.land (z mod 2 ^ 32) 65280) (k - 8) = (16 <=? k) && (k <? 24) && Z.testbit z (k - 8)).
  { destruct (Z.leb_spec 8 k) as [A|A].
    - rewrite mask_bits, mod_bits by lia. f_equal. lia.
    - rewrite Z.testbit_neg_r by lia. replace (16 <=? k) with false by lia. reflexivity. }
  rewrite X.
  assert (C : q = 0 \/ q = 1 \/ q = 2 \/ q = 3) by lia. destruct C as [-> | [-> | [-> | ->]]].
  - replace (k + 24 <? 32) with true by lia. replace (8 <=? k) with false by lia. replace (16 <=? k) with false by lia. replace (24 <=? k) with false by lia. cbn [andb orb]. rewrite ?orb_false_r. f_equal. lia.
  - replace (k + 24 <? 32) with false by lia. replace (8 <=? k) with true by lia. replace (k <? 16) with true by lia. replace (k + 8 <? 32) with true by lia. replace (16 <=? k) with false by lia. replace (24 <=? k) with false by lia. cbn [andb orb]. rewrite ?orb_false_r. f_equal. lia.
  - replace (k + 24 <? 32) with false by lia. replace (k <? 16) with false by lia. replace (16 <=? k) with true by lia. replace (k <? 24) with true by lia. replace (24 <=? k) with false by lia. rewrite ?andb_false_r. cbn [andb orb]. rewrite ?orb_false_r. f_equal. lia.
  - replace (k + 24 <? 32) with false by lia. replace (k <? 16) with false by lia. replace (k <? 24) with false by lia. replace (24 <=? k) with true by lia. rewrite ?andb_false_r. cbn [andb orb]. f_equal. lia.
Qed.
