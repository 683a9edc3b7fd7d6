From Coq Require Import List ZArith NArith Bool Lia ZifyBool ZifyN.
From Verif.Bit Require Import Model Spec Proofs.
Import ListNotations.
Open Scope Z_scope.

Lemma fold_andb : forall l a, fold_left andb l a = a && forallb (fun x => x) l.
Proof. induction l as [|b l IH]; intros a; cbn [fold_left forallb]; [now rewrite andb_true_r|]. now rewrite IH, andb_assoc. Qed.
Lemma fold_orb : forall l a, fold_left orb l a = a || existsb (fun x => x) l.
Proof. induction l as [|b l IH]; intros a; cbn [fold_left existsb]; [now rewrite orb_false_r|]. now rewrite IH, orb_assoc. Qed.
Lemma forallb_map : forall (l : list Z) f, forallb (fun x : bool => x) (map f l) = forallb f l.
Proof. induction l as [|b l IH]; intros f; cbn [map forallb]; [reflexivity|]. now rewrite IH. Qed.
Lemma existsb_map : forall (l : list Z) f, existsb (fun x : bool => x) (map f l) = existsb f l.
Proof. induction l as [|b l IH]; intros f; cbn [map existsb]; [reflexivity|]. now rewrite IH. Qed.
Lemma fold_xorb : forall (l : list Z) f a, fold_left xorb (map f l) a = xorb a (Nat.odd (length (filter f l))).
Proof.
  induction l as [|b l IH]; intros f a; cbn [map fold_left filter length]; [now rewrite xorb_false_r|]. rewrite IH.
  destruct (f b); cbn [length].
  - rewrite Nat.odd_succ, <- Nat.negb_odd. now destruct a, (Nat.odd (length (filter f l))).
  - now rewrite xorb_false_r.
Qed.
Lemma xor_head : forall (l : list Z) f z, xorb (f z) (Nat.odd (length (filter f l))) = Nat.odd (length (filter f (z :: l))).
Proof. intros l f z. cbn [filter]. destruct (f z); cbn [length]; [rewrite Nat.odd_succ, <- Nat.negb_odd|]; now destruct (Nat.odd (length (filter f l))). Qed.

Lemma bits_ext : forall f g r, (forall k, 0 <= k < 32 -> f k = g k) -> bits f r -> bits g r.
Proof. intros f g r H (z & E & R & K). exists z. split; [exact E|]. split; [exact R|]. intros k Hk. now rewrite K, H. Qed.
Lemma band_bits : forall z l, fits z -> Forall fits l -> bits (fun k => forallb (fun x => Z.testbit x k) (z :: l)) (bit_band (map Num (z :: l))).
Proof.
  intros z l A B. eapply bits_ext; [|apply (op_bits Z.land andb); [apply Z.land_spec| |exact A|exact B]].
  - intros k _. cbn beta. now rewrite fold_andb, forallb_map.
  - now intros [] [] [].
Qed.
Lemma bor_bits : forall z l, fits z -> Forall fits l -> bits (fun k => existsb (fun x => Z.testbit x k) (z :: l)) (bit_bor (map Num (z :: l))).
Proof.
  intros z l A B. eapply bits_ext; [|apply (op_bits Z.lor orb); [apply Z.lor_spec| |exact A|exact B]].
  - intros k _. cbn beta. now rewrite fold_orb, existsb_map.
  - now intros [] [] [].
Qed.
Lemma bxor_bits : forall z l, fits z -> Forall fits l -> bits (fun k => Nat.odd (length (filter (fun x => Z.testbit x k) (z :: l)))) (bit_bxor (map Num (z :: l))).
Proof.
  intros z l A B. eapply bits_ext; [|apply (op_bits Z.lxor xorb); [apply Z.lxor_spec| |exact A|exact B]].
  - intros k _. cbn beta. rewrite fold_xorb. apply (xor_head l (fun x => Z.testbit x k)).
  - now intros [] [] [].
Qed.

Lemma loop_app : forall u k b acc, hex_loop u k b acc = hex_loop u k b [] ++ acc.
Proof.
  induction k as [|k IH]; intros b acc; cbn [hex_loop]; [reflexivity|].
  rewrite IH, (IH _ [_]). now rewrite <- app_assoc.
Qed.
Lemma loop_len : forall u k b, length (hex_loop u k b []) = k.
Proof. induction k as [|k IH]; intros b; cbn [hex_loop]; [reflexivity|]. rewrite loop_app, app_length, IH. cbn [length]. lia. Qed.
Lemma hex_ok : forall u d, 0 <= d < 16 -> digit u (hexdigit u d) d.
Proof. intros u d H. unfold digit, hexdigit. destruct (Z.ltb_spec d 10); [left; lia|right]. destruct u; lia. Qed.
Lemma loop_reads : forall u k b, 0 <= b -> reads u (hex_loop u k b []) (b mod 16 ^ Z.of_nat k).
Proof.
  induction k as [|k IH]; intros b B; cbn [hex_loop].
  - change (16 ^ Z.of_nat 0) with 1. rewrite Z.mod_1_r. constructor.
  - rewrite loop_app.
    assert (D : Z.land b 15 = b mod 16) by (change 15 with (Z.ones 4); rewrite Z.land_ones by lia; reflexivity).
    assert (Q : Z.shiftr b 4 = b / 16) by (rewrite Z.shiftr_div_pow2 by lia; reflexivity).
    replace (b mod 16 ^ Z.of_nat (S k)) with (16 * ((b / 16) mod 16 ^ Z.of_nat k) + b mod 16).
    + rewrite D, Q. constructor; [apply IH; apply Z.div_pos; lia|apply hex_ok; apply Z.mod_pos_bound; lia].
    + rewrite Nat2Z.inj_succ, Z.pow_succ_r by lia. rewrite Z.rem_mul_r by lia. lia.
Qed.
Lemma low_digits : forall x k, (k <= 8)%nat -> (x mod 2 ^ 32) mod 16 ^ Z.of_nat k = x mod 16 ^ Z.of_nat k.
Proof.
  intros x k H. symmetry. apply Znumtheory.Zmod_div_mod; [lia|lia|].
  exists (16 ^ (8 - Z.of_nat k)). rewrite <- Z.pow_add_r by lia. replace (8 - Z.of_nat k + Z.of_nat k) with 8 by lia. reflexivity.
Qed.
Lemma signed : forall n w, - 2 ^ 31 <= w < 2 ^ 31 -> same32 n w -> sbits (n mod 2 ^ 32) = w.
Proof.
  intros n w W [q ->]. rewrite Z.mod_add by lia. unfold sbits, ubits. rewrite Z.mod_mod by lia.
  destruct (Z.neg_nonneg_cases w) as [N|N].
  - rewrite <- (Z.mod_add w 1) by lia. rewrite Z.mod_small by lia. destruct (Z.ltb_spec (w + 1 * 2 ^ 32) (2 ^ 31)); lia.
  - rewrite Z.mod_small by lia. destruct (Z.ltb_spec w (2 ^ 31)); lia.
Qed.
Lemma tohex_ok : forall x n w l, fits x -> fits n -> - 2 ^ 31 < w < 2 ^ 31 -> same32 n w ->
  exists s, bit_tohex (Num x :: Num n :: l) = Ok s /\ Z.of_nat (length s) = Z.min 8 (Z.abs w) /\ reads (w <? 0) s (x mod 16 ^ Z.of_nat (length s)).
Proof.
  intros x n w l X N W S. unfold bit_tohex, at_. cbn [nth Nat.sub length]. rewrite !barg_ok by assumption. cbn [bind Nat.ltb Nat.leb].
  rewrite (signed n w) by (lia || assumption). replace (w =? - 2 ^ 31) with false by lia.
  set (c := if 8 <? (if w <? 0 then - w else w) then 8 else if w <? 0 then - w else w).
  assert (C : c = Z.min 8 (Z.abs w)) by (unfold c; destruct (Z.ltb_spec w 0); [destruct (Z.ltb_spec 8 (- w))|destruct (Z.ltb_spec 8 w)]; lia). clearbody c.
  eexists. split; [reflexivity|]. rewrite loop_len. split; [lia|].
  rewrite <- low_digits by lia. apply loop_reads. apply mod_range.
Qed.
Lemma tohex_one : forall x, fits x -> exists s, bit_tohex [Num x] = Ok s /\ length s = 8%nat /\ reads false s (x mod 2 ^ 32).
Proof.
  intros x X. unfold bit_tohex, at_. cbn [nth Nat.sub length]. rewrite !barg_ok by assumption. cbn [bind Nat.ltb Nat.leb].
  eexists. split; [reflexivity|]. split; [apply loop_len|].
  pose proof (loop_reads false 8 (x mod 2 ^ 32) (proj1 (mod_range x))) as R. rewrite low_digits in R by lia. exact R.
Qed.
Lemma tohex_least : forall x n l, fits x -> fits n -> same32 n (- 2 ^ 31) -> bit_tohex (Num x :: Num n :: l) = Out.
Proof.
  intros x n l X N S. unfold bit_tohex, at_. cbn [nth Nat.sub length]. rewrite !barg_ok by assumption. cbn [bind Nat.ltb Nat.leb].
  rewrite (signed n (- 2 ^ 31)) by (lia || assumption). now rewrite Z.eqb_refl.
Qed.
Lemma bits_fits : forall f z, bits f (Ok z) -> fits z.
Proof. intros f z (y & E & R & _). injection E as <-. unfold fits. lia. Qed.
Lemma twice : forall z, fits z -> exists y, bit_bswap [Num z] = Ok y /\ bit_bswap [Num y] = bit_tobit [Num z].
Proof.
  intros z Z0. destruct (bswap_bits z [] Z0) as (y & E & R & K). exists y. split; [exact E|].
  assert (Fy : fits y) by (unfold fits; lia). destruct (bswap_bits y [] Fy) as (x & Ex & Rx & Kx). rewrite Ex.
  destruct (tobit_bits z [] Z0) as (w & Ew & Rw & Kw). rewrite Ew. f_equal.
  rewrite <- (signed x x) by (try (exists 0); lia). rewrite <- (signed w w) by (try (exists 0); lia). f_equal.
  apply Z.bits_inj'. intros k Hk. destruct (Z.ltb_spec k 32) as [L|L].
  - rewrite !mod_bits by lia. rewrite Kx, Kw by lia.
    assert (D : k = 8 * (k / 8) + k mod 8) by (apply Z.div_mod; lia). assert (M : 0 <= k mod 8 < 8) by (apply Z.mod_pos_bound; lia).
    set (q := k / 8) in *. set (r := k mod 8) in *. rewrite K by lia. f_equal.
    assert (A : (8 * (3 - q) + r) / 8 = 3 - q) by (symmetry; apply Z.div_unique with r; lia).
    assert (B : (8 * (3 - q) + r) mod 8 = r) by (symmetry; apply Z.mod_unique with (3 - q); lia). rewrite A, B. lia.
  - rewrite !Z.mod_pow2_bits_high by lia. reflexivity.
Qed.
