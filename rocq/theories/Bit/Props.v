(** The bit library of Lua: C181 to C186.  The specification is in Spec.v *)
From Coq Require Import List ZArith NArith Bool Lia.
From Verif.Bit Require Import Model Spec Proofs Proofs2.
Import ListNotations.
Open Scope Z_scope.

(** C181: the logic functions give the signed number whose bits are those of the operation *)
Theorem C181_tobit : forall z l, fits z -> bits (Z.testbit z) (bit_tobit (Num z :: l)).
Proof. exact tobit_bits. Qed.
Print Assumptions C181_tobit.
Example C181_tobit_ex : fits 4294967295 /\ bit_tobit [Num 4294967295] = Ok (-1).
Proof. split; [unfold fits; lia|reflexivity]. Qed.
Theorem C181_bnot : forall z l, fits z -> bits (fun k => negb (Z.testbit z k)) (bit_bnot (Num z :: l)).
Proof. exact bnot_bits. Qed.
Print Assumptions C181_bnot.
Example C181_bnot_ex : fits (2 ^ 40 + 5) /\ bit_bnot [Num (2 ^ 40 + 5)] = Ok (-6).
Proof. split; [unfold fits; lia|reflexivity]. Qed.
Theorem C181_band : forall z l, fits z -> Forall fits l -> bits (fun k => forallb (fun x => Z.testbit x k) (z :: l)) (bit_band (map Num (z :: l))).
Proof. exact band_bits. Qed.
Print Assumptions C181_band.
Example C181_band_ex : fits (-1) /\ Forall fits [6; 12] /\ bit_band (map Num [-1; 6; 12]) = Ok 4.
Proof. split; [unfold fits; lia|]. split; [repeat constructor; unfold fits; lia|reflexivity]. Qed.
Theorem C181_bor : forall z l, fits z -> Forall fits l -> bits (fun k => existsb (fun x => Z.testbit x k) (z :: l)) (bit_bor (map Num (z :: l))).
Proof. exact bor_bits. Qed.
Print Assumptions C181_bor.
Example C181_bor_ex : fits 2147483648 /\ Forall fits [1; 2] /\ bit_bor (map Num [2147483648; 1; 2]) = Ok (-2147483645).
Proof. split; [unfold fits; lia|]. split; [repeat constructor; unfold fits; lia|reflexivity]. Qed.
Theorem C181_bxor : forall z l, fits z -> Forall fits l -> bits (fun k => Nat.odd (length (filter (fun x => Z.testbit x k) (z :: l)))) (bit_bxor (map Num (z :: l))).
Proof. exact bxor_bits. Qed.
Print Assumptions C181_bxor.
Example C181_bxor_ex : fits 7 /\ Forall fits [5; 4] /\ bit_bxor (map Num [7; 5; 4]) = Ok 6.
Proof. split; [unfold fits; lia|]. split; [repeat constructor; unfold fits; lia|reflexivity]. Qed.

(** C182: an argument that is missing or no number is an error *)
Theorem C182_logic : forall l, Forall (fun a => match a with Num z => fits z | Thing => True end) l -> l = [] \/ In Thing l ->
  bit_band l = Err /\ bit_bor l = Err /\ bit_bxor l = Err.
Proof. intros l F H. repeat split; now apply op_err. Qed.
Print Assumptions C182_logic.
Example C182_logic_ex : Forall (fun a => match a with Num z => fits z | Thing => True end) [Num 5; Thing; Num 7] /\ In Thing [Num 5; Thing; Num 7].
Proof. split; [repeat constructor; unfold fits; lia|]. right. now left. Qed.
Theorem C182_single : forall l, hd Thing l = Thing -> bit_tobit l = Err /\ bit_bnot l = Err /\ bit_bswap l = Err /\ bit_tohex l = Err.
Proof. intros [|a l] H; [now repeat split|]. cbn in H. subst a. now repeat split. Qed.
Print Assumptions C182_single.
Example C182_single_ex : hd Thing [Thing; Num 3] = Thing.
Proof. reflexivity. Qed.
Theorem C182_shift : forall a b l, match a with Num z => fits z | Thing => True end -> match b with Num z => fits z | Thing => True end -> a = Thing \/ b = Thing ->
  bit_lshift (a :: b :: l) = Err /\ bit_rshift (a :: b :: l) = Err /\ bit_arshift (a :: b :: l) = Err /\ bit_rol (a :: b :: l) = Err /\ bit_ror (a :: b :: l) = Err.
Proof. intros a b l A B H. repeat split; now apply sh_err. Qed.
Print Assumptions C182_shift.
Example C182_shift_ex : fits 9 /\ bit_lshift [Num 9; Thing] = Err.
Proof. split; [unfold fits; lia|reflexivity]. Qed.
Theorem C182_short : forall z, fits z -> bit_lshift [Num z] = Err /\ bit_rshift [Num z] = Err /\ bit_arshift [Num z] = Err /\ bit_rol [Num z] = Err /\ bit_ror [Num z] = Err.
Proof. intros z H. unfold bit_lshift, bit_rshift, bit_arshift, bit_rol, bit_ror, bit_sh, at_. cbn [nth Nat.sub]. rewrite barg_ok by exact H. now repeat split. Qed.
Print Assumptions C182_short.
Example C182_short_ex : fits 9 /\ bit_ror [Num 9] = Err.
Proof. split; [unfold fits; lia|reflexivity]. Qed.
Theorem C182_tohex : forall x l, fits x -> bit_tohex (Num x :: Thing :: l) = Err.
Proof. intros x l X. unfold bit_tohex, at_. cbn [nth Nat.sub]. rewrite barg_ok by exact X. reflexivity. Qed.
Print Assumptions C182_tohex.
Example C182_tohex_ex : fits 255 /\ bit_tohex [Num 255; Thing] = Err.
Proof. split; [unfold fits; lia|reflexivity]. Qed.

(** C183: the shifts move the bits by the low five bits of the count; zeros or the sign come in *)
Theorem C183_left : forall z m l, fits z -> fits m -> bits (fun k => (m mod 32 <=? k) && Z.testbit z (k - m mod 32)) (bit_lshift (Num z :: Num m :: l)).
Proof. exact lshift_bits. Qed.
Print Assumptions C183_left.
Example C183_left_ex : fits 3 /\ fits 63 /\ bit_lshift [Num 3; Num 63] = Ok (-2147483648).
Proof. unfold fits. split; [lia|]. split; [lia|reflexivity]. Qed.
Theorem C183_right : forall z m l, fits z -> fits m -> bits (fun k => (k + m mod 32 <? 32) && Z.testbit z (k + m mod 32)) (bit_rshift (Num z :: Num m :: l)).
Proof. exact rshift_bits. Qed.
Print Assumptions C183_right.
Example C183_right_ex : fits (-256) /\ fits 8 /\ bit_rshift [Num (-256); Num 8] = Ok 16777215.
Proof. unfold fits. split; [lia|]. split; [lia|reflexivity]. Qed.
Theorem C183_sign : forall z m l, fits z -> fits m -> bits (fun k => Z.testbit z (Z.min 31 (k + m mod 32))) (bit_arshift (Num z :: Num m :: l)).
Proof. exact arshift_bits. Qed.
Print Assumptions C183_sign.
Example C183_sign_ex : fits (-256) /\ fits 8 /\ bit_arshift [Num (-256); Num 8] = Ok (-1).
Proof. unfold fits. split; [lia|]. split; [lia|reflexivity]. Qed.

(** C184: the rotations; the full statement does not hold for a count that is a multiple of 32 *)
Definition C184_full : Prop := forall z m l, fits z -> fits m ->
  bits (fun k => Z.testbit z ((k - m) mod 32)) (bit_rol (Num z :: Num m :: l)) /\
  bits (fun k => Z.testbit z ((k + m) mod 32)) (bit_ror (Num z :: Num m :: l)).
Theorem C184_refuted : ~ C184_full.
Proof. intros H. destruct (H 5 0 []) as [(z & E & _) _]; [unfold fits; lia|unfold fits; lia|]. discriminate E. Qed.
Print Assumptions C184_refuted.
Theorem C184_rotates_partial : forall z m l, fits z -> fits m -> m mod 32 <> 0 ->
  bits (fun k => Z.testbit z ((k - m) mod 32)) (bit_rol (Num z :: Num m :: l)) /\
  bits (fun k => Z.testbit z ((k + m) mod 32)) (bit_ror (Num z :: Num m :: l)).
Proof. intros z m l Z0 M N. split; [now apply rol_bits|now apply ror_bits]. Qed.
Print Assumptions C184_rotates_partial.
Example C184_rotates_partial_ex : fits 305419896 /\ fits 12 /\ 12 mod 32 <> 0 /\ bit_rol [Num 305419896; Num 12] = Ok 1164411171 /\ bit_ror [Num 305419896; Num 12] = Ok 1736516421.
Proof. unfold fits. split; [lia|]. split; [lia|]. split; [discriminate|]. split; reflexivity. Qed.
Theorem C184_whole_turn : forall z m l, fits z -> fits m -> m mod 32 = 0 -> bit_rol (Num z :: Num m :: l) = Out /\ bit_ror (Num z :: Num m :: l) = Out.
Proof. exact rot_zero. Qed.
Print Assumptions C184_whole_turn.
Example C184_whole_turn_ex : fits 7 /\ fits 64 /\ 64 mod 32 = 0.
Proof. unfold fits. split; [lia|]. split; [lia|reflexivity]. Qed.

(** C185: bswap turns the order of the bytes round, and twice is nothing *)
Theorem C185_bytes : forall z l, fits z -> bits (fun k => Z.testbit z (8 * (3 - k / 8) + k mod 8)) (bit_bswap (Num z :: l)).
Proof. exact bswap_bits. Qed.
Print Assumptions C185_bytes.
Example C185_bytes_ex : fits 305419896 /\ bit_bswap [Num 305419896] = Ok 2018915346.
Proof. split; [unfold fits; lia|reflexivity]. Qed.
Theorem C185_twice : forall z, fits z -> exists y, bit_bswap [Num z] = Ok y /\ bit_bswap [Num y] = bit_tobit [Num z].
Proof. exact twice. Qed.
Print Assumptions C185_twice.
Example C185_twice_ex : fits (-2) /\ bit_bswap [Num (-2)] = Ok (-16777217) /\ bit_bswap [Num (-16777217)] = Ok (-2).
Proof. split; [unfold fits; lia|]. split; reflexivity. Qed.

(** C186: tohex gives the digits asked for; the full statement does not hold for one count *)
Definition C186_full : Prop := forall x n w l, fits x -> fits n -> - 2 ^ 31 <= w < 2 ^ 31 -> same32 n w ->
  exists s, bit_tohex (Num x :: Num n :: l) = Ok s /\ Z.of_nat (length s) = Z.min 8 (Z.abs w) /\ reads (w <? 0) s (x mod 16 ^ Z.of_nat (length s)).
Theorem C186_refuted : ~ C186_full.
Proof. intros H. destruct (H 5 2147483648 (- 2 ^ 31) []) as (s & E & _); [unfold fits; lia|unfold fits; lia|lia|exists 1; reflexivity|]. discriminate E. Qed.
Print Assumptions C186_refuted.
Theorem C186_digits_partial : forall x n w l, fits x -> fits n -> - 2 ^ 31 < w < 2 ^ 31 -> same32 n w ->
  exists s, bit_tohex (Num x :: Num n :: l) = Ok s /\ Z.of_nat (length s) = Z.min 8 (Z.abs w) /\ reads (w <? 0) s (x mod 16 ^ Z.of_nat (length s)).
Proof. exact tohex_ok. Qed.
Print Assumptions C186_digits_partial.
Example C186_digits_partial_ex : fits 43981 /\ fits 4294967292 /\ same32 4294967292 (-4) /\ bit_tohex [Num 43981; Num 4294967292] = Ok [65; 66; 67; 68]%N.
Proof. unfold fits. split; [lia|]. split; [lia|]. split; [exists 1; reflexivity|reflexivity]. Qed.
Theorem C186_eight : forall x, fits x -> exists s, bit_tohex [Num x] = Ok s /\ length s = 8%nat /\ reads false s (x mod 2 ^ 32).
Proof. exact tohex_one. Qed.
Print Assumptions C186_eight.
Example C186_eight_ex : fits (-2) /\ bit_tohex [Num (-2)] = Ok [102; 102; 102; 102; 102; 102; 102; 101]%N.
Proof. split; [unfold fits; lia|reflexivity]. Qed.
Theorem C186_least : forall x n l, fits x -> fits n -> same32 n (- 2 ^ 31) -> bit_tohex (Num x :: Num n :: l) = Out.
Proof. exact tohex_least. Qed.
Print Assumptions C186_least.
Example C186_least_ex : fits 1 /\ fits (-2147483648) /\ same32 (-2147483648) (- 2 ^ 31).
Proof. unfold fits. split; [lia|]. split; [lia|]. exists 0. reflexivity. Qed.
