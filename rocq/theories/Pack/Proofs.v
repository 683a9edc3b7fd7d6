(** Integers in memory; the text of a format. *)
From Coq Require Import ZArith NArith List Bool Ascii String Lia ZifyBool ZifyNat ZifyN.
From Verif.Pack Require Import Model Spec.
Import ListNotations.
Local Open Scope Z_scope.

Lemma le_length : forall n z, List.length (le n z) = n.
Proof. induction n as [|n IH]; intro z; cbn; [reflexivity|]. now rewrite IH. Qed.
Lemma le_octets : forall n z, octets (le n z).
Proof.
  induction n as [|n IH]; intro z; cbn; constructor; [|apply IH].
  pose proof (Z.mod_pos_bound z 256). lia.
Qed.
Lemma pow8_S : forall n, 2 ^ (8 * Z.of_nat (S n)) = 256 * 2 ^ (8 * Z.of_nat n).
Proof. intro n. replace (8 * Z.of_nat (S n)) with (8 + 8 * Z.of_nat n) by lia. rewrite Z.pow_add_r by lia. reflexivity. Qed.
Lemma pow8_pos : forall n, 0 < 2 ^ (8 * Z.of_nat n).
Proof. intro n. apply Z.pow_pos_nonneg; lia. Qed.
Lemma unle_le : forall n z, unle (le n z) = z mod 2 ^ (8 * Z.of_nat n).
Proof.
  induction n as [|n IH]; intro z; cbn [le unle].
  - change (2 ^ (8 * Z.of_nat 0)) with 1. now rewrite Z.mod_1_r.
  - rewrite IH, pow8_S. pose proof (pow8_pos n). rewrite Z.rem_mul_r by lia.
    rewrite Z2N.id by (apply Z.mod_pos_bound; lia). reflexivity.
Qed.
Lemma unle_bound : forall b, octets b -> 0 <= unle b < 2 ^ (8 * Z.of_nat (List.length b)).
Proof.
  induction b as [|x b IH]; intro O; cbn [unle List.length].
  - change (2 ^ (8 * Z.of_nat 0)) with 1. lia.
  - inversion_clear O as [|y z A B]. rewrite pow8_S. specialize (IH B). lia.
Qed.
Lemma le_unle : forall b, octets b -> le (List.length b) (unle b) = b.
Proof.
  induction b as [|x b IH]; intro O; cbn [unle List.length le]; [reflexivity|].
  inversion_clear O as [|y z A B].
  assert (M : (Z.of_N x + 256 * unle b) mod 256 = Z.of_N x) by (symmetry; apply Z.mod_unique with (unle b); lia).
  assert (D : (Z.of_N x + 256 * unle b) / 256 = unle b) by (symmetry; apply Z.div_unique with (Z.of_N x); lia).
  rewrite M, D.
  rewrite IH by assumption. now rewrite N2Z.id.
Qed.
Lemma big_app : forall b x, big_value (b ++ [x]) = 256 * big_value b + Z.of_N x.
Proof. intros b x. unfold big_value. now rewrite fold_left_app. Qed.
Lemma big_unle : forall b, big_value (rev b) = unle b.
Proof. induction b as [|x b IH]; [reflexivity|]. cbn [rev unle]. rewrite big_app, IH. lia. Qed.
Lemma rev_octets : forall b, octets b -> octets (rev b).
Proof. intros b H. now apply Forall_rev. Qed.

(** The bytes of a number in an order are those that doswap makes. *)
Definition ordered (big : bool) (n : nat) (z : Z) : bytes := if big then rev (le n z) else le n z.
Lemma in_order_iff : forall big b z, in_order big b z <-> octets b /\ 0 <= z < 2 ^ (8 * Z.of_nat (List.length b)) /\ b = ordered big (List.length b) z.
Proof.
  intros big b z. unfold in_order, ordered. split.
  - intros [O E]. split; [exact O|]. destruct big.
    + rewrite <- (rev_involutive b) in E. rewrite big_unle in E. pose proof (unle_bound (rev b) (rev_octets _ O)) as B.
      rewrite rev_length, E in B. split; [exact B|]. rewrite <- E. rewrite <- (rev_length b). rewrite le_unle by now apply rev_octets.
      now rewrite rev_involutive.
    + rewrite big_unle in E. pose proof (unle_bound b O) as B. rewrite E in B. split; [exact B|]. rewrite <- E. now rewrite le_unle.
  - intros [O [B E]]. split; [exact O|]. rewrite E. destruct big.
    + rewrite <- (rev_involutive (rev (le _ z))), rev_involutive. rewrite big_unle, unle_le. now apply Z.mod_small.
    + rewrite big_unle, unle_le. now apply Z.mod_small.
Qed.
Lemma le_mod : forall n z, le n (z mod 2 ^ (8 * Z.of_nat n)) = le n z.
Proof.
  intros n z. rewrite <- unle_le. rewrite <- (le_length n z) at 1. apply le_unle, le_octets.
Qed.
(** [swap] makes order [big] out of the host's. *)
Definition swaps (little big swap : bool) : Prop := swap = Bool.eqb little big.
Lemma put_order : forall little big swap n z, swaps little big swap -> doswap swap (put_int little n z) = ordered big n z.
Proof.
  intros little big swap n z ->. unfold doswap, put_int, ordered. destruct little, big; cbn; try reflexivity.
  apply rev_involutive.
Qed.
Definition sign (sgn : bool) (n : nat) (u : Z) : Z :=
  if sgn && (2 ^ (8 * Z.of_nat n - 1) <=? u) then u - 2 ^ (8 * Z.of_nat n) else u.
Lemma get_order : forall little big swap sgn n z, swaps little big swap ->
  get_int little sgn (doswap swap (ordered big n z)) = sign sgn n (z mod 2 ^ (8 * Z.of_nat n)).
Proof.
  intros little big swap sgn n z ->. unfold get_int, doswap, ordered, sign.
  destruct little, big; cbn [Bool.eqb]; rewrite ?rev_involutive, ?rev_length, le_length, unle_le; reflexivity.
Qed.
Lemma sign_in : forall sgn n z, (0 < n)%nat -> in_type sgn n z = true -> sign sgn n (z mod 2 ^ (8 * Z.of_nat n)) = z.
Proof.
  intros sgn n z N H. unfold sign, in_type in *. pose proof (pow8_pos n) as P.
  assert (HP : 2 ^ (8 * Z.of_nat n) = 2 * 2 ^ (8 * Z.of_nat n - 1)).
  { rewrite <- Z.pow_succ_r by lia. f_equal. lia. }
  destruct sgn; cbn [andb].
  - destruct (Z.neg_nonneg_cases z) as [G|G].
    + replace (z mod 2 ^ (8 * Z.of_nat n)) with (z + 2 ^ (8 * Z.of_nat n)).
      * destruct (Z.leb_spec (2 ^ (8 * Z.of_nat n - 1)) (z + 2 ^ (8 * Z.of_nat n))); lia.
      * apply (Z.mod_unique z (2 ^ (8 * Z.of_nat n)) (-1)); lia.
    + rewrite Z.mod_small by lia. destruct (Z.leb_spec (2 ^ (8 * Z.of_nat n - 1)) z); lia.
  - apply Z.mod_small. lia.
Qed.

(** * The kinds *)
Lemma int_kind_code : forall c lo hi n, int_kind c lo hi n ->
  exists sgn, int_code c = Some (sgn, n) /\ (0 < n)%nat /\ forall z, lo <= z <= hi <-> in_type sgn n z = true.
Proof.
  intros c lo hi n K. destruct K; eexists; (split; [reflexivity|]); (split; [lia|]); intro z; unfold in_type; cbn [Z.of_nat Pos.of_succ_nat Pos.succ];
    match goal with |- context [2 ^ ?e] => let v := eval compute in (2 ^ e) in change (2 ^ e) with v end; lia.
Qed.
Lemma int_code_kind : forall c sgn n, int_code c = Some (sgn, n) -> exists lo hi, int_kind c lo hi n.
Proof.
  intros c sgn n H. unfold int_code in H.
  repeat match type of H with (if (c =? ?k)%N then _ else _) = _ => destruct (N.eqb_spec c k) as [->|]; [injection H as <- <-; eexists; eexists; constructor|] end.
  discriminate H.
Qed.

(** * The text *)
Lemma digit_iff : forall c, digit c = true <-> a_digit c.
Proof. intro c. unfold digit, a_digit. lia. Qed.
Lemma items_from_decimal : forall d k, decimal d k -> forall c r, items_from (c, None) (d ++ r) = items_from (c, Some k) r.
Proof.
  intros d k D. induction D as [x X|d k x D IH X]; intros c r.
  - cbn [app items_from fst snd]. replace (x =? 0)%N with false by (unfold a_digit in X; lia).
    replace (digit x) with true by (symmetry; now apply digit_iff). reflexivity.
  - rewrite <- app_assoc. rewrite IH. cbn [app items_from fst snd]. replace (x =? 0)%N with false by (unfold a_digit in X; lia).
    replace (digit x) with true by (symmetry; now apply digit_iff). reflexivity.
Qed.
Lemma items_from_rest : forall cur r l, no_digit_first r -> format r l -> items r = l -> items_from cur r = cur :: l.
Proof.
  intros cur [|x r] l N F E.
  - cbn in *. now subst l.
  - cbn [items_from]. cbn [items] in E. inversion F; subst.
    + replace (x =? 0)%N with false in * by lia.
      replace (digit x) with false by (symmetry; apply not_true_is_false; rewrite digit_iff; exact N). congruence.
    + replace (x =? 0)%N with false in * by lia.
      replace (digit x) with false by (symmetry; apply not_true_is_false; rewrite digit_iff; exact N). congruence.
Qed.
Lemma items_format : forall f l, format f l -> items f = l.
Proof.
  intros f l H. induction H as [|c r l C N F IH|c d k r l C D N F IH].
  - reflexivity.
  - cbn [items]. replace (c =? 0)%N with false by lia. now apply items_from_rest.
  - cbn [items]. replace (c =? 0)%N with false by lia. rewrite (items_from_decimal d k D). now apply items_from_rest.
Qed.
Lemma format_plain : forall cs, Forall (fun c => c <> 0%N /\ ~ a_digit c) cs -> format cs (map (fun c => (c, None)) cs).
Proof.
  induction cs as [|c cs IH]; intro H; [constructor|]. inversion_clear H as [|x y [A B] D]. cbn. constructor; [exact A| |now apply IH].
  destruct cs; [exact I|]. inversion_clear D as [|x' y' [A' B'] D']. exact B'.
Qed.
