(** Shared lemmas: finite sweeps over small ranges, shifts and masks as
    division and remainder, disjoint [lor] as addition.  No model content. *)
From Coq Require Import NArith ZArith List Lia Bool ZifyBool ZifyNat ZifyN.
Import ListNotations.
Ltac Zify.zify_post_hook ::= Z.div_mod_to_equations.
Open Scope N_scope.

Definition all_below (n : N) (f : N -> bool) : bool :=
  forallb (fun k => f (N.of_nat k)) (seq 0 (N.to_nat n)).

Lemma all_below_spec n f : all_below n f = true -> forall x, x < n -> f x = true.
Proof.
  unfold all_below. intros H x Hx. rewrite forallb_forall in H.
  specialize (H (N.to_nat x)). rewrite N2Nat.id in H. apply H.
  apply in_seq. lia.
Qed.

Lemma shiftr_div x k : N.shiftr x k = x / 2 ^ k.
Proof. apply N.shiftr_div_pow2. Qed.

Lemma shiftl_mul x k : N.shiftl x k = x * 2 ^ k.
Proof. apply N.shiftl_mul_pow2. Qed.

Lemma land_ones_mod x k : N.land x (N.ones k) = x mod 2 ^ k.
Proof. apply N.land_ones. Qed.

Lemma lor_disjoint a b k : b < 2 ^ k -> N.lor (a * 2 ^ k) b = a * 2 ^ k + b.
Proof.
  intros Hb. symmetry. apply N.add_nocarry_lxor in Hb || idtac.
  rewrite <- N.shiftl_mul_pow2.
  assert (N.land (N.shiftl a k) b = 0) as H0.
  { apply N.bits_inj. intro n. rewrite N.land_spec, N.bits_0.
    destruct (N.lt_ge_cases n k) as [Hn|Hn].
    - rewrite N.shiftl_spec_low by exact Hn. reflexivity.
    - assert (N.testbit b n = false) as ->; [|apply andb_false_r].
      destruct (N.eq_dec b 0) as [->|Hb0]; [apply N.bits_0|].
      apply N.bits_above_log2. apply N.log2_lt_pow2; [lia|].
      eapply N.lt_le_trans; [exact Hb|]. apply N.pow_le_mono_r; lia. }
  rewrite <- N.lxor_lor by exact H0. apply N.add_nocarry_lxor. exact H0.
Qed.

Lemma lor_lt a b k : a < 2 ^ k -> b < 2 ^ k -> N.lor a b < 2 ^ k.
Proof.
  intros Ha Hb. destruct (N.eq_dec (N.lor a b) 0) as [E|E].
  - rewrite E. lia.
  - apply N.log2_lt_pow2; [lia|]. rewrite N.log2_lor.
    assert (forall x, x < 2 ^ k -> x = 0 \/ N.log2 x < k) as L.
    { intros x Hx. destruct (N.eq_dec x 0); [auto|right; apply N.log2_lt_pow2; lia]. }
    destruct (L a Ha) as [->|La], (L b Hb) as [->|Lb]; cbn [N.log2] in *;
      rewrite ?N.max_0_l, ?N.max_0_r; try lia.
    exfalso; apply E; reflexivity.
Qed.

(** Bits of a byte, most significant first, and back. *)
Definition byte_bits (x : N) : list bool :=
  map (fun k => N.testbit x k) [7;6;5;4;3;2;1;0].

Definition bits_val (l : list bool) : N :=
  fold_left (fun acc (b : bool) => 2 * acc + (if b then 1 else 0)) l 0.

Lemma bits_val_acc l : forall a,
  fold_left (fun acc (b : bool) => 2 * acc + (if b then 1 else 0)) l a
  = a * 2 ^ N.of_nat (length l) + bits_val l.
Proof.
  unfold bits_val. induction l as [|b l IH]; intros a.
  - cbn [fold_left length]. change (2 ^ N.of_nat 0) with 1. lia.
  - cbn [fold_left length]. rewrite IH. rewrite (IH (2 * 0 + _)).
    replace (N.of_nat (S (length l))) with (N.succ (N.of_nat (length l))) by lia.
    rewrite N.pow_succ_r'. destruct b; lia.
Qed.

Lemma bits_val_app l1 l2 :
  bits_val (l1 ++ l2) = bits_val l1 * 2 ^ N.of_nat (length l2) + bits_val l2.
Proof. unfold bits_val at 1. rewrite fold_left_app. apply bits_val_acc. Qed.

