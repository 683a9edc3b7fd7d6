(** Word arithmetic of the trie in terms of single bits. *)
From Coq Require Import Arith NArith ZArith List Bool Lia ZifyBool ZifyNat ZifyN.
From Verif.Common Require Import Bits.
From Verif.Btrie Require Import Model Spec.
Import ListNotations.
Open Scope nat_scope.
Ltac Zify.zify_post_hook ::= Z.div_mod_to_equations.

Definition okw (k : list N) : Prop := forall i, (word k i < 2 ^ 32)%N.
Definition bit (k : list N) (i : nat) : bool := N.testbit (word k (i / 32)) (N.of_nat (31 - i mod 32)).
Definition wbit (w : N) (j : nat) : bool := N.testbit w (N.of_nat (31 - j)).

Lemma address_okw a : address a -> okw a.
Proof.
  intros [_ F] i. unfold word. destruct (Nat.lt_ge_cases i (length a)) as [H|H].
  - rewrite Forall_forall in F. apply F. apply nth_In. exact H.
  - rewrite nth_overflow by exact H. lia.
Qed.

Lemma high_bit w i : (w < 2 ^ 32)%N -> (32 <= i)%N -> N.testbit w i = false.
Proof.
  intros H I. destruct (N.eq_dec w 0) as [->|NZ]; [apply N.bits_0|]. apply N.bits_above_log2.
  assert (N.log2 w < 32)%N by (apply N.log2_lt_pow2; lia). lia.
Qed.

Lemma word_eq a b : (a < 2 ^ 32)%N -> (b < 2 ^ 32)%N -> (a = b <-> forall j, j < 32 -> wbit a j = wbit b j).
Proof.
  intros A B. split; [intros ->; reflexivity|]. intros H. apply N.bits_inj. intros i.
  destruct (N.lt_ge_cases i 32) as [L|G].
  - specialize (H (31 - N.to_nat i)). unfold wbit in H. replace (N.of_nat (31 - (31 - N.to_nat i))) with i in H by lia. apply H. lia.
  - rewrite !high_bit by assumption. reflexivity.
Qed.

(** masks *)
Definition tm (m : nat) : N := (N.ones 32 - N.ones (32 - N.of_nat m))%N.
Lemma tm_bits m : m <= 32 -> forall i, (i < 32)%N -> N.testbit (tm m) i = N.leb (32 - N.of_nat m) i.
Proof.
  intros M i I.
  assert (forall x, (x < 33)%N -> forall y, (y < 32)%N -> Bool.eqb (N.testbit (N.ones 32 - N.ones (32 - x)) y) (N.leb (32 - x) y) = true) as S.
  { intros x X y Y. revert y Y. apply all_below_spec. revert x X. apply all_below_spec. vm_compute. reflexivity. }
  specialize (S (N.of_nat m) ltac:(lia) i I). apply Bool.eqb_prop in S. exact S.
Qed.
Lemma tm_lt m : (tm m < 2 ^ 32)%N.
Proof. unfold tm. change (N.ones 32) with 4294967295%N. change (2 ^ 32)%N with 4294967296%N. lia. Qed.

Lemma mask_eq m a b : m <= 32 -> (N.land a (tm m) = N.land b (tm m) <-> forall j, j < m -> wbit a j = wbit b j).
Proof.
  intros M. split.
  - intros H j J. unfold wbit.
    assert (N.testbit (N.land a (tm m)) (N.of_nat (31 - j)) = N.testbit (N.land b (tm m)) (N.of_nat (31 - j))) as E by (rewrite H; reflexivity).
    rewrite !N.land_spec, !tm_bits in E by lia. replace (N.leb _ _) with true in E by lia. rewrite !andb_true_r in E. exact E.
  - intros H. apply N.bits_inj. intros i. rewrite !N.land_spec.
    destruct (N.lt_ge_cases i 32) as [L|G].
    + rewrite tm_bits by assumption. destruct (N.leb_spec (32 - N.of_nat m) i); [|rewrite !andb_false_r; reflexivity]. rewrite !andb_true_r.
      specialize (H (31 - N.to_nat i)). unfold wbit in H. replace (N.of_nat (31 - (31 - N.to_nat i))) with i in H by lia. apply H. lia.
    + rewrite !(high_bit (tm m)) by (try apply tm_lt; assumption). rewrite !andb_false_r. reflexivity.
Qed.

Lemma topmask_tm m : m < 32 -> topmask m = tm m.
Proof.
  intros M. assert (forall x, (x < 32)%N -> N.eqb (N.lxor 0xffffffff (N.shiftr 0xffffffff x)) (N.ones 32 - N.ones (32 - x)) = true) as S.
  { apply all_below_spec. vm_compute. reflexivity. }
  apply N.eqb_eq. apply S. lia.
Qed.
Lemma tm_next m : m < 32 -> N.lor (N.shiftr (tm m) 1) 0x80000000 = tm (S m).
Proof.
  intros M. assert (forall x, (x < 32)%N -> N.eqb (N.lor (N.shiftr (N.ones 32 - N.ones (32 - x)) 1) 0x80000000) (N.ones 32 - N.ones (32 - (x + 1))) = true) as S.
  { apply all_below_spec. vm_compute. reflexivity. }
  apply N.eqb_eq. specialize (S (N.of_nat m) ltac:(lia)). unfold tm. replace (N.of_nat (Datatypes.S m)) with (N.of_nat m + 1)%N by lia. exact S.
Qed.
Lemma tm_full m : m <= 32 -> (N.eqb (tm m) 0xffffffff = Nat.eqb m 32).
Proof.
  intros M. assert (forall x, (x < 33)%N -> Bool.eqb (N.eqb (N.ones 32 - N.ones (32 - x)) 0xffffffff) (N.eqb x 32) = true) as S.
  { apply all_below_spec. vm_compute. reflexivity. }
  specialize (S (N.of_nat m) ltac:(lia)). apply Bool.eqb_prop in S. unfold tm. rewrite S. lia.
Qed.

(** bits of addresses *)
Lemma nth_map_seq {A} (f : nat -> A) n i d : i < n -> nth i (map f (seq 0 n)) d = f i.
Proof.
  intros H. rewrite nth_indep with (d' := f 0) by (rewrite map_length, seq_length; exact H). rewrite map_nth, seq_nth by exact H. reflexivity.
Qed.
Lemma word_bits_nth w j : j < 32 -> nth j (word_bits w) false = wbit w j.
Proof.
  intros H. unfold word_bits. rewrite nth_map_seq by exact H. reflexivity.
Qed.
Lemma word_bits_len w : length (word_bits w) = 32.
Proof. reflexivity. Qed.
Lemma addr_bits_len a : length (addr_bits a) = 128.
Proof. reflexivity. Qed.

Lemma addr_bits_nth a i : i < 128 -> nth i (addr_bits a) false = bit a i.
Proof.
  intros H. unfold addr_bits, bit. cbn [flat_map]. fold (word a 0) (word a 1) (word a 2) (word a 3). rewrite app_nil_r.
  assert (i mod 32 < 32) as HM by (apply Nat.mod_upper_bound; lia).
  pose proof (Nat.div_mod i 32 ltac:(lia)) as DM.
  assert (i / 32 = 0 \/ i / 32 = 1 \/ i / 32 = 2 \/ i / 32 = 3) as C by lia.
  change (N.testbit (word a (i / 32)) (N.of_nat (31 - i mod 32))) with (wbit (word a (i / 32)) (i mod 32)).
  rewrite <- word_bits_nth by exact HM.
  destruct C as [C|[C|[C|C]]]; rewrite C.
  - rewrite app_nth1 by (rewrite word_bits_len; lia). f_equal. lia.
  - rewrite app_nth2 by (rewrite word_bits_len; lia). rewrite word_bits_len. rewrite app_nth1 by (rewrite word_bits_len; lia). f_equal. lia.
  - rewrite app_nth2 by (rewrite word_bits_len; lia). rewrite word_bits_len. rewrite app_nth2 by (rewrite word_bits_len; lia). rewrite word_bits_len.
    rewrite app_nth1 by (rewrite word_bits_len; lia). f_equal. lia.
  - rewrite app_nth2 by (rewrite word_bits_len; lia). rewrite word_bits_len. rewrite app_nth2 by (rewrite word_bits_len; lia). rewrite word_bits_len.
    rewrite app_nth2 by (rewrite word_bits_len; lia). rewrite word_bits_len. f_equal. lia.
Qed.

Lemma prefix_len a n : n <= 128 -> length (prefix a n) = n.
Proof. intros H. unfold prefix. rewrite firstn_length, addr_bits_len. lia. Qed.

Lemma firstn_nth {A} (l : list A) n i d : i < n -> nth i (firstn n l) d = nth i l d.
Proof. revert n i. induction l as [|x l IH]; intros [|n] [|i] H; cbn; try lia; try reflexivity. apply IH. lia. Qed.

Lemma prefix_nth a n i : i < n -> n <= 128 -> nth i (prefix a n) false = bit a i.
Proof. intros H1 H2. unfold prefix. rewrite firstn_nth by exact H1. apply addr_bits_nth. lia. Qed.

Lemma prefix_eq a b n : n <= 128 -> (prefix a n = prefix b n <-> forall i, i < n -> bit a i = bit b i).
Proof.
  intros N. split.
  - intros H i I. rewrite <- (prefix_nth a n), <- (prefix_nth b n) by assumption. now rewrite H.
  - intros H. apply (nth_ext _ _ false false); [now rewrite !prefix_len|]. intros i I. rewrite prefix_len in I by exact N.
    rewrite !prefix_nth by assumption. apply H. exact I.
Qed.

Lemma firstn_prefix a n m : m <= n -> firstn m (prefix a n) = prefix a m.
Proof. intros H. unfold prefix. rewrite firstn_firstn. f_equal. lia. Qed.

Lemma BIT_AT_bit k i : BIT_AT k (i + 1) = bit k i.
Proof.
  unfold BIT_AT, bit. replace (i + 1 - 1) with i by lia. change 1%N with (N.ones 1) at 1. rewrite N.land_ones.
  rewrite N.testbit_eqb, N.shiftr_div_pow2. change (2 ^ 1)%N with 2%N. reflexivity.
Qed.

(** match_bpm *)
Lemma bit_wbit k i j : j < 32 -> bit k (32 * i + j) = wbit (word k i) j.
Proof. intros H. unfold bit, wbit. replace ((32 * i + j) / 32) with i by lia. replace ((32 * i + j) mod 32) with j by lia. reflexivity. Qed.

Lemma match_words_spec b k len : okw b -> okw k -> 0 < len -> forall left i, i + left = (len - 1) / 32 ->
  (match_words b k len i left = true <-> forall x, 32 * i <= x < len -> bit b x = bit k x).
Proof.
  intros OB OK L. induction left as [|left IH]; intros i E; cbn [match_words].
  - rewrite N.eqb_eq.
    assert ((if Nat.eqb (len mod 32) 0 then 0xffffffff%N else topmask (len mod 32)) = tm (len - 32 * i)) as ->.
    { destruct (Nat.eqb_spec (len mod 32) 0) as [Z|NZ].
      - replace (len - 32 * i) with 32 by lia. reflexivity.
      - rewrite topmask_tm by lia. f_equal. lia. }
    rewrite mask_eq by lia. split.
    + intros H x X. replace x with (32 * i + (x - 32 * i)) by lia. rewrite !bit_wbit by lia. apply H. lia.
    + intros H j J. rewrite <- !bit_wbit by lia. apply H. lia.
  - destruct (N.eqb_spec (word b i) (word k i)) as [EQ|NE].
    + rewrite IH by lia. split; intros H x X; [|apply H; lia].
      destruct (Nat.lt_ge_cases x (32 * S i)) as [LT|GE]; [|apply H; lia].
      replace x with (32 * i + (x - 32 * i)) by lia. rewrite !bit_wbit by lia. now rewrite EQ.
    + split; [discriminate|]. intros H. exfalso. apply NE. apply word_eq; [apply OB|apply OK|].
      intros j J. rewrite <- !bit_wbit by lia. apply H. lia.
Qed.

Lemma match_bpm_spec b k len : okw b -> okw k -> len <= 128 -> (match_bpm b k len = true <-> prefix b len = prefix k len).
Proof.
  intros OB OK L. rewrite prefix_eq by exact L. unfold match_bpm. destruct (Nat.leb_spec len 0) as [Z|P].
  - split; [intros _ i I; lia|reflexivity].
  - rewrite match_words_spec by (try assumption; lia). split; intros H i I; apply H; lia.
Qed.

(** calc_bits_in_commons *)
Lemma common_word_spec b k max : forall fuel j p, j + fuel = 33 -> j <= 32 -> p <= max ->
  (forall i, i < j -> wbit b i = wbit k i) ->
  exists j', common_word b k max fuel (tm j) p = (tm j', p + (j' - j)) /\ j <= j' <= 32 /\ p + (j' - j) <= max /\
    (forall i, i < j' -> wbit b i = wbit k i) /\ (j' = 32 \/ p + (j' - j) = max \/ wbit b j' <> wbit k j').
Proof.
  induction fuel as [|f IH]; intros j p E J P A; [lia|]. cbn [common_word]. rewrite tm_full by exact J.
  destruct (negb (Nat.eqb j 32) && Nat.ltb p max) eqn:C.
  - rewrite tm_next by lia. destruct (N.eqb_spec (N.land b (tm (S j))) (N.land k (tm (S j)))) as [EQ|NE].
    + pose proof (proj1 (mask_eq (S j) b k ltac:(lia)) EQ) as EQ'. clear EQ. rename EQ' into EQ. destruct (IH (S j) (S p)) as (j' & H1 & H2 & H3 & H4 & H5); try lia; [exact EQ|].
      exists j'. replace (p + (j' - j)) with (S p + (j' - S j)) by lia. rewrite H1. repeat split; try lia; assumption.
    + exists j. replace (p + (j - j)) with p by lia. split; [reflexivity|]. repeat split; try lia; [exact A|]. right. right.
      intros X. apply NE. apply mask_eq; [lia|]. intros i I. destruct (Nat.eq_dec i j) as [->|]; [exact X|apply A; lia].
  - exists j. replace (p + (j - j)) with p by lia. split; [reflexivity|]. repeat split; try lia. exact A.
Qed.

Lemma common_words_spec b k max : forall left i p, i + left = 4 -> p = 32 * i -> p <= max ->
  (forall x, x < p -> bit b x = bit k x) ->
  let r := common_words b k max i left p in
  r <= max /\ (forall x, x < r -> bit b x = bit k x) /\ (r = max \/ r = 128 \/ bit b r <> bit k r).
Proof.
  induction left as [|left IH]; intros i p E EP P A; cbn [common_words].
  - cbn. split; [exact P|]. split; [exact A|]. right. left. lia.
  - destruct (common_word_spec (word b i) (word k i) max 33 0 p) as (j & H1 & H2 & H3 & H4 & H5); try lia.
    change 0%N with (tm 0). rewrite H1. replace (j - 0) with j in * by lia. rewrite tm_full by lia.
    assert (forall x, x < p + j -> bit b x = bit k x) as A'.
    { intros x X. destruct (Nat.lt_ge_cases x p); [apply A; assumption|]. replace x with (32 * i + (x - 32 * i)) by lia. rewrite !bit_wbit by lia. apply H4. lia. }
    destruct (negb (Nat.eqb j 32) || Nat.leb max (p + j)) eqn:C.
    + cbn. split; [exact H3|]. split; [exact A'|].
      destruct (Nat.eq_dec (p + j) max); [left; assumption|]. right. right. destruct H5 as [H5|[H5|H5]]; [lia|lia|].
      subst p. destruct (Nat.eq_dec j 32); [lia|]. rewrite !bit_wbit by lia. exact H5.
    + apply IH; try lia. exact A'.
Qed.

Lemma calc_spec b np k ml : np <= 128 -> ml <= 128 ->
  let r := calc_bits_in_commons b np k ml in
  r <= Nat.max np ml /\ (forall x, x < r -> bit b x = bit k x) /\ (r < Nat.max np ml -> bit b r <> bit k r).
Proof.
  intros A B. unfold calc_bits_in_commons.
  replace (if Nat.ltb np ml then ml else np) with (Nat.max np ml) by (destruct (Nat.ltb_spec np ml); lia).
  destruct (common_words_spec b k (Nat.max np ml) 4 0 0) as (H1 & H2 & H3); try lia.
  cbv zeta. set (r := common_words _ _ _ _ _ _) in *. split; [exact H1|]. split; [exact H2|]. intros H. destruct H3 as [H3|[H3|H3]]; [lia|lia|exact H3].
Qed.

(** new nodes and masked addresses keep the prefix *)
Lemma word_new k n i : word (new_bits k n) i = if Nat.ltb i ((n + 31) / 32) then word k i else 0%N.
Proof.
  unfold word, new_bits. set (m := (n + 31) / 32). destruct (Nat.ltb_spec i m) as [L|G].
  - rewrite app_nth1 by (rewrite map_length, seq_length; exact L).
    rewrite nth_map_seq by exact L. reflexivity.
  - rewrite app_nth2 by (rewrite map_length, seq_length; exact G). apply nth_repeat.
Qed.
Lemma okw_new k n : okw k -> okw (new_bits k n).
Proof. intros H i. rewrite word_new. destruct (Nat.ltb _ _); [apply H|lia]. Qed.
Lemma bit_new k n i : i < n -> bit (new_bits k n) i = bit k i.
Proof. intros H. unfold bit. rewrite word_new. destruct (Nat.ltb_spec (i / 32) ((n + 31) / 32)); [reflexivity|lia]. Qed.

Lemma land_okw w m : (w < 2 ^ 32)%N -> (N.land w m < 2 ^ 32)%N.
Proof.
  intros H. destruct (N.eq_dec (N.land w m) 0) as [->|NZ]; [lia|]. apply N.log2_lt_pow2; [lia|].
  eapply N.le_lt_trans; [apply N.log2_land|]. destruct (N.eq_dec w 0) as [->|]; [rewrite N.land_0_l in NZ; lia|].
  assert (N.log2 w < 32)%N by (apply N.log2_lt_pow2; lia). lia.
Qed.
Lemma okw4 w0 w1 w2 w3 : (w0 < 2 ^ 32)%N -> (w1 < 2 ^ 32)%N -> (w2 < 2 ^ 32)%N -> (w3 < 2 ^ 32)%N -> okw [w0; w1; w2; w3].
Proof. intros. intros [|[|[|[|[|i]]]]]; cbn; try assumption; lia. Qed.

Lemma wbit_land w m j : m <= 32 -> j < m -> wbit (N.land w (tm m)) j = wbit w j.
Proof. intros M J. unfold wbit. rewrite N.land_spec, tm_bits by lia. replace (N.leb _ _) with true by lia. apply andb_true_r. Qed.

Lemma mask4_ok a n : okw a -> n <= 32 ->
  let k := [N.land (word a 0) (if Nat.eqb n 32 then 0xffffffff%N else topmask n); word a 1; word a 2; word a 3] in
  okw k /\ prefix k n = prefix a n.
Proof.
  intros O N k. split; [apply okw4; try apply land_okw; apply O|].
  apply prefix_eq; [lia|]. intros i I. replace i with (32 * 0 + i) by lia. rewrite !bit_wbit by lia. unfold k. cbn [word nth].
  assert ((if Nat.eqb n 32 then 0xffffffff%N else topmask n) = tm n) as ->.
  { destruct (Nat.eqb_spec n 32) as [->|]; [reflexivity|apply topmask_tm; lia]. }
  apply wbit_land; assumption.
Qed.

Lemma mask6_ok a n : okw a -> n <= 128 ->
  let k := map (fun i => N.land (word a i) (mask6 n i)) [0; 1; 2; 3] in
  okw k /\ prefix k n = prefix a n.
Proof.
  intros O N k. split; [apply okw4; apply land_okw; apply O|].
  apply prefix_eq; [lia|]. intros i I.
  pose proof (Nat.div_mod i 32 ltac:(lia)) as DM. assert (i mod 32 < 32) by (apply Nat.mod_upper_bound; lia).
  set (q := i / 32) in *. set (j := i mod 32) in *. rewrite DM. rewrite !bit_wbit by lia.
  assert (word k q = N.land (word a q) (mask6 n q)) as ->.
  { assert (q = 0 \/ q = 1 \/ q = 2 \/ q = 3) as [->|[->|[->| ->]]] by lia; reflexivity. }
  unfold mask6. destruct (Nat.leb_spec (32 * q) n); [|lia]. destruct (Nat.leb_spec 32 (n - 32 * q)).
  - change 0xffffffff%N with (tm 32). apply wbit_land; lia.
  - rewrite topmask_tm by lia. apply wbit_land; lia.
Qed.
