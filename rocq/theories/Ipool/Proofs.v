From Coq Require Import Arith NArith ZArith List Bool Lia Permutation Sorted ZifyBool ZifyNat ZifyN.
From Verif.Common Require Import Bits.
From Verif.Sort Require Model Spec Proofs.
From Verif.Ipool Require Import Model Spec.
Import ListNotations.
Ltac Zify.zify_post_hook ::= Z.div_mod_to_equations.
Local Open Scope N_scope.

(** ** Logarithms *)
Definition smear (v : N) : N :=
  let v := N.lor v (N.shiftr v 1) in
  let v := N.lor v (N.shiftr v 2) in
  let v := N.lor v (N.shiftr v 4) in
  let v := N.lor v (N.shiftr v 8) in
  N.lor v (N.shiftr v 16).
Lemma smear_step v k m : (forall i, N.testbit v i = true <-> exists j, j < k /\ N.testbit m (i + j) = true) ->
  forall i, N.testbit (N.lor v (N.shiftr v k)) i = true <-> exists j, j < 2 * k /\ N.testbit m (i + j) = true.
Proof.
  intros H i. rewrite N.lor_spec, N.shiftr_spec by lia. rewrite orb_true_iff, !H. split.
  - intros [(j & A & B)|(j & A & B)].
    + exists j. split; [lia|exact B].
    + exists (k + j). split; [lia|]. replace (i + (k + j)) with (i + k + j) by lia. exact B.
  - intros (j & A & B). destruct (N.lt_ge_cases j k) as [L|L].
    + left. exists j. auto.
    + right. exists (j - k). split; [lia|]. replace (i + k + (j - k)) with (i + j) by lia. exact B.
Qed.
Lemma smear_spec v : 0 < v < 2 ^ 32 -> smear v = N.ones (N.log2 v + 1).
Proof.
  intros Hv.
  assert (forall i, N.testbit (smear v) i = true <-> exists j, j < 32 /\ N.testbit v (i + j) = true) as H.
  { unfold smear. change 32 with (2 * (2 * (2 * (2 * (2 * 1))))).
    change 16 with (2 * (2 * (2 * (2 * 1)))). change 8 with (2 * (2 * (2 * 1))). change 4 with (2 * (2 * 1)).
    change 2 with (2 * 1) at 1.
    repeat (apply smear_step). intros i. split.
    - intros A. exists 0. split; [lia|]. rewrite N.add_0_r. exact A.
    - intros (j & A & B). replace j with 0 in B by lia. rewrite N.add_0_r in B. exact B. }
  assert (N.log2 v < 32) as L by (apply N.log2_lt_pow2; lia).
  apply N.bits_inj. intro i. destruct (N.testbit (smear v) i) eqn:E.
  - apply H in E. destruct E as (j & A & B). symmetry. apply N.ones_spec_low.
    destruct (N.lt_ge_cases (N.log2 v) (i + j)) as [C|C]; [|lia].
    rewrite N.bits_above_log2 in B by exact C. discriminate.
  - symmetry. apply N.ones_spec_high. destruct (N.lt_ge_cases (N.log2 v) i) as [C|C]; [lia|].
    exfalso. assert (N.testbit (smear v) i = true) as F; [|congruence].
    apply H. exists (N.log2 v - i). split; [lia|]. replace (i + (N.log2 v - i)) with (N.log2 v) by lia.
    apply N.bit_log2. lia.
Qed.
Lemma table_ok : all_below 32 (fun k =>
  nth (N.to_nat (N.shiftr (u32 (N.ones (k + 1) * 0x07C4ACDD)) 27)) debruijn 0 =? k) = true.
Proof. vm_compute. reflexivity. Qed.
Lemma log2_rd v : 0 < v < 2 ^ 32 -> fast_log2_rd v = N.log2 v.
Proof.
  intros Hv. unfold fast_log2_rd. replace (u32 v) with v by (unfold u32; symmetry; apply N.mod_small; lia).
  fold (smear v). cbv zeta. change (N.lor (N.lor (N.lor (N.lor (N.lor v (N.shiftr v 1)) (N.shiftr (N.lor v (N.shiftr v 1)) 2)) (N.shiftr (N.lor (N.lor v (N.shiftr v 1)) (N.shiftr (N.lor v (N.shiftr v 1)) 2)) 4))
    (N.shiftr (N.lor (N.lor (N.lor v (N.shiftr v 1)) (N.shiftr (N.lor v (N.shiftr v 1)) 2)) (N.shiftr (N.lor (N.lor v (N.shiftr v 1)) (N.shiftr (N.lor v (N.shiftr v 1)) 2)) 4)) 8)) _) with (smear v).
  rewrite smear_spec by exact Hv. apply N.eqb_eq.
  refine (all_below_spec 32 _ table_ok (N.log2 v) _). apply N.log2_lt_pow2; lia.
Qed.
Lemma log2_rd_0 : fast_log2_rd 0 = 0.
Proof. reflexivity. Qed.
Lemma log2_rd_u32 v : fast_log2_rd (u32 v) = fast_log2_rd v.
Proof. unfold fast_log2_rd, u32. rewrite N.mod_mod by lia. reflexivity. Qed.
Lemma log2_ru v : 0 < v <= 2 ^ 31 -> fast_log2_ru v = N.log2 (2 * v - 1).
Proof.
  intros Hv. unfold fast_log2_ru. change (2 ^ 32 - 1) with 4294967295. change (2 ^ 31) with 2147483648 in Hv.
  replace (u32 (u32 (2 * u32 v) + 4294967295)) with (2 * v - 1).
  - apply log2_rd. change (2 ^ 32) with 4294967296. lia.
  - unfold u32. change (2 ^ 32) with 4294967296. lia.
Qed.
Lemma log2_ru_le v : 0 < v <= 2 ^ 31 -> v <= 2 ^ fast_log2_ru v.
Proof.
  intros Hv. rewrite log2_ru by exact Hv. pose proof (N.log2_spec (2 * v - 1)) as H.
  rewrite N.pow_succ_r' in H. lia.
Qed.

Opaque fast_log2_rd fast_log2_ru.

(** ** Counting *)
Definition hit (x : N) (n : fnode) : N := if (base n <=? x) && (x <? base n + size n) then 1 else 0.
Fixpoint cov (x : N) (l : list fnode) : N := match l with [] => 0 | n :: r => hit x n + cov x r end.
Lemma cov_app x l m : cov x (l ++ m) = cov x l + cov x m.
Proof. induction l; cbn [cov app]; lia. Qed.
Lemma cov_perm x l m : Permutation l m -> cov x l = cov x m.
Proof. induction 1; cbn [cov]; lia. Qed.
Lemma sizes_cons n l : sizes (n :: l) = size n + sizes l.
Proof. reflexivity. Qed.
Lemma sizes_app l m : sizes (l ++ m) = sizes l + sizes m.
Proof. induction l; cbn [app]; rewrite ?sizes_cons; [reflexivity|lia]. Qed.
Lemma sizes_perm l m : Permutation l m -> sizes l = sizes m.
Proof. induction 1; rewrite ?sizes_cons; lia. Qed.

Definition itn (i : N * N) : fnode := Fn (fst i) (wrapped_size (snd i)).
Definition FP (p : pool) : list fnode := staged p ++ flat_map frags (slots p).

Lemma upd_length i f l : length (upd i f l) = length l.
Proof. revert i; induction l; intros [|i]; cbn [upd length]; auto. Qed.
Lemma upd_nth i f l j : nth_error (upd i f l) j =
  match nth_error l j with Some x => Some (if Nat.eqb i j then f x else x) | None => None end.
Proof.
  revert i j; induction l as [|a l IH]; intros [|i] [|j]; cbn [upd nth_error Nat.eqb]; auto.
  destruct (nth_error l j); reflexivity.
Qed.
Lemma upd_perm i f l x : nth_error l i = Some x ->
  exists r, Permutation (flat_map frags l) (frags x ++ r) /\
            Permutation (flat_map frags (upd i f l)) (frags (f x) ++ r).
Proof.
  revert i; induction l as [|a l IH]; intros [|i]; cbn [upd nth_error]; try discriminate.
  - intros [= ->]. exists (flat_map frags l). split; reflexivity.
  - intros E. destruct (IH i E) as (r & A & B). exists (frags a ++ r). cbn [flat_map].
    rewrite A, B. split; rewrite !app_assoc; apply Permutation_app_tail, Permutation_app_comm.
Qed.

Definition okn (n : fnode) : Prop := 0 < size n /\ size n mod 4 = 0 /\ base n mod 4 = 0.
Definition lvl (sl : list flist) : Prop :=
  forall i l, nth_error sl i = Some l ->
    lsize l = 4 * 2 ^ N.of_nat i /\ Forall (fun n => lsize l <= size n) (frags l) /\
    cnt l = N.of_nat (length (frags l)).

Record frame (p q : pool) : Prop := Frame {
  f_es : extent_size q = extent_size p; f_ex : extents q = extents p; f_st : staged q = staged p;
  f_sc : staged_cnt q = staged_cnt p; f_ss : staged_size q = staged_size p;
  f_len : length (slots q) = length (slots p) }.
Lemma frame_refl p : frame p p. Proof. constructor; reflexivity. Qed.
Lemma frame_trans p q r : frame p q -> frame q r -> frame p r.
Proof. intros [A B C D E F] [A' B' C' D' E' F']. constructor; congruence. Qed.
Lemma frame_with p s : length s = length (slots p) -> frame p (with_slots p s).
Proof. intros H. constructor; try reflexivity. exact H. Qed.

(** replace_free_node *)
Lemma replace_ok p n q : okn n -> lvl (slots p) -> replace_free_node p n = Ok q ->
  frame p q /\ Permutation (FP q) (n :: FP p) /\ lvl (slots q).
Proof.
  intros (Hs & Hm & Hb) Hl. unfold replace_free_node.
  destruct (fast_log2_rd (size n) <? SMALLEST_POWER) eqn:E1; [discriminate|].
  destruct (nslots p =? 0) eqn:E2; [discriminate|]. intros [= <-].
  set (j := N.to_nat (if nslots p <=? fast_log2_rd (size n) - SMALLEST_POWER then nslots p - 1
                      else fast_log2_rd (size n) - SMALLEST_POWER)).
  unfold nslots in *.
  assert (j < length (slots p))%nat as Lj.
  { subst j. destruct (_ <=? _) eqn:E3; lia. }
  assert (N.of_nat j <= fast_log2_rd (size n) - 2) as Lj2.
  { subst j. unfold SMALLEST_POWER in *. destruct (_ <=? _) eqn:E3; lia. }
  destruct (nth_error (slots p) j) as [x|] eqn:Ex; [|apply nth_error_None in Ex; lia].
  split; [apply frame_with; apply upd_length|]. split.
  - destruct (upd_perm j (push n) _ _ Ex) as (r & A & B). unfold FP. cbn [staged slots with_slots].
    rewrite B, A. cbn [push frags]. cbn [app]. symmetry. apply Permutation_middle.
  - intros i l H. cbn [slots with_slots] in H. rewrite upd_nth in H.
    destruct (nth_error (slots p) i) as [y|] eqn:Ey; [|discriminate].
    destruct (Hl i y Ey) as (A & B & C). destruct (Nat.eqb j i) eqn:Eji; injection H as <-; [|auto].
    apply Nat.eqb_eq in Eji. subst i. cbn [push lsize frags cnt]. split; [exact A|]. split.
    + constructor; [|exact B]. rewrite A.
      assert (0 < u32 (size n) < 2 ^ 32) as U.
      { unfold u32. split; [|apply N.mod_lt; lia].
        destruct (N.eq_dec (size n mod 2 ^ 32) 0) as [Z|Z]; [|lia].
        rewrite <- log2_rd_u32 in E1. unfold u32 in E1. rewrite Z, log2_rd_0 in E1. discriminate. }
      rewrite <- log2_rd_u32, log2_rd in * by exact U.
      pose proof (N.log2_spec (u32 (size n)) ltac:(lia)) as [G _].
      assert (u32 (size n) <= size n) as W by (apply N.mod_le; lia).
      unfold SMALLEST_POWER in *.
      assert (4 * 2 ^ N.of_nat j <= 2 ^ N.log2 (u32 (size n))) as V; [|lia].
      change 4 with (2 ^ 2). rewrite <- N.pow_add_r. apply N.pow_le_mono_r; lia.
    + cbn [length]. rewrite C. lia.
Qed.
Lemma replace_not_waits p n : replace_free_node p n <> Waits.
Proof.
  unfold replace_free_node. destruct (_ <? _); [discriminate|]. destruct (_ =? _); discriminate.
Qed.
Lemma replace_progress p n : 4 <= size n < 2 ^ 32 -> (0 < length (slots p))%nat ->
  replace_free_node p n <> Stuck.
Proof.
  intros Hs Hn. unfold replace_free_node. rewrite log2_rd by lia.
  assert (2 <= N.log2 (size n)) as L by (change 2 with (N.log2 4); apply N.log2_le_mono; lia).
  unfold SMALLEST_POWER, nslots.
  destruct (N.log2 (size n) <? 2) eqn:E; [lia|].
  destruct (N.of_nat (length (slots p)) =? 0) eqn:E2; [lia|]. discriminate.
Qed.

(** borrow_free_node *)
Definition rest (n : fnode) (len : N) : list fnode :=
  if size n - len =? 0 then [] else [Fn (base n) (size n - len)].
Lemma borrow_ok p i len a q : Forall okn (FP p) -> lvl (slots p) ->
  borrow_free_node p i len = Ok (Some a, q) ->
  frame p q /\ lvl (slots q) /\ 8 < len /\ len mod 4 = 0 /\
  exists n r, Permutation (FP p) (n :: r) /\ Permutation (FP q) (rest n len ++ r) /\
              len <= size n /\ a = base n + size n - len.
Proof.
  intros Ho Hl. unfold borrow_free_node.
  destruct (nth_error (slots p) i) as [l|] eqn:El; [|discriminate].
  destruct (frags l) as [|n fr] eqn:Ef; [discriminate|].
  destruct (Hl i l El) as (L1 & L2 & L3). rewrite Ef in L2, L3. inversion L2 as [|? ? L4 L5]; subst.
  assert (4 <= lsize l) as L6.
  { rewrite L1. pose proof (N.pow_nonzero 2 (N.of_nat i)). lia. }
  destruct (size n <? lsize l) eqn:E1; [discriminate|].
  destruct (len <=? 8) eqn:E2; [discriminate|].
  destruct (len mod 4 =? 0) eqn:E3; [|discriminate]. cbn [negb].
  destruct (upd_perm i popped _ _ El) as (r0 & A0 & B0).
  assert (Permutation (FP p) (n :: staged p ++ fr ++ r0)) as PA.
  { unfold FP. rewrite A0, Ef. cbn [app]. symmetry. apply Permutation_middle. }
  assert (okn n) as On.
  { rewrite Forall_forall in Ho. apply Ho. eapply Permutation_in; [symmetry; exact PA|left; reflexivity]. }
  destruct (lsize l + len <=? size n) eqn:E4.
  - intros [= <- <-]. split; [apply frame_with; apply upd_length|]. split.
    { intros j y H. cbn [slots with_slots] in H. rewrite upd_nth in H.
      destruct (nth_error (slots p) j) as [z|] eqn:Ez; [|discriminate].
      destruct (Hl j z Ez) as (M1 & M2 & M3). destruct (Nat.eqb i j) eqn:Eij; injection H as <-; [|auto].
      apply Nat.eqb_eq in Eij. subst j. assert (z = l) as -> by congruence.
      unfold shrink. rewrite Ef. cbn [lsize frags cnt]. split; [exact M1|]. split.
      - constructor; [cbn [size]; lia|exact L5].
      - rewrite L3. reflexivity. }
    split; [lia|]. split; [lia|]. exists n, (staged p ++ fr ++ r0). split; [exact PA|].
    split; [|split; [lia|lia]].
    destruct (upd_perm i (shrink len) _ _ El) as (r1 & A1 & B1).
    unfold FP. cbn [staged slots with_slots]. rewrite B1. unfold shrink. rewrite Ef. cbn [frags].
    unfold rest. destruct (size n - len =? 0) eqn:E5; [lia|]. cbn [app].
    symmetry. rewrite <- Permutation_middle.
    apply perm_skip. apply Permutation_app_head, Permutation_app_head.
    apply (Permutation_app_inv_l (frags l)). rewrite <- A0, <- A1. reflexivity.
  - destruct (size n <? len) eqn:E5; [discriminate|].
    set (p1 := with_slots p (upd i popped (slots p))).
    assert (frame p p1) as F1 by (apply frame_with; apply upd_length).
    assert (lvl (slots p1)) as V1.
    { intros j y H. cbn [slots with_slots p1] in H. rewrite upd_nth in H.
      destruct (nth_error (slots p) j) as [z|] eqn:Ez; [|discriminate].
      destruct (Hl j z Ez) as (M1 & M2 & M3). destruct (Nat.eqb i j) eqn:Eij; injection H as <-; [|auto].
      apply Nat.eqb_eq in Eij. subst j. assert (z = l) as -> by congruence.
      unfold popped. rewrite Ef. cbn [lsize frags cnt tl]. split; [exact M1|]. split; [exact L5|].
      rewrite L3. cbn [length]. lia. }
    assert (Permutation (FP p1) (staged p ++ fr ++ r0)) as PB.
    { unfold FP. cbn [staged slots with_slots p1]. rewrite B0. unfold popped. rewrite Ef. reflexivity. }
    cbn [size]. unfold rest. destruct (size n - len =? 0) eqn:E6.
    + intros [= <- <-]. split; [exact F1|]. split; [exact V1|]. split; [lia|]. split; [lia|].
      exists n, (staged p ++ fr ++ r0). split; [exact PA|]. split; [rewrite E6; exact PB|]. split; lia.
    + destruct (replace_free_node p1 (Fn (base n) (size n - len))) as [p2| |] eqn:Er; try discriminate.
      intros [= <- <-].
      assert (okn (Fn (base n) (size n - len))) as On'.
      { destruct On as (O1 & O2 & O3). unfold okn. cbn [base size]. lia. }
      destruct (replace_ok p1 _ p2 On' V1 Er) as (F2 & P2 & V2).
      split; [eapply frame_trans; eauto|]. split; [exact V2|]. split; [lia|]. split; [lia|].
      exists n, (staged p ++ fr ++ r0). split; [exact PA|]. split; [|split; lia].
      rewrite E6. rewrite P2. cbn [app]. apply perm_skip. exact PB.
Qed.
Lemma borrow_none p i len q : borrow_free_node p i len = Ok (None, q) ->
  q = p /\ exists l, nth_error (slots p) i = Some l /\ frags l = [].
Proof.
  unfold borrow_free_node. destruct (nth_error (slots p) i) as [l|] eqn:El; [|discriminate].
  destruct (frags l) eqn:Ef.
  - intros [= <-]. split; [reflexivity|]. exists l. auto.
  - repeat (destruct (_ : bool); try discriminate).
    destruct (replace_free_node _ _); discriminate.
Qed.
Lemma borrow_not_waits p i len : borrow_free_node p i len <> Waits.
Proof.
  unfold borrow_free_node. destruct (nth_error (slots p) i) as [l|]; [|discriminate].
  destruct (frags l); [discriminate|].
  repeat (destruct (_ : bool); try discriminate).
  destruct (replace_free_node _ _) eqn:E; try discriminate. elim (replace_not_waits _ _ E).
Qed.
Lemma borrow_progress p i len : Forall okn (FP p) -> lvl (slots p) -> (i < length (slots p))%nat ->
  8 < len -> len mod 4 = 0 -> len <= 4 * 2 ^ N.of_nat i -> sizes (FP p) < 2 ^ 32 ->
  borrow_free_node p i len <> Stuck.
Proof.
  intros Ho Hl Hi H8 H4 Hlen Hsz. unfold borrow_free_node.
  destruct (nth_error (slots p) i) as [l|] eqn:El; [|apply nth_error_None in El; lia].
  destruct (frags l) as [|n fr] eqn:Ef; [discriminate|].
  destruct (Hl i l El) as (L1 & L2 & L3). rewrite Ef in L2. inversion L2 as [|? ? L4 L5]; subst.
  destruct (upd_perm i popped _ _ El) as (r0 & A0 & B0).
  assert (Permutation (FP p) (n :: staged p ++ fr ++ r0)) as PA.
  { unfold FP. rewrite A0, Ef. cbn [app]. symmetry. apply Permutation_middle. }
  assert (okn n) as (O1 & O2 & O3).
  { rewrite Forall_forall in Ho. apply Ho. eapply Permutation_in; [symmetry; exact PA|left; reflexivity]. }
  assert (size n < 2 ^ 32) as Hn. { rewrite (sizes_perm _ _ PA), sizes_cons in Hsz. lia. }
  destruct (size n <? lsize l) eqn:E1; [lia|].
  destruct (len <=? 8) eqn:E2; [lia|].
  destruct (len mod 4 =? 0) eqn:E3; [|lia]. cbn [negb].
  destruct (lsize l + len <=? size n); [discriminate|].
  destruct (size n <? len) eqn:E4; [lia|]. cbn [size].
  destruct (size n - len =? 0) eqn:E5; [discriminate|].
  destruct (replace_free_node _ _) eqn:Er; try discriminate.
  exfalso. revert Er. apply replace_progress; [cbn [size]; lia|].
  cbn [slots with_slots]. rewrite upd_length. lia.
Qed.

(** try_levels *)
Lemma try_ok n : forall p i len a q, Forall okn (FP p) -> lvl (slots p) ->
  try_levels p i n len = Ok (Some a, q) ->
  frame p q /\ lvl (slots q) /\ 8 < len /\ len mod 4 = 0 /\
  exists n r, Permutation (FP p) (n :: r) /\ Permutation (FP q) (rest n len ++ r) /\
              len <= size n /\ a = base n + size n - len.
Proof.
  induction n as [|n IH]; intros p i len a q Ho Hl; cbn [try_levels]; [discriminate|].
  destruct (borrow_free_node p i len) as [[[b|] q']| |] eqn:E; try discriminate.
  - intros [= <- <-]. exact (borrow_ok _ _ _ _ _ Ho Hl E).
  - apply borrow_none in E. destruct E as [-> _]. apply IH; assumption.
Qed.
Lemma try_none n : forall p i len q, try_levels p i n len = Ok (None, q) ->
  q = p /\ forall j, (i <= j < i + n)%nat -> exists l, nth_error (slots p) j = Some l /\ frags l = [].
Proof.
  induction n as [|n IH]; intros p i len q; cbn [try_levels].
  - intros [= <-]. split; [reflexivity|lia].
  - destruct (borrow_free_node p i len) as [[[b|] q']| |] eqn:E; try discriminate.
    apply borrow_none in E. destruct E as [-> E]. intros H. apply IH in H. destruct H as [-> H].
    split; [reflexivity|]. intros j Hj. destruct (Nat.eq_dec j i) as [->|]; [exact E|apply H; lia].
Qed.
Lemma try_not_waits n : forall p i len, try_levels p i n len <> Waits.
Proof.
  induction n as [|n IH]; intros p i len; cbn [try_levels]; [discriminate|].
  destruct (borrow_free_node p i len) as [[[b|] q']| |] eqn:E; try discriminate.
  - apply IH.
  - elim (borrow_not_waits _ _ _ E).
Qed.
Lemma try_progress n : forall p i len, Forall okn (FP p) -> lvl (slots p) -> (i + n <= length (slots p))%nat ->
  8 < len -> len mod 4 = 0 -> len <= 4 * 2 ^ N.of_nat i -> sizes (FP p) < 2 ^ 32 ->
  try_levels p i n len <> Stuck.
Proof.
  induction n as [|n IH]; intros p i len Ho Hl Hi H8 H4 Hlen Hsz; cbn [try_levels]; [discriminate|].
  destruct (borrow_free_node p i len) as [[[b|] q']| |] eqn:E; try discriminate.
  - apply borrow_none in E. destruct E as [-> _]. apply IH; auto; [lia|].
    etransitivity; [exact Hlen|]. apply N.mul_le_mono_l. apply N.pow_le_mono_r; lia.
  - exfalso. revert E. apply borrow_progress; auto. lia.
Qed.

(** compaction *)
Lemma insert_perm n l : Permutation (insert n l) (n :: l).
Proof.
  induction l as [|m l IH]; cbn [insert]; [reflexivity|].
  destruct (_ <? _); [reflexivity|]. rewrite IH. apply perm_swap.
Qed.
Lemma sort_perm l : Permutation (sort l) l.
Proof. induction l as [|n l IH]; cbn [sort]; [reflexivity|]. rewrite insert_perm, IH. reflexivity. Qed.
Lemma distinct_ok l : Forall okn l -> (forall x, cov x l <= 1) -> distinct_sorted l = true.
Proof.
  induction l as [|n [|m l] IH]; intros Ho Hc; [reflexivity|reflexivity|].
  change (distinct_sorted (n :: m :: l)) with (negb (base n =? base m) && distinct_sorted (m :: l)).
  inversion Ho as [|? ? On Ho']; subst. inversion Ho' as [|? ? Om _]; subst.
  apply andb_true_intro. split.
  - destruct (base n =? base m) eqn:E; [|reflexivity]. exfalso.
    specialize (Hc (base n)). cbn [cov] in Hc. unfold hit in Hc. destruct On as (A & _), Om as (B & _).
    apply N.eqb_eq in E. rewrite <- E in Hc. rewrite !N.leb_refl in Hc.
    destruct (base n <? base n + size n) eqn:E1; [|lia].
    destruct (base n <? base n + size m) eqn:E2; [|lia]. cbn [andb] in Hc. lia.
  - apply IH; [assumption|]. intros x. specialize (Hc x). cbn [cov] in Hc |- *. lia.
Qed.
(** same bytes, same total *)
Definition same_bytes (l m : list fnode) : Prop := (forall x, cov x l = cov x m) /\ sizes l = sizes m.
Lemma hit_join x n m : base n + size n = base m ->
  hit x (Fn (base n) (size n + size m)) = hit x n + hit x m.
Proof.
  intros E. unfold hit. cbn [base size].
  destruct (base n <=? x) eqn:A, (x <? base n + (size n + size m)) eqn:B,
    (x <? base n + size n) eqn:C, (base m <=? x) eqn:D, (x <? base m + size m) eqn:F; cbn [andb]; lia.
Qed.
Lemma collapse_ok l : forall n o c, Forall okn (n :: l) -> collapse n l = (o, c) ->
  same_bytes o (n :: l) /\ Forall okn o /\ N.of_nat (length o) + c = N.of_nat (length (n :: l)).
Proof.
  induction l as [|m l IH]; intros n o c Ho; cbn [collapse].
  - intros [= <- <-]. split; [split; reflexivity|]. split; [exact Ho|reflexivity].
  - inversion Ho as [|? ? On Ho']; subst. inversion Ho' as [|? ? Om Ho'']; subst.
    destruct (base n + size n =? base m) eqn:E.
    + apply N.eqb_eq in E. destruct (collapse (Fn (base n) (size n + size m)) l) as [o' c'] eqn:Ec.
      intros [= <- <-]. assert (Forall okn (Fn (base n) (size n + size m) :: l)) as Oj.
      { constructor; [|assumption]. destruct On as (? & ? & ?), Om as (? & ? & ?). unfold okn; cbn [base size]. lia. }
      destruct (IH _ _ _ Oj Ec) as ((A1 & A2) & B & C).
      split; [split|split].
      * intros x. rewrite A1. cbn [cov]. rewrite (hit_join x n m E). lia.
      * rewrite A2, !sizes_cons. cbn [size]. lia.
      * exact B.
      * cbn [length] in C |- *. lia.
    + destruct (collapse m l) as [o' c'] eqn:Ec. intros [= <- <-].
      destruct (IH _ _ _ Ho' Ec) as ((A1 & A2) & B & C). split; [split|split].
      * intros x. cbn [cov] in *. rewrite A1. reflexivity.
      * rewrite !sizes_cons in *. lia.
      * constructor; assumption.
      * cbn [length] in C |- *. lia.
Qed.
Lemma collapse_all_ok l o c : Forall okn l -> collapse_all l = (o, c) ->
  same_bytes o l /\ Forall okn o /\ N.of_nat (length o) + c = N.of_nat (length l).
Proof.
  destruct l as [|n l]; cbn [collapse_all]; intros Ho H.
  - injection H as <- <-. split; [split; reflexivity|]. split; [constructor|reflexivity].
  - eapply collapse_ok; eassumption.
Qed.
Lemma replace_all_ok l : forall p q, Forall okn l -> lvl (slots p) -> replace_all p l = Ok q ->
  frame p q /\ Permutation (FP q) (l ++ FP p) /\ lvl (slots q).
Proof.
  induction l as [|n l IH]; intros p q Ho Hl; cbn [replace_all].
  - intros [= <-]. split; [apply frame_refl|]. split; [reflexivity|exact Hl].
  - inversion Ho; subst. destruct (replace_free_node p n) as [p'| |] eqn:E; try discriminate. intros H.
    destruct (replace_ok _ _ _ ltac:(eassumption) Hl E) as (F & P & V).
    destruct (IH _ _ ltac:(eassumption) V H) as (F' & P' & V').
    split; [eapply frame_trans; eauto|]. split; [|exact V'].
    rewrite P', P. symmetry. apply Permutation_middle.
Qed.
Lemma replace_all_not_waits l : forall p, replace_all p l <> Waits.
Proof.
  induction l as [|n l IH]; intros p; cbn [replace_all]; [discriminate|].
  destruct (replace_free_node p n) eqn:E; try discriminate; [apply IH|]. elim (replace_not_waits _ _ E).
Qed.
Lemma okn_4 n : okn n -> 4 <= size n. Proof. unfold okn. lia. Qed.
Lemma replace_all_progress l : forall p, Forall okn l -> lvl (slots p) -> sizes l < 2 ^ 32 -> (0 < length (slots p))%nat ->
  replace_all p l <> Stuck.
Proof.
  induction l as [|n l IH]; intros p Ho Hl Hs Hn; cbn [replace_all]; [discriminate|].
  inversion Ho; subst. rewrite sizes_cons in Hs. destruct (replace_free_node p n) as [p'| |] eqn:E; try discriminate.
  - destruct (replace_ok _ _ _ ltac:(eassumption) Hl E) as (F & P & V).
    apply IH; auto; [lia|]. rewrite (f_len _ _ F). exact Hn.
  - exfalso. revert E. apply replace_progress; [|exact Hn]. pose proof (okn_4 n ltac:(assumption)). lia.
Qed.

(** bookkeeping of the staged list *)
Definition stg (p : pool) : Prop :=
  staged_cnt p = N.of_nat (length (staged p)) /\ staged_size p = sizes (staged p).
Record wf (p : pool) : Prop := WF {
  w_ok : Forall okn (FP p); w_lvl : lvl (slots p); w_stg : stg p }.

Lemma emptied_lvl sl : lvl sl -> lvl (map emptied sl).
Proof.
  intros Hl i l H. rewrite nth_error_map in H. destruct (nth_error sl i) as [y|] eqn:E; [|discriminate].
  injection H as <-. destruct (Hl i y E) as (A & B & C). cbn [emptied lsize frags cnt]. split; [exact A|].
  split; [constructor|]. cbn [length]. lia.
Qed.
Lemma emptied_flat sl : flat_map frags (map emptied sl) = [].
Proof. induction sl; cbn [map flat_map]; auto. Qed.
Lemma FP_def p : FP p = staged p ++ flat_map frags (slots p). Proof. reflexivity. Qed.
Lemma Forall_perm {A} (P : A -> Prop) l m : Permutation l m -> Forall P l -> Forall P m.
Proof. intros H F. rewrite Forall_forall in *. intros x Hx. apply F. eapply Permutation_in; [symmetry; exact H|exact Hx]. Qed.

Lemma compact_ok p c q : wf p -> compact p = Ok (c, q) ->
  wf q /\ extent_size q = extent_size p /\ extents q = extents p /\ length (slots q) = length (slots p) /\
  staged q = [] /\ same_bytes (FP q) (FP p) /\
  N.of_nat (length (FP q)) + c = N.of_nat (length (FP p)) /\
  Permutation (FP q) (fst (collapse_all (sort (FP p)))).
Proof.
  intros [Ho Hl [S1 S2]]. unfold compact. fold (FP p). change (staged p ++ flat_map frags (slots p)) with (FP p).
  destruct (distinct_sorted (sort (FP p))); [|discriminate]. cbn [negb].
  destruct (collapse_all (sort (FP p))) as [o c'] eqn:Ec.
  set (p1 := Pool _ _ _ _ _ _ _).
  destruct (replace_all p1 o) as [p2| |] eqn:Er; try discriminate. intros [= <- <-].
  assert (Forall okn (sort (FP p))) as Hos by (eapply Forall_perm; [symmetry; apply sort_perm|exact Ho]).
  destruct (collapse_all_ok _ _ _ Hos Ec) as (SB & Oo & Cn).
  assert (lvl (slots p1)) as Hl1 by (cbn [slots p1]; apply emptied_lvl; exact Hl).
  destruct (replace_all_ok o p1 p2 Oo Hl1 Er) as (F & P & V).
  assert (FP p1 = []) as E1 by (unfold FP; cbn [staged slots p1]; apply emptied_flat).
  rewrite E1, app_nil_r in P.
  split; [constructor|].
  - eapply Forall_perm; [symmetry; exact P|exact Oo].
  - exact V.
  - unfold stg. rewrite (f_sc _ _ F), (f_ss _ _ F), (f_st _ _ F). cbn [staged_cnt staged_size staged p1 length].
    rewrite S1, S2. split; [lia|]. change (sizes []) with 0. lia.
  - split; [rewrite (f_es _ _ F); reflexivity|]. split; [rewrite (f_ex _ _ F); reflexivity|].
    split; [rewrite (f_len _ _ F); cbn [slots p1]; apply map_length|].
    split; [rewrite (f_st _ _ F); reflexivity|]. split; [|split].
    + destruct SB as [B1 B2]. split.
      * intros x. rewrite (cov_perm _ _ _ P), B1. apply cov_perm. apply sort_perm.
      * rewrite (sizes_perm _ _ P), B2. apply sizes_perm. apply sort_perm.
    + rewrite (Permutation_length P). rewrite (Permutation_length (sort_perm (FP p))) in Cn. exact Cn.
    + cbn [fst]. exact P.
Qed.
Lemma compact_not_waits p : compact p <> Waits.
Proof.
  unfold compact. destruct (negb _); [discriminate|]. destruct (collapse_all _) as [o c].
  destruct (replace_all _ _) eqn:E; try discriminate. elim (replace_all_not_waits _ _ E).
Qed.
Lemma compact_progress p : wf p -> (forall x, cov x (FP p) <= 1) -> sizes (FP p) < 2 ^ 32 ->
  (0 < length (slots p))%nat -> compact p <> Stuck.
Proof.
  intros [Ho Hl [S1 S2]] Hc Hs Hn. unfold compact. change (staged p ++ flat_map frags (slots p)) with (FP p).
  assert (Forall okn (sort (FP p))) as Hos by (eapply Forall_perm; [symmetry; apply sort_perm|exact Ho]).
  rewrite distinct_ok; [cbn [negb]|exact Hos|].
  2:{ intros x. rewrite (cov_perm _ _ _ (sort_perm (FP p))). apply Hc. }
  destruct (collapse_all (sort (FP p))) as [o c'] eqn:Ec.
  destruct (replace_all _ o) as [p2| |] eqn:Er; try discriminate. exfalso. revert Er.
  destruct (collapse_all_ok _ _ _ Hos Ec) as ((SB & SS) & Oo & Cn).
  apply replace_all_progress; [exact Oo|cbn [slots]; apply emptied_lvl; exact Hl| |].
  - rewrite SS, (sizes_perm _ _ (sort_perm (FP p))). exact Hs.
  - cbn [slots]. rewrite map_length. exact Hn.
Qed.

(** ** Regions and counting *)
Lemma hit_inside x n : hit x n = 1 /\ inside x (frag_region n) \/ hit x n = 0 /\ ~ inside x (frag_region n).
Proof.
  unfold hit, inside, frag_region. cbn [fst snd].
  destruct (base n <=? x) eqn:A, (x <? base n + size n) eqn:B; cbn [andb]; (left; split; lia) || (right; split; lia).
Qed.
Lemma cov_pos x l : 1 <= cov x l <-> exists r, In r (map frag_region l) /\ inside x r.
Proof.
  induction l as [|n l IH]; cbn [cov map].
  - split; [lia|]. intros (r & [] & _).
  - destruct (hit_inside x n) as [[-> H]|[-> H]].
    + split; [|lia]. intros _. exists (frag_region n). split; [left; reflexivity|exact H].
    + rewrite N.add_0_l, IH. split; intros (r & A & B); exists r; (split; [|exact B]).
      * right; exact A.
      * destruct A as [<-|A]; [elim H; exact B|exact A].
Qed.
Lemma apart_cov l : all_apart (map frag_region l) <-> forall x, cov x l <= 1.
Proof.
  induction l as [|n l IH]; cbn [map all_apart cov]; [split; [intros; lia|auto]|]. rewrite IH. split.
  - intros [A B] x. specialize (B x). destruct (hit_inside x n) as [[-> H]|[-> H]]; [|lia].
    destruct (N.lt_ge_cases (cov x l) 1) as [C|C]; [lia|]. apply cov_pos in C. destruct C as (r & I1 & I2).
    rewrite Forall_forall in A. elim (A r I1 x). auto.
  - intros H. split.
    + apply Forall_forall. intros r I1 x [X Y]. specialize (H x).
      destruct (hit_inside x n) as [[E _]|[_ E]]; [|elim E; exact X].
      assert (1 <= cov x l) by (apply cov_pos; eauto). lia.
    + intros x. specialize (H x). lia.
Qed.
Lemma total_sizes l : total (map frag_region l) = sizes l.
Proof. induction l as [|n l IH]; cbn [map]; [reflexivity|]. rewrite sizes_cons, <- IH. reflexivity. Qed.

Definition gr (es : N) (b : N) : fnode := Fn b es.
Definition nsl (es : N) : nat := N.to_nat (fast_log2_ru es - SMALLEST_POWER + 1).
Record Inv (es B : N) (p : pool) (lv : list (N * N)) (rem : list N) : Prop := INV {
  i_wf : wf p;
  i_es : extent_size p = es;
  i_n : length (slots p) = nsl es;
  i_lv : Forall (fun i => 0 < snd i /\ fst i mod 4 = 0) lv;
  i_cov : forall x, cov x (FP p) + cov x (map itn lv) = cov x (extents p);
  i_sz : sizes (FP p) + sizes (map itn lv) = sizes (extents p);
  i_ex : Forall (fun n => size n = es /\ base n mod 4 = 0) (extents p);
  i_ap : forall x, cov x (extents p) + cov x (map (gr es) rem) <= 1;
  i_rem : Forall (fun b => b mod 4 = 0) rem;
  i_bd : sizes (extents p) + sizes (map (gr es) rem) <= B }.

Lemma Inv_cov1 es B p lv rem x : Inv es B p lv rem -> cov x (FP p) <= 1.
Proof. intros H. pose proof (i_cov _ _ _ _ _ H x). pose proof (i_ap _ _ _ _ _ H x). lia. Qed.
Lemma Inv_rem es B p lv rem m : Inv es B p lv (m ++ rem) -> Inv es B p lv rem.
Proof.
  intros H. destruct H as [A B' C D E F G I J K]. constructor; auto.
  - intros x. specialize (I x). rewrite map_app, cov_app in I. lia.
  - apply Forall_app in J. apply J.
  - rewrite map_app, sizes_app in K. lia.
Qed.

Lemma mk_slots_nth n : forall ls i l, nth_error (mk_slots n ls) i = Some l -> l = Fl [] (ls * 2 ^ N.of_nat i) 0.
Proof.
  induction n as [|n IH]; intros ls [|i] l; cbn [mk_slots nth_error]; try discriminate.
  - intros [= <-]. f_equal. cbn. lia.
  - intros H. apply IH in H. rewrite H. f_equal. rewrite Nat2N.inj_succ, N.pow_succ_r'. lia.
Qed.
Lemma mk_slots_flat n : forall ls, flat_map frags (mk_slots n ls) = [].
Proof. induction n as [|n IH]; intros ls; cbn [mk_slots flat_map frags app]; [reflexivity|apply IH]. Qed.
Lemma mk_slots_len n : forall ls, length (mk_slots n ls) = n.
Proof. induction n; intros ls; cbn [mk_slots length]; auto. Qed.
Lemma init_inv es B rem : sizes (map (gr es) rem) <= B -> (forall x, cov x (map (gr es) rem) <= 1) -> Forall (fun b => b mod 4 = 0) rem ->
  Inv es B (pool_new es) [] rem.
Proof.
  intros H0 H1 H2.
  assert (FP (pool_new es) = []) as E by (unfold FP, pool_new; cbn [staged slots]; apply mk_slots_flat).
  constructor; rewrite ?E; cbn [extents extent_size pool_new map cov]; auto.
  - constructor; rewrite ?E; auto.
    + intros i l H. cbn [slots pool_new] in H. apply mk_slots_nth in H. subst l. cbn [lsize frags cnt].
      split; [reflexivity|]. split; [constructor|reflexivity].
    + split; reflexivity.
  - cbn [slots]. apply mk_slots_len.
Qed.

Lemma stg_frame p q : frame p q -> stg p -> stg q.
Proof. intros [A B C D E F] [S1 S2]. unfold stg. rewrite D, E, C. auto. Qed.
Lemma hit_split x n len : len <= size n ->
  hit x (Fn (base n) (size n - len)) + hit x (Fn (base n + size n - len) len) = hit x n.
Proof.
  intros H. unfold hit. cbn [base size].
  destruct (base n <=? x) eqn:A, (x <? base n + size n) eqn:B, (x <? base n + (size n - len)) eqn:C,
    (base n + size n - len <=? x) eqn:D, (x <? base n + size n - len + len) eqn:E; cbn [andb]; lia.
Qed.
Lemma cov_rest x n len : cov x (rest n len) = hit x (Fn (base n) (size n - len)).
Proof.
  unfold rest. destruct (size n - len =? 0) eqn:E; cbn [cov]; [|lia].
  unfold hit. cbn [base size]. apply N.eqb_eq in E. rewrite E.
  destruct (base n <=? x) eqn:A, (x <? base n + 0) eqn:B; cbn [andb]; lia.
Qed.
Lemma sizes_rest n len : sizes (rest n len) = size n - len.
Proof. unfold rest. destruct (size n - len =? 0) eqn:E; [cbn; lia|]. rewrite sizes_cons. cbn. lia. Qed.

(** handing out a piece *)
Lemma borrow_inv es B p lv rem q len a : Inv es B p lv rem -> 0 < len ->
  frame p q -> lvl (slots q) ->
  (exists n r, Permutation (FP p) (n :: r) /\ Permutation (FP q) (rest n (wrapped_size len) ++ r) /\
              wrapped_size len <= size n /\ a = base n + size n - wrapped_size len) ->
  Inv es B q ((a, len) :: lv) rem.
Proof.
  intros H Hl F V (n & r & P1 & P2 & L & ->).
  assert (wrapped_size len mod 4 = 0 /\ 8 < wrapped_size len) as [W1 W2] by (unfold wrapped_size; lia).
  destruct H as [[Ho Hlv Hst] B' C D E G I J K M].
  pose proof (Forall_perm _ _ _ P1 Ho) as Ho'. inversion Ho' as [|? ? On Or]; subst. destruct On as (O1 & O2 & O3).
  constructor.
  - constructor; [|exact V|eapply stg_frame; eauto].
    eapply Forall_perm; [symmetry; exact P2|]. apply Forall_app. split; [|exact Or].
    unfold rest. destruct (size n - wrapped_size len =? 0) eqn:Z; constructor; [|constructor].
    unfold okn; cbn [base size]. lia.
  - apply (f_es _ _ F).
  - rewrite (f_len _ _ F). exact C.
  - constructor; [cbn [fst snd]; lia|exact D].
  - intros x. specialize (E x). rewrite (f_ex _ _ F), <- E, (cov_perm _ _ _ P1), (cov_perm _ _ _ P2), cov_app, cov_rest.
    cbn [map cov]. unfold itn at 1. cbn [fst snd]. pose proof (hit_split x n _ L). lia.
  - rewrite (f_ex _ _ F), <- G, (sizes_perm _ _ P1), (sizes_perm _ _ P2), sizes_app, sizes_rest.
    cbn [map]. rewrite !sizes_cons. unfold itn at 1. cbn [fst snd size]. lia.
  - rewrite (f_ex _ _ F). exact I.
  - intros x. rewrite (f_ex _ _ F). apply J.
  - exact K.
  - rewrite (f_ex _ _ F). exact M.
Qed.
Lemma try_inv es B p lv rem tgt len a q : Inv es B p lv rem -> 0 < len ->
  try_from p tgt (wrapped_size len) = Ok (Some a, q) -> Inv es B q ((a, len) :: lv) rem.
Proof.
  intros H Hl T. destruct (i_wf _ _ _ _ _ H) as [Ho Hlv Hst].
  destruct (try_ok _ _ _ _ _ _ Ho Hlv T) as (F & V & _ & _ & X).
  eapply borrow_inv; eauto.
Qed.
Lemma compact_inv es B p lv rem c q : Inv es B p lv rem -> compact p = Ok (c, q) -> Inv es B q lv rem.
Proof.
  intros H Hc. destruct H as [W B' C D E G I J K M].
  destruct (compact_ok _ _ _ W Hc) as (W' & E1 & E2 & E3 & E4 & (S1 & S2) & _).
  constructor; rewrite ?E1, ?E2, ?E3; auto.
  - intros x. rewrite S1. apply E.
  - rewrite S2. exact G.
Qed.
Lemma extend_inv es B p lv rem b q : 4 <= es -> es mod 4 = 0 -> Inv es B p lv (b :: rem) -> extend p b = Ok q ->
  Inv es B q lv rem.
Proof.
  intros He1 He2 H Hx. destruct H as [[Ho Hlv Hst] B' C D E G I J K M]. unfold extend in Hx.
  pose proof (Forall_inv K) as Kb; pose proof (Forall_inv_tail K) as Kr; cbn beta in Kb.
  assert (okn (gr es b)) as Og by (unfold okn, gr; cbn [base size]; lia).
  rewrite B' in Hx. fold (gr es b) in Hx.
  set (p1 := Pool _ _ _ _ _ _ _) in *.
  destruct (replace_ok p1 _ _ Og Hlv Hx) as (F & P & V).
  assert (FP p1 = FP p) as EP by reflexivity. rewrite EP in P.
  constructor.
  - constructor; [|exact V|].
    + eapply Forall_perm; [symmetry; exact P|]. constructor; assumption.
    + eapply stg_frame; [exact F|]. exact Hst.
  - rewrite (f_es _ _ F). reflexivity.
  - rewrite (f_len _ _ F). exact C.
  - exact D.
  - intros x. specialize (E x). rewrite (f_ex _ _ F), (cov_perm _ _ _ P). cbn [extents p1 cov]. lia.
  - rewrite (f_ex _ _ F), (sizes_perm _ _ P). cbn [extents p1]. rewrite !sizes_cons. lia.
  - rewrite (f_ex _ _ F). cbn [extents p1]. constructor; [cbn [gr base size]; auto|exact I].
  - intros x. specialize (J x). rewrite (f_ex _ _ F). cbn [extents p1 cov map] in *. lia.
  - exact Kr.
  - rewrite (f_ex _ _ F). cbn [extents p1 map] in *. rewrite sizes_cons in *. cbn [size gr] in *. lia.
Qed.

Lemma try_from_none p tgt len q : try_from p tgt len = Ok (None, q) ->
  q = p /\ forall j l, (tgt <= j)%nat -> nth_error (slots p) j = Some l -> frags l = [].
Proof.
  intros H. apply try_none in H. destruct H as [-> H]. split; [reflexivity|]. intros j l Hj E.
  assert (j < length (slots p))%nat by (apply nth_error_Some; congruence).
  destruct (H j) as (l' & A & B); [lia|]. congruence.
Qed.

Lemma find_loop_inv es B tgt len : 4 <= es -> es mod 4 = 0 -> 0 < len ->
  forall maps att p lv rem r, Inv es B p lv (maps ++ rem) ->
  find_loop maps att p tgt (wrapped_size len) = Ok r ->
  exists a q, r = (Some a, q) /\ Inv es B q ((a, len) :: lv) rem.
Proof.
  intros He1 He2 Hl. induction maps as [|b maps IH]; intros att p lv rem r H; cbn [find_loop];
    destruct (try_from p tgt (wrapped_size len)) as [[[a|] p1]| |] eqn:T; try discriminate.
  1,3: intros [= <-]; exists a, p1; split; [reflexivity|]; eapply Inv_rem; eapply try_inv; eassumption.
  all: apply try_from_none in T; destruct T as [-> _].
  all: destruct (hope p tgt (wrapped_size len) && (att <? 2)).
  2: discriminate.
  1,2: destruct (compact p) as [[c p2]| |] eqn:Ec; try discriminate;
       pose proof (compact_inv _ _ _ _ _ _ _ H Ec) as H2;
       destruct (try_from p2 tgt (wrapped_size len)) as [[[a|] p3]| |] eqn:T2; try discriminate.
  1,2: intros [= <-]; exists a, p3; split; [reflexivity|]; eapply Inv_rem; eapply try_inv; eassumption.
  - apply try_from_none in T2; destruct T2 as [-> _].
    destruct (extend p2 b) as [p4| |] eqn:Ex; try discriminate.
    apply IH. eapply extend_inv; eauto.
  - destruct (extend p b) as [p4| |] eqn:Ex; try discriminate.
    apply IH. eapply extend_inv; eauto.
Qed.

Lemma step_inv es B s o s' rem : 4 <= es -> es mod 4 = 0 -> good_op o ->
  Inv es B (pl s) (live s) (grants o ++ rem) -> step s o = Ok s' -> Inv es B (pl s') (live s') rem.
Proof.
  intros He1 He2 Hg H. destruct o as [len maps|a len|force]; cbn [step grants good_op app] in *.
  - destruct (pool_find maps (pl s) (wrapped_size len)) as [r| |] eqn:E; try discriminate.
    unfold pool_find in E.
    destruct (_ =? _); [discriminate|]. destruct (_ || _).
    { injection E as <-. intros [= <-]. cbn [pl live]. eapply Inv_rem. exact H. }
    destruct (_ <? _); [discriminate|].
    eapply find_loop_inv in E; try eassumption. destruct E as (a & q & -> & I). intros [= <-]. exact I.
  - destruct (drop_item a len (live s)) as [l|] eqn:E; intros [= <-]; [|exact H]. cbn [pl live].
    assert (Permutation (live s) ((a, len) :: l)) as P.
    { clear H. revert l E. induction (live s) as [|[b k] r IH]; cbn [drop_item]; [discriminate|]. intros l.
      destruct ((a =? b) && (len =? k)) eqn:Eq.
      - intros [= <-]. apply andb_prop in Eq. destruct Eq as [Qa Qb].
        apply N.eqb_eq in Qa, Qb. subst. reflexivity.
      - destruct (drop_item a len r) as [r'|] eqn:Er; [|discriminate]. intros [= <-].
        rewrite (IH r' eq_refl). apply perm_swap. }
    destruct H as [[Ho Hlv [S1 S2]] B' C D E' G I J K M].
    pose proof (Forall_perm _ _ _ P D) as D'. inversion D' as [|? ? [Da Db] Dr]; subst. cbn [fst snd] in *.
    assert (FP (stage_replace_free_node (pl s) (Fn a (wrapped_size len))) = itn (a, len) :: FP (pl s)) as EF by reflexivity.
    constructor; rewrite ?EF; cbn [stage_replace_free_node extent_size slots extents]; auto.
    + constructor; [rewrite EF| |].
      * constructor; [|exact Ho]. unfold okn, itn, wrapped_size. cbn [fst snd base size]. lia.
      * exact Hlv.
      * unfold stg. cbn [stage_replace_free_node staged_cnt staged_size staged]. rewrite sizes_cons.
        cbn [length size]. rewrite S1, S2. lia.
    + intros x. rewrite <- E'. rewrite (cov_perm x _ _ (Permutation_map itn P)). cbn [map cov]. lia.
    + rewrite <- G. rewrite (sizes_perm _ _ (Permutation_map itn P)). cbn [map]. rewrite !sizes_cons. lia.
  - unfold pool_compact. destruct (_ && _); [intros [= <-]; exact H|].
    destruct (compact (pl s)) as [[c q]| |] eqn:E; try discriminate. intros [= <-]. cbn [pl live].
    pose proof (compact_inv _ _ _ _ _ _ _ H E) as [[Ho Hlv Hst] B' C D E' G I J K M].
    constructor; auto. constructor; auto.
Qed.

Lemma granted_cov es ops : good_mmap es ops ->
  (forall x, cov x (map (gr es) (flat_map grants ops)) <= 1) /\ Forall (fun b => b mod 4 = 0) (flat_map grants ops).
Proof.
  intros [A B]. unfold granted in *.
  assert (map (fun b => (b, es)) (flat_map grants ops) = map frag_region (map (gr es) (flat_map grants ops))) as E.
  { rewrite map_map. reflexivity. }
  split; [apply apart_cov; rewrite <- E; exact A|]. rewrite Forall_map in B. exact B.
Qed.
Lemma run_inv es B : 4 <= es -> es mod 4 = 0 -> forall ops s s', Forall good_op ops ->
  Inv es B (pl s) (live s) (flat_map grants ops) -> run s ops = Ok s' -> Inv es B (pl s') (live s') [].
Proof.
  intros He1 He2. induction ops as [|o ops IH]; intros s s' Hg H; cbn [run flat_map] in *.
  - intros [= <-]. exact H.
  - inversion Hg; subst. destruct (step s o) as [s1| |] eqn:E; try discriminate.
    apply IH; [assumption|]. eapply step_inv; eauto.
Qed.

Lemma free_regions_FP s : free_regions s = map frag_region (FP (pl s)).
Proof.
  unfold free_regions, FP. rewrite map_app. f_equal.
  induction (slots (pl s)) as [|l r IH]; cbn [flat_map]; [reflexivity|]. rewrite map_app, IH. reflexivity.
Qed.
Lemma live_regions_itn s : live_regions s = map frag_region (map itn (live s)).
Proof. unfold live_regions. rewrite map_map. reflexivity. Qed.

Theorem partition : forall es ops s, good_extent es -> good_mmap es ops -> Forall good_op ops ->
  run (init es) ops = Ok s ->
  all_apart (live_regions s ++ free_regions s) /\
  same_memory (live_regions s ++ free_regions s) (mapped s) /\
  total (live_regions s) + total (free_regions s) = total (mapped s) /\
  Forall (fun r => In r (granted es ops)) (mapped s) /\
  Forall (fun i => fst i mod 4 = 0) (live s).
Proof.
  intros es ops s [He1 He2] Hm Hg Hr. destruct (granted_cov _ _ Hm) as [G1 G2].
  set (B := sizes (map (gr es) (flat_map grants ops))).
  assert (Inv es B (pl s) (live s) []) as H.
  { eapply run_inv; [| |exact Hg| |exact Hr]; [lia|lia|]. apply init_inv; try assumption. subst B. lia. }
  rewrite free_regions_FP, live_regions_itn, <- map_app. unfold mapped. split.
  { apply apart_cov. intros x. rewrite cov_app. pose proof (i_cov _ _ _ _ _ H x). pose proof (i_ap _ _ _ _ _ H x). cbn [map cov] in *. lia. }
  split.
  { intros x. rewrite <- !cov_pos, cov_app. pose proof (i_cov _ _ _ _ _ H x). lia. }
  split.
  { rewrite !total_sizes. pose proof (i_sz _ _ _ _ _ H). lia. }
  split.
  - (* extents come from the granted ones *)
    assert (forall ops s s', run s ops = Ok s' -> extent_size (pl s) = es -> incl (mapped s') (mapped s ++ granted es ops)) as X.
    { clear. assert (forall p q n, replace_free_node p n = Ok q -> extents q = extents p /\ extent_size q = extent_size p) as R1.
      { intros p q n. unfold replace_free_node. destruct (_ <? _); [discriminate|]. destruct (_ =? _); [discriminate|].
        intros [= <-]. split; reflexivity. }
      assert (forall p i len r q, borrow_free_node p i len = Ok (r, q) -> extents q = extents p /\ extent_size q = extent_size p) as R2.
      { intros p i len r q. unfold borrow_free_node. destruct (nth_error _ _) as [l|]; [|discriminate].
        destruct (frags l) as [|n f]; [intros [= <- <-]; auto|].
        repeat (destruct (_ : bool) in |- *; try discriminate); try (intros [= <- <-]; split; reflexivity).
        destruct (replace_free_node _ _) as [p2| |] eqn:E; try discriminate. intros [= <- <-].
        apply R1 in E. exact E. }
      assert (forall n p i len r q, try_levels p i n len = Ok (r, q) -> extents q = extents p /\ extent_size q = extent_size p) as R3.
      { induction n as [|n IH]; intros p i len r q; cbn [try_levels]; [intros [= <- <-]; auto|].
        destruct (borrow_free_node p i len) as [[[a|] p1]| |] eqn:E; try discriminate.
        - intros [= <- <-]. eapply R2; eauto.
        - intros H. apply R2 in E. apply IH in H. destruct E, H. split; congruence. }
      assert (forall l p q, replace_all p l = Ok q -> extents q = extents p /\ extent_size q = extent_size p) as R4.
      { induction l as [|n l IH]; intros p q; cbn [replace_all]; [intros [= <-]; auto|].
        destruct (replace_free_node p n) as [p1| |] eqn:E; try discriminate. intros H.
        apply R1 in E. apply IH in H. destruct E, H. split; congruence. }
      assert (forall p c q, compact p = Ok (c, q) -> extents q = extents p /\ extent_size q = extent_size p) as R5.
      { intros p c q. unfold compact. destruct (negb _); [discriminate|]. destruct (collapse_all _) as [o c'].
        destruct (replace_all _ o) as [p2| |] eqn:E; try discriminate. intros [= <- <-]. apply R4 in E. exact E. }
      assert (forall p b q, extend p b = Ok q -> extents q = gr (extent_size p) b :: extents p /\ extent_size q = extent_size p) as R6.
      { intros p b q H. apply R1 in H. exact H. }
      assert (forall maps att p tgt len r q, find_loop maps att p tgt len = Ok (r, q) ->
               incl (extents q) (extents p ++ map (gr (extent_size p)) maps) /\ extent_size q = extent_size p) as R7.
      { induction maps as [|b maps IH]; intros att p tgt len r q; cbn [find_loop];
          destruct (try_from p tgt len) as [[[a|] p1]| |] eqn:T; try discriminate.
        1,3: intros [= <- <-]; apply R3 in T; destruct T as [-> ->]; split; [apply incl_appl, incl_refl|reflexivity].
        all: apply R3 in T; destruct T as [T1 T2]; destruct (hope p1 tgt len && (att <? 2)).
        2: discriminate.
        1,2: destruct (compact p1) as [[c p2]| |] eqn:Ec; try discriminate; apply R5 in Ec; destruct Ec as [C1 C2];
          destruct (try_from p2 tgt len) as [[[a|] p3]| |] eqn:T3; try discriminate.
        1,2: intros [= <- <-]; apply R3 in T3; destruct T3 as [T3 T4]; rewrite T3, C1, T1; split;
            [apply incl_appl, incl_refl|congruence].
        - destruct (extend p3 b) as [p4| |] eqn:Ex; try discriminate. intros H. apply IH in H. apply R6 in Ex.
          apply R3 in T3. destruct H as [H1 H2], Ex as [X1 X2], T3 as [T3 T4]. split; [|congruence].
          rewrite X1, X2, T4, C2, T2, T3, C1, T1 in H1. cbn [map]. intros y Hy. specialize (H1 y Hy).
          rewrite in_app_iff in *. cbn [In] in *. tauto.
        - destruct (extend p1 b) as [p4| |] eqn:Ex; try discriminate. intros H. apply IH in H. apply R6 in Ex.
          destruct H as [H1 H2], Ex as [X1 X2]. split; [|congruence].
          rewrite X1, X2, T2, T1 in H1. cbn [map]. intros y Hy. specialize (H1 y Hy).
          rewrite in_app_iff in *. cbn [In] in *. tauto. }
      induction ops as [|o ops IH]; intros s s'; cbn [run].
      - intros [= <-] _. apply incl_appl, incl_refl.
      - destruct (step s o) as [s1| |] eqn:E; try discriminate. intros H He.
        assert (incl (mapped s1) (mapped s ++ map (fun b => (b, es)) (grants o)) /\ extent_size (pl s1) = es) as [Y1 Y2].
        { destruct o as [len maps|a len|force]; cbn [step grants] in E |- *.
          - destruct (pool_find maps (pl s) (wrapped_size len)) as [[r q]| |] eqn:Ef; try discriminate.
            assert (incl (extents q) (extents (pl s) ++ map (gr (extent_size (pl s))) maps) /\ extent_size q = extent_size (pl s)) as [Z1 Z2].
            { unfold pool_find in Ef. destruct (_ =? _); [discriminate|]. destruct (_ || _).
              - injection Ef as <- <-. split; [apply incl_appl, incl_refl|reflexivity].
              - destruct (_ <? _); [discriminate|]. eapply R7; eauto. }
            assert (pl s1 = q) as Eq by (destruct r; injection E as <-; reflexivity).
            split; [|congruence]. unfold mapped. rewrite Eq. rewrite He in Z1.
            replace (map (fun b => (b, es)) maps) with (map frag_region (map (gr es) maps)) by (rewrite map_map; reflexivity).
            rewrite <- map_app. apply incl_map. exact Z1.
          - destruct (drop_item _ _ _); injection E as <-; (split; [apply incl_appl, incl_refl|exact He]).
          - destruct (pool_compact (pl s) force) as [[c q]| |] eqn:Ep; try discriminate. injection E as <-.
            unfold pool_compact in Ep. destruct (_ && _).
            + injection Ep as <- <-. split; [apply incl_appl, incl_refl|exact He].
            + destruct (compact (pl s)) as [[c' q']| |] eqn:Ec; try discriminate. injection Ep as <- <-.
              apply R5 in Ec. destruct Ec as [C1 C2]. unfold mapped. cbn [pl extents extent_size]. rewrite C1.
              split; [apply incl_appl, incl_refl|congruence]. }
        specialize (IH s1 s' H Y2). intros y Hy. specialize (IH y Hy). rewrite in_app_iff in *.
        unfold granted in *. cbn [flat_map]. rewrite map_app, in_app_iff.
        destruct IH as [IH|IH]; [|tauto]. apply Y1 in IH. rewrite in_app_iff in IH. tauto. }
    specialize (X ops (init es) s Hr eq_refl). apply Forall_forall. intros r Hin. apply X in Hin. exact Hin.
  - pose proof (i_lv _ _ _ _ _ H) as L. apply Forall_forall. intros i Hi. rewrite Forall_forall in L. apply L in Hi. tauto.
Qed.

(** ** Progress *)
Lemma nsl_pos es : (0 < nsl es)%nat. Proof. unfold nsl. lia. Qed.
Lemma Inv_small es B p lv rem : B < 2 ^ 32 -> Inv es B p lv rem -> sizes (FP p) < 2 ^ 32.
Proof. intros HB H. pose proof (i_sz _ _ _ _ _ H). pose proof (i_bd _ _ _ _ _ H). lia. Qed.
Lemma try_from_progress es B p lv rem len : B < 2 ^ 32 -> Inv es B p lv rem -> 8 < len <= 2 ^ 23 -> len mod 4 = 0 ->
  try_from p (N.to_nat (fast_log2_ru len - SMALLEST_POWER)) len <> Stuck.
Proof.
  intros HB H Hl H4. destruct (i_wf _ _ _ _ _ H) as [Ho Hlv Hst]. unfold try_from.
  set (tgt := N.to_nat (fast_log2_ru len - SMALLEST_POWER)).
  destruct (Nat.le_gt_cases (length (slots p)) tgt) as [L|L].
  { replace (length (slots p) - tgt)%nat with 0%nat by lia. discriminate. }
  apply try_progress; auto; try lia.
  - subst tgt. rewrite N2Nat.id. pose proof (log2_ru_le len ltac:(lia)) as W.
    assert (2 ^ fast_log2_ru len <= 4 * 2 ^ (fast_log2_ru len - SMALLEST_POWER)) as V; [|lia].
    unfold SMALLEST_POWER. change 4 with (2 ^ 2). rewrite <- N.pow_add_r. apply N.pow_le_mono_r; lia.
  - eapply Inv_small; eauto.
Qed.
Lemma extend_progress es B p lv rem b : 4 <= es < 2 ^ 32 -> Inv es B p lv rem -> extend p b <> Stuck.
Proof.
  intros He H. unfold extend. apply replace_progress; [cbn [size]; rewrite (i_es _ _ _ _ _ H); lia|].
  cbn [slots]. rewrite (i_n _ _ _ _ _ H). apply nsl_pos.
Qed.
Lemma Inv_compact_progress es B p lv rem : B < 2 ^ 32 -> Inv es B p lv rem -> compact p <> Stuck.
Proof.
  intros HB H. apply compact_progress.
  - apply (i_wf _ _ _ _ _ H).
  - intros x. eapply Inv_cov1; eauto.
  - eapply Inv_small; eauto.
  - rewrite (i_n _ _ _ _ _ H). apply nsl_pos.
Qed.
Lemma find_loop_progress es B len : 4 <= es <= 2 ^ 31 -> es mod 4 = 0 -> B < 2 ^ 32 -> 8 < len <= 2 ^ 23 -> len mod 4 = 0 ->
  forall maps att p lv rem, Inv es B p lv (maps ++ rem) ->
  find_loop maps att p (N.to_nat (fast_log2_ru len - SMALLEST_POWER)) len <> Stuck.
Proof.
  intros He1 He2 HB Hl H4. set (tgt := N.to_nat (fast_log2_ru len - SMALLEST_POWER)).
  induction maps as [|b maps IH]; intros att p lv rem H; cbn [find_loop];
    destruct (try_from p tgt len) as [[[a|] p1]| |] eqn:T; try discriminate.
  all: try (exfalso; revert T; eapply try_from_progress; eassumption).
  all: apply try_from_none in T; destruct T as [-> _]; destruct (hope p tgt len && (att <? 2)); try discriminate.
  1,2: destruct (compact p) as [[c p2]| |] eqn:Ec; try discriminate;
       [|exfalso; revert Ec; eapply Inv_compact_progress; eassumption];
       pose proof (compact_inv _ _ _ _ _ _ _ H Ec) as H2;
       destruct (try_from p2 tgt len) as [[[a|] p3]| |] eqn:T2; try discriminate.
  all: try (exfalso; revert T2; eapply try_from_progress; eassumption).
  - apply try_from_none in T2; destruct T2 as [-> _].
    destruct (extend p2 b) as [p4| |] eqn:Ex; try discriminate.
    + apply (IH _ _ lv rem). eapply extend_inv; eauto; lia.
    + exfalso. revert Ex. eapply extend_progress; [|eassumption]. lia.
  - destruct (extend p b) as [p4| |] eqn:Ex; try discriminate.
    + apply (IH _ _ lv rem). eapply extend_inv; eauto; lia.
    + exfalso. revert Ex. eapply extend_progress; [|eassumption]. lia.
Qed.
Lemma wrapped_facts len : 0 < len -> 8 < wrapped_size len /\ wrapped_size len mod 4 = 0.
Proof. unfold wrapped_size. lia. Qed.
Lemma step_progress es B s o rem : 4 <= es <= 2 ^ 31 -> es mod 4 = 0 -> B < 2 ^ 32 -> good_op o ->
  Inv es B (pl s) (live s) (grants o ++ rem) -> step s o <> Stuck.
Proof.
  intros He1 He2 HB Hg H. destruct o as [len maps|a len|force]; cbn [step grants good_op app] in *.
  - destruct (wrapped_facts len Hg) as [W1 W2].
    destruct (pool_find maps (pl s) (wrapped_size len)) as [[[a|] q]| |] eqn:E; try discriminate.
    exfalso. revert E. unfold pool_find. rewrite (i_es _ _ _ _ _ H).
    destruct (es =? 0) eqn:E0; [lia|]. destruct ((es <? wrapped_size len) || (2 ^ 23 <? wrapped_size len)) eqn:E1; [discriminate|].
    assert (wrapped_size len <= 2 ^ 23) as W3 by lia.
    destruct (fast_log2_ru (wrapped_size len) <? SMALLEST_POWER) eqn:E2.
    + exfalso. pose proof (log2_ru_le (wrapped_size len) ltac:(lia)) as V. unfold SMALLEST_POWER in E2.
      assert (2 ^ fast_log2_ru (wrapped_size len) <= 2 ^ 1) by (apply N.pow_le_mono_r; lia). lia.
    + eapply find_loop_progress; eauto; lia.
  - destruct (drop_item a len (live s)); discriminate.
  - unfold pool_compact. destruct (_ && _); [discriminate|].
    destruct (compact (pl s)) as [[c q]| |] eqn:E; try discriminate. exfalso. revert E. eapply Inv_compact_progress; eauto.
Qed.
Theorem never_stuck : forall es ops, good_extent es -> good_mmap es ops -> below_4g es ops -> Forall good_op ops ->
  run (init es) ops <> Stuck.
Proof.
  intros es ops [He1 He2] Hm H4 Hg. destruct (granted_cov _ _ Hm) as [G1 G2].
  set (B := sizes (map (gr es) (flat_map grants ops))).
  assert (B < 2 ^ 32) as HB.
  { unfold below_4g, granted in H4. subst B. rewrite <- total_sizes, map_map. exact H4. }
  assert (Inv es B (pl (init es)) (live (init es)) (flat_map grants ops)) as H.
  { apply init_inv; try assumption. subst B. lia. }
  clear Hm H4 G1 G2. clearbody B. revert H. generalize (init es).
  induction ops as [|o ops IH]; intros s H; cbn [run flat_map] in *; [discriminate|].
  inversion Hg; subst. destruct (step s o) as [s1| |] eqn:E; try discriminate.
  - apply IH; [assumption|]. eapply step_inv; eauto; lia.
  - exfalso. revert E. eapply step_progress; eauto.
Qed.

(** ** Power-of-two extents always suffice *)
Lemma replace_level p n q : 4 <= size n < 2 ^ 32 -> N.log2 (size n) - 2 < N.of_nat (length (slots p)) ->
  replace_free_node p n = Ok q ->
  exists l, nth_error (slots q) (N.to_nat (N.log2 (size n) - 2)) = Some l /\ frags l <> [].
Proof.
  intros Hs Hn. unfold replace_free_node. rewrite log2_rd by lia. unfold SMALLEST_POWER, nslots.
  destruct (_ <? _); [discriminate|]. destruct (_ =? _); [discriminate|].
  destruct (N.of_nat (length (slots p)) <=? N.log2 (size n) - 2) eqn:E; [lia|]. intros [= <-].
  cbn [slots with_slots]. destruct (nth_error (slots p) (N.to_nat (N.log2 (size n) - 2))) as [x|] eqn:Ex.
  - exists (push n x). rewrite upd_nth, Ex, Nat.eqb_refl. split; [reflexivity|]. cbn [push frags]. discriminate.
  - apply nth_error_None in Ex. lia.
Qed.
Lemma log2_pow_ru k : k <= 31 -> fast_log2_ru (2 ^ k) = k.
Proof.
  intros Hk. pose proof (N.pow_nonzero 2 k) as P. pose proof (N.pow_le_mono_r 2 k 31 ltac:(lia) Hk) as L.
  rewrite log2_ru by lia. apply N.log2_unique; [lia|]. rewrite N.pow_succ_r'. lia.
Qed.
Lemma find_finds k B len p lv rem b maps : 2 <= k <= 31 -> B < 2 ^ 32 -> 8 < len <= 2 ^ 23 -> len mod 4 = 0 -> len <= 2 ^ k ->
  Inv (2 ^ k) B p lv ((b :: maps) ++ rem) ->
  forall att, find_loop (b :: maps) att p (N.to_nat (fast_log2_ru len - SMALLEST_POWER)) len <> Waits.
Proof.
  intros Hk HB Hl H4 Hle H att.
  set (tgt := N.to_nat (fast_log2_ru len - SMALLEST_POWER)).
  assert (2 ^ k <= 2 ^ 31) as K1 by (apply N.pow_le_mono_r; lia).
  assert (4 <= 2 ^ k) as K2 by (change 4 with (2 ^ 2); apply N.pow_le_mono_r; lia).
  assert ((2 ^ k) mod 4 = 0) as K3.
  { replace k with (2 + (k - 2)) by lia. rewrite N.pow_add_r. change (2 ^ 2) with 4. rewrite N.mul_comm. apply N.mod_mul. lia. }
  assert (tgt <= N.to_nat (k - 2))%nat as Ht.
  { subst tgt. unfold SMALLEST_POWER. assert (fast_log2_ru len <= k); [|lia].
    rewrite log2_ru by lia. pose proof (N.log2_le_mono (2 * len - 1) (2 * 2 ^ k - 1) ltac:(lia)) as M.
    rewrite <- (log2_ru (2 ^ k)) in M by lia. rewrite log2_pow_ru in M by lia. exact M. }
  (* after extending, the search succeeds at once *)
  assert (forall att p2 p4, Inv (2 ^ k) B p2 lv (b :: maps ++ rem) -> extend p2 b = Ok p4 -> find_loop maps att p4 tgt len <> Waits) as X.
  { intros att' p2 p4 H2 Ex.
    assert (exists l, nth_error (slots p4) (N.to_nat (k - 2)) = Some l /\ frags l <> []) as (l & L1 & L2).
    { unfold extend in Ex. apply replace_level in Ex.
      - cbn [size] in Ex. rewrite (i_es _ _ _ _ _ H2), N.log2_pow2 in Ex by lia. exact Ex.
      - cbn [size]. rewrite (i_es _ _ _ _ _ H2). lia.
      - cbn [size slots]. rewrite (i_es _ _ _ _ _ H2), N.log2_pow2 by lia. rewrite (i_n _ _ _ _ _ H2).
        unfold nsl. rewrite log2_pow_ru by lia. unfold SMALLEST_POWER. lia. }
    destruct maps; cbn [find_loop]; destruct (try_from p4 tgt len) as [[[a|] p5]| |] eqn:T; try discriminate;
      try (unfold try_from in T; elim (try_not_waits _ _ _ _ T));
      apply try_from_none in T; destruct T as [_ T]; elim L2; apply (T _ l Ht L1). }
  cbn [find_loop]. destruct (try_from p tgt len) as [[[a|] p1]| |] eqn:T; try discriminate.
  2:{ unfold try_from in T. elim (try_not_waits _ _ _ _ T). }
  apply try_from_none in T; destruct T as [-> _]. destruct (hope p tgt len && (att <? 2)).
  - destruct (compact p) as [[c p2]| |] eqn:Ec; try discriminate; [|elim (compact_not_waits _ Ec)].
    pose proof (compact_inv _ _ _ _ _ _ _ H Ec) as H2.
    destruct (try_from p2 tgt len) as [[[a|] p3]| |] eqn:T2; try discriminate.
    2:{ unfold try_from in T2. elim (try_not_waits _ _ _ _ T2). }
    apply try_from_none in T2; destruct T2 as [-> _].
    destruct (extend p2 b) as [p4| |] eqn:Ex; try discriminate; [eapply X; eauto|].
    elim (replace_not_waits _ _ Ex).
  - destruct (extend p b) as [p4| |] eqn:Ex; try discriminate; [eapply X; eauto|].
    elim (replace_not_waits _ _ Ex).
Qed.
Lemma good_mmap_app es ops o : good_mmap es (ops ++ [o]) ->
  (forall x, cov x (map (gr es) (flat_map grants ops ++ grants o)) <= 1) /\
  Forall (fun b => b mod 4 = 0) (flat_map grants ops ++ grants o).
Proof.
  intros H. apply granted_cov in H. rewrite flat_map_app in H. cbn [flat_map] in H. rewrite app_nil_r in H. exact H.
Qed.
Lemma run_inv_rem es B : 4 <= es -> es mod 4 = 0 -> forall ops s s' rem, Forall good_op ops ->
  Inv es B (pl s) (live s) (flat_map grants ops ++ rem) -> run s ops = Ok s' -> Inv es B (pl s') (live s') rem.
Proof.
  intros He1 He2. induction ops as [|o ops IH]; intros s s' rem Hg H; cbn [run flat_map] in *.
  - intros [= <-]. exact H.
  - inversion Hg; subst. destruct (step s o) as [s1| |] eqn:E; try discriminate.
    apply IH; [assumption|]. rewrite <- app_assoc in H. eapply step_inv; eauto.
Qed.
Theorem alloc_succeeds : forall k ops s len maps, 2 <= k <= 31 ->
  good_mmap (2 ^ k) (ops ++ [Alloc len maps]) -> below_4g (2 ^ k) (ops ++ [Alloc len maps]) -> Forall good_op ops ->
  run (init (2 ^ k)) ops = Ok s ->
  0 < len -> wrapped_size len <= 2 ^ k -> wrapped_size len <= 2 ^ 23 -> maps <> [] ->
  exists s' a, step s (Alloc len maps) = Ok s' /\ live s' = (a, len) :: live s.
Proof.
  intros k ops s len maps Hk Hm H4 Hg Hr Hl Hw1 Hw2 Hmaps.
  destruct (good_mmap_app _ _ _ Hm) as [G1 G2]. cbn [grants] in *.
  set (es := 2 ^ k) in *.
  assert (es <= 2 ^ 31) as K1 by (apply N.pow_le_mono_r; lia).
  assert (4 <= es) as K2 by (change 4 with (2 ^ 2); apply N.pow_le_mono_r; lia).
  assert (es mod 4 = 0) as K3.
  { subst es. replace k with (2 + (k - 2)) by lia. rewrite N.pow_add_r. change (2 ^ 2) with 4. rewrite N.mul_comm. apply N.mod_mul. lia. }
  set (B := sizes (map (gr es) (flat_map grants ops ++ maps))).
  assert (B < 2 ^ 32) as HB.
  { unfold below_4g, granted in H4. subst B. rewrite <- total_sizes, map_map.
    rewrite flat_map_app in H4. cbn [flat_map grants] in H4. rewrite app_nil_r in H4. exact H4. }
  assert (Inv es B (pl s) (live s) maps) as H.
  { eapply run_inv_rem; [| |exact Hg| |exact Hr]; auto. apply init_inv; try assumption. subst B. lia. }
  assert (Inv es B (pl s) (live s) (grants (Alloc len maps) ++ [])) as H' by (cbn [grants]; rewrite app_nil_r; exact H).
  pose proof (step_progress es B s (Alloc len maps) [] ltac:(lia) K3 HB Hl H') as NS.
  destruct (wrapped_facts len Hl) as [W1 W2].
  cbn [step] in *. unfold pool_find in *. rewrite (i_es _ _ _ _ _ H) in *.
  destruct (es =? 0) eqn:E0; [lia|]. destruct ((es <? wrapped_size len) || (2 ^ 23 <? wrapped_size len)) eqn:E1; [lia|].
  destruct (fast_log2_ru (wrapped_size len) <? SMALLEST_POWER) eqn:E2; [elim NS; reflexivity|].
  destruct maps as [|b maps]; [elim Hmaps; reflexivity|].
  destruct (find_loop (b :: maps) 1 (pl s) _ (wrapped_size len)) as [[r q]| |] eqn:E.
  - eapply (find_loop_inv es B) with (rem := []) in E; auto.
    2:{ rewrite app_nil_r. exact H. }
    destruct E as (a & q' & Er & _). injection Er as -> ->. eexists. exists a. split; reflexivity.
  - elim NS; reflexivity.
  - exfalso. revert E. eapply find_finds with (B := B) (rem := []); eauto; lia.
Qed.

(** ** Compaction merges everything that touches *)
Notation leb_base := (fun n m : fnode => base n <= base m).
Lemma insert_sorted n l : StronglySorted leb_base l -> StronglySorted leb_base (insert n l).
Proof.
  induction l as [|m l IH]; intros H; cbn [insert].
  - constructor; constructor.
  - inversion H as [|? ? H1 H2]; subst. destruct (base n <? base m) eqn:E.
    + constructor; [exact H|]. constructor; [lia|]. eapply Forall_impl; [|exact H2]. cbn. intros; lia.
    + constructor; [apply IH; exact H1|]. eapply Forall_perm; [symmetry; apply insert_perm|].
      constructor; [lia|exact H2].
Qed.
Lemma sort_sorted l : StronglySorted leb_base (sort l).
Proof. induction l; cbn [sort]; [constructor|apply insert_sorted; assumption]. Qed.
Lemma sorted_gap l : StronglySorted leb_base l -> Forall okn l -> (forall x, cov x l <= 1) ->
  StronglySorted (fun n m => base n + size n <= base m) l.
Proof.
  induction l as [|n l IH]; intros S1 Ho Hc; constructor.
  - inversion S1; inversion Ho; subst. apply IH; auto. intros x. specialize (Hc x). cbn [cov] in Hc. lia.
  - inversion S1 as [|? ? _ S2]; subst. apply Forall_forall. intros m Hm.
    rewrite Forall_forall in S2. specialize (S2 m Hm). cbn beta in S2.
    destruct (N.le_gt_cases (base n + size n) (base m)) as [L|L]; [exact L|exfalso].
    specialize (Hc (base m)). cbn [cov] in Hc.
    inversion Ho as [|? ? On Or]; subst. rewrite Forall_forall in Or. destruct (Or m Hm) as (O1 & _).
    assert (1 <= cov (base m) l).
    { apply cov_pos. exists (frag_region m). split; [apply in_map; exact Hm|]. unfold inside, frag_region. cbn. lia. }
    destruct (hit_inside (base m) n) as [[E _]|[_ E]]; [lia|]. apply E. unfold inside, frag_region. cbn. lia.
Qed.
Lemma collapse_gap l : forall n, Forall okn (n :: l) -> StronglySorted (fun n m => base n + size n <= base m) (n :: l) ->
  StronglySorted (fun n m => base n + size n < base m) (fst (collapse n l)) /\
  Forall (fun m => base n <= base m) (fst (collapse n l)).
Proof.
  induction l as [|m l IH]; intros n Ho S1; cbn [collapse].
  - split; repeat constructor. cbn. lia.
  - inversion S1 as [|? ? S2 S3]; subst. inversion S2 as [|? ? S4 S5]; subst. inversion S3 as [|? ? S6 S7]; subst.
    inversion Ho as [|? ? (N1 & N2 & N3) Ho1]; subst. inversion Ho1 as [|? ? (M1 & M2 & M3) Ho2]; subst.
    destruct (base n + size n =? base m) eqn:E.
    + apply N.eqb_eq in E.
      destruct (collapse (Fn (base n) (size n + size m)) l) as [o c] eqn:Ec.
      specialize (IH (Fn (base n) (size n + size m))). rewrite Ec in IH. cbn [fst] in *. apply IH.
      * constructor; [unfold okn; cbn [base size]; lia|exact Ho2].
      * constructor; [exact S4|]. eapply Forall_impl; [|exact S5]. cbn [base size]. intros; lia.
    + destruct (collapse m l) as [o c] eqn:Ec. specialize (IH m Ho1 S2). rewrite Ec in IH. cbn [fst] in *.
      destruct IH as [I1 I2]. split.
      * constructor; [exact I1|]. eapply Forall_impl; [|exact I2]. cbn. intros; lia.
      * constructor; [lia|]. eapply Forall_impl; [|exact I2]. cbn. intros; lia.
Qed.
Lemma strong_no_touch l : Forall okn l -> StronglySorted (fun n m => base n + size n < base m) l ->
  no_two_touch (map frag_region l).
Proof.
  intros Ho S1 r q Hr Hq. apply in_map_iff in Hr, Hq. destruct Hr as (n & <- & Hn), Hq as (m & <- & Hm).
  unfold frag_region. cbn [fst snd].
  induction S1 as [|a l S2 IH S3]; [destruct Hn|]. inversion Ho as [|? ? (A1 & _) Ho']; subst.
  rewrite Forall_forall in S3. pose proof (proj1 (Forall_forall _ _) Ho') as Hf.
  destruct Hn as [<-|Hn], Hm as [<-|Hm]; [lia| | |apply IH; auto].
  - specialize (S3 m Hm). lia.
  - specialize (S3 n Hn). destruct (Hf n Hn). lia.
Qed.
Theorem compaction : forall es ops s c p, good_extent es -> good_mmap es ops -> Forall good_op ops ->
  run (init es) ops = Ok s -> pool_compact (pl s) true = Ok (c, p) ->
  let s' := St p (live s) in
  same_memory (free_regions s') (free_regions s) /\ total (free_regions s') = total (free_regions s) /\
  mapped s' = mapped s /\
  N.of_nat (length (free_regions s')) + c = N.of_nat (length (free_regions s)) /\
  no_two_touch (free_regions s') /\ staged p = [].
Proof.
  intros es ops s c p [He1 He2] Hm Hg Hr Hc s'. destruct (granted_cov _ _ Hm) as [G1 G2].
  set (B := sizes (map (gr es) (flat_map grants ops))).
  assert (Inv es B (pl s) (live s) []) as H.
  { eapply run_inv; [| |exact Hg| |exact Hr]; [lia|lia|]. apply init_inv; try assumption. subst B. lia. }
  unfold pool_compact in Hc. cbn [negb andb] in Hc. destruct (compact (pl s)) as [[c' q]| |] eqn:Ec; try discriminate.
  injection Hc as <- <-. destruct (compact_ok _ _ _ (i_wf _ _ _ _ _ H) Ec) as ([Wo Wl Ws] & E1 & E2 & E3 & E4 & (S1 & S2) & S3 & S4).
  rewrite !free_regions_FP. subst s'. cbn [pl].
  change (FP {| extent_size := extent_size q; extents := extents q; slots := slots q; staged := staged q;
     staged_cnt := staged_cnt q; staged_size := staged_size q; last_compact := _ |}) with (FP q).
  split; [intros x; rewrite <- !cov_pos, S1; reflexivity|].
  split; [rewrite !total_sizes; exact S2|].
  split; [unfold mapped; cbn [pl extents]; rewrite E2; reflexivity|].
  split; [rewrite !map_length; exact S3|].
  split; [|exact E4].
  assert (forall x, cov x (sort (FP (pl s))) <= 1) as C1.
  { intros x. rewrite (cov_perm _ _ _ (sort_perm _)). eapply Inv_cov1; eauto. }
  assert (Forall okn (sort (FP (pl s)))) as O1.
  { eapply Forall_perm; [symmetry; apply sort_perm|]. apply (w_ok _ (i_wf _ _ _ _ _ H)). }
  pose proof (sorted_gap _ (sort_sorted (FP (pl s))) O1 C1) as SG.
  intros r r' Hr1 Hr2.
  assert (no_two_touch (map frag_region (fst (collapse_all (sort (FP (pl s))))))) as NT.
  { apply strong_no_touch.
    - eapply Forall_perm; [exact S4|exact Wo].
    - destruct (sort (FP (pl s))) as [|n l]; cbn [collapse_all]; [constructor|]. apply collapse_gap; assumption. }
  apply NT; eapply Permutation_in; try (apply Permutation_map; exact S4); assumption.
Qed.

(** the sort *)
Lemma sorted_unique l : forall m, NoDup (map base l) -> Permutation l m -> StronglySorted leb_base l -> StronglySorted leb_base m -> l = m.
Proof.
  induction l as [|n l IH]; intros m Hn P S1 S2.
  - apply Permutation_nil in P. symmetry. exact P.
  - destruct m as [|k m]; [symmetry in P; apply Permutation_nil in P; discriminate|].
    assert (n = k) as ->.
    { inversion S1 as [|? ? _ A]; subst. inversion S2 as [|? ? _ A']; subst. rewrite Forall_forall in A, A'.
      assert (In k (n :: l)) as I1 by (eapply Permutation_in; [symmetry; exact P|left; reflexivity]).
      assert (In n (k :: m)) as I2 by (eapply Permutation_in; [exact P|left; reflexivity]).
      destruct I1 as [->|I1]; [reflexivity|]. destruct I2 as [->|I2]; [reflexivity|]. exfalso.
      specialize (A k I1). specialize (A' n I2). cbn beta in *.
      cbn [map] in Hn. inversion Hn as [|? ? X _]; subst. apply X.
      replace (base n) with (base k) by lia. apply in_map. exact I1. }
    f_equal. apply IH.
    + cbn [map] in Hn. inversion Hn; assumption.
    + eapply Permutation_cons_inv. exact P.
    + inversion S1; assumption.
    + inversion S2; assumption.
Qed.
Theorem sort_link : forall (node : nat -> fnode) h p ids fuel,
  Sort.Spec.chain h p ids -> NoDup ids -> NoDup (map (fun i => base (node i)) ids) ->
  (N.of_nat (length ids) <= 2 ^ 30) -> (2 * length ids < fuel)%nat ->
  exists h' p' ids', Sort.Model.merge_sort (fun a b => compare_free_node (node a) (node b)) fuel h p = Sort.Model.Done h' p' /\
    Sort.Spec.chain h' p' ids' /\ map node ids' = sort (map node ids).
Proof.
  intros node h p ids fuel Hc Hn Hb Hl Hf.
  assert (Sort.Spec.weak_order (fun a b => compare_free_node (node a) (node b))) as W.
  { split; unfold compare_free_node.
    - intros a b. destruct (base (node a) <? base (node b)) eqn:E1, (base (node b) <? base (node a)) eqn:E2; lia.
    - intros a b c. destruct (base (node a) <? base (node b)) eqn:E1, (base (node b) <? base (node c)) eqn:E2,
        (base (node a) <? base (node c)) eqn:E3; lia. }
  destruct (Sort.Proofs.sorted_permutation _ W h p ids fuel Hc Hn Hl Hf) as (h' & p' & l' & A & B & C & D & _).
  exists h', p', l'. split; [exact A|]. split; [exact B|].
  apply sorted_unique.
  - rewrite map_map. eapply Permutation_NoDup; [|exact Hb]. apply Permutation_map. exact C.
  - rewrite sort_perm. symmetry. apply Permutation_map. exact C.
  - clear -D. induction l' as [|a l IH]; cbn [map]; constructor.
    + apply IH. apply D.
    + destruct D as [D _]. apply Forall_forall. intros m Hm. apply in_map_iff in Hm. destruct Hm as (b & <- & Hb).
      rewrite Forall_forall in D. specialize (D b Hb). unfold compare_free_node in D.
      destruct (base (node b) <? base (node a)) eqn:E; lia.
  - apply sort_sorted.
Qed.

(** ** Statistics *)
Lemma flat_sizes sl : fold_right (fun l a => sizes (frags l) + a) 0 sl = sizes (flat_map frags sl).
Proof. induction sl as [|l r IH]; cbn [fold_right flat_map]; [reflexivity|]. rewrite sizes_app, IH. reflexivity. Qed.
Theorem stats_exact : forall es ops s, good_extent es -> good_mmap es ops -> Forall good_op ops ->
  run (init es) ops = Ok s ->
  stat_allocated (pl s) = total (mapped s) /\ stat_available (pl s) = total (free_regions s) /\
  stat_fragments (pl s) = N.of_nat (length (free_regions s)).
Proof.
  intros es ops s [He1 He2] Hm Hg Hr. destruct (granted_cov _ _ Hm) as [G1 G2].
  set (B := sizes (map (gr es) (flat_map grants ops))).
  assert (Inv es B (pl s) (live s) []) as H.
  { eapply run_inv; [| |exact Hg| |exact Hr]; [lia|lia|]. apply init_inv; try assumption. subst B. lia. }
  destruct (i_wf _ _ _ _ _ H) as [Wo Wl [Ws1 Ws2]].
  assert (length (slots (pl s)) <= 32)%nat as L.
  { rewrite (i_n _ _ _ _ _ H). unfold nsl, SMALLEST_POWER. rewrite log2_ru by lia.
    pose proof (N.log2_le_mono (2 * es - 1) (2 ^ 32 - 1) ltac:(lia)) as M. change (N.log2 (2 ^ 32 - 1)) with 31 in M. lia. }
  unfold stat_allocated, stat_available, stat_fragments. rewrite firstn_all2 by lia.
  rewrite free_regions_FP, map_length. unfold mapped. rewrite !total_sizes.
  split; [reflexivity|]. unfold FP. split.
  - rewrite flat_sizes, sizes_app, Ws2. reflexivity.
  - rewrite app_length, Ws1. rewrite Nat2N.inj_add. f_equal.
    clear - Wl. assert (Forall (fun l => cnt l = N.of_nat (length (frags l))) (slots (pl s))) as F.
    { apply Forall_forall. intros l Hl. apply In_nth_error in Hl. destruct Hl as [i Hi]. apply (Wl i l Hi). }
    clear Wl. induction F as [|l r Hl F IH]; cbn [fold_right flat_map]; [reflexivity|].
    rewrite IH, app_length, Nat2N.inj_add. f_equal. rewrite Hl. destruct (frags l); reflexivity.
Qed.

(** ** Extents that are no power of two *)
Lemma collapse_none l : forall n, (forall a b, In a (n :: l) -> In b (n :: l) -> base a + size a <> base b) ->
  collapse n l = (n :: l, 0).
Proof.
  induction l as [|m l IH]; intros n H; cbn [collapse]; [reflexivity|].
  destruct (base n + size n =? base m) eqn:E.
  - exfalso. apply (H n m); [left; reflexivity|right; left; reflexivity|lia].
  - rewrite IH; [reflexivity|]. intros a b Ha Hb. apply H; right; assumption.
Qed.
Record K (es : N) (tgt : nat) (p : pool) (rem : list N) : Prop := KK {
  k_es : extent_size p = es;
  k_n : length (slots p) = nsl es;
  k_empty : forall j l, (tgt <= j)%nat -> nth_error (slots p) j = Some l -> frags l = [];
  k_size : Forall (fun n => size n = es) (FP p);
  k_nd : NoDup (map base (FP p) ++ rem);
  k_touch : forall a b, In a (map base (FP p) ++ rem) -> In b (map base (FP p) ++ rem) -> a + es <> b }.
Lemma nsl_gt es : 4 <= es <= 2 ^ 31 -> N.log2 es - 2 < N.of_nat (nsl es).
Proof.
  intros He. unfold nsl, SMALLEST_POWER. rewrite log2_ru by lia.
  pose proof (N.log2_le_mono es (2 * es - 1) ltac:(lia)). lia.
Qed.
Lemma replace_K p n : 4 <= size n <= 2 ^ 31 -> length (slots p) = nsl (size n) ->
  exists q, replace_free_node p n = Ok q /\ Permutation (FP q) (n :: FP p) /\ extent_size q = extent_size p /\
    staged q = staged p /\
    slots q = upd (N.to_nat (N.log2 (size n) - 2)) (push n) (slots p).
Proof.
  intros Hs Hn. pose proof (nsl_gt _ Hs) as G. unfold replace_free_node. rewrite log2_rd by lia.
  unfold SMALLEST_POWER, nslots. rewrite Hn.
  assert (2 <= N.log2 (size n)) as L by (change 2 with (N.log2 4); apply N.log2_le_mono; lia).
  destruct (N.log2 (size n) <? 2) eqn:E1; [lia|]. destruct (N.of_nat (nsl (size n)) =? 0) eqn:E2; [lia|].
  destruct (N.of_nat (nsl (size n)) <=? N.log2 (size n) - 2) eqn:E3; [lia|].
  eexists. split; [reflexivity|]. cbn [with_slots slots staged extent_size].
  split; [|auto]. unfold FP. cbn [staged slots with_slots].
  destruct (nth_error (slots p) (N.to_nat (N.log2 (size n) - 2))) as [x|] eqn:Ex; [|apply nth_error_None in Ex; lia].
  destruct (upd_perm (N.to_nat (N.log2 (size n) - 2)) (push n) _ _ Ex) as (r & A & B).
  rewrite B, A. cbn [push frags app]. symmetry. apply Permutation_middle.
Qed.
Lemma replace_all_K es tgt l : 4 <= es <= 2 ^ 31 -> N.log2 es - 2 < N.of_nat tgt ->
  forall p, length (slots p) = nsl es -> Forall (fun n => size n = es) l ->
  (forall j x, (tgt <= j)%nat -> nth_error (slots p) j = Some x -> frags x = []) ->
  exists q, replace_all p l = Ok q /\ Permutation (FP q) (l ++ FP p) /\ extent_size q = extent_size p /\
    length (slots q) = nsl es /\ (forall j x, (tgt <= j)%nat -> nth_error (slots q) j = Some x -> frags x = []).
Proof.
  intros He Ht. induction l as [|n l IH]; intros p Hn Hs Hemp; cbn [replace_all].
  - exists p. repeat split; auto.
  - inversion Hs as [|? ? Hs1 Hs2]; subst.
    destruct (replace_K p n He) as (q & A & B & C & D & E); [exact Hn|]. rewrite A.
    destruct (IH q) as (q' & A' & B' & C' & D' & E').
    + rewrite E, upd_length. exact Hn.
    + exact Hs2.
    + intros j x Hj Hx. rewrite E, upd_nth in Hx. destruct (nth_error (slots p) j) as [y|] eqn:Ey; [|discriminate].
      injection Hx as <-. destruct (Nat.eqb _ _) eqn:Eq; [apply Nat.eqb_eq in Eq; lia|]. eapply Hemp; eauto.
    + exists q'. split; [exact A'|]. split; [rewrite B', B; symmetry; apply Permutation_middle|].
      split; [congruence|]. split; [exact D'|exact E'].
Qed.

Lemma distinct_nodup l : NoDup (map base l) -> distinct_sorted l = true.
Proof.
  induction l as [|n [|m l] IH]; intros H; [reflexivity|reflexivity|].
  change (distinct_sorted (n :: m :: l)) with (negb (base n =? base m) && distinct_sorted (m :: l)).
  cbn [map] in H. inversion H as [|? ? H1 H2]; subst. rewrite IH by exact H2.
  destruct (base n =? base m) eqn:E; [|reflexivity]. exfalso. apply H1. left. lia.
Qed.
Lemma NoDup_app_left {A} (l m : list A) : NoDup (l ++ m) -> NoDup l.
Proof.
  induction l as [|a l IH]; cbn [app]; intros H; [constructor|]. inversion H as [|? ? H1 H2]; subst.
  constructor; [|auto]. intros X. apply H1. apply in_or_app. auto.
Qed.
Lemma compact_K es tgt p rem : 4 <= es <= 2 ^ 31 -> N.log2 es - 2 < N.of_nat tgt -> K es tgt p rem ->
  exists q, compact p = Ok (0, q) /\ K es tgt q rem.
Proof.
  intros He Ht [A B C D E F]. unfold compact. change (staged p ++ flat_map frags (slots p)) with (FP p).
  assert (Permutation (map base (sort (FP p))) (map base (FP p))) as PM by (apply Permutation_map, sort_perm).
  rewrite distinct_nodup.
  2:{ eapply Permutation_NoDup; [symmetry; exact PM|]. eapply NoDup_app_left; exact E. }
  cbn [negb].
  assert (collapse_all (sort (FP p)) = (sort (FP p), 0)) as ->.
  { destruct (sort (FP p)) as [|n l] eqn:Es; [reflexivity|]. cbn [collapse_all]. apply collapse_none.
    rewrite <- Es. intros a b Ha Hb.
    assert (In a (FP p)) as Ia by (eapply Permutation_in; [apply sort_perm|exact Ha]).
    assert (In b (FP p)) as Ib by (eapply Permutation_in; [apply sort_perm|exact Hb]).
    rewrite Forall_forall in D. rewrite (D a Ia). apply F; apply in_or_app; left; apply in_map; assumption. }
  set (p1 := Pool _ _ _ _ _ _ _).
  destruct (replace_all_K es tgt (sort (FP p)) He Ht p1) as (q & Q1 & Q2 & Q3 & Q4 & Q5).
  - cbn [slots p1]. rewrite map_length. exact B.
  - eapply Forall_perm; [symmetry; apply sort_perm|exact D].
  - intros j x Hj Hx. cbn [slots p1] in Hx. rewrite nth_error_map in Hx.
    destruct (nth_error (slots p) j); [|discriminate]. injection Hx as <-. reflexivity.
  - rewrite Q1. exists q. split; [reflexivity|].
    assert (FP p1 = []) as E1 by (unfold FP; cbn [staged slots p1]; apply emptied_flat).
    rewrite E1, app_nil_r in Q2.
    assert (Permutation (map base (FP q)) (map base (FP p))) as PQ.
    { apply Permutation_map. rewrite Q2. apply sort_perm. }
    constructor.
    + rewrite Q3. exact A.
    + exact Q4.
    + exact Q5.
    + eapply Forall_perm; [symmetry; exact Q2|]. eapply Forall_perm; [symmetry; apply sort_perm|exact D].
    + eapply Permutation_NoDup; [|exact E]. apply Permutation_app_tail. symmetry. exact PQ.
    + intros a b Ha Hb. apply F; (eapply Permutation_in; [apply Permutation_app_tail; exact PQ|assumption]).
Qed.
Lemma extend_K es tgt p b rem : 4 <= es <= 2 ^ 31 -> N.log2 es - 2 < N.of_nat tgt -> K es tgt p (b :: rem) ->
  exists q, extend p b = Ok q /\ K es tgt q rem.
Proof.
  intros He Ht [A B C D E F]. unfold extend. rewrite A.
  set (p1 := Pool _ _ _ _ _ _ _).
  destruct (replace_K p1 (Fn b es)) as (q & Q1 & Q2 & Q3 & Q4 & Q5); [exact He|exact B|].
  exists q. split; [exact Q1|].
  assert (FP p1 = FP p) as E1 by reflexivity. rewrite E1 in Q2.
  assert (Permutation (map base (FP q) ++ rem) (map base (FP p) ++ b :: rem)) as PQ.
  { rewrite (Permutation_map base Q2). cbn [map app base]. apply Permutation_middle. }
  constructor.
  - rewrite Q3. reflexivity.
  - rewrite Q5, upd_length. exact B.
  - intros j x Hj Hx. rewrite Q5, upd_nth in Hx. cbn [slots p1] in Hx.
    destruct (nth_error (slots p) j) as [y|] eqn:Ey; [|discriminate].
    injection Hx as <-. destruct (Nat.eqb _ _) eqn:Eq; [apply Nat.eqb_eq in Eq; cbn [size] in Eq; lia|]. eapply C; eauto.
  - eapply Forall_perm; [symmetry; exact Q2|]. constructor; [reflexivity|exact D].
  - eapply Permutation_NoDup; [symmetry; exact PQ|exact E].
  - intros a c Ha Hc. apply F; (eapply Permutation_in; [exact PQ|assumption]).
Qed.
Lemma try_levels_empty n : forall p i len, (forall j, (i <= j < i + n)%nat -> exists l, nth_error (slots p) j = Some l /\ frags l = []) ->
  try_levels p i n len = Ok (None, p).
Proof.
  induction n as [|n IH]; intros p i len H; cbn [try_levels]; [reflexivity|].
  unfold borrow_free_node. destruct (H i) as (l & -> & ->); [lia|]. apply IH. intros j Hj. apply H. lia.
Qed.
Lemma try_K es tgt p rem len : K es tgt p rem -> try_from p tgt len = Ok (None, p).
Proof.
  intros [A B C D E F]. unfold try_from. apply try_levels_empty. intros j Hj.
  destruct (nth_error (slots p) j) as [l|] eqn:El; [|apply nth_error_None in El; lia].
  exists l. split; [reflexivity|]. eapply C; [|exact El]. lia.
Qed.
Lemma find_loop_waits es tgt len : 4 <= es <= 2 ^ 31 -> N.log2 es - 2 < N.of_nat tgt ->
  forall maps att p, K es tgt p maps -> find_loop maps att p tgt len = Waits.
Proof.
  intros He Ht. induction maps as [|b maps IH]; intros att p H; cbn [find_loop]; rewrite (try_K _ _ _ _ _ H);
    destruct (hope p tgt len && (att <? 2)).
  - destruct (compact_K _ _ _ _ He Ht H) as (q & -> & Hq). rewrite (try_K _ _ _ _ _ Hq). reflexivity.
  - reflexivity.
  - destruct (compact_K _ _ _ _ He Ht H) as (q & -> & Hq). rewrite (try_K _ _ _ _ _ Hq).
    destruct (extend_K _ _ _ _ _ He Ht Hq) as (q' & -> & Hq'). apply IH. exact Hq'.
  - destruct (extend_K _ _ _ _ _ He Ht H) as (q' & -> & Hq'). apply IH. exact Hq'.
Qed.
Theorem search_never_ends : forall es len maps, good_extent es ->
  2 ^ N.log2 es < wrapped_size len <= es -> wrapped_size len <= 2 ^ 23 ->
  NoDup maps -> (forall a b, In a maps -> In b maps -> a + es <> b) ->
  step (init es) (Alloc len maps) = Waits.
Proof.
  intros es len maps [He1 He2] Hw1 Hw2 Hn Ht. cbn [step init pl live].
  assert (fast_log2_ru (wrapped_size len) >= N.log2 es + 1) as G.
  { assert (0 < 2 ^ N.log2 es) by (apply N.neq_0_lt_0, N.pow_nonzero; lia).
    rewrite log2_ru by lia. apply N.le_ge. apply N.log2_le_pow2; [lia|]. rewrite N.pow_add_r. change (2 ^ 1) with 2. lia. }
  assert (2 <= N.log2 es) as G2 by (change 2 with (N.log2 4); apply N.log2_le_mono; lia).
  unfold pool_find. change (extent_size (pool_new es)) with es.
  destruct (es =? 0) eqn:E0; [lia|].
  destruct ((es <? wrapped_size len) || (2 ^ 23 <? wrapped_size len)) eqn:E1; [lia|].
  unfold SMALLEST_POWER. destruct (fast_log2_ru (wrapped_size len) <? 2) eqn:E2; [lia|].
  rewrite (find_loop_waits es); [reflexivity|lia| |].
  - rewrite N2Nat.id. lia.
  - assert (FP (pool_new es) = []) as EF by (unfold FP, pool_new; cbn [staged slots]; apply mk_slots_flat).
    constructor; rewrite ?EF; cbn [map app]; auto.
    + unfold pool_new. cbn [slots]. apply mk_slots_len.
    + intros j l _ Hj. cbn [slots pool_new] in Hj. apply mk_slots_nth in Hj. subst l. reflexivity.
Qed.
Theorem too_large : forall s len maps, extent_size (pl s) <> 0 -> extent_size (pl s) < wrapped_size len \/ 2 ^ 23 < wrapped_size len ->
  pool_find maps (pl s) (wrapped_size len) = Ok (None, pl s).
Proof.
  intros s len maps H0 H. unfold pool_find. destruct (_ =? 0) eqn:E; [lia|].
  destruct ((extent_size (pl s) <? wrapped_size len) || (2 ^ 23 <? wrapped_size len)) eqn:E1; [reflexivity|lia].
Qed.
