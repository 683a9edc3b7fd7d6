From Coq Require Import Arith NArith ZArith List Bool Lia ZifyBool ZifyNat ZifyN.
From Verif.Str Require Import Model Spec.
Import ListNotations.
Ltac Zify.zify_post_hook ::= Z.div_mod_to_equations.

Lemma zeros_len n : length (zeros n) = n.
Proof. apply repeat_length. Qed.

Lemma skipn_zeros a b : skipn a (zeros b) = zeros (b - a).
Proof.
  revert b. induction a as [|a IH]; intros [|b]; cbn [skipn zeros repeat Nat.sub]; try reflexivity. apply IH.
Qed.

Lemma firstn_app_len {A} (l r : list A) n : n = length l -> firstn n (l ++ r) = l.
Proof. intros ->. rewrite firstn_app, Nat.sub_diag, firstn_all. cbn. apply app_nil_r. Qed.
Lemma skipn_app_len {A} (l r : list A) n : n = length l -> skipn n (l ++ r) = r.
Proof. intros ->. rewrite skipn_app, Nat.sub_diag, skipn_all. reflexivity. Qed.

Lemma skipn_skipn {A} (l : list A) : forall m n, skipn n (skipn m l) = skipn (m + n) l.
Proof.
  induction l as [|a l IH]; intros [|m] n; cbn [skipn Nat.add]; try reflexivity; [apply skipn_nil|apply IH].
Qed.

Lemma blit_ok mem off d : off + length d <= length mem ->
  blit mem off d = Some (firstn off mem ++ d ++ skipn (off + length d) mem).
Proof. intros H. unfold blit. destruct (Nat.leb_spec (off + length d) (length mem)); [reflexivity|lia]. Qed.

Lemma slice_ok mem off n : off + n <= length mem -> slice mem off n = Some (firstn n (skipn off mem)).
Proof. intros H. unfold slice. destruct (Nat.leb_spec (off + n) (length mem)); [reflexivity|lia]. Qed.

Lemma as_int_ok a : (N.of_nat a < 2 ^ 31)%N -> as_int a = Some a.
Proof. intros H. unfold as_int. destruct (N.ltb_spec (N.of_nat a) (2 ^ 31)); [reflexivity|lia]. Qed.

Definition total (ops : list (list N)) : nat := length (concat ops).

(** ** Prepend *)
Definition PInv (b : pbuff) (c : list N) : Prop :=
  length (pmem b) = plen b + 1 /\ pstr b <= plen b /\ skipn (pstr b) (pmem b) = c ++ [0%N].

Lemma pinv_len b c : PInv b c -> length c = plen b - pstr b.
Proof.
  intros (L & P & E). apply (f_equal (@length N)) in E. rewrite skipn_length, app_length in E. cbn in E. lia.
Qed.

Lemma prepend_alloc_inv n : PInv (prepend_alloc n) [].
Proof.
  unfold PInv, prepend_alloc; cbn. rewrite zeros_len. split; [lia|]. split; [lia|].
  rewrite skipn_zeros. replace (n + 1 - n) with 1 by lia. reflexivity.
Qed.

Lemma prepend_step b c s : PInv b c -> (3 * N.of_nat (length c + length s) + 1 < 2 ^ 31)%N ->
  exists b', prepend b s = Some b' /\ PInv b' (s ++ c).
Proof.
  intros I B. pose proof (pinv_len b c I) as LC. destruct I as (L & P & E).
  assert (exists b1, prepend_grow b (length s) = Some b1 /\ PInv b1 c /\ length s <= pstr b1) as (b1 & EG & (L1 & P1 & E1) & LS).
  { unfold prepend_grow. destruct (Nat.ltb_spec (pstr b) (length s)) as [G|G].
    - rewrite as_int_ok by (unfold growth; lia).
      set (nl := growth (plen b + length s)).
      assert (plen b + length s < nl) as GN by (unfold nl, growth; lia).
      rewrite slice_ok by lia.
      assert (firstn (plen b - pstr b) (skipn (pstr b) (pmem b)) = c) as ->.
      { rewrite E. apply firstn_app_len. lia. }
      rewrite blit_ok by (rewrite zeros_len; lia).
      assert (length (firstn (nl - (plen b - pstr b)) (zeros (nl + 1))) = nl - length c) as LF.
      { rewrite firstn_length, zeros_len. lia. }
      rewrite skipn_zeros.
      rewrite blit_ok.
      2:{ rewrite !app_length, LF, zeros_len. cbn. lia. }
      eexists. split; [reflexivity|]. split; [|cbn; lia].
      unfold PInv; cbn [pmem pstr plen].
      rewrite firstn_app, LF, firstn_all2 by (rewrite LF; lia).
      replace (nl - (nl - length c)) with (length c) by lia.
      rewrite firstn_app_len by reflexivity.
      rewrite (skipn_all2 (n := nl + length [0%N])).
      2:{ rewrite !app_length, LF, zeros_len. cbn. lia. }
      rewrite app_nil_r. split; [rewrite !app_length, LF; cbn; lia|]. split; [lia|].
      rewrite <- app_assoc. apply skipn_app_len. lia.
    - exists b. split; [reflexivity|]. split; [split; [|split]; assumption|lia]. }
  unfold prepend. rewrite EG. destruct (Nat.ltb_spec (pstr b1) (length s)) as [G|_]; [lia|].
  rewrite blit_ok by lia. eexists. split; [reflexivity|].
  unfold PInv; cbn [pmem pstr plen].
  assert (length (firstn (pstr b1 - length s) (pmem b1)) = pstr b1 - length s) as LF by (rewrite firstn_length; lia).
  split; [rewrite !app_length, LF, skipn_length; lia|]. split; [lia|].
  rewrite skipn_app_len by lia. rewrite <- app_assoc. f_equal.
  replace (pstr b1 - length s + length s) with (pstr b1) by lia. exact E1.
Qed.

Lemma prepend_all_ok ops : forall b c, PInv b c -> (3 * N.of_nat (length c + total ops) + 1 < 2 ^ 31)%N ->
  exists b', prepend_all b ops = Some b' /\ PInv b' (concat (rev ops) ++ c).
Proof.
  induction ops as [|s ops IH]; intros b c I B; cbn [prepend_all].
  - exists b. auto.
  - unfold total in B. cbn [concat] in B. rewrite app_length in B.
    destruct (prepend_step b c s I) as (b1 & -> & I1); [lia|].
    destruct (IH b1 (s ++ c) I1) as (b' & E & I'); [rewrite app_length; unfold total; lia|].
    exists b'. split; [exact E|]. cbn [rev]. rewrite concat_app. cbn. rewrite app_nil_r, <- app_assoc. exact I'.
Qed.

Lemma prepend_correct n ops : (3 * N.of_nat (length (concat ops)) + 1 < 2 ^ 31)%N ->
  exists b, prepend_all (prepend_alloc n) ops = Some b /\
    firstn (prepend_strlen b) (skipn (pstr b) (pmem b)) = concat (rev ops) /\
    nth_error (skipn (pstr b) (pmem b)) (prepend_strlen b) = Some 0%N.
Proof.
  intros B. destruct (prepend_all_ok ops _ _ (prepend_alloc_inv n)) as (b & E & I); [cbn; unfold total; exact B|].
  exists b. split; [exact E|]. rewrite app_nil_r in I. pose proof (pinv_len _ _ I) as L.
  destruct I as (_ & _ & ->). unfold prepend_strlen. rewrite <- L.
  split; [now apply firstn_app_len|]. rewrite nth_error_app2 by lia. now rewrite Nat.sub_diag.
Qed.

(** ** Append *)
Definition AInv (b : abuff) (c : list N) : Prop :=
  aend b = length c /\ aend b <= alen b /\ amem b = c ++ zeros (alen b - aend b).

Lemma append_alloc_inv n : AInv (append_alloc n) [].
Proof. unfold AInv, append_alloc; cbn. rewrite Nat.sub_0_r. repeat split. lia. Qed.

Lemma append_step b c s : AInv b c -> (3 * N.of_nat (length c + length s) + 1 < 2 ^ 31)%N ->
  exists b', append b s = Some b' /\ AInv b' (c ++ s).
Proof.
  intros (E & L & M) B.
  assert (exists b1, append_grow b (length s) = Some b1 /\ AInv b1 c /\ length s <= alen b1 - aend b1) as (b1 & EG & (E1 & L1 & M1) & LS).
  { unfold append_grow. destruct (Nat.ltb_spec (alen b - aend b) (length s)) as [G|G].
    - rewrite as_int_ok by (unfold growth; lia).
      set (nl := growth (alen b + length s)).
      assert (alen b + length s < nl) as GN by (unfold nl, growth; lia).
      rewrite slice_ok by (rewrite M, app_length; lia).
      cbn [skipn]. rewrite M. rewrite firstn_app_len by exact E.
      rewrite blit_ok by (rewrite zeros_len; lia).
      eexists. split; [reflexivity|]. split; [|cbn; lia].
      unfold AInv; cbn [amem aend alen firstn app Nat.add]. split; [exact E|]. split; [lia|].
      rewrite skipn_zeros, E. reflexivity.
    - exists b. split; [reflexivity|]. split; [split; [|split]; assumption|lia]. }
  unfold append. rewrite EG. rewrite blit_ok by (rewrite M1, app_length, zeros_len; lia).
  eexists. split; [reflexivity|]. unfold AInv; cbn [amem aend alen].
  rewrite app_length. split; [lia|]. split; [lia|].
  rewrite M1. rewrite firstn_app_len by exact E1.
  rewrite skipn_app, (skipn_all2 c) by lia. cbn [app].
  rewrite skipn_zeros, <- app_assoc. do 2 f_equal. f_equal. lia.
Qed.

Lemma append_all_ok ops : forall b c, AInv b c -> (3 * N.of_nat (length c + total ops) + 1 < 2 ^ 31)%N ->
  exists b', append_all b ops = Some b' /\ AInv b' (c ++ concat ops).
Proof.
  induction ops as [|s ops IH]; intros b c I B; cbn [append_all].
  - exists b. cbn. rewrite app_nil_r. auto.
  - unfold total in B. cbn [concat] in B. rewrite app_length in B.
    destruct (append_step b c s I) as (b1 & -> & I1); [lia|].
    destruct (IH b1 (c ++ s) I1) as (b' & E & I'); [rewrite app_length; unfold total; lia|].
    exists b'. split; [exact E|]. cbn. rewrite app_assoc. exact I'.
Qed.

Lemma append_correct n ops : (3 * N.of_nat (length (concat ops)) + 1 < 2 ^ 31)%N ->
  exists b, append_all (append_alloc n) ops = Some b /\
    str_buff_len b = length (concat ops) /\ firstn (str_buff_len b) (amem b) = concat ops.
Proof.
  intros B. destruct (append_all_ok ops _ _ (append_alloc_inv n)) as (b & E & (I1 & I2 & I3)); [cbn; unfold total; exact B|].
  exists b. split; [exact E|]. cbn [app] in *. unfold str_buff_len. split; [exact I1|]. rewrite I3. now apply firstn_app_len.
Qed.

Lemma holds_len mem s : holds mem s -> length s < length mem.
Proof. intros [_ [r ->]]. rewrite app_length. cbn. lia. Qed.

Lemma append_terminated n ops b : append_all (append_alloc n) ops = Some b ->
  (3 * N.of_nat (length (concat ops)) + 1 < 2 ^ 31)%N -> ~ In 0%N (concat ops) ->
  (holds (to_string b) (concat ops) <-> length (concat ops) < alen b).
Proof.
  intros E B NZ. destruct (append_all_ok ops _ _ (append_alloc_inv n)) as (b' & E' & (I1 & I2 & I3)); [cbn; unfold total; exact B|].
  rewrite E in E'. injection E' as <-. cbn [app] in *. unfold to_string. split.
  - intros H. apply holds_len in H. rewrite I3, app_length, zeros_len in H. lia.
  - intros L. split; [exact NZ|]. exists (zeros (alen b - aend b - 1)). rewrite I3. f_equal.
    destruct (alen b - aend b) as [|k] eqn:EK; [lia|]. cbn [zeros repeat]. do 2 f_equal. unfold zeros. f_equal. lia.
Qed.

Lemma append_unterminated n ops b : append_all (append_alloc n) ops = Some b ->
  (3 * N.of_nat (length (concat ops)) + 1 < 2 ^ 31)%N -> ~ In 0%N (concat ops) ->
  length (concat ops) = alen b -> ~ In 0%N (to_string b).
Proof.
  intros E B NZ L. destruct (append_all_ok ops _ _ (append_alloc_inv n)) as (b' & E' & (I1 & I2 & I3)); [cbn; unfold total; exact B|].
  rewrite E in E'. injection E' as <-. cbn [app] in *. unfold to_string. rewrite I3.
  replace (alen b - aend b) with 0 by lia. cbn. rewrite app_nil_r. exact NZ.
Qed.

(** ** Bounded copies *)
Lemma strlen_holds mem s : holds mem s -> strlen mem = Some (length s).
Proof.
  intros [NZ [r ->]]. induction s as [|c s IH]; [reflexivity|]. cbn in *.
  destruct (N.eqb_spec c 0); [subst; tauto|]. rewrite IH by tauto. reflexivity.
Qed.

Lemma holds_app s rest : ~ In 0%N s -> holds (s ++ 0%N :: rest) s.
Proof. intros H. split; [exact H|]. exists rest. reflexivity. Qed.

Lemma in_firstn {A} (x : A) n l : In x (firstn n l) -> In x l.
Proof. revert l. induction n as [|n IH]; intros [|a l]; cbn; [tauto|tauto|tauto|]. intros [->|H]; [auto|right; auto]. Qed.

Lemma strlcpy_ok dst src size : 0 < size <= length dst -> ~ In 0%N src ->
  exists dst', strlcpy dst src size = Some (dst', length src) /\ length dst' = length dst /\
    holds dst' (firstn (size - 1) src) /\ skipn size dst' = skipn size dst.
Proof.
  intros L NZ. destruct size as [|k]; [lia|]. unfold strlcpy.
  assert (length (strncpy_bytes src k) = k) as LB by (unfold strncpy_bytes; rewrite app_length, firstn_length, zeros_len; lia).
  rewrite blit_ok by lia. cbn [firstn app]. rewrite LB. cbn [Nat.add].
  rewrite blit_ok by (rewrite app_length, LB, skipn_length; cbn; lia).
  eexists. split; [reflexivity|]. cbn [length].
  rewrite firstn_app_len by lia.
  rewrite skipn_app, (skipn_all2 (strncpy_bytes src k)) by lia. cbn [app].
  replace (k + 1 - length (strncpy_bytes src k)) with 1 by lia. rewrite skipn_skipn.
  replace (S k - 1) with k by lia.
  split; [rewrite app_length, LB; cbn [length]; rewrite skipn_length; lia|]. split.
  - unfold strncpy_bytes. rewrite <- app_assoc.
    destruct (Nat.le_gt_cases k (length src)) as [G|G].
    + replace (k - length src) with 0 by lia. cbn [zeros repeat app]. apply holds_app.
      intros Hi. apply NZ. eapply in_firstn; exact Hi.
    + replace (k - length src) with (S (k - length src - 1)) by lia. cbn [zeros repeat app]. apply holds_app.
      intros Hi. apply NZ. eapply in_firstn; exact Hi.
  - change (0%N :: skipn (k + 1) dst) with ([0%N] ++ skipn (k + 1) dst). rewrite app_assoc.
    rewrite skipn_app_len by (rewrite app_length, LB; cbn; lia). f_equal. lia.
Qed.

Lemma strlcat_fits dst d src size : holds dst d -> ~ In 0%N src -> length d < size <= length dst ->
  exists dst', strlcat dst src size = Some (dst', length d + length src) /\ length dst' = length dst /\
    holds dst' (firstn (size - 1) (d ++ src)) /\ skipn size dst' = skipn size dst.
Proof.
  intros H NZ L. unfold strlcat. rewrite (strlen_holds _ _ H). destruct H as [ND [r ED]].
  assert (length dst = length d + S (length r)) as LD by (rewrite ED, app_length; reflexivity).
  cbv zeta. destruct (Z.leb_spec 0 (Z.of_nat size - Z.of_nat (length d) - 1)) as [_|G]; [|lia].
  set (sz := Z.to_nat (Z.of_nat size - Z.of_nat (length d) - 1)).
  assert (size = length d + sz + 1) as ES by lia. set (add := firstn sz src).
  assert (length add <= sz) as LA by (unfold add; rewrite firstn_length; lia).
  assert (firstn (size - 1) (d ++ src) = d ++ add) as EF.
  { rewrite firstn_app, firstn_all2 by lia. unfold add. do 2 f_equal. lia. }
  rewrite EF.
  rewrite blit_ok by (rewrite app_length; cbn; lia).
  assert (firstn (length d) dst = d) as EFD by (rewrite ED; now apply firstn_app_len). rewrite EFD.
  rewrite app_length. cbn [length].
  assert (length (d ++ (add ++ [0%N]) ++ skipn (length d + (length add + 1)) dst) = length dst) as LM.
  { rewrite !app_length, skipn_length. cbn [length]. lia. }
  rewrite blit_ok by (rewrite LM; cbn; lia).
  eexists. split; [reflexivity|].
  set (m1 := d ++ (add ++ [0%N]) ++ skipn (length d + (length add + 1)) dst) in *.
  assert (m1 = (d ++ add) ++ 0%N :: skipn (length d + (length add + 1)) dst) as EM.
  { unfold m1. now rewrite <- !app_assoc. }
  cbn [length].
  split; [rewrite !app_length, firstn_length, skipn_length, LM; cbn [length]; lia|]. split.
  - assert (~ In 0%N (d ++ add)) as NN.
    { intros Hi. apply in_app_or in Hi as [Hi|Hi]; [tauto|]. apply NZ. eapply in_firstn; exact Hi. }
    destruct (Nat.eq_dec (length add) sz) as [EQ|NE].
    + rewrite EM. rewrite firstn_app_len by (rewrite app_length; lia). apply holds_app. exact NN.
    + rewrite EM. rewrite firstn_app, firstn_all2 by (rewrite app_length; lia).
      replace (length d + sz - length (d ++ add)) with (S (sz - length add - 1)) by (rewrite app_length; lia).
      cbn [firstn]. rewrite <- app_assoc. cbn [app]. apply holds_app. exact NN.
  -
    rewrite app_assoc.
    rewrite skipn_app_len.
    2:{ rewrite app_length, firstn_length, LM. cbn. lia. }
    rewrite EM. rewrite skipn_app, (skipn_all2 (d ++ add)) by (rewrite app_length; lia).
    cbn [app].
    replace (length d + sz + 1 - length (d ++ add)) with (S (sz - length add)) by (rewrite app_length; lia).
    cbn [skipn]. rewrite skipn_skipn. f_equal. lia.
Qed.

Lemma strlcat_full dst d src size : holds dst d -> size <= length d ->
  strlcat dst src size = Some (dst, length d + length src).
Proof.
  intros H L. unfold strlcat. rewrite (strlen_holds _ _ H). cbv zeta.
  destruct (Z.leb_spec 0 (Z.of_nat size - Z.of_nat (length d) - 1)) as [G|_]; [lia|reflexivity].
Qed.

Lemma scan_ok src : forall len, (len <= length src \/ In 0%N src) ->
  exists k, scan src len = Some k /\ k <= len /\ k <= length src /\ ~ In 0%N (firstn k src) /\
    (k < len -> nth_error src k = Some 0%N).
Proof.
  induction src as [|c r IH]; intros [|len] H; cbn [scan].
  - exists 0. cbn. intuition lia.
  - cbn in H. intuition lia.
  - exists 0. cbn. intuition lia.
  - destruct (N.eqb_spec c 0) as [->|NE].
    + exists 0. cbn. intuition lia.
    + destruct (IH len) as (k & -> & A1 & A2 & A3 & A4).
      { cbn in H. destruct H as [H|[H|H]]; [left; lia|congruence|right; exact H]. }
      exists (S k). cbn. split; [reflexivity|]. split; [lia|]. split; [lia|].
      split; [intuition congruence|]. intros; apply A4; lia.
Qed.

Lemma strndup_ok src len : len <= length src \/ In 0%N src ->
  exists s, strndup src len = Some (s ++ [0%N]) /\ holds (s ++ [0%N]) s /\
    length s <= len /\ s = firstn (length s) src /\ (length s < len -> nth_error src (length s) = Some 0%N).
Proof.
  intros H. destruct (scan_ok src len H) as (k & E & A1 & A2 & A3 & A4).
  exists (firstn k src). assert (length (firstn k src) = k) as LK by (rewrite firstn_length; lia).
  unfold strndup. rewrite E. rewrite slice_ok by lia. cbn [skipn].
  rewrite blit_ok by (rewrite zeros_len; lia). cbn [firstn app]. rewrite LK. cbn [Nat.add].
  rewrite skipn_zeros. rewrite blit_ok by (rewrite app_length, zeros_len, LK; cbn; lia).
  rewrite firstn_app_len by lia. rewrite (skipn_all2 (n := k + length [0%N])) by (rewrite app_length, LK, zeros_len; cbn; lia).
  split; [rewrite app_nil_r; reflexivity|]. split; [apply holds_app; exact A3|]. auto.
Qed.
