From Coq Require Import Arith NArith ZArith List Bool Lia ZifyBool ZifyNat ZifyN.
From Verif.Hll Require Import Model Spec.
Import ListNotations.
Local Open Scope N_scope.
Ltac Zify.zify_post_hook ::= Z.div_mod_to_equations.

Definition w (b h : N) : N := N.lor (N.shiftl h b mod 2 ^ 32) (2 ^ (b - 1)).
Lemma w_bit b h i : 4 <= b <= 20 -> i < 32 ->
  N.testbit (w b h) i = if b <=? i then N.testbit h (i - b) else i =? b - 1.
Proof.
  intros B I. unfold w. rewrite N.lor_spec, N.mod_pow2_bits_low by exact I. rewrite N.pow2_bits_eqb.
  destruct (N.leb_spec b i) as [H|H].
  - rewrite N.shiftl_spec_high' by exact H. destruct (N.eqb_spec (b - 1) i); [lia|]. apply orb_false_r.
  - rewrite N.shiftl_spec_low by exact H. rewrite orb_false_l. apply N.eqb_sym.
Qed.
Lemma w_high b h i : 4 <= b <= 20 -> 32 <= i -> N.testbit (w b h) i = false.
Proof.
  intros B I. unfold w. rewrite N.lor_spec, N.mod_pow2_bits_high by exact I. rewrite N.pow2_bits_eqb.
  destruct (N.eqb_spec (b - 1) i); [lia|reflexivity].
Qed.
Lemma w_nz b h : 4 <= b <= 20 -> w b h <> 0.
Proof.
  intros B E. pose proof (w_bit b h (b - 1) B ltac:(lia)) as X. rewrite E, N.bits_0 in X.
  destruct (N.leb_spec b (b - 1)); [lia|]. rewrite N.eqb_refl in X. discriminate.
Qed.
Lemma w_log b h : 4 <= b <= 20 -> b - 1 <= N.log2 (w b h) < 32.
Proof.
  intros B. split.
  - destruct (N.le_gt_cases (b - 1) (N.log2 (w b h))) as [H|H]; [exact H|].
    apply N.bits_above_log2 in H. rewrite w_bit in H by lia. destruct (N.leb_spec b (b - 1)); [lia|].
    rewrite N.eqb_refl in H. discriminate.
  - destruct (N.lt_ge_cases (N.log2 (w b h)) 32) as [H|H]; [exact H|].
    pose proof (N.bit_log2 _ (w_nz b h B)) as X. rewrite w_high in X by assumption. discriminate.
Qed.
Definition rk (b h : N) : N := 32 - N.log2 (w b h).
Lemma rk_rank b h : 4 <= b <= 20 -> rank b h (rk b h).
Proof.
  intros B. unfold rk. pose proof (w_log b h B) as L. pose proof (N.bit_log2 _ (w_nz b h B)) as T.
  split; [lia|]. split.
  - intros j J. pose proof (N.bits_above_log2 (w b h) (32 - j) ltac:(lia)) as X.
    destruct (N.lt_ge_cases (32 - j) b) as [Y|Y].
    + exfalso. lia.
    + rewrite w_bit in X by lia. destruct (N.leb_spec b (32 - j)); [|lia]. unfold bit32. rewrite <- X. f_equal. lia.
  - intros H. rewrite w_bit in T by lia. destruct (N.leb_spec b (N.log2 (w b h))); [|lia]. unfold bit32. rewrite <- T. f_equal. lia.
Qed.
Lemma rank_unique b h r r' : rank b h r -> rank b h r' -> r = r'.
Proof.
  intros (A & B & C) (A' & B' & C'). destruct (N.lt_trichotomy r r') as [X|[X|X]]; [|exact X|].
  - rewrite B' in C by lia. assert (false = true) by (apply C; lia). discriminate.
  - rewrite B in C' by lia. assert (false = true) by (apply C'; lia). discriminate.
Qed.
Lemma lead_lt b h : 4 <= b <= 20 -> h < 2 ^ 32 -> lead b h < 2 ^ b.
Proof.
  intros B H. unfold lead. apply N.div_lt_upper_bound; [apply N.pow_nonzero; lia|]. rewrite <- N.pow_add_r.
  replace (32 - b + b) with 32 by lia. exact H.
Qed.

Lemma set_nth_nth l : forall i v j, nth_error (set_nth i v l) j =
  if Nat.eqb i j then (if Nat.ltb j (length l) then Some v else None) else nth_error l j.
Proof.
  induction l as [|x l IH]; intros [|i] v [|j]; cbn [set_nth nth_error length]; try reflexivity.
  - destruct (Nat.eqb _ _); reflexivity.
  - rewrite IH. cbn. destruct (Nat.eqb i j); [|reflexivity]. reflexivity.
Qed.
Lemma set_nth_len l : forall i v, length (set_nth i v l) = length l.
Proof. induction l as [|x l IH]; intros [|i] v; cbn; auto. Qed.

Definition good (b : N) (hs : list N) (s : hll) : Prop :=
  bitcount s = b /\ length (regs s) = N.to_nat (2 ^ b) /\
  forall i v, nth_error (regs s) i = Some v -> largest b hs (N.of_nat i) v.

Lemma add_good b hs s h : 4 <= b <= 20 -> good b hs s -> exists s', add_hash s h = Some s' /\ good b (hs ++ [h mod 2 ^ 32]) s' /\
  Forall2 N.le (regs s) (regs s').
Proof.
  intros B (E & L & G). unfold add_hash. rewrite E. set (h' := h mod 2 ^ 32).
  assert (h' < 2 ^ 32) as Hh by (apply N.mod_lt; discriminate).
  change (N.lor (N.shiftl h' b mod 2 ^ 32) (2 ^ (b - 1))) with (w b h').
  unfold clz. destruct (N.eqb_spec (w b h') 0) as [X|_]; [exfalso; exact (w_nz b h' B X)|].
  pose proof (w_log b h' B) as LG. pose proof (rk_rank b h' B) as RK. unfold rk in RK.
  replace (31 - N.log2 (w b h') + 1) with (rk b h') by (unfold rk; lia). fold (rk b h') in RK.
  rewrite N.shiftr_div_pow2. fold (lead b h'). pose proof (lead_lt b h' B Hh) as LL.
  set (i := N.to_nat (lead b h')).
  assert (i < length (regs s))%nat as IL by (rewrite L; unfold i; lia).
  destruct (nth_error (regs s) i) as [y|] eqn:Ey.
  2: { apply nth_error_None in Ey. lia. }
  assert (rk b h' <= 32) as R32 by (unfold rk; lia).
  destruct (N.leb_spec 256 (rk b h')); [lia|].
  assert (forall l, Forall2 N.le l l) as FR by (induction l; constructor; [lia|assumption]).
  destruct (N.ltb_spec y (rk b h')) as [Y|Y].
  - eexists. split; [reflexivity|]. cbn [regs bitcount]. split.
    + split; [reflexivity|]. split; [cbn [regs]; rewrite set_nth_len; exact L|]. cbn [regs].
      intros j v Hj. rewrite set_nth_nth in Hj. destruct (Nat.eqb_spec i j) as [<-|NE].
      * destruct (Nat.ltb_spec i (length (regs s))); [|lia]. injection Hj as <-.
        destruct (G i y Ey) as (G1 & G2). split.
        -- intros h0 r HI0 L0 R0. apply in_app_iff in HI0. destruct HI0 as [HI0|[<-|[]]].
           ++ specialize (G1 h0 r HI0 L0 R0). lia.
           ++ rewrite (rank_unique b h' r (rk b h') R0 RK). lia.
        -- right. exists h'. split; [apply in_app_iff; cbn; auto|]. split; [unfold i; lia|exact RK].
      * destruct (G j v Hj) as (G1 & G2). split.
        -- intros h0 r HI0 L0 R0. apply in_app_iff in HI0. destruct HI0 as [HI0|[<-|[]]]; [eauto|]. exfalso. apply NE. unfold i. lia.
        -- destruct G2 as [G2|(h0 & A & C)]; [auto|]. right. exists h0. split; [apply in_app_iff; auto|exact C].
    + clearbody i. clear - Ey Y FR. revert i Ey. generalize (regs s). induction l as [|x l IH]; intros [|i]; cbn [nth_error set_nth]; try discriminate.
      * intros [= ->]. constructor; [lia|apply FR].
      * intros H. constructor; [lia|apply IH; exact H].
  - exists s. split; [reflexivity|]. split; [|apply FR]. split; [exact E|]. split; [exact L|]. intros j v Hj. destruct (G j v Hj) as (G1 & G2). split.
    + intros h0 r HI0 L0 R0. apply in_app_iff in HI0. destruct HI0 as [HI0|[<-|[]]]; [eauto|].
      assert (j = i) as -> by (unfold i; lia). rewrite (rank_unique b h' r (rk b h') R0 RK). assert (v = y) by congruence. lia.
    + destruct G2 as [G2|(h0 & A & C)]; [auto|]. right. exists h0. split; [apply in_app_iff; auto|exact C].
Qed.
Lemma alloc_some b : (exists s, alloc b = Some s) <-> 4 <= b <= 20.
Proof.
  unfold alloc. destruct (N.ltb_spec b 4), (N.ltb_spec 20 b); cbn [orb]; split; try (intros [s X]; discriminate); try lia; eauto.
Qed.
Lemma adds_good D (xxh : D -> N) b l : 4 <= b <= 20 -> exists s, adds xxh b l = Some s /\ good b (words xxh l) s.
Proof.
  intros B. unfold adds.
  assert (alloc b = Some (Hll b (repeat 0 (N.to_nat (2 ^ b))))) as E.
  { unfold alloc. destruct (N.ltb_spec b 4), (N.ltb_spec 20 b); try lia. reflexivity. }
  rewrite E. assert (good b [] (Hll b (repeat 0 (N.to_nat (2 ^ b))))) as G.
  { split; [reflexivity|]. cbn [regs]. split; [apply repeat_length|]. intros i v H. apply nth_error_In, repeat_spec in H. subst v.
    split; [intros h r []|auto]. }
  change (words xxh l) with ([] ++ words xxh l). revert G. generalize (@nil N). generalize (Hll b (repeat 0 (N.to_nat (2 ^ b)))).
  induction l as [|d l IH]; intros s hs G; cbn [fold_left].
  - cbn. rewrite app_nil_r. eauto.
  - destruct (add_good b hs s (xxh d) B G) as (s' & A & G' & _). cbn [add]. rewrite A. cbn [words map].
    destruct (IH s' _ G') as (s2 & A2 & G2). exists s2. split; [exact A2|]. rewrite <- app_assoc in G2. exact G2.
Qed.
Lemma largest_unique b hs hs' i v v' : 4 <= b <= 20 -> (forall h, In h hs <-> In h hs') -> largest b hs i v -> largest b hs' i v' -> v = v'.
Proof.
  intros B S (A & C) (A' & C').
  assert (v <= v') by (destruct C as [->|(h & X & Y & Z)]; [lia|apply (A' h v); auto; apply S; exact X]).
  assert (v' <= v) by (destruct C' as [->|(h & X & Y & Z)]; [lia|apply (A h v'); auto; apply S; exact X]).
  lia.
Qed.
Lemma registers D (xxh : D -> N) b l : 4 <= b <= 20 ->
  exists s, adds xxh b l = Some s /\ bitcount s = b /\ length (regs s) = N.to_nat (2 ^ b) /\
    forall i v, nth_error (regs s) i = Some v -> largest b (words xxh l) (N.of_nat i) v.
Proof. intros B. destruct (adds_good D xxh b l B) as (s & A & E & L & G). eauto. Qed.
Lemma nth_ext (l l' : list N) : length l = length l' -> (forall i v v', nth_error l i = Some v -> nth_error l' i = Some v' -> v = v') -> l = l'.
Proof.
  revert l'. induction l as [|x l IH]; intros [|y l'] E H; cbn in E; try discriminate; [reflexivity|].
  f_equal; [apply (H 0%nat); reflexivity|]. apply IH; [lia|]. intros i. apply (H (S i)).
Qed.
Lemma same_set D (xxh : D -> N) b l l' : (forall h, In h (words xxh l) <-> In h (words xxh l')) -> adds xxh b l = adds xxh b l'.
Proof.
  intros H. destruct (N.le_gt_cases 4 b) as [B1|B1]; [destruct (N.le_gt_cases b 20) as [B2|B2]|].
  - destruct (adds_good D xxh b l (conj B1 B2)) as (s & A & E & L & G).
    destruct (adds_good D xxh b l' (conj B1 B2)) as (s' & A' & E' & L' & G').
    rewrite A, A'. f_equal. destruct s as [bb r], s' as [bb' r']. cbn in *. subst bb bb'. f_equal.
    apply nth_ext; [congruence|]. intros i v v' X X'. eapply largest_unique; eauto.
  - assert (alloc b = None) as E by (unfold alloc; destruct (N.ltb_spec b 4), (N.ltb_spec 20 b); try lia; reflexivity).
    unfold adds. rewrite E. clear. induction l as [|d l IH]; cbn [fold_left add]; [|exact IH]. clear. induction l'; auto.
  - assert (alloc b = None) as E by (unfold alloc; destruct (N.ltb_spec b 4), (N.ltb_spec 20 b); try lia; reflexivity).
    unfold adds. rewrite E. clear. induction l as [|d l IH]; cbn [fold_left add]; [|exact IH]. clear. induction l'; auto.
Qed.
Lemma same_data D (xxh : D -> N) b l l' : (forall d, In d l <-> In d l') -> adds xxh b l = adds xxh b l'.
Proof.
  intros H. apply same_set. intros h. unfold words. rewrite !in_map_iff. split; intros (d & A & B); exists d; split; auto; apply H; exact B.
Qed.
Lemma fold_snoc D (xxh : D -> N) b l d : adds xxh b (l ++ [d]) = add xxh (adds xxh b l) d.
Proof. unfold adds. rewrite fold_left_app. reflexivity. Qed.
Lemma never_decreases D (xxh : D -> N) b l d : 4 <= b <= 20 ->
  exists s s', adds xxh b l = Some s /\ adds xxh b (l ++ [d]) = Some s' /\ Forall2 N.le (regs s) (regs s') /\
    (In d l -> s' = s).
Proof.
  intros B. destruct (adds_good D xxh b l B) as (s & A & G). exists s.
  destruct (add_good b _ s (xxh d) B G) as (s' & A' & G' & F). exists s'. split; [exact A|].
  assert (adds xxh b (l ++ [d]) = Some s') as E by (rewrite fold_snoc, A; exact A').
  split; [exact E|]. split; [exact F|]. intros I. rewrite (same_data D xxh b (l ++ [d]) l) in E; [congruence|].
  intros x. rewrite in_app_iff. cbn. intuition (subst; auto).
Qed.

(** ** The sums of the estimate *)
Lemma largest_le b hs i v : largest b hs i v -> v <= 33 - b.
Proof. intros (_ & [->|(h & _ & _ & R & _)]); lia. Qed.
Lemma num_le x : numerator / 2 ^ x <= 2 ^ 24.
Proof. unfold numerator. apply N.div_le_upper_bound; [apply N.pow_nonzero; lia|]. pose proof (N.pow_nonzero 2 x ltac:(lia)). nia. Qed.
Definition ones (x : N) : N := if x =? 0 then 1 else 0.
Definition share (x : N) : N := numerator / 2 ^ x.
Lemma total_le f k l : (forall x, f x <= k) -> total f l <= k * N.of_nat (length l).
Proof. intros H. induction l as [|x l IH]; cbn [total length]; [lia|]. specialize (H x). lia. Qed.
Lemma tally_total l : Forall (fun x => x <= 29) l -> forall z a, a + 2 ^ 24 * N.of_nat (length l) < 2 ^ 64 ->
  fold_left tally l (Some (z, a)) = Some (z + total ones l, a + total share l).
Proof.
  induction 1 as [|x l Hx F IH]; intros z a B; cbn [fold_left total]; [rewrite !N.add_0_r; reflexivity|].
  cbn [length] in B. pose proof (num_le x) as X. fold (share x) in X. unfold tally at 2. fold (share x).
  destruct (N.ltb_spec 30 x); [lia|]. destruct (N.leb_spec (2 ^ 64) (a + share x)); [lia|].
  rewrite IH by lia. unfold ones at 2. destruct (N.eqb_spec x 0); do 2 f_equal; lia.
Qed.
Lemma sums_total D (xxh : D -> N) b l : 4 <= b <= 20 -> exists s, adds xxh b l = Some s /\
  sums s = Some (total ones (regs s), total share (regs s)) /\ bitcount s = b /\ length (regs s) = N.to_nat (2 ^ b) /\ Forall (fun x => x <= 33 - b) (regs s).
Proof.
  intros B. destruct (adds_good D xxh b l B) as (s & A & E & L & G). exists s. split; [exact A|].
  assert (Forall (fun x => x <= 33 - b) (regs s)) as F.
  { apply Forall_forall. intros x X. apply In_nth_error in X. destruct X as (i & X). exact (largest_le _ _ _ _ (G i x X)). }
  split; [|auto]. unfold sums. rewrite tally_total; [reflexivity| |].
  - eapply Forall_impl; [|exact F]. cbv beta. intros; lia.
  - rewrite L. assert (2 ^ b <= 2 ^ 20) by (apply N.pow_le_mono_r; lia). rewrite N2Nat.id. change (2 ^ 64) with (2 ^ 24 * 2 ^ 40).
    change (2 ^ 20) with 1048576 in *. change (2 ^ 40) with 1099511627776. lia.
Qed.
Lemma share_pos x : x <= 24 -> 1 <= share x.
Proof.
  intros H. unfold share, numerator. apply N.div_le_lower_bound; [apply N.pow_nonzero; lia|]. rewrite N.mul_1_r. apply N.pow_le_mono_r; lia.
Qed.
Lemma share_zero x : 25 <= x -> share x = 0.
Proof. intros H. unfold share, numerator. apply N.div_small. apply N.pow_lt_mono_r; lia. Qed.
Lemma size_some D R (float : N -> N -> N -> R) (xxh : D -> N) b l : 4 <= b <= 20 -> exists s, adds xxh b l = Some s /\
  (size float s = None <-> Forall (fun x => 25 <= x) (regs s)) /\ (9 <= b -> size float s <> None).
Proof.
  intros B. destruct (sums_total D xxh b l B) as (s & A & S & E & L & F). exists s. split; [exact A|].
  unfold size. rewrite S.
  assert ((total share (regs s) = 0) <-> Forall (fun x => 25 <= x) (regs s)) as IFF.
  { clear. induction (regs s) as [|x r IH]; cbn [total]; [split; auto|].
    destruct (N.le_gt_cases 25 x) as [X|X].
    - rewrite (share_zero x X), N.add_0_l, IH. split; [intros; constructor; assumption|]. intros Y. inversion Y; assumption.
    - pose proof (share_pos x ltac:(lia)). split; [lia|]. intros Y. inversion Y; lia. }
  assert ((if total share (regs s) =? 0 then None else Some (float (bitcount s) (total ones (regs s)) (total share (regs s)))) = None <-> total share (regs s) = 0) as IFF2.
  { destruct (N.eqb_spec (total share (regs s)) 0); split; auto; try discriminate; lia. }
  split; [rewrite IFF2; exact IFF|]. intros B9 X. apply IFF2, IFF in X.
  assert (regs s <> []) as NE by (intros Z; rewrite Z in L; cbn in L; pose proof (N.pow_nonzero 2 b ltac:(lia)); lia).
  destruct (regs s) as [|x r]; [congruence|]. apply Forall_inv in X, F. cbn beta in X, F. lia.
Qed.
Definition all_zero_tails : list N := map (fun i => N.of_nat i * 2 ^ 28) (seq 0 16).
Lemma estimate_input D R (float : N -> N -> N -> R) (xxh : D -> N) b l : 4 <= b <= 20 -> exists s, adds xxh b l = Some s /\
  forall v, size float s = Some v ->
    v = float b (N.of_nat (length (filter (N.eqb 0) (regs s)))) (total (fun x => 2 ^ 24 / 2 ^ x) (regs s)).
Proof.
  intros B. destruct (sums_total D xxh b l B) as (s & A & S & E & L & F). exists s. split; [exact A|].
  unfold size. rewrite S, E. change (total (fun x => 2 ^ 24 / 2 ^ x) (regs s)) with (total share (regs s)).
  intros v. destruct (_ =? 0); [discriminate|]. intros [= <-]. f_equal.
  clear. induction (regs s) as [|x r IH]; [reflexivity|]. cbn [total filter]. rewrite IH, N.eqb_sym. unfold ones.
  destruct (x =? 0); cbn [length]; lia.
Qed.
Lemma size_refuted : ~ (forall D R (float : N -> N -> N -> R) (xxh : D -> N) b l s,
  4 <= b <= 20 -> adds xxh b l = Some s -> size float s <> None).
Proof.
  intros H. refine (H N N (fun _ _ _ => 0) (fun d => d) 4 all_zero_tails (Hll 4 (repeat 29 16)) _ _ _); [lia| |]; vm_compute; reflexivity.
Qed.
