From Coq Require Import Arith NArith ZArith List Bool Lia Permutation Sorted.
From Coq Require Import ZifyBool ZifyNat ZifyN.
From Verif.Cht Require Import Model Spec.
Import ListNotations.
Local Open Scope N_scope.

(** ** updates keep the owners *)
Lemma upd_idx r : forall i v, map node_idx (upd r i v) = map node_idx r.
Proof. induction r as [|x r IH]; intros [|i] v; cbn; auto. rewrite IH. reflexivity. Qed.
Lemma upd_len r i v : length (upd r i v) = length r.
Proof. rewrite <- (map_length node_idx), upd_idx, map_length. reflexivity. Qed.
Lemma dec_idx i : forall v r, map node_idx (fst (dec_from i v r)) = map node_idx r.
Proof. induction i as [|i IH]; intros v r; cbn [dec_from]; [reflexivity|]. destruct (_ && _); cbn [fst]; rewrite IH; [apply upd_idx|reflexivity]. Qed.
Lemma pass_down_idx i : forall r, map node_idx (fst (pass_down i r)) = map node_idx r.
Proof. induction i as [|i IH]; intros r; cbn [pass_down]; [reflexivity|]. destruct (_ && _); [apply dec_idx|apply IH]. Qed.
Lemma fix_down_idx f : forall r r', fix_down f r = Some r' -> map node_idx r' = map node_idx r.
Proof.
  induction f as [|f IH]; intros r r'; cbn [fix_down]; [discriminate|]. pose proof (pass_down_idx (length r - 1) r) as P.
  destruct (pass_down _ r) as [r1 c]. cbn in P. destruct c; [intros E; rewrite (IH _ _ E); exact P|intros [= <-]; exact P].
Qed.
Lemma inc_idx n : forall i v m r, map node_idx (fst (inc_from n i v m r)) = map node_idx r.
Proof. induction n as [|n IH]; intros i v m r; cbn [inc_from]; [reflexivity|]. destruct (_ && _); cbn [fst]; rewrite IH; [apply upd_idx|reflexivity]. Qed.
Lemma pass_up_idx n : forall i m r, map node_idx (fst (pass_up n i m r)) = map node_idx r.
Proof. induction n as [|n IH]; intros i m r; cbn [pass_up]; [reflexivity|]. destruct (_ && _); [apply inc_idx|apply IH]. Qed.
Lemma fix_up_idx f m : forall r r', fix_up f m r = Some r' -> map node_idx r' = map node_idx r.
Proof.
  induction f as [|f IH]; intros r r'; cbn [fix_up]; [discriminate|]. pose proof (pass_up_idx (length r - 1) 0 m r) as P.
  destruct (pass_up _ _ _ r) as [r1 c]. cbn in P. destruct c; [intros E; rewrite (IH _ _ E); exact P|intros [= <-]; exact P].
Qed.
Lemma calc_idx fuel srt H nb w ns r : is_qsort srt -> calculate_ring fuel srt H nb w ns = Some r ->
  Permutation (map node_idx r) (map node_idx (entries H nb w ns)).
Proof.
  intros Q. unfold calculate_ring. destruct (fix_down fuel _) as [r1|] eqn:E; [|discriminate]. intros E2.
  apply fix_down_idx in E. apply fix_up_idx in E2. rewrite E2, E. apply Permutation_map, Permutation_sym, Q.
Qed.

Lemma entries_idx H nb w ns : (length ns <= N.to_nat 65536)%nat -> (1 <= w)%nat ->
  (forall i, In i (map node_idx (entries H nb w ns)) <-> (i < length ns)%nat).
Proof.
  intros L W i. unfold entries. rewrite in_map_iff. split.
  - intros (x & <- & I). apply in_flat_map in I. destruct I as ([k n] & I1 & I2). apply in_combine_l in I1. apply in_seq in I1. apply in_map_iff in I2. destruct I2 as (j & <- & _). cbn [node_idx fst]. rewrite N.mod_small by lia. lia.
  - intros B. destruct (nth_error ns i) as [n|] eqn:E; [|apply nth_error_None in E; lia].
    exists {| pos := hash H nb n (N.of_nat 0); node_idx := N.to_nat (N.of_nat i mod 65536) |}. split; [cbn; rewrite N.mod_small by lia; lia|].
    apply in_flat_map. exists (i, n). split.
    + assert (forall a s, nth_error a i = Some n -> In ((s + i)%nat, n) (combine (seq s (length a)) a)) as G.
      { clear. induction i as [|i IH]; intros [|x a] s; cbn; try discriminate; [intros [= ->]; left; f_equal; lia|]. intros E. right. replace (s + S i)%nat with (S s + i)%nat by lia. apply IH. exact E. }
      apply (G ns 0%nat). exact E.
    + apply in_map_iff. exists 0%nat. split; [reflexivity|]. apply in_seq. lia.
Qed.
Lemma flat_map_len {A B} (f : A -> list B) w l : (forall x, length (f x) = w) -> length (flat_map f l) = (length l * w)%nat.
Proof. intros E. induction l as [|x l IH]; cbn; [reflexivity|]. rewrite app_length, E, IH. reflexivity. Qed.
Lemma entries_len H nb w ns : length (entries H nb w ns) = (length ns * w)%nat.
Proof.
  unfold entries. rewrite (flat_map_len _ w); [|intros; rewrite map_length, seq_length; reflexivity].
  rewrite combine_length, seq_length, Nat.min_id. reflexivity.
Qed.

(** ** the binary search on any ring *)
Definition found_at (r : list rp) (h : N) (m : nat) : Prop :=
  (m < length r)%nat /\
  ((at_ r m <= h /\ (at_ r m = h \/ S m = length r \/ h < at_ r (S m))) \/ (m = 0%nat /\ h < at_ r 0)).
Lemma bsearch_ok r h fuel : forall l rr m, (rr <= length r)%nat -> (rr - l < fuel)%nat ->
  (l = 0%nat \/ at_ r l < h) -> (rr = length r \/ h < at_ r rr) ->
  ((l < rr)%nat \/ (l = 0%nat /\ rr = 0%nat /\ m = 0%nat /\ h < at_ r 0 /\ length r <> 0%nat)) ->
  exists m', bsearch fuel r h l rr m = Some m' /\ found_at r h m'.
Proof.
  induction fuel as [|f IH]; intros l rr m B F L R C; [lia|]. cbn [bsearch].
  destruct (Nat.ltb_spec l rr) as [LT|GE].
  - assert (l <= (l + rr) / 2 /\ (l + rr) / 2 < rr)%nat as [M1 M2] by (split; [apply Nat.div_le_lower_bound|apply Nat.div_lt_upper_bound]; lia).
    set (k := ((l + rr) / 2)%nat) in *.
    destruct (N.eqb_spec h (at_ r k)) as [E|NE]; [exists k; split; [reflexivity|]; split; [lia|left; lia]|].
    destruct (N.ltb_spec h (at_ r k)) as [LH|GH].
    + apply IH; try lia. destruct (Nat.eq_dec l k); [|left; lia]. right. destruct L as [->|L]; [|rewrite e in L; lia]. rewrite <- e in LH. repeat split; auto; lia.
    + destruct (Nat.eqb_spec l k) as [E|N2].
      * exists k. split; [reflexivity|]. split; [lia|left]. split; [lia|]. assert (rr = S k) as RK. { assert (2 * k >= l + rr - 1)%nat; [|lia]. unfold k. pose proof (Nat.div_mod (l + rr) 2). pose proof (Nat.mod_upper_bound (l + rr) 2). lia. }
        rewrite RK in R. destruct R as [R|R]; [right; left; exact R|right; right; exact R].
      * apply IH; try lia.
  - destruct C as [C|(-> & -> & -> & HH & NZ)]; [lia|]. exists 0%nat. split; [reflexivity|]. split; [lia|right; auto].
Qed.

(** ** the collection loop *)
Lemma contains_existsb found id : contains found id = existsb (Nat.eqb id) found.
Proof. unfold contains. induction found as [|x f IH]; cbn; [reflexivity|]. rewrite IH, Nat.eqb_sym. reflexivity. Qed.

Lemma collect_firsts r w cnt n : forall i found, (length found <= Nat.min w cnt)%nat ->
  collect n i r w cnt found =
  rev (firstn (Nat.min w cnt - length found) (firsts found (map (fun t => idx r (t mod length r)) (seq i n)))) ++ found.
Proof.
  induction n as [|n IH]; intros i found L; cbn [collect seq map firsts].
  - rewrite firstn_nil. reflexivity.
  - destruct (Nat.ltb_spec (length found) w), (Nat.ltb_spec (length found) cnt); cbn [andb].
    2,3,4: replace (Nat.min w cnt - length found)%nat with 0%nat by lia; reflexivity.
    rewrite contains_existsb. destruct (existsb _ found).
    + apply IH. exact L.
    + rewrite IH by (cbn; lia). cbn [length].
      replace (Nat.min w cnt - length found)%nat with (S (Nat.min w cnt - S (length found)))%nat by lia. cbn [firstn rev].
      rewrite <- app_assoc. reflexivity.
Qed.

Lemma existsb_In x l : existsb (Nat.eqb x) l = true <-> In x l.
Proof.
  rewrite existsb_exists. split; [intros (y & I & E); apply Nat.eqb_eq in E; subst; exact I|]. intros I. exists x. split; [exact I|apply Nat.eqb_refl].
Qed.
Lemma firsts_In l : forall seen x, In x (firsts seen l) <-> In x l /\ ~ In x seen.
Proof.
  induction l as [|y l IH]; intros seen x; cbn; [tauto|]. destruct (existsb (Nat.eqb y) seen) eqn:E.
  - apply existsb_In in E. rewrite IH. split; [tauto|]. intros [[->|I] N]; [contradiction|tauto].
  - assert (~ In y seen) by (intros I; apply existsb_In in I; congruence). cbn. rewrite IH. cbn. split.
    + intros [->|[A B]]; [tauto|]. tauto.
    + intros [[->|A] B]; [tauto|]. destruct (Nat.eq_dec y x); [auto|]. right. split; [exact A|]. intros [?|?]; contradiction.
Qed.
Lemma firsts_NoDup l : forall seen, NoDup (firsts seen l).
Proof.
  induction l as [|y l IH]; intros seen; cbn; [constructor|]. destruct (existsb _ seen); [apply IH|]. constructor; [|apply IH].
  rewrite firsts_In. cbn. tauto.
Qed.

Lemma idx_In r i : (i < length r)%nat -> In (idx r i) (map node_idx r).
Proof. intros B. unfold idx. destruct (nth_error r i) as [x|] eqn:E; [|apply nth_error_None in E; lia]. apply in_map. eapply nth_error_In; eauto. Qed.
Lemma In_idx r x : In x (map node_idx r) -> exists i, (i < length r)%nat /\ idx r i = x.
Proof.
  intros I. apply in_map_iff in I. destruct I as (e & <- & I). apply In_nth_error in I. destruct I as [i E]. exists i. split; [apply nth_error_Some; congruence|]. unfold idx. rewrite E. reflexivity.
Qed.

Lemma circle_In r m x : (m < length r)%nat ->
  In x (map (fun t => idx r (t mod length r)) (seq m (length r))) <-> In x (map node_idx r).
Proof.
  intros B. rewrite in_map_iff. split.
  - intros (t & <- & I). apply idx_In. apply Nat.mod_upper_bound. lia.
  - intros I. apply In_idx in I. destruct I as (i & Bi & <-). destruct (Nat.le_gt_cases m i).
    + exists i. split; [rewrite Nat.mod_small by lia; reflexivity|]. apply in_seq. lia.
    + exists (i + length r)%nat. split; [|apply in_seq; lia]. replace (i + length r)%nat with (i + 1 * length r)%nat by lia. rewrite Nat.mod_add by lia. rewrite Nat.mod_small by lia. reflexivity.
Qed.

(** a table as mtev_cht_set_nodes leaves it *)
Record good (c : cht) : Prop := {
  g_w : (1 <= weight c)%nat;
  g_len : length (ring c) = (length (names c) * weight c)%nat;
  g_idx : forall i, In i (map node_idx (ring c)) <-> (i < length (names c))%nat;
  g_ne : names c <> [] }.

Lemma clip_le nb w cnt : (clip nb w cnt <= cnt)%nat.
Proof. induction cnt as [|c IH]; cbn [clip]; [lia|]. destruct (_ <? _); lia. Qed.

Lemma set_nodes_good fuel srt H c ns c' cnt : is_qsort srt -> (1 <= weight c)%nat ->
  set_nodes fuel srt H c ns = Set_ c' cnt -> (0 < cnt)%nat -> (cnt <= N.to_nat 65536)%nat ->
  good c' /\ length (names c') = cnt /\ names c' = firstn cnt ns /\ nbits c' = nbits c /\ weight c' = weight c /\
  calculate_ring fuel srt H (nbits c) (weight c) (names c') = Some (ring c').
Proof.
  intros Q W. unfold set_nodes. destruct (_ <=? _); [discriminate|]. destruct (nbits c =? 31); [discriminate|].
  set (k := if nbits c <? 32 then clip (nbits c) (weight c) (length ns) else length ns).
  assert (k <= length ns)%nat as KL. { unfold k. destruct (nbits c <? 32); [apply clip_le|lia]. }
  destruct (Nat.ltb_spec 0 k); [|intros [= <- <-]; lia].
  destruct (calculate_ring _ _ _ _ _ _) as [r|] eqn:E; [|discriminate]. intros [= <- <-] _ B. cbn [names ring nbits weight].
  assert (length (firstn k ns) = k) as LK by (rewrite firstn_length; lia).
  pose proof (calc_idx _ _ _ _ _ _ _ Q E) as P.
  split; [|auto 6]. split; cbn [names ring nbits weight]; auto.
  - rewrite <- (map_length node_idx), (Permutation_length P), map_length, entries_len. reflexivity.
  - intros i. split.
    + intros I. apply (entries_idx H (nbits c) (weight c)); [rewrite LK; exact B|exact W|]. eapply Permutation_in; eauto.
    + intros I. eapply Permutation_in; [apply Permutation_sym; exact P|]. apply entries_idx; [rewrite LK; exact B|exact W|exact I].
  - intros Z. rewrite Z in LK. cbn in LK. lia.
Qed.

Definition start (c : cht) (h : N) (m : nat) : nat := if h <? at_ (ring c) m then (length (ring c) - 1)%nat else m.
Definition circle (c : cht) (m : nat) : list nat := map (fun t => idx (ring c) (t mod length (ring c))) (seq m (length (ring c))).

Lemma firsts_hd seen l : existsb (Nat.eqb (hd 0%nat l)) seen = false -> l <> [] -> hd 0%nat (firsts seen l) = hd 0%nat l.
Proof. destruct l as [|x l]; [congruence|]. cbn. intros -> _. reflexivity. Qed.

Lemma lookup_all c h : good c -> exists m, found_at (ring c) h m /\
  let order := firsts [] (circle c (start c h m)) in
  NoDup order /\ length order = length (names c) /\ (forall i, In i order <-> (i < length (names c))%nat) /\
  hd 0%nat order = idx (ring c) (start c h m) /\
  forall w, vlookup_h c h w = Nodes (firstn (Z.to_nat (Z.min w 256)) (order ++ [hd 0%nat order])).
Proof.
  intros [W L I NE]. assert (length (names c) <> 0)%nat as NZ by (destruct (names c); [congruence|discriminate]).
  assert (length (ring c) <> 0)%nat as RZ by nia.
  destruct (bsearch_ok (ring c) h (S (S (length (ring c)))) 0 (length (ring c)) 0) as (m & BS & FA); try lia.
  exists m. split; [exact FA|]. intros order.
  assert (start c h m < length (ring c))%nat as SB. { unfold start. destruct FA. destruct (_ <? _); lia. }
  assert (forall i, In i order <-> (i < length (names c))%nat) as IO.
  { intros i. unfold order. rewrite firsts_In. unfold circle. rewrite circle_In by exact SB. rewrite I. cbn. tauto. }
  assert (NoDup order) as ND by apply firsts_NoDup.
  assert (length order = length (names c)) as LO.
  { rewrite <- (seq_length (length (names c)) 0). apply Permutation_length. apply NoDup_Permutation; [exact ND|apply seq_NoDup|]. intros i. rewrite IO, in_seq. lia. }
  assert (hd 0%nat order = idx (ring c) (start c h m)) as HD.
  { unfold order. rewrite firsts_hd; [|reflexivity|unfold circle; destruct (length (ring c)); [lia|discriminate]].
    unfold circle. destruct (length (ring c)) as [|q] eqn:EQ; [lia|]. cbn [seq map hd]. rewrite Nat.mod_small by lia. reflexivity. }
  repeat (split; [assumption|]). intros w. unfold vlookup_h.
  replace (length (names c) <? 1)%nat with false by (symmetry; apply Nat.ltb_ge; lia).
  rewrite <- L, BS.
  assert (((h <? at_ (ring c) m) && negb (m =? 0)%nat) = false) as NA.
  { destruct FA as [_ [[A _]|[-> _]]]; [|apply andb_false_r]. replace (h <? at_ (ring c) m) with false by lia. reflexivity. }
  rewrite NA. fold (start c h m).
  replace (Z.to_nat (if (256 <? w)%Z then 256%Z else w)) with (Z.to_nat (Z.min w 256)) by (destruct (Z.ltb_spec 256 w); f_equal; lia).
  set (k := Z.to_nat (Z.min w 256)).
  rewrite collect_firsts by (cbn; lia). cbn [length]. rewrite Nat.sub_0_r, app_nil_r. fold (circle c (start c h m)). fold order.
  rewrite rev_length, firstn_length, LO. rewrite <- HD.
  replace (Nat.min (Nat.min k (length (names c))) (length (names c))) with (Nat.min k (length (names c))) by lia.
  destruct (Nat.ltb_spec (Nat.min k (length (names c))) k) as [LT|GE].
  - cbn [rev]. rewrite rev_involutive. replace (Nat.min k (length (names c))) with (length (names c)) by lia. rewrite <- LO, firstn_all. reflexivity.
  - rewrite rev_involutive. replace (Nat.min k (length (names c))) with k by lia. f_equal.
    rewrite firstn_firstn, Nat.min_id. rewrite firstn_app. replace (k - length order)%nat with 0%nat by lia. cbn. rewrite app_nil_r. reflexivity.
Qed.

Lemma owners fuel srt H c ns c' cnt h : is_qsort srt -> (1 <= weight c)%nat ->
  set_nodes fuel srt H c ns = Set_ c' cnt -> (0 < cnt)%nat -> (cnt <= N.to_nat 65536)%nat ->
  exists order, NoDup order /\ length order = cnt /\ (forall i, In i order -> (i < cnt)%nat) /\
  forall w, vlookup_h c' h w = Nodes (firstn (Z.to_nat (Z.min w 256)) (order ++ [hd 0%nat order])).
Proof.
  intros Q W E P B. destruct (set_nodes_good _ _ _ _ _ _ _ Q W E P B) as (g & L & _).
  destruct (lookup_all c' h g) as (m & _ & ND & LO & IO & _ & V). exists (firsts [] (circle c' (start c' h m))).
  rewrite <- L. repeat (split; auto). intros i I. apply IO. exact I.
Qed.

(** ** no collisions: the ring is the sorted list of points *)
Definition incr (r : list rp) : Prop := forall i j, (i < j)%nat -> (j < length r)%nat -> at_ r i < at_ r j.

Lemma pass_down_incr i : forall r, incr r -> (i < length r)%nat -> pass_down i r = (r, false).
Proof.
  induction i as [|i IH]; intros r R B; cbn [pass_down]; [reflexivity|]. pose proof (R i (S i) ltac:(lia) B).
  replace (at_ r i =? at_ r (S i)) with false by lia. cbn. apply IH; [exact R|lia].
Qed.
Lemma pass_up_incr n : forall i m r, incr r -> (i + n < length r)%nat -> pass_up n i m r = (r, false).
Proof.
  induction n as [|n IH]; intros i m r R B; cbn [pass_up]; [reflexivity|]. pose proof (R i (S i) ltac:(lia) ltac:(lia)).
  replace (at_ r i =? at_ r (S i)) with false by lia. cbn. apply IH; [exact R|lia].
Qed.
Lemma fix_incr f m r : incr r -> r <> [] -> fix_down (S f) r = Some r /\ fix_up (S f) m r = Some r.
Proof.
  intros R NE. assert (length r <> 0)%nat by (destruct r; [congruence|discriminate]). cbn [fix_down fix_up].
  rewrite pass_down_incr, pass_up_incr by (auto; lia). auto.
Qed.

Lemma sorted_incr r : StronglySorted (fun a b => pos a <= pos b) r -> NoDup (map pos r) -> incr r.
Proof.
  intros S0 N i. revert r S0 N. induction i as [|i IH]; intros r S0 N j L B.
  - destruct r as [|x r]; [cbn in B; lia|]. inversion S0 as [|? ? S1 F]; subst. cbn in N. inversion N as [|? ? N1 N2]; subst.
    destruct j as [|j]; [lia|]. unfold at_. cbn. cbn in B. destruct (nth_error r j) as [y|] eqn:E; [|apply nth_error_None in E; lia].
    apply nth_error_In in E. pose proof (proj1 (Forall_forall _ _) F y E) as Q. cbn in Q. assert (pos x <> pos y) by (intros Z; apply N1; rewrite Z; apply in_map; exact E). lia.
  - destruct r as [|x r]; [cbn in B; lia|]. inversion S0; subst. inversion N; subst. destruct j as [|j]; [lia|]. cbn in B. apply (IH r); auto; lia.
Qed.

Definition named (ns : list (list N)) (x : rp) : N * list N := (pos x, nth (node_idx x) ns []).
Lemma entries_points H nb w ns : (length ns <= N.to_nat 65536)%nat -> map (named ns) (entries H nb w ns) = points H nb w ns.
Proof.
  intros L. unfold entries, points.
  assert (forall a b, ns = a ++ b -> map (named ns) (flat_map (fun p : nat * list N => map (fun j => {| pos := hash H nb (snd p) (N.of_nat j); node_idx := N.to_nat (N.of_nat (fst p) mod 65536) |}) (seq 0 w)) (combine (seq (length a) (length b)) b)) = flat_map (fun n => map (fun j => (hash H nb n (N.of_nat j), n)) (seq 0 w)) b) as G.
  - intros a b. revert a. induction b as [|n b IH]; intros a E; cbn [length seq combine flat_map map]; [reflexivity|].
    rewrite map_app. f_equal.
    + rewrite map_map. apply map_ext. intros j. unfold named. cbn [pos node_idx fst snd].
      rewrite N.mod_small by (subst ns; rewrite app_length in L; cbn in L; lia). rewrite Nat2N.id. rewrite E, app_nth2, Nat.sub_diag by lia. reflexivity.
    + specialize (IH (a ++ [n])). rewrite app_length, Nat.add_1_r in IH. apply IH. rewrite <- app_assoc. exact E.
  - exact (G [] ns eq_refl).
Qed.

Lemma ring_no_collision fuel srt H nb w ns r : is_qsort srt -> (length ns <= N.to_nat 65536)%nat -> no_collision H nb w ns ->
  calculate_ring fuel srt H nb w ns = Some r -> r <> [] -> incr r /\ Permutation (map (named ns) r) (points H nb w ns).
Proof.
  intros Q L NC. unfold calculate_ring. destruct (Q (entries H nb w ns)) as [P S0].
  assert (NoDup (map pos (srt (entries H nb w ns)))) as ND.
  { eapply Permutation_NoDup; [apply Permutation_map; exact P|]. unfold no_collision in NC. rewrite <- (entries_points H nb w ns L), map_map in NC. exact NC. }
  pose proof (sorted_incr _ S0 ND) as I. destruct fuel as [|f]; [discriminate|].
  destruct (srt (entries H nb w ns)) as [|x s] eqn:ES.
  - cbn. intros [= <-]. congruence.
  - destruct (fix_incr f (maxpos nb) (x :: s) I) as [E1 E2]; [discriminate|]. rewrite E1, E2. intros [= <-] _. split; [exact I|].
    rewrite <- entries_points by exact L. apply Permutation_map, Permutation_sym. exact P.
Qed.

Lemma at_nth r i x : nth_error r i = Some x -> at_ r i = pos x.
Proof. unfold at_. intros ->. reflexivity. Qed.
Lemma incr_le r i j : incr r -> (i <= j)%nat -> (j < length r)%nat -> at_ r i <= at_ r j.
Proof. intros I L B. destruct (Nat.eq_dec i j); [subst; lia|]. pose proof (I i j ltac:(lia) B). lia. Qed.

Lemma found_responsible r h m ns : incr r -> found_at r h m ->
  let s := if h <? at_ r m then (length r - 1)%nat else m in
  responsible (map (named ns) r) h (at_ r s, nth (idx r s) ns []).
Proof.
  intros I [B F] s. assert (s < length r)%nat as SB by (unfold s; destruct (_ <? _); lia).
  destruct (nth_error r s) as [e|] eqn:E; [|apply nth_error_None in E; lia].
  split.
  - apply in_map_iff. exists e. split; [|eapply nth_error_In; eauto]. unfold named, at_, idx. rewrite E. reflexivity.
  - cbn [fst]. destruct F as [[A C]|[-> A]].
    + left. assert (s = m) as -> by (unfold s; destruct (N.ltb_spec h (at_ r m)); [lia|reflexivity]). split; [exact A|].
      intros y Y LE. apply in_map_iff in Y. destruct Y as (x & <- & Y). cbn [named fst] in *. apply In_nth_error in Y. destruct Y as [j Y].
      rewrite <- (at_nth _ _ _ Y) in *. assert (j < length r)%nat as JB by (apply nth_error_Some; congruence).
      destruct (Nat.le_gt_cases j m); [apply incr_le; auto|]. pose proof (I m j ltac:(lia) JB). destruct C as [C|[C|C]]; [lia|lia|].
      pose proof (incr_le r (S m) j I ltac:(lia) JB). lia.
    + right. assert (s = (length r - 1)%nat) as ES by (unfold s; destruct (N.ltb_spec h (at_ r 0)); [reflexivity|lia]). split.
      * intros y Y. apply in_map_iff in Y. destruct Y as (x & <- & Y). cbn [named fst] in *. apply In_nth_error in Y. destruct Y as [j Y].
        rewrite <- (at_nth _ _ _ Y) in *. assert (j < length r)%nat as JB by (apply nth_error_Some; congruence). pose proof (incr_le r 0 j I ltac:(lia) JB). lia.
      * intros y Y. apply in_map_iff in Y. destruct Y as (x & <- & Y). cbn [named fst] in *. apply In_nth_error in Y. destruct Y as [j Y].
        rewrite <- (at_nth _ _ _ Y) in *. assert (j < length r)%nat as JB by (apply nth_error_Some; congruence). apply incr_le; auto; lia.
Qed.

Lemma responsible_perm a b h x : Permutation a b -> responsible a h x -> responsible b h x.
Proof.
  intros P [A B]. assert (forall y, In y b -> In y a) by (intros; eapply Permutation_in; [apply Permutation_sym|]; eauto). split; [eapply Permutation_in; eauto|].
  destruct B as [[B1 B2]|[B1 B2]]; [left|right]; split; auto.
Qed.

Lemma lookup1 c h w m order : (0 < w)%Z -> (forall w, vlookup_h c h w = Nodes (firstn (Z.to_nat (Z.min w 256)) (order ++ [hd 0%nat order]))) -> order <> [] ->
  hd 0%nat order = m -> exists l, vlookup_h c h w = Nodes (m :: l).
Proof.
  intros W V NE E. rewrite V. destruct (Z.to_nat (Z.min w 256)) as [|k] eqn:K; [lia|]. destruct order as [|x o]; [congruence|]. cbn in E. subst x. cbn. eauto.
Qed.

Lemma owner_ok fuel srt H c ns c' cnt h w : is_qsort srt -> (1 <= weight c)%nat ->
  set_nodes fuel srt H c ns = Set_ c' cnt -> (0 < cnt)%nat -> (cnt <= N.to_nat 65536)%nat ->
  no_collision H (nbits c') (weight c') (names c') -> (0 < w)%Z ->
  exists i l p, vlookup_h c' h w = Nodes (i :: l) /\ (i < cnt)%nat /\
    responsible (points H (nbits c') (weight c') (names c')) h (p, nth i (names c') []).
Proof.
  intros Q W E P B NC WP. destruct (set_nodes_good _ _ _ _ _ _ _ Q W E P B) as (g & L & _ & NB & WW & CR).
  destruct (lookup_all c' h g) as (m & FA & ND & LO & IO & HD & V).
  set (order := firsts [] (circle c' (start c' h m))) in *.
  assert (order <> []) as ON by (destruct order; cbn in LO; [lia|discriminate]).
  destruct (lookup1 c' h w _ order WP V ON HD) as [l VL].
  exists (idx (ring c') (start c' h m)), l, (at_ (ring c') (start c' h m)). split; [exact VL|]. split.
  - rewrite <- L. apply IO. rewrite <- HD. destruct order; [congruence|left; reflexivity].
  - rewrite <- NB, <- WW in CR.
    assert (length (names c') <= N.to_nat 65536)%nat as LB by lia. destruct (ring_no_collision _ _ _ _ _ _ _ Q LB NC CR) as [I PM]. { intros Z. destruct FA as [FA _]. rewrite Z in FA. cbn in FA. lia. }
    eapply responsible_perm; [exact PM|]. apply found_responsible; auto.
Qed.

Lemma responsible_unique pts h x y : NoDup (map fst pts) -> responsible pts h x -> responsible pts h y -> x = y.
Proof.
  intros N [A1 A2] [B1 B2]. assert (fst x = fst y) as E.
  { destruct A2 as [[A2 A3]|[A2 A3]], B2 as [[B2 B3]|[B2 B3]].
    - pose proof (A3 y B1 B2). pose proof (B3 x A1 A2). lia.
    - pose proof (B2 x A1). lia.
    - pose proof (A2 y B1). lia.
    - pose proof (A3 y B1). pose proof (B3 x A1). lia. }
  clear -N A1 B1 E. induction pts as [|z l IH]; [destruct A1|]. cbn in N. inversion N; subst.
  destruct A1 as [->|A1], B1 as [->|B1]; auto.
  - exfalso. apply H1. rewrite E. apply in_map. exact B1.
  - exfalso. apply H1. rewrite <- E. apply in_map. exact A1.
Qed.
Lemma points_app H nb w a b : points H nb w (a ++ b) = points H nb w a ++ points H nb w b.
Proof. unfold points. apply flat_map_app. Qed.
Lemma points_name H nb w ns x : In x (points H nb w ns) -> In (snd x) ns.
Proof. intros I. apply in_flat_map in I. destruct I as (n & I & J). apply in_map_iff in J. destruct J as (j & <- & _). exact I. Qed.

Lemma NoDup_app_parts {A} (a b : list A) : NoDup (a ++ b) -> NoDup a /\ NoDup b /\ forall x, In x a -> ~ In x b.
Proof.
  induction a as [|x a IH]; cbn; intros N; [repeat split; auto; constructor|]. inversion N; subst. destruct (IH H2) as (N1 & N2 & D). repeat split; auto.
  - constructor; auto. intros I. apply H1. apply in_or_app; auto.
  - intros y [->|I]; [intros I; apply H1; apply in_or_app; auto|auto].
Qed.

Lemma owner_name_ok fuel srt H c ns c' cnt h : is_qsort srt -> (1 <= weight c)%nat ->
  set_nodes fuel srt H c ns = Set_ c' cnt -> (0 < cnt)%nat -> (cnt <= N.to_nat 65536)%nat ->
  no_collision H (nbits c') (weight c') (names c') ->
  exists x p, owner_name c' h = Some x /\ responsible (points H (nbits c') (weight c') (names c')) h (p, x).
Proof.
  intros Q W E P B NC. destruct (owner_ok _ _ _ _ _ _ _ h 1 Q W E P B NC ltac:(lia)) as (i & l & p & V & I & R).
  destruct (set_nodes_good _ _ _ _ _ _ _ Q W E P B) as (g & L & _).
  destruct (owners _ _ _ _ _ _ _ h Q W E P B) as (o & _ & LO & _ & VO).
  assert (l = []) as ->. { rewrite VO in V. change (Z.to_nat (Z.min 1 256)) with 1%nat in V. destruct o; cbn in V; [cbn in LO; lia|]. injection V as _ <-. reflexivity. }
  exists (nth i (names c') []), p. split; [|exact R]. unfold owner_name. rewrite V. apply nth_error_nth'. lia.
Qed.

Lemma moves_only fuel1 fuel2 srt H c a n b c1 c2 h : is_qsort srt -> (1 <= weight c)%nat ->
  set_nodes fuel1 srt H c (a ++ b) = Set_ c1 (length (a ++ b)) -> a ++ b <> [] ->
  set_nodes fuel2 srt H c (a ++ n :: b) = Set_ c2 (length (a ++ n :: b)) -> (length (a ++ n :: b) <= N.to_nat 65536)%nat ->
  no_collision H (nbits c) (weight c) (a ++ n :: b) ->
  exists x1 x2, owner_name c1 h = Some x1 /\ owner_name c2 h = Some x2 /\ (x2 = n \/ x1 = x2).
Proof.
  intros Q W E1 NE E2 B NC.
  assert (0 < length (a ++ b))%nat as P1 by (destruct (a ++ b); [congruence|cbn; lia]).
  assert (length (a ++ n :: b) = S (length (a ++ b))) as LL by (rewrite !app_length; cbn; lia).
  assert (no_collision H (nbits c) (weight c) (a ++ b)) as NC1.
  { unfold no_collision in *. change (n :: b) with ([n] ++ b) in NC. rewrite !points_app, !map_app in *.
    apply NoDup_app_parts in NC. destruct NC as (N1 & N2 & D). apply NoDup_app_parts in N2. destruct N2 as (_ & N3 & _).
    clear -N1 N3 D. induction (map fst (points H (nbits c) (weight c) a)) as [|y l IH]; cbn; [exact N3|]. inversion N1; subst. constructor.
    - intros I. apply in_app_or in I. destruct I as [I|I]; [contradiction|]. apply (D y); [left; reflexivity|]. apply in_or_app; auto.
    - apply IH; auto. intros z I. apply D. right. exact I. }
  destruct (set_nodes_good _ _ _ _ _ _ _ Q W E1 P1 ltac:(lia)) as (_ & _ & N1 & NB1 & WW1 & _).
  destruct (set_nodes_good _ _ _ _ _ _ _ Q W E2 ltac:(lia) B) as (_ & _ & N2 & NB2 & WW2 & _).
  rewrite firstn_all in N1, N2.
  destruct (owner_name_ok _ _ _ _ _ _ _ h Q W E1 P1 ltac:(lia)) as (x1 & p1 & O1 & R1); [rewrite NB1, WW1, N1; exact NC1|].
  destruct (owner_name_ok _ _ _ _ _ _ _ h Q W E2 ltac:(lia) B) as (x2 & p2 & O2 & R2); [rewrite NB2, WW2, N2; exact NC|].
  rewrite NB1, WW1, N1 in R1. rewrite NB2, WW2, N2 in R2.
  exists x1, x2. split; [exact O1|]. split; [exact O2|].
  destruct (list_eq_dec N.eq_dec x2 n) as [->|NN]; [left; reflexivity|right].
  assert (forall y, In y (points H (nbits c) (weight c) (a ++ b)) -> In y (points H (nbits c) (weight c) (a ++ n :: b))) as SUB.
  { intros y. change (n :: b) with ([n] ++ b). rewrite !points_app, !in_app_iff. tauto. }
  assert (responsible (points H (nbits c) (weight c) (a ++ b)) h (p2, x2)) as R3.
  { destruct R2 as [A C]. split.
    - change (n :: b) with ([n] ++ b) in A. rewrite !points_app, !in_app_iff in *. destruct A as [A|[A|A]]; auto. apply points_name in A. cbn in A. destruct A as [A|[]]. congruence.
    - destruct C as [[C1 C2]|[C1 C2]]; [left|right]; split; auto. }
  pose proof (responsible_unique _ _ _ _ NC1 R1 R3) as Z. congruence.
Qed.

(** ** the share of a node *)
Fixpoint own_from (cur : nat) (r : list rp) (h : N) : nat :=
  match r with [] => cur | x :: t => if pos x <=? h then own_from (node_idx x) t h else cur end.
Definition lastidx (r : list rp) : nat := idx r (length r - 1).

Lemma incr_cons x r : incr (x :: r) -> incr r.
Proof. intros I i j L B. apply (I (S i) (S j)); cbn; lia. Qed.
Lemma own_from_at r h : forall m cur, incr r -> (m < length r)%nat -> at_ r m <= h -> (S m = length r \/ h < at_ r (S m)) -> own_from cur r h = idx r m.
Proof.
  induction r as [|x r IH]; intros m cur I B A C; [cbn in B; lia|]. cbn [own_from].
  assert (pos x <= h) as PX. { destruct m; [exact A|]. pose proof (I 0%nat (S m) ltac:(lia) B) as Q. change (at_ (x :: r) 0) with (pos x) in Q. lia. }
  replace (pos x <=? h) with true by lia. destruct m as [|m].
  - cbn. destruct r as [|y r]; [reflexivity|]. cbn [length] in C. destruct C as [C|C]; [lia|]. change (at_ (x :: y :: r) 1) with (pos y) in C. cbn [own_from]. replace (pos y <=? h) with false by lia. reflexivity.
  - change (idx (x :: r) (S m)) with (idx r m). apply IH; [eapply incr_cons; eauto|cbn in B; lia|exact A|]. cbn [length] in C. destruct C as [C|C]; [left; lia|right; exact C].
Qed.
Lemma own_from_found r h m : incr r -> found_at r h m -> own_from (lastidx r) r h = idx r (if h <? at_ r m then (length r - 1)%nat else m).
Proof.
  intros I [B F]. destruct F as [[A C]|[-> A]].
  - replace (h <? at_ r m) with false by lia. apply own_from_at; auto.
    destruct C as [C|C]; [|exact C]. destruct (Nat.eq_dec (S m) (length r)); [left; assumption|right]. rewrite <- C. apply I; lia.
  - replace (h <? at_ r 0) with true by lia. destruct r as [|x r]; [cbn in B; lia|]. cbn [own_from]. change (at_ (x :: r) 0) with (pos x) in A. replace (pos x <=? h) with false by lia. reflexivity.
Qed.

Definition rng (a n : nat) : list N := map N.of_nat (seq a n).
Definition cnt (i : nat) (f : N -> nat) (l : list N) : N := N.of_nat (length (filter (fun h => (f h =? i)%nat) l)).
Lemma cnt_app i f a b : cnt i f (a ++ b) = cnt i f a + cnt i f b.
Proof. unfold cnt. rewrite filter_app, app_length. lia. Qed.
Lemma cnt_const i f c l : (forall h, In h l -> f h = c) -> cnt i f l = if (c =? i)%nat then N.of_nat (length l) else 0.
Proof.
  intros E. unfold cnt. induction l as [|h l IH]; cbn; [destruct (c =? i)%nat; reflexivity|].
  rewrite (E h) by (left; reflexivity). specialize (IH (fun x I => E x (or_intror I))). destruct (c =? i)%nat; cbn [length]; lia.
Qed.
Lemma cnt_ext i f g l : (forall h, In h l -> f h = g h) -> cnt i f l = cnt i g l.
Proof.
  intros E. unfold cnt. f_equal. f_equal. apply filter_ext_in. intros h I. rewrite E by exact I. reflexivity.
Qed.
Lemma rng_In a n h : In h (rng a n) <-> N.of_nat a <= h < N.of_nat (a + n).
Proof.
  unfold rng. rewrite in_map_iff. split.
  - intros (x & <- & I). apply in_seq in I. lia.
  - intros B. exists (N.to_nat h). split; [lia|]. apply in_seq. lia.
Qed.

Fixpoint arcs (i cur : nat) (a : N) (r : list rp) (m : N) : N :=
  match r with
  | [] => if (cur =? i)%nat then m + 1 - a else 0
  | x :: t => (if (cur =? i)%nat then pos x - a else 0) + arcs i (node_idx x) (pos x) t m
  end.
Lemma count_arcs i m r : forall cur a, incr r -> (forall x, In x r -> a <= pos x <= m) -> a <= m + 1 ->
  cnt i (own_from cur r) (rng (N.to_nat a) (N.to_nat (m + 1 - a))) = arcs i cur a r m.
Proof.
  induction r as [|x r IH]; intros cur a I B A; cbn [arcs].
  - rewrite (cnt_const i _ cur) by reflexivity. unfold rng. rewrite map_length, seq_length. destruct (cur =? i)%nat; lia.
  - pose proof (B x (or_introl eq_refl)) as PX.
    replace (N.to_nat (m + 1 - a)) with (N.to_nat (pos x - a) + N.to_nat (m + 1 - pos x))%nat by lia.
    unfold rng. rewrite seq_app, map_app, cnt_app. f_equal.
    + rewrite (cnt_const i _ cur); [rewrite map_length, seq_length; destruct (cur =? i)%nat; lia|].
      intros h Hh. apply rng_In in Hh. cbn [own_from]. replace (pos x <=? h) with false by lia. reflexivity.
    + replace (N.to_nat a + N.to_nat (pos x - a))%nat with (N.to_nat (pos x)) by lia. fold (rng (N.to_nat (pos x)) (N.to_nat (m + 1 - pos x))).
      rewrite <- IH; [|eapply incr_cons; eauto| |lia].
      * apply cnt_ext. intros h Hh. apply rng_In in Hh. cbn [own_from]. replace (pos x <=? h) with true by lia. reflexivity.
      * intros y Y. pose proof (B y (or_intror Y)). apply In_nth_error in Y. destruct Y as [j Y]. pose proof (I 0%nat (S j) ltac:(lia)) as Q.
        unfold at_ in Q. cbn in Q. rewrite Y in Q. assert (j < length r)%nat by (apply nth_error_Some; congruence). specialize (Q ltac:(lia)). lia.
Qed.

Lemma owned_arcs_eq i m r : forall x, incr (x :: r) -> (forall y, In y (x :: r) -> pos y <= m) -> m < 2 ^ 32 ->
  arcs i (node_idx x) (pos x) r m = owned_arcs i (x :: r) + (if (lastidx (x :: r) =? i)%nat then m + 1 - at_ (x :: r) (length r) else 0).
Proof.
  induction r as [|y r IH]; intros x I B M; cbn [arcs].
  - cbn. unfold at_. cbn. reflexivity.
  - pose proof (I 0%nat 1%nat ltac:(lia)) as Q. unfold at_ in Q. cbn in Q. specialize (Q ltac:(lia)).
    pose proof (B y (or_intror (or_introl eq_refl))).
    rewrite (IH y); [|eapply incr_cons; eauto|intros z Z; apply B; right; exact Z|exact M].
    change (owned_arcs i (x :: y :: r)) with ((if (node_idx x =? i)%nat then (pos y + 2 ^ 32 - pos x) mod 2 ^ 32 else 0) + owned_arcs i (y :: r)).
    replace ((pos y + 2 ^ 32 - pos x) mod 2 ^ 32) with (pos y - pos x).
    + replace (lastidx (x :: y :: r)) with (lastidx (y :: r)) by (unfold lastidx; cbn [length]; replace (S (S (length r)) - 1)%nat with (S (length r)) by lia; replace (S (length r) - 1)%nat with (length r) by lia; reflexivity).
      change (at_ (x :: y :: r) (length (y :: r))) with (at_ (y :: r) (length r)). lia.
    + replace (pos y + 2 ^ 32 - pos x) with (pos y - pos x + 1 * 2 ^ 32) by lia. rewrite N.mod_add by lia. rewrite N.mod_small by lia. reflexivity.
Qed.

Lemma rev_last {A} (r : list A) d : r <> [] -> exists t, rev r = nth (length r - 1) r d :: t.
Proof.
  intros NE. destruct r as [|x r] using rev_ind; [congruence|]. rewrite rev_app_distr. cbn. exists (rev r). f_equal.
  rewrite app_length. cbn. rewrite app_nth2 by lia. replace (length r + 1 - 1 - length r)%nat with 0%nat by lia. reflexivity.
Qed.

Lemma owned_count i nb r : nb <= 32 -> incr r -> r <> [] -> (forall y, In y r -> pos y <= maxpos nb) ->
  owned nb r i = cnt i (own_from (lastidx r) r) (upto (maxpos nb)).
Proof.
  intros NB I NE B. assert (maxpos nb < 2 ^ 32) as M. { unfold maxpos. rewrite N.ones_equiv. assert (2 ^ nb <= 2 ^ 32) by (apply N.pow_le_mono_r; lia). assert (0 < 2 ^ nb) by (apply N.neq_0_lt_0, N.pow_nonzero; lia). lia. }
  change (upto (maxpos nb)) with (rng (N.to_nat 0) (N.to_nat (maxpos nb) + 1)). replace (N.to_nat (maxpos nb) + 1)%nat with (N.to_nat (maxpos nb + 1 - 0)) by lia.
  rewrite count_arcs; auto; [|intros y Y; split; [lia|auto]|lia].
  destruct r as [|x r]; [congruence|]. cbn [arcs]. rewrite (owned_arcs_eq i (maxpos nb) r x I B M). unfold owned.
  destruct (rev_last (x :: r) x NE) as [t ->]. replace (length (x :: r) - 1)%nat with (length r) by (cbn; lia).
  unfold lastidx. replace (length (x :: r) - 1)%nat with (length r) by (cbn; lia).
  unfold idx, at_. assert (length r < length (x :: r))%nat as LB by (cbn; lia). rewrite (nth_error_nth' (x :: r) x LB).
  set (e := nth (length r) (x :: r) x). assert (pos e <= maxpos nb) by (apply B; unfold e; apply nth_In; exact LB).
  destruct (node_idx e =? i)%nat; lia.
Qed.

Lemma hash_max H nb k i : hash H nb k i <= maxpos nb.
Proof.
  unfold hash, maxpos. rewrite N.land_ones, (N.ones_equiv nb). assert (2 ^ nb <> 0) as NZ by (apply N.pow_nonzero; lia). pose proof (N.mod_upper_bound (N.land (H k i) (N.ones 32)) (2 ^ nb) NZ) as Q. apply N.lt_le_pred. exact Q.
Qed.

Lemma share fuel srt H c ns c' k i : is_qsort srt -> (1 <= weight c)%nat -> nbits c <= 32 ->
  set_nodes fuel srt H c ns = Set_ c' k -> (0 < k)%nat -> (k <= N.to_nat 65536)%nat ->
  no_collision H (nbits c') (weight c') (names c') ->
  owned (nbits c') (ring c') i = N.of_nat (length (filter (goes_to c' i) (upto (maxpos (nbits c'))))).
Proof.
  intros Q W NB32 E P B NC. destruct (set_nodes_good _ _ _ _ _ _ _ Q W E P B) as (g & L & _ & NB & WW & CR).
  rewrite <- NB, <- WW in CR. assert (length (names c') <= N.to_nat 65536)%nat as LB by lia.
  assert (ring c' <> []) as RN. { intros Z. destruct g as [G1 G2 _ _]. rewrite Z in G2. cbn in G2. nia. }
  destruct (ring_no_collision _ _ _ _ _ _ _ Q LB NC CR RN) as [I PM].
  rewrite owned_count; auto; [|lia|].
  - unfold cnt. f_equal. f_equal. apply filter_ext. intros h. unfold goes_to.
    destruct (lookup_all c' h g) as (m & FA & ND & LO & IO & HD & V). rewrite V. change (Z.to_nat (Z.min 1 256)) with 1%nat.
    rewrite (own_from_found _ _ _ I FA). fold (start c' h m). rewrite <- HD.
    destruct (firsts [] _) as [|o ol]; [cbn in LO; lia|]. reflexivity.
  - intros y Y. apply (in_map (named (names c'))) in Y. eapply Permutation_in in Y; [|exact PM]. unfold points in Y. apply in_flat_map in Y. destruct Y as (n & _ & Y).
    apply in_map_iff in Y. destruct Y as (j & Z & _). injection Z as Z _. rewrite <- Z. apply hash_max.
Qed.

(** ** the collision loops terminate *)
Fixpoint total (r : list rp) : N := match r with [] => 0 | x :: t => pos x + total t end.
Lemma total_upd r : forall i v, (i < length r)%nat -> total (upd r i v) + at_ r i = total r + v.
Proof.
  induction r as [|x r IH]; intros [|i] v B; cbn [length] in B; try lia; cbn [upd total].
  - unfold at_. cbn. lia.
  - change (at_ (x :: r) (S i)) with (at_ r i). specialize (IH i v ltac:(lia)). lia.
Qed.
Lemma dec_total i : forall v r, (i < length r)%nat -> total (fst (dec_from i v r)) <= total r /\ (snd (dec_from i v r) = true -> total (fst (dec_from i v r)) < total r).
Proof.
  induction i as [|i IH]; intros v r B; cbn [dec_from]; [cbn; split; [lia|discriminate]|].
  destruct ((at_ r (S i) =? v) && (0 <? at_ r (S i))) eqn:E.
  - apply andb_prop in E. destruct E as [_ E]. cbn [fst snd]. pose proof (total_upd r (S i) (at_ r (S i) - 1) B).
    destruct (IH v (upd r (S i) (at_ r (S i) - 1))) as [A _]; [rewrite upd_len; lia|]. lia.
  - apply IH. lia.
Qed.
Lemma pass_down_total i : forall r, (i < length r)%nat -> snd (pass_down i r) = true -> total (fst (pass_down i r)) < total r.
Proof.
  induction i as [|i IH]; intros r B; cbn [pass_down]; [discriminate|]. destruct (_ && _); [apply dec_total; lia|apply IH; lia].
Qed.
Lemma fix_down_stops : forall n r, (N.to_nat (total r) < n)%nat -> forall f, (n <= f)%nat -> exists r', fix_down f r = Some r'.
Proof.
  induction n as [|n IH]; intros r L f LF; [lia|]. destruct f as [|f]; [lia|]. cbn [fix_down].
  destruct r as [|x r]; [cbn; eauto|]. assert (length (x :: r) - 1 < length (x :: r))%nat as B by (cbn; lia).
  pose proof (pass_down_total _ _ B) as T. destruct (pass_down _ (x :: r)) as [r1 [|]]; [|eauto]. cbn in T. specialize (T eq_refl).
  apply (IH r1); [cbn [total] in L; lia|lia].
Qed.

Definition le_all (m : N) (r : list rp) : Prop := Forall (fun x => pos x <= m) r.
Lemma le_all_at m r i : le_all m r -> at_ r i <= m.
Proof. intros F. unfold at_. destruct (nth_error r i) as [x|] eqn:E; [|lia]. apply nth_error_In in E. apply (proj1 (Forall_forall _ _) F x E). Qed.
Lemma le_all_upd m r : forall i v, le_all m r -> v <= m -> le_all m (upd r i v).
Proof. unfold le_all. induction r as [|x r IH]; intros [|i] v F V; cbn; auto; inversion F; subst; constructor; auto. Qed.
Lemma le_all_dec i : forall v m r, le_all m r -> le_all m (fst (dec_from i v r)).
Proof.
  induction i as [|i IH]; intros v m r F; cbn [dec_from]; [exact F|]. destruct (_ && _); cbn [fst]; apply IH; auto. apply le_all_upd; auto. pose proof (le_all_at m r (S i) F). lia.
Qed.
Lemma le_all_pass_down i : forall m r, le_all m r -> le_all m (fst (pass_down i r)).
Proof. induction i as [|i IH]; intros m r F; cbn [pass_down]; [exact F|]. destruct (_ && _); [apply le_all_dec|apply IH]; exact F. Qed.
Lemma le_all_fix_down f : forall m r r', le_all m r -> fix_down f r = Some r' -> le_all m r'.
Proof.
  induction f as [|f IH]; intros m r r' F; cbn [fix_down]; [discriminate|]. pose proof (le_all_pass_down (length r - 1) m r F) as P.
  destruct (pass_down _ r) as [r1 c]. cbn in P. destruct c; [apply IH; exact P|intros [= <-]; exact P].
Qed.
Fixpoint slack (m : N) (r : list rp) : N := match r with [] => 0 | x :: t => (m - pos x) + slack m t end.
Lemma slack_upd m r : forall i v, (i < length r)%nat -> slack m (upd r i v) + (m - at_ r i) = slack m r + (m - v).
Proof.
  induction r as [|x r IH]; intros [|i] v B; cbn [length] in B; try lia; cbn [upd slack].
  - unfold at_. cbn. lia.
  - change (at_ (x :: r) (S i)) with (at_ r i). specialize (IH i v ltac:(lia)). lia.
Qed.
Lemma inc_slack n : forall i v m r, (i + n <= length r)%nat -> le_all m r ->
  le_all m (fst (inc_from n i v m r)) /\ slack m (fst (inc_from n i v m r)) <= slack m r /\
  (snd (inc_from n i v m r) = true -> slack m (fst (inc_from n i v m r)) < slack m r).
Proof.
  induction n as [|n IH]; intros i v m r B F; cbn [inc_from]; [cbn; repeat split; auto; [lia|discriminate]|].
  destruct ((v =? at_ r i) && (at_ r i <? m)) eqn:E.
  - apply andb_prop in E. destruct E as [_ E]. cbn [fst snd]. pose proof (slack_upd m r i (at_ r i + 1) ltac:(lia)).
    destruct (IH (S i) v m (upd r i (at_ r i + 1))) as (A & C & _); [rewrite upd_len; lia|apply le_all_upd; [exact F|lia]|]. repeat split; auto; lia.
  - apply IH; [lia|exact F].
Qed.
Lemma pass_up_slack n : forall i m r, (i + n < length r)%nat -> le_all m r ->
  le_all m (fst (pass_up n i m r)) /\ (snd (pass_up n i m r) = true -> slack m (fst (pass_up n i m r)) < slack m r).
Proof.
  induction n as [|n IH]; intros i m r B F; cbn [pass_up]; [cbn; split; [exact F|discriminate]|]. destruct (_ && _).
  - destruct (inc_slack (length r - S i) (S i) (at_ r i) m r) as (A & _ & C); [lia|exact F|]. auto.
  - apply IH; [lia|exact F].
Qed.
Lemma fix_up_stops m : forall n r, (N.to_nat (slack m r) < n)%nat -> le_all m r -> forall f, (n <= f)%nat -> exists r', fix_up f m r = Some r' /\ le_all m r'.
Proof.
  induction n as [|n IH]; intros r L F f LF; [lia|]. destruct f as [|f]; [lia|]. cbn [fix_up].
  destruct r as [|x r]; [cbn; eauto|]. destruct (pass_up_slack (length (x :: r) - 1) 0 m (x :: r)) as [A C]; [cbn; lia|exact F|].
  destruct (pass_up _ _ _ (x :: r)) as [r1 [|]]; cbn in A, C; [|eauto]. specialize (C eq_refl).
  apply (IH r1); [cbn [slack] in L; lia|exact A|lia].
Qed.
Lemma fix_down_mono f : forall f' r r', fix_down f r = Some r' -> (f <= f')%nat -> fix_down f' r = Some r'.
Proof.
  induction f as [|f IH]; intros f' r r'; cbn [fix_down]; [discriminate|]. destruct f' as [|f']; [lia|]. cbn [fix_down].
  destruct (pass_down _ r) as [r1 [|]]; [|auto]. intros E L. apply IH; [exact E|lia].
Qed.

Lemma calc_stops srt H nb w ns : is_qsort srt -> exists f0, forall f, (f0 <= f)%nat -> exists r, calculate_ring f srt H nb w ns = Some r /\ le_all (maxpos nb) r.
Proof.
  intros Q. destruct (Q (entries H nb w ns)) as [P _]. set (r0 := srt (entries H nb w ns)) in *.
  assert (le_all (maxpos nb) r0) as F.
  { apply Forall_forall. intros x I. eapply Permutation_in in I; [|apply Permutation_sym; exact P]. unfold entries in I. apply in_flat_map in I. destruct I as (p & _ & I). apply in_map_iff in I. destruct I as (j & <- & _). apply hash_max. }
  destruct (fix_down_stops (S (N.to_nat (total r0))) r0 ltac:(lia) _ (le_n _)) as [r1 E1].
  pose proof (le_all_fix_down _ _ _ _ F E1) as F1.
  exists (Nat.max (S (N.to_nat (total r0))) (S (N.to_nat (slack (maxpos nb) r1)))). intros f L.
  unfold calculate_ring. fold r0. rewrite (fix_down_mono _ f _ _ E1) by lia.
  apply (fix_up_stops (maxpos nb) (S (N.to_nat (slack (maxpos nb) r1)))); [lia|exact F1|lia].
Qed.

Lemma clip_all nb w n : N.of_nat (n * w) <= 2 ^ nb -> clip nb w n = n.
Proof. intros L. destruct n as [|n]; [reflexivity|]. cbn [clip]. replace (2 ^ nb <? N.of_nat (S n * w)) with false by lia. reflexivity. Qed.

Lemma set_total srt H c ns : is_qsort srt -> nbits c <> 31 -> nbits c <= 32 -> N.of_nat (length ns * weight c) < 2 ^ 31 -> N.of_nat (length ns * weight c) <= 2 ^ nbits c ->
  exists f0, forall f, (f0 <= f)%nat -> exists c', set_nodes f srt H c ns = Set_ c' (length ns) /\ names c' = ns.
Proof.
  intros Q N31 N32 B C. destruct (calc_stops srt H (nbits c) (weight c) ns Q) as [f0 HF]. exists f0. intros f L. unfold set_nodes.
  replace (2 ^ 31 <=? N.of_nat (length ns * weight c)) with false by lia. replace (nbits c =? 31) with false by lia.
  replace (if nbits c <? 32 then clip (nbits c) (weight c) (length ns) else length ns) with (length ns) by (rewrite clip_all by exact C; destruct (nbits c <? 32); reflexivity).
  destruct (HF f L) as (r & E & _). rewrite firstn_all. destruct (Nat.ltb_spec 0 (length ns)) as [P|P].
  - rewrite E. eexists. split; reflexivity.
  - destruct ns; [|cbn in P; lia]. eexists. split; reflexivity.
Qed.
