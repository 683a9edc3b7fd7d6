(** Payload lookup, the oldest node, timeouts, the update hook. *)
From Coq Require Import Arith NArith ZArith List Bool Lia ZifyBool ZifyNat ZifyN.
From Verif.Common Require Import Bits.
From Verif.Cluster Require Import Model Spec Proofs.
Import ListNotations.
Local Open Scope N_scope.
Ltac Zify.zify_post_hook ::= Z.div_mod_to_equations.

(** * Payload lookup *)
Lemma sum_data_cons e l : sum_data (e :: l) = N.of_nat (length (data e)) + sum_data l.
Proof. unfold sum_data. cbn [map concat]. rewrite app_length. lia. Qed.
Lemma sum_data_nil : sum_data [] = 0. Proof. reflexivity. Qed.
Lemma sum_data_app a b : sum_data (a ++ b) = sum_data a + sum_data b.
Proof. unfold sum_data. rewrite map_app, concat_app, app_length. lia. Qed.
Lemma sum_data_firstn n l : sum_data (firstn n l) <= sum_data l.
Proof. rewrite <- (firstn_skipn n l) at 2. rewrite sum_data_app. lia. Qed.
Lemma firstn_snoc {A} (l : list A) i x : nth_error l i = Some x -> firstn (S i) l = firstn i l ++ [x].
Proof. revert i. induction l as [|y l IH]; intros [|i] H; cbn in *; try discriminate; [injection H as ->; reflexivity|]. rewrite (IH i H). reflexivity. Qed.
Lemma header_nth tbl c : forall i e, nth_error tbl i = Some e ->
  let b := flat_map (fun e => [app e; key e; N.of_nat (length (data e))]) tbl ++ c in
  nth_error b (3 * i) = Some (app e) /\ nth_error b (3 * i + 1) = Some (key e) /\ nth_error b (3 * i + 2) = Some (N.of_nat (length (data e))).
Proof.
  induction tbl as [|x tbl IH]; intros [|i] e H; cbn [nth_error] in H; try discriminate.
  - injection H as ->. repeat split.
  - destruct (IH i e H) as (H1 & H2 & H3). cbv zeta. cbn [flat_map]. rewrite <- app_assoc.
    replace (3 * S i)%nat with (S (S (S (3 * i)))) by lia. cbn [List.app nth_error Nat.add]. auto.
Qed.
Lemma scan_finds tbl c pl np i e : nth_error tbl i = Some e -> pl = 3 * N.of_nat (length tbl) + sum_data tbl ->
  (forall j x, (j < i)%nat -> nth_error tbl j = Some x -> (app x, key x) <> (app e, key e)) ->
  forall m j fuel, (j + m)%nat = i -> (m < fuel)%nat ->
  scan fuel (flat_map (fun e => [app e; key e; N.of_nat (length (data e))]) tbl ++ c) pl np (app e) (key e) j (sum_data (firstn j (tl tbl)))
  = Slice (np * 3 + sum_data (firstn i (tl tbl))) (N.of_nat (length (data e))).
Proof.
  intros He Hp Hd. set (b := flat_map _ tbl ++ c).
  assert (Hs : forall j, sum_data (firstn j (tl tbl)) < pl).
  { intros j. pose proof (sum_data_firstn j (tl tbl)). apply nth_some_lt in He. assert (sum_data (tl tbl) <= sum_data tbl) by (destruct tbl; [reflexivity|rewrite sum_data_cons; cbn [tl]; lia]). lia. }
  assert (Hl := nth_some_lt _ _ _ He).
  induction m as [|m IH]; intros j [|fuel] E F; try lia.
  - assert (j = i) by lia. subst j. cbn [scan]. destruct (N.ltb_spec (sum_data (firstn i (tl tbl))) pl) as [_|Q]; [|specialize (Hs i); lia].
    destruct (header_nth tbl c i e He) as (H1 & H2 & H3). fold b in H1, H2, H3. rewrite H1, H2, H3, !N.eqb_refl. reflexivity.
  - destruct (nth_error tbl j) as [x|] eqn:X; [|apply nth_error_None in X; lia].
    destruct (nth_error tbl (S j)) as [y|] eqn:Y; [|apply nth_error_None in Y; lia].
    cbn [scan]. destruct (N.ltb_spec (sum_data (firstn j (tl tbl))) pl) as [_|Q]; [|specialize (Hs j); lia].
    destruct (header_nth tbl c j x X) as (H1 & H2 & _). destruct (header_nth tbl c (S j) y Y) as (_ & _ & H3). fold b in H1, H2, H3. rewrite H1, H2, H3.
    replace (sum_data (firstn j (tl tbl)) + N.of_nat (length (data y))) with (sum_data (firstn (S j) (tl tbl))).
    2:{ rewrite (firstn_snoc (tl tbl) j y) by (destruct tbl; [discriminate|exact Y]). rewrite sum_data_app, sum_data_cons, sum_data_nil. lia. }
    specialize (Hd j x ltac:(lia) X). rewrite IH by lia.
    destruct (N.eqb_spec (app x) (app e)); [|reflexivity]. destruct (N.eqb_spec (key x) (key e)); [congruence|reflexivity].
Qed.
Lemma holds_buf n tbl : holds n tbl -> exists c, buf n = Some (table_bytes tbl ++ c) /\ plen n = 3 * N.of_nat (length tbl) + sum_data tbl.
Proof.
  intros (P & _ & b & B & L). unfold payload_of in P. rewrite B in P. exists (skipn (N.to_nat (plen n)) b). rewrite <- P, firstn_skipn.
  split; [exact B|]. rewrite <- table_bytes_length, <- P, firstn_length. lia.
Qed.
Lemma nodup_first {A B} (f : A -> B) l i j x y : NoDup (map f l) -> nth_error l i = Some x -> nth_error l j = Some y -> i <> j -> f x <> f y.
Proof.
  intros D I J N E. apply N. rewrite NoDup_nth_error in D. apply D; [rewrite map_length; eapply nth_some_lt; exact I|].
  rewrite !nth_error_map, I, J. cbn. congruence.
Qed.
Lemma get_registered n tbl i e : holds n tbl -> table_ok tbl -> nth_error tbl i = Some e ->
  get_payload n (app e) (key e) = Slice (3 * N.of_nat (length tbl) + sum_data (firstn i (tl tbl))) (N.of_nat (length (data e))).
Proof.
  intros H (_ & D & _) He. destruct (holds_buf _ _ H) as (c & B & L). destruct H as (_ & NP & _). unfold get_payload. rewrite B.
  unfold table_bytes. rewrite <- app_assoc. rewrite NP. replace 0 with (sum_data (firstn 0 (tl tbl))) by reflexivity.
  rewrite (scan_finds tbl _ (plen n) (N.of_nat (length tbl)) i e He L) with (m := i); try lia.
  - rewrite N.mul_comm. reflexivity.
  - intros j x J X. exact (nodup_first (fun e => (app e, key e)) tbl j i x e D X He ltac:(lia)).
  - apply nth_some_lt in He. rewrite app_length, headers_length. lia.
Qed.
Lemma place_diff tbl i e0 e : nth_error tbl 0 = Some e0 -> nth_error tbl i = Some e ->
  3 * N.of_nat (length tbl) + sum_data (firstn i (tl tbl)) + N.of_nat (length (data e0)) = place tbl i + N.of_nat (length (data e)).
Proof.
  intros H0 H. unfold place. destruct tbl as [|x tbl]; [discriminate|]. injection H0 as ->.
  assert (sum_data (firstn (S i) (e0 :: tbl)) = sum_data (firstn i (e0 :: tbl)) + N.of_nat (length (data e))) as E.
  { rewrite (firstn_snoc _ _ _ H), sum_data_app, sum_data_cons, sum_data_nil. lia. }
  cbn [firstn tl] in *. rewrite sum_data_cons in E. lia.
Qed.
Lemma place_bytes tbl i e : nth_error tbl i = Some e ->
  place tbl i + N.of_nat (length (data e)) <= N.of_nat (length (table_bytes tbl)) /\
  firstn (length (data e)) (skipn (N.to_nat (place tbl i)) (table_bytes tbl)) = data e.
Proof.
  intros H. apply nth_error_split in H. destruct H as (a & c & -> & <-). unfold place. rewrite firstn_app, firstn_all, Nat.sub_diag, app_nil_r.
  rewrite table_bytes_length, sum_data_app, sum_data_cons. split; [lia|].
  unfold table_bytes. rewrite skipn_app, headers_length, skipn_all2 by (rewrite headers_length; lia). cbn [List.app].
  replace (N.to_nat (3 * N.of_nat (length (a ++ e :: c)) + sum_data a) - 3 * length (a ++ e :: c))%nat with (N.to_nat (sum_data a)) by lia.
  rewrite map_app, concat_app. cbn [map concat]. unfold sum_data. rewrite Nat2N.id, skipn_app_exact by reflexivity. apply firstn_app_exact. reflexivity.
Qed.
Lemma get_exact n tbl i e e0 : holds n tbl -> table_ok tbl -> nth_error tbl i = Some e -> nth_error tbl 0 = Some e0 ->
  exists off, get_payload n (app e) (key e) = Slice off (N.of_nat (length (data e))) /\
  off + N.of_nat (length (data e0)) = place tbl i + N.of_nat (length (data e)) /\
  (off = place tbl i <-> length (data e) = length (data e0)).
Proof.
  intros H T He H0. eexists. split; [apply (get_registered n tbl i e H T He)|]. pose proof (place_diff tbl i e0 e H0 He) as E.
  split; [exact E|]. lia.
Qed.
Lemma get_equal_lengths n tbl i e e0 : holds n tbl -> table_ok tbl -> nth_error tbl i = Some e -> nth_error tbl 0 = Some e0 ->
  length (data e) = length (data e0) -> returns n (app e) (key e) (data e).
Proof.
  intros H T He H0 L. destruct (get_exact n tbl i e e0 H T He H0) as (off & G & _ & [_ E]). rewrite (E L) in G. exists (place tbl i).
  split; [exact G|]. destruct (place_bytes tbl i e He) as [B1 B2]. pose proof (proj1 H) as P. split; [|rewrite P; exact B2].
  destruct (holds_buf _ _ H) as (c & _ & ->). rewrite table_bytes_length in B1. exact B1.
Qed.
Lemma get_none n a k : plen n = 0 -> get_payload n a k = NotThere.
Proof. intros H. unfold get_payload. destruct (buf n); [|reflexivity]. cbn [scan]. rewrite H. reflexivity. Qed.
Lemma scan_absent tbl c pl np a k : pl = 3 * N.of_nat (length tbl) + sum_data tbl -> (length c < 3)%nat ->
  (forall e, In e tbl -> (app e, key e) <> (a, k)) ->
  forall m j fuel, (j + S m)%nat = length tbl -> (m < fuel)%nat ->
  scan fuel (flat_map (fun e => [app e; key e; N.of_nat (length (data e))]) tbl ++ c) pl np a k j (sum_data (firstn j (tl tbl))) = Overrun.
Proof.
  intros Hp Hc Hd. set (b := flat_map _ tbl ++ c).
  assert (Hs : forall j, (0 < length tbl)%nat -> sum_data (firstn j (tl tbl)) < pl).
  { intros j L. pose proof (sum_data_firstn j (tl tbl)). assert (sum_data (tl tbl) <= sum_data tbl) by (destruct tbl; [reflexivity|rewrite sum_data_cons; cbn [tl]; lia]). lia. }
  induction m as [|m IH]; intros j [|fuel] E F; try lia.
  - destruct (nth_error tbl j) as [x|] eqn:X; [|apply nth_error_None in X; lia].
    cbn [scan]. destruct (N.ltb_spec (sum_data (firstn j (tl tbl))) pl) as [_|Q]; [|specialize (Hs j); lia].
    destruct (header_nth tbl c j x X) as (H1 & H2 & _). fold b in H1, H2. rewrite H1, H2.
    assert (nth_error b (3 * S j + 2) = None) as ->. { apply nth_error_None. unfold b. rewrite app_length, headers_length. lia. }
    destruct (N.eqb_spec (app x) a); [|reflexivity]. destruct (N.eqb_spec (key x) k); [|reflexivity]. exfalso. apply (Hd x); [eapply nth_error_In; exact X|congruence].
  - destruct (nth_error tbl j) as [x|] eqn:X; [|apply nth_error_None in X; lia].
    destruct (nth_error tbl (S j)) as [y|] eqn:Y; [|apply nth_error_None in Y; lia].
    cbn [scan]. destruct (N.ltb_spec (sum_data (firstn j (tl tbl))) pl) as [_|Q]; [|specialize (Hs j); lia].
    destruct (header_nth tbl c j x X) as (H1 & H2 & _). destruct (header_nth tbl c (S j) y Y) as (_ & _ & H3). fold b in H1, H2, H3. rewrite H1, H2, H3.
    replace (sum_data (firstn j (tl tbl)) + N.of_nat (length (data y))) with (sum_data (firstn (S j) (tl tbl))).
    2:{ rewrite (firstn_snoc (tl tbl) j y) by (destruct tbl; [discriminate|exact Y]). rewrite sum_data_app, sum_data_cons, sum_data_nil. lia. }
    rewrite IH by lia. destruct (N.eqb_spec (app x) a); [|reflexivity]. destruct (N.eqb_spec (key x) k); [|reflexivity].
    exfalso. apply (Hd x); [eapply nth_error_In; exact X|congruence].
Qed.
Lemma get_absent_overrun n tbl a k : holds n tbl -> tbl <> [] -> buf n = Some (table_bytes tbl) -> sum_data tbl < 3 ->
  (forall e, In e tbl -> (app e, key e) <> (a, k)) -> get_payload n a k = Overrun.
Proof.
  intros H NE B S D. destruct (holds_buf _ _ H) as (c & _ & L). unfold get_payload. rewrite B. unfold table_bytes.
  replace 0 with (sum_data (firstn 0 (tl tbl))) by reflexivity.
  assert (0 < length tbl)%nat by (destruct tbl; [congruence|cbn; lia]).
  apply (scan_absent tbl _ (plen n) (npay n) a k L) with (m := (length tbl - 1)%nat); [|exact D|lia|].
  - unfold sum_data in S. lia.
  - rewrite app_length, headers_length. lia.
Qed.
