(** Codec of heartbeat messages, the view of the sender, payload lookup. *)
From Coq Require Import Arith NArith ZArith List Bool Lia ZifyBool ZifyNat ZifyN.
From Verif.Common Require Import Bits.
From Verif.Cluster Require Import Model Spec.
Import ListNotations.
Local Open Scope N_scope.
Ltac Zify.zify_post_hook ::= Z.div_mod_to_equations.

Lemma same_id_spec a b : same_id a b = true <-> a = b.
Proof.
  revert b. induction a as [|x a IH]; intros [|y b]; cbn [same_id]; split; intros H; try reflexivity; try discriminate.
  - apply andb_true_iff in H. destruct H as [H1 H2]. apply N.eqb_eq in H1. apply IH in H2. congruence.
  - injection H as -> ->. apply andb_true_iff. split; [apply N.eqb_refl|]. apply IH. reflexivity.
Qed.
Lemma same_id_refl a : same_id a a = true. Proof. apply same_id_spec. reflexivity. Qed.

Lemma tv_eta t : {| sec := sec t; usec := usec t |} = t. Proof. destruct t. reflexivity. Qed.
Lemma tv_eq a b : sec a = sec b -> usec a = usec b -> a = b.
Proof. destruct a, b; cbn. intros -> ->. reflexivity. Qed.
Lemma cmp_eq a b : compare_timeval a b = Eq <-> a = b.
Proof.
  unfold compare_timeval. split.
  - intros H. destruct (Z.ltb_spec (sec a) (sec b)); [discriminate|]. destruct (Z.gtb_spec (sec a) (sec b)); [discriminate|].
    destruct (Z.ltb_spec (usec a) (usec b)); [discriminate|]. destruct (Z.gtb_spec (usec a) (usec b)); [discriminate|]. apply tv_eq; lia.
  - intros ->. rewrite !Z.ltb_irrefl, !Z.gtb_ltb, !Z.ltb_irrefl. reflexivity.
Qed.
Lemma cmp_lt a b : compare_timeval a b = Lt <-> (sec a < sec b \/ sec a = sec b /\ usec a < usec b)%Z.
Proof.
  unfold compare_timeval. destruct (Z.ltb_spec (sec a) (sec b)); [split; [auto|reflexivity]|].
  destruct (Z.gtb_spec (sec a) (sec b)); [split; [discriminate|lia]|].
  destruct (Z.ltb_spec (usec a) (usec b)); [split; [right; lia|reflexivity]|].
  destruct (Z.gtb_spec (usec a) (usec b)); split; (discriminate || lia).
Qed.
Lemma cmp_not_lt a b : compare_timeval a b <> Lt -> earlier_or_same b a.
Proof. intros H. unfold earlier_or_same. assert (~ (sec a < sec b \/ sec a = sec b /\ usec a < usec b)%Z) by (rewrite <- cmp_lt; exact H). lia. Qed.
Lemma dead_spec n : is_dead n = true <-> boot n = {| sec := 0; usec := 0 |}.
Proof. unfold is_dead. rewrite <- (cmp_eq (boot n)). change {| sec := 0; usec := 0 |} with boot_time_of_dead_node. destruct (compare_timeval _ _); split; congruence. Qed.

(** nodes[i] *)
Lemma nth_node_some l i n : nth_error l i = Some n -> nth_node l i = n.
Proof. intros H. unfold nth_node. apply nth_error_nth. exact H. Qed.
Lemma nth_set_same l i x : (i < length l)%nat -> nth_error (set_nth l i x) i = Some x.
Proof. revert i. induction l as [|y l IH]; intros [|i] H; cbn in *; try lia; [reflexivity|]. apply IH. lia. Qed.
Lemma nth_set_other l i j x : j <> i -> nth_error (set_nth l i x) j = nth_error l j.
Proof. revert i j. induction l as [|y l IH]; intros [|i] [|j] H; cbn; try reflexivity; try congruence. apply IH. congruence. Qed.
Lemma set_nth_length l i x : length (set_nth l i x) = length l.
Proof. revert i. induction l as [|y l IH]; intros [|i]; cbn; congruence. Qed.
Lemma set_nth_nid l i x n : nth_error l i = Some n -> nid x = nid n -> map nid (set_nth l i x) = map nid l.
Proof.
  revert i. induction l as [|y l IH]; intros [|i] H E; cbn in *; try discriminate.
  - injection H as ->. rewrite E. reflexivity.
  - rewrite (IH i H E). reflexivity.
Qed.
Lemma nth_some_lt {A} (l : list A) i x : nth_error l i = Some x -> (i < length l)%nat.
Proof. intros H. apply nth_error_Some. congruence. Qed.

(** the wire format *)
Lemma be_length n x : length (be n x) = n. Proof. induction n; cbn; congruence. Qed.
Lemma be_bytes n x : Forall byte (be n x).
Proof. induction n; cbn [be]; constructor; [|assumption]. unfold byte. apply N.mod_lt. lia. Qed.
Lemma unbe_acc l a : fold_left (fun a b => a * 256 + b) l a = a * 256 ^ N.of_nat (length l) + unbe l.
Proof.
  unfold unbe. revert a. induction l as [|x l IH]; intros a; [cbn; lia|].
  cbn [fold_left length]. rewrite IH, (IH (0 * 256 + x)). rewrite Nat2N.inj_succ, N.pow_succ_r'. nia.
Qed.
Lemma unbe_be n x : unbe (be n x) = x mod 256 ^ N.of_nat n.
Proof.
  induction n as [|n IH]; [cbn; rewrite N.mod_1_r; reflexivity|]. cbn [be]. unfold unbe. cbn [fold_left].
  rewrite unbe_acc, IH, be_length. rewrite Nat2N.inj_succ, N.pow_succ_r'.
  replace (2 ^ (8 * N.of_nat n)) with (256 ^ N.of_nat n) by (change 256 with (2 ^ 8); rewrite <- N.pow_mul_r; reflexivity).
  set (q := 256 ^ N.of_nat n). assert (q <> 0) by (apply N.pow_nonzero; lia). rewrite (N.mul_comm 256 q), N.mod_mul_r by lia. lia.
Qed.
Lemma unbe_be8 x : x < 2 ^ 64 -> unbe (be 8 x) = x.
Proof. intros H. rewrite unbe_be. change (256 ^ N.of_nat 8) with (2 ^ 64). apply N.mod_small. exact H. Qed.
Lemma packed_lt t : packed_time t < 2 ^ 64.
Proof.
  unfold packed_time. apply lor_lt; [|].
  - rewrite shiftl_mul. assert (sec t mod 2 ^ 40 < 2 ^ 40)%Z by (apply Z.mod_pos_bound; lia). assert (0 <= sec t mod 2 ^ 40)%Z by (apply Z.mod_pos_bound; lia). lia.
  - assert (usec t mod 2 ^ 24 < 2 ^ 24)%Z by (apply Z.mod_pos_bound; lia). assert (0 <= usec t mod 2 ^ 24)%Z by (apply Z.mod_pos_bound; lia). lia.
Qed.
Lemma packed_back t : wire_time t ->
  {| sec := Z.of_N ((packed_time t / 2 ^ 24) mod 2 ^ 40); usec := Z.of_N (packed_time t mod 2 ^ 24) |} = t.
Proof.
  intros [H1 H2]. unfold packed_time. rewrite !Z.mod_small by lia. rewrite shiftl_mul, lor_disjoint by lia.
  set (a := Z.to_N (sec t)). set (b := Z.to_N (usec t)). assert (a < 2 ^ 40) by lia. assert (b < 2 ^ 24) by lia.
  replace ((a * 2 ^ 24 + b) / 2 ^ 24) with a. 2:{ rewrite N.div_add_l by lia. rewrite (N.div_small b) by assumption. lia. }
  replace ((a * 2 ^ 24 + b) mod 2 ^ 24) with b. 2:{ rewrite N.add_comm, N.mod_add by lia. rewrite N.mod_small by assumption. reflexivity. }
  rewrite N.mod_small by assumption. apply tv_eq; cbn [sec usec]; subst a b; lia.
Qed.

Lemma memwrite_ok ps wa : forall out, (Z.of_nat (length out + length (concat ps)) <= wa)%Z -> memwrite ps wa out = inl (out ++ concat ps).
Proof.
  induction ps as [|p ps IH]; intros out H; cbn [memwrite concat] in *; [rewrite app_nil_r; reflexivity|].
  rewrite app_length in H. destruct (Z.gtb_spec (Z.of_nat (length out + length p)) wa); [lia|].
  rewrite IH by (rewrite app_length; lia). rewrite <- app_assoc. reflexivity.
Qed.
Lemma memwrite_inv ps wa : forall out o, (Z.of_nat (length out) <= wa)%Z -> memwrite ps wa out = inl o ->
  o = out ++ concat ps /\ (Z.of_nat (length out + length (concat ps)) <= wa)%Z.
Proof.
  induction ps as [|p ps IH]; intros out o L H; cbn [memwrite concat] in *.
  - injection H as <-. rewrite app_nil_r. cbn. split; [reflexivity|lia].
  - destruct (Z.gtb_spec (Z.of_nat (length out + length p)) wa); [discriminate|].
    apply IH in H; [|rewrite app_length; lia]. rewrite <- app_assoc in H. rewrite !app_length in *. split; [apply H|lia].
Qed.

Definition header (id : list N) (t : tv) (s n : N) : list N := [17] ++ id ++ be 8 (packed_time t) ++ be 8 s ++ [n].
Lemma headers_concat tbl : Forall entry_ok tbl ->
  concat (flat_map (fun e => [[app e]; [key e]; [N.of_nat (length (data e)) mod 256]]) tbl) = flat_map (fun e => [app e; key e; N.of_nat (length (data e))]) tbl.
Proof.
  induction 1 as [|e tbl (_ & _ & H & _) F IH]; [reflexivity|]. cbn [flat_map List.app concat]. rewrite IH. rewrite N.mod_small by lia. reflexivity.
Qed.
Lemma pieces_concat id t s tbl : Forall entry_ok tbl -> (length tbl < 256)%nat ->
  concat (pieces id t s tbl) = header id t s (N.of_nat (length tbl)) ++ table_bytes tbl.
Proof.
  intros F L. unfold pieces, header. rewrite N.mod_small by lia. rewrite concat_app. cbn [concat]. rewrite app_nil_r, <- !app_assoc.
  do 5 f_equal. destruct (N.eqb_spec (N.of_nat (length tbl)) 0) as [E|E].
  - destruct tbl; [reflexivity|discriminate].
  - rewrite concat_app, headers_concat by assumption. reflexivity.
Qed.
Lemma headers_length tbl : length (flat_map (fun e => [app e; key e; N.of_nat (length (data e))]) tbl) = (3 * length tbl)%nat.
Proof. induction tbl as [|e tbl IH]; [reflexivity|]. cbn [flat_map List.app length]. rewrite IH. lia. Qed.
Lemma table_bytes_length tbl : N.of_nat (length (table_bytes tbl)) = 3 * N.of_nat (length tbl) + sum_data tbl.
Proof. unfold table_bytes, sum_data. rewrite app_length, headers_length. lia. Qed.
Lemma header_length id t s n : length id = 16%nat -> length (header id t s n) = 34%nat.
Proof. intros H. unfold header. rewrite !app_length, !be_length, H. reflexivity. Qed.

(** composing succeeds exactly when there is room *)
Lemma compose_spec id t s tbl len : length id = 16%nat -> Forall entry_ok tbl -> (length tbl < 256)%nat ->
  (Z.of_N (34 + 3 * N.of_nat (length tbl) + sum_data tbl) <= len)%Z ->
  compose id t s tbl len = inl (header id t s (N.of_nat (length tbl)) ++ table_bytes tbl).
Proof.
  intros I F L R. unfold compose. rewrite memwrite_ok; rewrite pieces_concat by assumption; [reflexivity|].
  cbn [length]. rewrite app_length, header_length by assumption. pose proof (table_bytes_length tbl). lia.
Qed.
Lemma compose_inv id t s tbl len msg : length id = 16%nat -> Forall entry_ok tbl -> (length tbl < 256)%nat ->
  compose id t s tbl len = inl msg -> msg = header id t s (N.of_nat (length tbl)) ++ table_bytes tbl.
Proof.
  intros I F L H. unfold compose in H. destruct (Z.leb_spec 0 len).
  - apply memwrite_inv in H; [|cbn; lia]. rewrite pieces_concat in H by assumption. apply H.
  - unfold pieces in H. cbn [List.app memwrite] in H. destruct (Z.gtb_spec (Z.of_nat (length (@nil N) + length [17])) len); [discriminate|cbn in *; lia].
Qed.

(** reading back *)
Lemma firstn_app_exact {A} (a b : list A) n : length a = n -> firstn n (a ++ b) = a.
Proof. intros <-. rewrite firstn_app, Nat.sub_diag, firstn_all, firstn_O, app_nil_r. reflexivity. Qed.
Lemma skipn_app_exact {A} (a b : list A) n : length a = n -> skipn n (a ++ b) = b.
Proof. intros <-. rewrite skipn_app, skipn_all, Nat.sub_diag. reflexivity. Qed.
Lemma process_composed id t s n body now r w : length id = 16%nat -> wire_time t -> s < 2 ^ 64 -> (length body < N.to_nat 65536)%nat ->
  process (header id t s n ++ body) now r w =
  (0%Z, match find_node (nodes w) id 0 with Some i => heard w i t s body n now r | None => w end).
Proof.
  intros I T S L. assert (HL : length (header id t s n ++ body) = (34 + length body)%nat) by (rewrite app_length, header_length; [reflexivity|assumption]).
  unfold process. rewrite HL. set (lb := length body) in *.
  destruct (Nat.ltb_spec (34 + lb) 1); [lia|]. destruct (Nat.ltb_spec (34 + lb) 17); [lia|]. destruct (Nat.ltb_spec (34 + lb) 25); [lia|].
  destruct (Nat.ltb_spec (34 + lb) 33); [lia|]. destruct (Nat.ltb_spec (34 + lb) 34); [lia|].
  replace (N.to_nat (N.of_nat (34 + lb - 34) mod 65536)) with lb. 2:{ rewrite N.mod_small by lia. lia. }
  replace (skipn 34 (header id t s n ++ body)) with body. 2:{ symmetry. apply skipn_app_exact. apply header_length. exact I. }
  replace (firstn lb body) with body by (symmetry; apply firstn_all).
  unfold header. rewrite <- !app_assoc.
  replace (hd 0 ([17] ++ id ++ be 8 (packed_time t) ++ be 8 s ++ [n] ++ body)) with 17 by reflexivity.
  change (17 mod 16 <? 1) with false. change (negb (17 / 16 =? 1)) with false. cbv iota.
  replace (firstn 16 (skipn 1 ([17] ++ id ++ be 8 (packed_time t) ++ be 8 s ++ [n] ++ body))) with id.
  2:{ symmetry. change (skipn 1 ([17] ++ id ++ be 8 (packed_time t) ++ be 8 s ++ [n] ++ body)) with (id ++ be 8 (packed_time t) ++ be 8 s ++ [n] ++ body). apply firstn_app_exact. exact I. }
  replace (firstn 8 (skipn 17 ([17] ++ id ++ be 8 (packed_time t) ++ be 8 s ++ [n] ++ body))) with (be 8 (packed_time t)).
  2:{ symmetry. rewrite (app_assoc [17]). rewrite skipn_app_exact by (rewrite app_length, I; reflexivity). apply firstn_app_exact. apply be_length. }
  replace (firstn 8 (skipn 25 ([17] ++ id ++ be 8 (packed_time t) ++ be 8 s ++ [n] ++ body))) with (be 8 s).
  2:{ symmetry. rewrite (app_assoc [17]), (app_assoc ([17] ++ id)). rewrite skipn_app_exact by (rewrite !app_length, be_length, I; reflexivity). apply firstn_app_exact. apply be_length. }
  replace (nth 33 ([17] ++ id ++ be 8 (packed_time t) ++ be 8 s ++ [n] ++ body) 0) with n.
  2:{ symmetry. rewrite (app_assoc [17]), (app_assoc ([17] ++ id)), (app_assoc (([17] ++ id) ++ _)).
      assert (E : length ((([17] ++ id) ++ be 8 (packed_time t)) ++ be 8 s) = 33%nat) by (rewrite !app_length, !be_length, I; reflexivity).
      rewrite app_nth2 by (rewrite E; lia). rewrite E. reflexivity. }
  rewrite unbe_be8 by apply packed_lt. rewrite unbe_be8 by assumption. rewrite packed_back by assumption. destruct (find_node _ _ _); reflexivity.
Qed.

(** finding the sender *)
Lemma find_node_some l id : forall k i, find_node l id k = Some i -> exists n, (k <= i)%nat /\ nth_error l (i - k) = Some n /\ nid n = id.
Proof.
  induction l as [|x l IH]; intros k i H; cbn [find_node] in H; [discriminate|].
  destruct (same_id (nid x) id) eqn:E.
  - injection H as <-. exists x. rewrite Nat.sub_diag. split; [lia|]. split; [reflexivity|]. apply same_id_spec. exact E.
  - apply IH in H. destruct H as (n & L & H & Q). exists n. split; [lia|]. split; [|exact Q]. replace (i - k)%nat with (S (i - S k)) by lia. exact H.
Qed.
Lemma find_node_in l id : forall k i n, NoDup (map nid l) -> nth_error l i = Some n -> nid n = id -> find_node l id k = Some (k + i)%nat.
Proof.
  induction l as [|x l IH]; intros k i n D H E; [destruct i; discriminate|]. cbn [find_node map] in *. inversion D as [|? ? D1 D2]; subst.
  destruct i as [|i]; cbn in H.
  - injection H as ->. rewrite same_id_refl. f_equal. lia.
  - destruct (same_id (nid x) (nid n)) eqn:Q.
    + apply same_id_spec in Q. exfalso. apply D1. rewrite Q. apply in_map. eapply nth_error_In. exact H.
    + rewrite (IH (S k) i n D2 H eq_refl). f_equal. lia.
Qed.

(** effects of on_node_changed on the nodes *)
Lemma onc_nodes w i t s ch r : nodes (on_node_changed w i t s ch r) = set_nth (nodes w) i (with_boot (nth_node (nodes w) i) t s).
Proof.
  unfold on_node_changed. cbn [nodes with_nodes me my_boot oldest]. destruct (_ && _); [reflexivity|].
  destruct (_ || _); [reflexivity|]. destruct (oldest w); [|reflexivity]. destruct (compare_timeval _ _); reflexivity.
Qed.
Lemma onc_static w i t s ch r : let w' := on_node_changed w i t s ch r in me w' = me w /\ timeout w' = timeout w /\ maturity w' = maturity w.
Proof.
  unfold on_node_changed. cbn [nodes with_nodes me my_boot oldest timeout maturity]. destruct (_ && _); [cbn; auto|].
  destruct (_ || _); [cbn; auto|]. destruct (oldest w); [|cbn; auto]. destruct (compare_timeval _ _); cbn; auto.
Qed.
Definition heard_node (n : node) (t : tv) (s : N) (p : list N) (count : N) (now : tv) : node :=
  with_contact (if changes n t s p =? 0 then n else with_boot (store_payload n p count) t s) now.
Lemma heard_nodes w i t s p count now r n : nth_error (nodes w) i = Some n ->
  nodes (heard w i t s p count now r) = set_nth (nodes w) i (heard_node n t s p count now).
Proof.
  intros H. pose proof (nth_some_lt _ _ _ H) as L. unfold heard, heard_node. rewrite (nth_node_some _ _ _ H).
  destruct (_ =? 0); cbn [nodes with_nodes]; [rewrite (nth_node_some _ _ _ H); reflexivity|].
  rewrite onc_nodes. cbn [nodes with_nodes]. set (x := store_payload n p count).
  rewrite (nth_node_some (set_nth (nodes w) i x) i x) by (apply nth_set_same; exact L).
  set (y := with_boot x t s). rewrite (nth_node_some _ i y) by (apply nth_set_same; rewrite set_nth_length; exact L).
  clear. revert i. induction (nodes w) as [|z l IH]; intros [|i]; cbn [set_nth]; try reflexivity. f_equal. apply IH.
Qed.
Lemma heard_nid n t s p count now : nid (heard_node n t s p count now) = nid n.
Proof. unfold heard_node. destruct (_ =? 0); reflexivity. Qed.
Lemma payload_stored n p count : payload_of (store_payload n p count) = p.
Proof.
  unfold payload_of, store_payload. cbn [buf plen]. rewrite Nat2N.id. destruct (buf n) as [b|]; [destruct (_ <? _)|]; try apply firstn_all. apply firstn_app_exact. reflexivity.
Qed.
Lemma changes_zero n t s p : changes n t s p = 0 -> boot n = t /\ cseq n = s /\ N.of_nat (length p) = plen n /\ same_id p (payload_of n) = true.
Proof.
  unfold changes. destruct (compare_timeval (boot n) t) eqn:E; try discriminate. apply cmp_eq in E.
  destruct (N.eqb_spec s (cseq n)); [|unfold CHANGED_SEQ; destruct (same_payload n p); discriminate].
  unfold same_payload. destruct (N.eqb_spec (N.of_nat (length p)) (plen n)) as [L|]; [|discriminate]. unfold payload_of. rewrite <- L, Nat2N.id.
  destruct (same_id p _); [auto|discriminate].
Qed.
Lemma changes_zero_iff n t s p : N.of_nat (length (payload_of n)) = plen n -> (changes n t s p = 0 <-> boot n = t /\ cseq n = s /\ payload_of n = p).
Proof.
  intros W. split.
  - intros H. apply changes_zero in H. destruct H as (A & B & _ & C). apply same_id_spec in C. auto.
  - intros (A & B & C). unfold changes. apply cmp_eq in A. rewrite A, B, N.eqb_refl. unfold same_payload.
    assert (L : N.of_nat (length p) = plen n) by (rewrite <- C; exact W). rewrite L, N.eqb_refl.
    replace (length p) with (N.to_nat (plen n)) by (rewrite <- L; apply Nat2N.id). fold (payload_of n). rewrite C, same_id_refl. reflexivity.
Qed.

(** the encoding of a table determines its size *)
Lemma headers_inj t1 : forall t2 c1 c2 k, Forall entry_ok t1 -> Forall entry_ok t2 ->
  length c1 = (k + length (concat (map data t1)))%nat -> length c2 = (k + length (concat (map data t2)))%nat ->
  flat_map (fun e => [app e; key e; N.of_nat (length (data e))]) t1 ++ c1 = flat_map (fun e => [app e; key e; N.of_nat (length (data e))]) t2 ++ c2 ->
  length t1 = length t2.
Proof.
  induction t1 as [|e t1 IH]; intros [|f t2] c1 c2 k F1 F2 L1 L2 E; [reflexivity| | |].
  - exfalso. cbn [flat_map List.app map concat] in *. apply (f_equal (@length N)) in E. cbn [length] in E. rewrite !app_length in *. cbn [length] in *. lia.
  - exfalso. cbn [flat_map List.app map concat] in *. apply (f_equal (@length N)) in E. cbn [length] in E. rewrite !app_length in *. cbn [length] in *. lia.
  - cbn [flat_map List.app map concat length] in *. injection E as E1 E2 E3 E4. f_equal. inversion F1; inversion F2; subst.
    apply Nat2N.inj in E3. rewrite app_length in L1, L2.
    apply (IH t2 c1 c2 (k + length (data e))%nat); try assumption; lia.
Qed.
Lemma table_bytes_size t1 t2 : Forall entry_ok t1 -> Forall entry_ok t2 -> table_bytes t1 = table_bytes t2 -> length t1 = length t2.
Proof. intros F1 F2 E. unfold table_bytes in E. exact (headers_inj t1 t2 _ _ 0 F1 F2 eq_refl eq_refl E). Qed.
Lemma table_bytes_short tbl : table_ok tbl -> (length tbl < 256)%nat -> (length (table_bytes tbl) < N.to_nat 65536)%nat.
Proof. intros (_ & _ & H) L. pose proof (table_bytes_length tbl). lia. Qed.

Definition honest (n : node) : Prop :=
  (exists tbl, table_ok tbl /\ (length tbl < 256)%nat /\ payload_of n = table_bytes tbl /\ npay n = N.of_nat (length tbl)) /\
  N.of_nat (length (payload_of n)) = plen n.
Lemma fresh_honest id : honest (fresh id).
Proof.
  split; [|reflexivity]. exists []. split; [|split; [cbn; lia|split; reflexivity]]. split; [constructor|]. split; [constructor|]. vm_compute. discriminate.
Qed.
Lemma stored_wf n p count : N.of_nat (length (payload_of (store_payload n p count))) = plen (store_payload n p count).
Proof. rewrite payload_stored. reflexivity. Qed.
Lemma heard_view n x now : honest n -> sender_ok x ->
  let n' := heard_node n (s_boot x) (s_seq x) (table_bytes (s_table x)) (N.of_nat (length (s_table x))) now in
  honest n' /\ view n' (s_boot x) (s_seq x) (s_table x) /\ contact n' = now.
Proof.
  intros [(tbl & T1 & T2 & T3 & T4) W] (_ & _ & _ & _ & O & L). set (p := table_bytes (s_table x)).
  cbv zeta. unfold heard_node. destruct (N.eqb_spec (changes n (s_boot x) (s_seq x) p) 0) as [E|E].
  - apply changes_zero_iff in E; [|exact W]. destruct E as (E1 & E2 & E3).
    assert (Q : length tbl = length (s_table x)) by (apply table_bytes_size; [apply T1|apply O|rewrite <- T3; exact E3]).
    split; [split; [exists tbl; auto|exact W]|]. split; [|reflexivity]. unfold view. cbn [boot cseq npay with_contact]. rewrite T4, Q. auto.
  - split; [split|split; [|reflexivity]].
    + exists (s_table x). split; [exact O|]. split; [exact L|]. split; [apply payload_stored|reflexivity].
    + apply stored_wf.
    + unfold view. cbn [boot cseq npay with_contact with_boot store_payload]. split; [reflexivity|]. split; [reflexivity|]. split; [|reflexivity]. apply (payload_stored n p).
Qed.

(** the timeout check changes boot times only *)
Lemma sbb_refl a : same_but_boot a a. Proof. repeat split. Qed.
Lemma sbb_trans a b c : same_but_boot a b -> same_but_boot b c -> same_but_boot a c.
Proof. unfold same_but_boot. intuition congruence. Qed.
Lemma check_node_nodes now r w i j n : nth_error (nodes w) j = Some n ->
  exists n', nth_error (nodes (check_node now r w i)) j = Some n' /\ same_but_boot n' n.
Proof.
  intros H. unfold check_node. destruct (_ && _); [|exists n; split; [exact H|apply sbb_refl]].
  rewrite onc_nodes. destruct (Nat.eq_dec j i) as [->|D].
  - rewrite (nth_node_some _ _ _ H). eexists. split; [apply nth_set_same; eapply nth_some_lt; exact H|]. repeat split.
  - exists n. rewrite nth_set_other by exact D. split; [exact H|apply sbb_refl].
Qed.
Lemma check_node_length now r w i : length (nodes (check_node now r w i)) = length (nodes w).
Proof. unfold check_node. destruct (_ && _); [|reflexivity]. rewrite onc_nodes. apply set_nth_length. Qed.
Lemma check_fold_nodes now r l : forall w j n, nth_error (nodes w) j = Some n ->
  exists n', nth_error (nodes (fold_left (check_node now r) l w)) j = Some n' /\ same_but_boot n' n.
Proof.
  induction l as [|i l IH]; intros w j n H; cbn [fold_left]; [exists n; split; [exact H|apply sbb_refl]|].
  destruct (check_node_nodes now r w i j n H) as (n' & H' & S'). destruct (IH _ _ _ H') as (n'' & H'' & S'').
  exists n''. split; [exact H''|]. eapply sbb_trans; eassumption.
Qed.
Lemma check_fold_length now r l : forall w, length (nodes (fold_left (check_node now r) l w)) = length (nodes w).
Proof. induction l as [|i l IH]; intros w; cbn [fold_left]; [reflexivity|]. rewrite IH. apply check_node_length. Qed.

Lemma nth_ext_eq {A} (l m : list A) : (forall j, nth_error l j = nth_error m j) -> l = m.
Proof.
  revert m. induction l as [|x l IH]; intros [|y m] H; [reflexivity|specialize (H O); discriminate|specialize (H O); discriminate|].
  pose proof (H O) as E. injection E as ->. f_equal. apply IH. intros j. exact (H (S j)).
Qed.
Definition all_honest (ids : list (list N)) (w : world) : Prop :=
  length (nodes w) = length ids /\ forall j n, nth_error (nodes w) j = Some n -> nth_error ids j = Some (nid n) /\ honest n.
Lemma all_honest_nids ids w : all_honest ids w -> map nid (nodes w) = ids.
Proof.
  intros [L H]. apply nth_ext_eq. intros j. rewrite nth_error_map. destruct (nth_error (nodes w) j) as [n|] eqn:E; cbn.
  - apply H in E. symmetry. apply E.
  - apply nth_error_None in E. symmetry. apply nth_error_None. lia.
Qed.
Lemma hear_step ids w x i msg now r len : NoDup ids -> all_honest ids w -> sender_ok x -> nth_error ids i = Some (s_id x) ->
  compose (s_id x) (s_boot x) (s_seq x) (s_table x) len = inl msg ->
  exists w' n', process msg now r w = (0%Z, w') /\ nth_error (nodes w') i = Some n' /\ nid n' = s_id x /\
    view n' (s_boot x) (s_seq x) (s_table x) /\ contact n' = now /\ (forall j, j <> i -> nth_error (nodes w') j = nth_error (nodes w) j) /\ all_honest ids w'.
Proof.
  intros D A O I C. pose proof O as (O1 & O2 & O3 & O4 & O5 & O6). apply compose_inv in C; [|assumption|apply O5|assumption]. subst msg.
  rewrite process_composed by (try assumption; apply table_bytes_short; assumption).
  assert (exists n, nth_error (nodes w) i = Some n) as [n Hn].
  { destruct (nth_error (nodes w) i) eqn:E; [eauto|]. apply nth_error_None in E. pose proof (nth_some_lt _ _ _ I). destruct A. lia. }
  pose proof (proj2 A _ _ Hn) as [Q Hh]. assert (nid n = s_id x) as Hid by congruence.
  rewrite (find_node_in _ _ 0 i n); [|rewrite (all_honest_nids _ _ A); exact D|exact Hn|exact Hid]. cbn [Nat.add].
  destruct (heard_view n x now Hh O) as (V1 & V2 & V3).
  set (n' := heard_node _ _ _ _ _ _) in *. eexists. exists n'. split; [reflexivity|]. rewrite (heard_nodes _ _ _ _ _ _ _ _ _ Hn). fold n'.
  pose proof (nth_some_lt _ _ _ Hn) as L. split; [apply nth_set_same; exact L|].
  assert (N1 : nid n' = s_id x) by (subst n'; rewrite heard_nid; exact Hid).
  split; [exact N1|]. split; [exact V2|]. split; [exact V3|]. split; [intros j J; apply nth_set_other; exact J|].
  split; [rewrite (heard_nodes _ _ _ _ _ _ _ _ _ Hn), set_nth_length; apply A|]. intros j m. rewrite (heard_nodes _ _ _ _ _ _ _ _ _ Hn). fold n'.
  destruct (Nat.eq_dec j i) as [->|J].
  - rewrite nth_set_same by exact L. intros E. injection E as <-. rewrite N1. split; [exact I|exact V1].
  - rewrite nth_set_other by exact J. apply A.
Qed.
Lemma hear_unknown ids w x msg now r len : all_honest ids w -> sender_ok x -> ~ In (s_id x) ids ->
  compose (s_id x) (s_boot x) (s_seq x) (s_table x) len = inl msg -> process msg now r w = (0%Z, w).
Proof.
  intros A O I C. pose proof O as (O1 & O2 & O3 & O4 & O5 & O6). apply compose_inv in C; [|assumption|apply O5|assumption]. subst msg.
  rewrite process_composed by (try assumption; apply table_bytes_short; assumption).
  destruct (find_node (nodes w) (s_id x) 0) as [i|] eqn:E; [|reflexivity]. apply find_node_some in E. destruct E as (n & _ & E & Q).
  apply (proj2 A) in E. destruct E as [E _]. exfalso. apply I. rewrite <- Q. eapply nth_error_In. exact E.
Qed.
Lemma history_honest ids my mb tmo mat w : NoDup ids -> history ids my mb tmo mat w -> all_honest ids w.
Proof.
  intros D. induction 1 as [|w x len msg now r H IH O C|w now r H IH].
  - split; [apply map_length|]. cbn [nodes]. intros j n E. rewrite nth_error_map in E. destruct (nth_error ids j) as [id|]; [|discriminate].
    injection E as <-. split; [reflexivity|apply fresh_honest].
  - destruct (in_dec (list_eq_dec N.eq_dec) (s_id x) ids) as [I|I].
    + apply In_nth_error in I. destruct I as [i I]. destruct (hear_step _ _ _ _ _ now r _ D IH O I C) as (w' & n' & E & _ & _ & _ & _ & _ & A).
      rewrite E. exact A.
    + rewrite (hear_unknown ids w x msg now r len IH O I C). exact IH.
  - unfold check_timeout. destruct IH as [L IH]. split; [rewrite check_fold_length; exact L|]. intros j n E.
    assert (exists m, nth_error (nodes w) j = Some m) as [m M].
    { destruct (nth_error (nodes w) j) eqn:Q; [eauto|]. apply nth_error_None in Q. apply nth_some_lt in E. rewrite check_fold_length in E. lia. }
    destruct (check_fold_nodes now r (seq 0 (length (nodes w))) w j m M) as (n' & E' & S1 & S2 & S3 & S4 & S5 & S6).
    rewrite E in E'. injection E' as <-. destruct (IH _ _ M) as [I1 I2]. rewrite S1. split; [exact I1|].
    unfold honest, payload_of in *. rewrite S4, S5, S6. exact I2.
Qed.
Lemma roundtrip ids my mb tmo mat w x i len msg now r : NoDup ids -> history ids my mb tmo mat w -> sender_ok x ->
  nth_error ids i = Some (s_id x) -> compose (s_id x) (s_boot x) (s_seq x) (s_table x) len = inl msg ->
  exists w' n', process msg now r w = (0%Z, w') /\ nth_error (nodes w') i = Some n' /\ nid n' = s_id x /\
    view n' (s_boot x) (s_seq x) (s_table x) /\ contact n' = now /\ (forall j, j <> i -> nth_error (nodes w') j = nth_error (nodes w) j).
Proof.
  intros D H O I C. destruct (hear_step ids w x i msg now r len D (history_honest _ _ _ _ _ _ D H) O I C) as (w' & n' & Q). exists w', n'. intuition.
Qed.

(** messages that are not understood *)
Lemma ignored msg now r w : (length msg < 34)%nat \/ hd 0 msg mod 16 = 0 \/ hd 0 msg / 16 <> 1 -> snd (process msg now r w) = w.
Proof.
  intros H. unfold process. destruct (_ <? 1)%nat; [reflexivity|]. destruct (_ <? 17)%nat; [reflexivity|]. destruct (_ <? 25)%nat; [reflexivity|].
  destruct (_ <? 33)%nat; [reflexivity|]. destruct (Nat.ltb_spec (length msg) 34); [reflexivity|].
  destruct (N.ltb_spec (hd 0 msg mod 16) 1); [reflexivity|]. destruct (N.eqb_spec (hd 0 msg / 16) 1); [|reflexivity]. exfalso. lia.
Qed.
Lemma process_cases msg now r w :
  snd (process msg now r w) = w \/
  exists i t s p count, find_node (nodes w) (firstn 16 (skipn 1 msg)) 0 = Some i /\ snd (process msg now r w) = heard w i t s p count now r /\ (0 <= sec t)%Z /\ (0 <= usec t)%Z.
Proof.
  unfold process. destruct (_ <? 1)%nat; [auto|]. destruct (_ <? 17)%nat; [auto|]. destruct (_ <? 25)%nat; [auto|].
  destruct (_ <? 33)%nat; [auto|]. destruct (_ <? 34)%nat; [auto|]. destruct (_ <? 1); [auto|]. destruct (negb _); [auto|].
  destruct (find_node _ _ _) as [i|]; [|auto]. right. exists i. do 4 eexists. split; [reflexivity|]. split; [reflexivity|]. cbn [sec usec]. lia.
Qed.
Lemma only_sender msg now r w j n : nth_error (nodes w) j = Some n -> nid n <> firstn 16 (skipn 1 msg) ->
  nth_error (nodes (snd (process msg now r w))) j = Some n.
Proof.
  intros H D. destruct (process_cases msg now r w) as [->|(i & t & s & p & c & F & -> & _)]; [exact H|].
  apply find_node_some in F. destruct F as (m & _ & F & E). rewrite Nat.sub_0_r in F. rewrite (heard_nodes _ _ _ _ _ _ _ _ _ F).
  rewrite nth_set_other; [exact H|]. intros ->. congruence.
Qed.
