(** Payload tables, ownership and configuration updates of the cluster model. *)
From Coq Require Import Arith NArith ZArith List Bool Permutation Lia ZifyBool ZifyNat ZifyN.
From Verif.Cht Require Import Model Spec Proofs.
From Verif.Uuid Require Import Model.
From Verif.Cluster Require Import Model Spec Proofs Proofs2.
Import ListNotations.
Local Open Scope N_scope.

(** * The table of payloads *)
Notation keyof := (fun e => (app e, key e)).
Lemma is_entry_spec a k e : is_entry a k e = true <-> app e = a /\ key e = k.
Proof. unfold is_entry. rewrite andb_true_iff, !N.eqb_eq. reflexivity. Qed.
Lemma not_entry_spec a k e : negb (is_entry a k e) = true <-> (app e, key e) <> (a, k).
Proof.
  rewrite negb_true_iff. split; intros H.
  - intros Q. injection Q as Q1 Q2. assert (is_entry a k e = true) by (apply is_entry_spec; auto). congruence.
  - destruct (is_entry a k e) eqn:E; [|reflexivity]. apply is_entry_spec in E. destruct E. exfalso. apply H. congruence.
Qed.
Lemma others_acc a k tbl : forall s, fold_left (fun s e => if is_entry a k e then s else s + N.of_nat (length (data e))) tbl s =
  s + sum_data (filter (fun e => negb (is_entry a k e)) tbl).
Proof.
  induction tbl as [|e l IH]; intros s; cbn [fold_left filter]; [rewrite sum_data_nil; lia|]. rewrite IH. destruct (is_entry a k e); cbn [negb]; [reflexivity|].
  rewrite sum_data_cons. lia.
Qed.
Lemma others_sum a k tbl : others a k tbl = sum_data (filter (fun e => negb (is_entry a k e)) tbl).
Proof. unfold others. rewrite others_acc. lia. Qed.
Lemma place_perm {A} pos (x : A) l : Permutation (x :: l) (firstn pos l ++ x :: skipn pos l).
Proof. rewrite <- (firstn_skipn pos l) at 1. apply Permutation_middle. Qed.
Lemma sum_data_perm a b : Permutation a b -> sum_data a = sum_data b.
Proof. induction 1; rewrite ?sum_data_cons in *; try lia; reflexivity. Qed.
Lemma filter_nodup {A B} (f : A -> B) p l : NoDup (map f l) -> NoDup (map f (filter p l)).
Proof.
  induction l as [|x l IH]; cbn [map filter]; intros H; [constructor|]. inversion H as [|? ? N1 N2]; subst. destruct (p x); cbn [map]; [|auto]. constructor; [|auto].
  intros Q. apply N1. apply in_map_iff in Q. destruct Q as (y & E & Q). apply filter_In in Q. rewrite <- E. apply in_map. apply Q.
Qed.
Lemma sum_data_filter p l : sum_data (filter p l) <= sum_data l.
Proof. induction l as [|e l IH]; cbn [filter]; [reflexivity|]. destruct (p e); rewrite ?sum_data_cons in *; lia. Qed.
Lemma filter_entries p tbl : Forall entry_ok tbl -> Forall entry_ok (filter p tbl).
Proof. rewrite !Forall_forall. intros H e I. apply filter_In in I. apply H. apply I. Qed.
Lemma table_step_ok tbl o : op_ok o -> table_ok tbl -> table_ok (table_step tbl o).
Proof.
  intros O (F & D & B). destruct o as [pos a k d|a k]; cbn [table_step op_ok] in *.
  - unfold set_payload. rewrite others_sum. set (rest := filter _ tbl). destruct (N.ltb_spec max_payload_len_sum (sum_data rest + N.of_nat (length d))) as [L|L]; [split; auto|].
    cbn [snd]. set (x := {| app := a; key := k; data := d |}). pose proof (place_perm pos x rest) as P. split; [|split].
    + apply (Permutation_Forall P). constructor; [destruct O as (A & B1 & C & E); repeat split; assumption|apply filter_entries; exact F].
    + apply (Permutation_NoDup (Permutation_map keyof P)). cbn [map]. constructor; [|apply filter_nodup; exact D].
      intros Q. apply in_map_iff in Q. destruct Q as (y & E & Q). apply filter_In in Q. destruct Q as [_ Q]. apply not_entry_spec in Q. apply Q. exact E.
    + rewrite <- (sum_data_perm _ _ P), sum_data_cons. change max_payload_len_sum with 1512 in L. cbn [data x]. lia.
  - unfold unset_payload. cbn [snd]. split; [apply filter_entries; exact F|]. split; [apply filter_nodup; exact D|]. pose proof (sum_data_filter (fun e => negb (is_entry a k e)) tbl). lia.
Qed.
Lemma table_ops_ok ops : Forall op_ok ops -> table_ok (fold_left table_step ops []).
Proof.
  intros F. assert (G : table_ok []) by (split; [constructor|split; [constructor|vm_compute; discriminate]]). revert G. generalize (@nil entry).
  induction F as [|o l O F IH]; intros tbl G; cbn [fold_left]; [exact G|]. apply IH. apply table_step_ok; assumption.
Qed.
Lemma set_succeeds pos a k d tbl : fst (set_payload pos a k d tbl) = true <->
  sum_data (filter (fun e => negb (is_entry a k e)) tbl) + N.of_nat (length d) <= 1512.
Proof. unfold set_payload. rewrite others_sum. change max_payload_len_sum with 1512. destruct (N.ltb_spec 1512 (sum_data (filter (fun e => negb (is_entry a k e)) tbl) + N.of_nat (length d))); cbn [fst]; split; intros; try discriminate; try reflexivity; lia. Qed.
Lemma set_fails pos a k d tbl : fst (set_payload pos a k d tbl) = false -> snd (set_payload pos a k d tbl) = tbl.
Proof. unfold set_payload. destruct (_ <? _); [reflexivity|discriminate]. Qed.
Lemma set_map pos a k d tbl a' k' d' : fst (set_payload pos a k d tbl) = true ->
  (registered_as (snd (set_payload pos a k d tbl)) a' k' d' <-> if (a' =? a) && (k' =? k) then d' = d else registered_as tbl a' k' d').
Proof.
  unfold set_payload, registered_as. destruct (_ <? _); [discriminate|]. intros _. cbn [snd]. set (x := {| app := a; key := k; data := d |}).
  set (rest := filter _ tbl). assert (P : forall y, In y (firstn pos rest ++ x :: skipn pos rest) <-> In y (x :: rest)).
  { intros y. split; intros I; [eapply Permutation_in; [apply Permutation_sym, place_perm|exact I]|eapply Permutation_in; [apply place_perm|exact I]]. }
  rewrite P. clear P. cbn [In]. unfold rest. rewrite filter_In, not_entry_spec. cbn [app key].
  destruct (N.eqb_spec a' a) as [->|Ha], (N.eqb_spec k' k) as [->|Hk]; cbn [andb]; split.
  - intros [H|[_ H]]; [injection H as H; auto|congruence].
  - intros ->. left. reflexivity.
  - intros [H|[H _]]; [unfold x in H; congruence|exact H].
  - intros H. right. split; [exact H|congruence].
  - intros [H|[H _]]; [unfold x in H; congruence|exact H].
  - intros H. right. split; [exact H|congruence].
  - intros [H|[H _]]; [unfold x in H; congruence|exact H].
  - intros H. right. split; [exact H|congruence].
Qed.
Lemma unset_map a k tbl a' k' d' :
  registered_as (snd (unset_payload a k tbl)) a' k' d' <-> (a', k') <> (a, k) /\ registered_as tbl a' k' d'.
Proof. unfold unset_payload, registered_as. cbn [snd]. rewrite filter_In, not_entry_spec. cbn [app key]. tauto. Qed.
Lemma unset_answer a k tbl : fst (unset_payload a k tbl) = true <-> exists d, registered_as tbl a k d.
Proof.
  unfold unset_payload, registered_as. cbn [fst]. rewrite existsb_exists. split.
  - intros (e & I & E). apply is_entry_spec in E. destruct e as [a' k' d]. cbn in E. destruct E as [-> ->]. eauto.
  - intros [d I]. eexists. split; [exact I|]. apply is_entry_spec. auto.
Qed.
Lemma frame_exact id t s tbl len msg : length id = 16%nat -> Forall entry_ok tbl -> (length tbl < 256)%nat ->
  compose id t s tbl len = inl msg -> frame msg = 72 + 3 * N.of_nat (length tbl) + sum_data tbl.
Proof.
  intros I F L C. apply compose_inv in C; try assumption. subst msg. unfold frame. rewrite app_length, header_length by assumption.
  pose proof (table_bytes_length tbl). lia.
Qed.

(** * Ownership *)
Lemma existsb_same (g : nat -> list N) my l : existsb (fun i => same_id (g i) my) l = true <-> In my (map g l).
Proof. rewrite existsb_exists, in_map_iff. split; intros (i & A & B); exists i; [apply same_id_spec in B; auto|rewrite A; split; [exact B|apply same_id_refl]]. Qed.
Lemma filter_count (p : list N -> bool) ids sub : NoDup ids -> NoDup sub -> (forall x, In x sub -> In x ids) -> (forall x, p x = true <-> In x sub) ->
  length (filter p ids) = length sub.
Proof.
  intros D1 D2 I H. apply Permutation_length. apply NoDup_Permutation; [apply NoDup_filter; exact D1|exact D2|]. intros x. rewrite filter_In, H. split; [tauto|auto].
Qed.
Lemma map_nth_nodup (ids : list (list N)) l : NoDup ids -> NoDup l -> (forall i, In i l -> (i < length ids)%nat) -> NoDup (map (fun i => nth i ids []) l).
Proof.
  intros D. induction l as [|x l IH]; intros N L; [constructor|]. inversion N as [|? ? N1 N2]; subst. cbn [map]. constructor; [|apply IH; [exact N2|intros; apply L; right; assumption]].
  intros Q. apply in_map_iff in Q. destruct Q as (y & E & Q). apply N1. replace x with y; [exact Q|].
  eapply NoDup_nth; [exact D|apply L; right; exact Q|apply L; left; reflexivity|exact E].
Qed.
Lemma firstn_nodup {A} n (l : list A) : NoDup l -> NoDup (firstn n l).
Proof.
  revert n. induction l as [|x l IH]; intros [|n] H; cbn [firstn]; try constructor; inversion H as [|? ? N1 N2]; subst; [|apply IH; assumption].
  intros Q. apply N1. rewrite <- (firstn_skipn n l). apply in_or_app. auto.
Qed.
Lemma firstn_in {A} n (l : list A) x : In x (firstn n l) -> In x l.
Proof. intros H. rewrite <- (firstn_skipn n l). apply in_or_app. auto. Qed.
Lemma firstn_mono {A} n m (l : list A) x : (n <= m)%nat -> In x (firstn n l) -> In x (firstn m l).
Proof. intros L H. replace n with (Nat.min n m) in H by lia. rewrite <- firstn_firstn in H. apply firstn_in in H. exact H. Qed.
Lemma compile_order fuel srt H ids c cnt h : is_qsort srt -> compile fuel srt H ids = Set_ c cnt -> ids <> [] -> (length ids <= N.to_nat 65536)%nat ->
  exists order, NoDup order /\ length order = length ids /\ (forall i, In i order -> (i < length ids)%nat) /\
  forall w, vlookup_h c h (Z.min w (Z.of_nat (length ids))) = Nodes (firstn (wanted w (length ids)) order).
Proof.
  intros Q E NE L. unfold compile in E.
  assert (C : cnt = length ids).
  { unfold set_nodes in E. destruct (_ <=? _); [discriminate|]. change (nbits (alloc_custom 32 0) =? 31) with false in E. change (nbits (alloc_custom 32 0) <? 32) with false in E. cbv iota zeta in E.
    rewrite map_length in E. destruct (Nat.ltb_spec 0 (length ids)); [|destruct ids; [congruence|cbn in *; lia]].
    destruct (calculate_ring _ _ _ _ _ _); [|discriminate]. injection E as _ E. auto. }
  assert (P : (0 < length ids)%nat) by (destruct ids; [congruence|cbn; lia]).
  assert (W : (1 <= weight (alloc_custom 32 0))%nat) by (change (weight (alloc_custom 32 0)) with 32%nat; lia).
  destruct (owners _ _ _ _ _ _ _ h Q W E) as (order & O1 & O2 & O3 & O4); [lia|lia|]. exists order. subst cnt.
  split; [exact O1|]. split; [exact O2|]. split; [exact O3|]. intros w. rewrite O4. f_equal. unfold wanted. rewrite firstn_app.
  replace (Z.to_nat _ - length order)%nat with 0%nat by lia. cbn [firstn]. rewrite app_nil_r. reflexivity.
Qed.
Lemma own_count fuel srt H ids c cnt h w : is_qsort srt -> compile fuel srt H ids = Set_ c cnt -> ids <> [] -> (length ids <= N.to_nat 65536)%nat -> NoDup ids ->
  length (filter (fun my => do_i_own c ids my h w) ids) = wanted (at_least_one w) (length ids).
Proof.
  intros Q E NE L D. destruct (compile_order _ _ _ _ _ _ h Q E NE L) as (order & O1 & O2 & O3 & O4).
  set (n := wanted (at_least_one w) (length ids)). set (g := fun i => nth i ids []).
  rewrite (filter_count _ ids (map g (firstn n order))).
  - rewrite map_length, firstn_length, O2. unfold n, wanted. lia.
  - exact D.
  - apply map_nth_nodup; [exact D|apply firstn_nodup; exact O1|]. intros i I. apply O3. eapply firstn_in. exact I.
  - intros x I. apply in_map_iff in I. destruct I as (i & <- & I). apply nth_In. apply O3. eapply firstn_in. exact I.
  - intros x. unfold do_i_own. fold (at_least_one w). rewrite O4. fold n. apply existsb_same.
Qed.
Lemma own_more fuel srt H ids c cnt h my w w' : is_qsort srt -> compile fuel srt H ids = Set_ c cnt -> ids <> [] -> (length ids <= N.to_nat 65536)%nat ->
  (0 <= w <= w')%Z -> do_i_own c ids my h w = true -> do_i_own c ids my h w' = true.
Proof.
  intros Q E NE L W. destruct (compile_order _ _ _ _ _ _ h Q E NE L) as (order & O1 & O2 & O3 & O4). unfold do_i_own.
  replace (w <? 0)%Z with false by lia. replace (w' <? 0)%Z with false by lia. rewrite !O4. set (g := fun i => nth i ids []).
  intros H1. apply (existsb_same g) in H1. apply (existsb_same g). apply in_map_iff in H1. destruct H1 as (i & X & I). apply in_map_iff. exists i. split; [exact X|].
  eapply firstn_mono; [|exact I]. unfold wanted. lia.
Qed.
Lemma own_all fuel srt H ids c cnt h my w : is_qsort srt -> compile fuel srt H ids = Set_ c cnt -> ids <> [] -> (length ids <= 256)%nat -> NoDup ids ->
  (Z.of_nat (length ids) <= w)%Z -> In my ids -> do_i_own c ids my h w = true.
Proof.
  intros Q E NE L D W I. pose proof (own_count _ _ _ _ _ _ h w Q E NE ltac:(lia) D) as C.
  replace (wanted (at_least_one w) (length ids)) with (length ids) in C by (unfold wanted, at_least_one; destruct (w <? 0)%Z eqn:K; lia).
  assert (F : forall (p : list N -> bool) l, length (filter p l) = length l -> forall x, In x l -> p x = true).
  { intros p l. assert (K : forall l0, (length (filter p l0) <= length l0)%nat) by (induction l0 as [|y l0 IH]; cbn [filter length]; [lia|]; destruct (p y); cbn [length]; lia). induction l as [|y l IH]; cbn [filter length In]; [tauto|]. specialize (K l). destruct (p y) eqn:Y; cbn [length]; [|lia]. intros X x [->|J]; [exact Y|]. apply IH; [lia|exact J]. }
  exact (F _ _ C my I).
Qed.
Lemma primary_count fuel srt H ids c cnt h w g : is_qsort srt -> compile fuel srt H ids = Set_ c cnt -> ids <> [] -> (length ids <= N.to_nat 65536)%nat -> NoDup ids -> (1 <= w)%Z ->
  exists owners, NoDup owners /\ length owners = wanted w (length ids) /\ (forall i, In i owners -> (i < length ids)%nat) /\
  (forall my, snd (filter_owners c ids my h w (fun i _ => g i)) = Some (filter g owners)) /\
  (forall my, do_i_own c ids my h w = true <-> In my (map (fun i => nth i ids []) owners)) /\
  length (filter (fun my => fst (filter_owners c ids my h w (fun i _ => g i))) ids) = if existsb g owners then 1%nat else 0%nat.
Proof.
  intros Q E NE L D W. destruct (compile_order _ _ _ _ _ _ h Q E NE L) as (order & O1 & O2 & O3 & O4). exists (firstn (wanted w (length ids)) order).
  set (ow := firstn (wanted w (length ids)) order).
  split; [apply firstn_nodup; exact O1|]. split; [unfold ow; rewrite firstn_length, O2; unfold wanted; lia|].
  assert (LT : forall i, In i ow -> (i < length ids)%nat) by (intros i I; apply O3; eapply firstn_in; exact I). split; [exact LT|].
  unfold filter_owners. replace (w <? 1)%Z with false by lia. rewrite O4. fold ow. split; [reflexivity|]. split.
  { intros my. unfold do_i_own. replace (w <? 0)%Z with false by lia. rewrite O4. fold ow. apply (existsb_same (fun i => nth i ids [])). }
  cbn [fst]. destruct (filter g ow) as [|i r] eqn:F.
  - replace (existsb g ow) with false. { clear. induction ids; cbn [filter]; auto. }
    symmetry. destruct (existsb g ow) eqn:X; [|reflexivity]. apply existsb_exists in X. destruct X as (j & J1 & J2). assert (In j (filter g ow)) by (apply filter_In; auto). rewrite F in H0. destruct H0.
  - assert (I : In i ow /\ g i = true) by (apply filter_In; rewrite F; left; reflexivity).
    replace (existsb g ow) with true by (symmetry; apply existsb_exists; exists i; exact I).
    rewrite (filter_count _ ids [nth i ids []]); [reflexivity|exact D|repeat constructor; intros []| |].
    + intros x [<-|[]]. apply nth_In. apply LT. apply I.
    + intros x. rewrite same_id_spec. cbn [In]. intuition congruence.
Qed.

(** sorting gives the members the same view *)
Lemma id_le_refl a : id_le a a. Proof. induction a; cbn [id_le]; auto. Qed.
Lemma id_le_antisym a : forall b, id_le a b -> id_le b a -> a = b.
Proof.
  induction a as [|x a IH]; intros [|y b]; cbn [id_le]; try tauto. intros [H|[-> H]] [K|[E K]]; try lia. f_equal. auto.
Qed.
Fixpoint ordered (l : list (list N)) : Prop := match l with [] => True | b :: c => Forall (id_le b) c /\ ordered c end.
Lemma ordered_from l : (forall a b c, l = a ++ b :: c -> Forall (id_le b) c) -> ordered l.
Proof. induction l as [|x l IH]; intros H; cbn [ordered]; [exact I|]. split; [apply (H [] x l eq_refl)|]. apply IH. intros a b c E. apply (H (x :: a) b c). rewrite E. reflexivity. Qed.
Lemma ordered_unique a : forall b, Permutation a b -> ordered a -> ordered b -> a = b.
Proof.
  induction a as [|x a IH]; intros b P A B; [symmetry; apply Permutation_nil; exact P|].
  destruct b as [|y b]; [apply Permutation_sym, Permutation_nil in P; discriminate|]. cbn [ordered] in *. destruct A as [A1 A2], B as [B1 B2].
  assert (x = y).
  { assert (In x (y :: b)) as X by (eapply Permutation_in; [exact P|left; reflexivity]). assert (In y (x :: a)) as Y by (eapply Permutation_in; [apply Permutation_sym; exact P|left; reflexivity]).
    rewrite Forall_forall in A1, B1. destruct X as [->|X]; [reflexivity|]. destruct Y as [->|Y]; [reflexivity|]. apply id_le_antisym; auto. }
  subst y. f_equal. apply IH; [eapply Permutation_cons_inv; exact P|assumption|assumption].
Qed.
Lemma same_order f g l l' : sorts f -> sorts g -> Permutation l l' -> f l = g l'.
Proof.
  intros F G P. destruct (F l) as [F1 F2], (G l') as [G1 G2]. apply ordered_unique; [|apply ordered_from; exact F2|apply ordered_from; exact G2].
  rewrite <- F1, P. exact G1.
Qed.

(** * Listing the members *)
Lemma get_nodes_spec w n inc : match get_nodes w n inc with
  | inl e => (n < Z.of_nat (length (nodes w)))%Z /\ e = (- Z.of_nat (length (nodes w)))%Z
  | inr l => (Z.of_nat (length (nodes w)) <= n)%Z /\ forall i, In i l <-> exists x, nth_error (nodes w) i = Some x /\ (inc = true \/ nid x <> me w)
  end.
Proof.
  unfold get_nodes. destruct (Z.ltb_spec n (Z.of_nat (length (nodes w)))); [auto|]. split; [assumption|]. intros i. rewrite filter_In, in_seq. split.
  - intros [B C]. destruct (nth_error (nodes w) i) as [x|] eqn:E; [|apply nth_error_None in E; lia]. exists x. split; [reflexivity|].
    rewrite (nth_node_some _ _ _ E) in C. apply orb_true_iff in C. destruct C as [C|C]; [auto|]. right. intros Q. apply negb_true_iff in C. apply same_id_spec in Q. congruence.
  - intros (x & E & C). split; [apply nth_some_lt in E; lia|]. rewrite (nth_node_some _ _ _ E). apply orb_true_iff. destruct C as [C|C]; [auto|]. right. apply negb_true_iff.
    destruct (same_id (nid x) (me w)) eqn:Q; [|reflexivity]. apply same_id_spec in Q. contradiction.
Qed.

(** * Updates of the configuration *)
Lemma retrieve_replace g name c name' : retrieve (replace g name c) name' =
  if same_id name name' then (match retrieve g name with Some _ => Some c | None => None end) else retrieve g name'.
Proof.
  induction g as [|[n x] g IH]; cbn [replace retrieve]; [destruct (same_id name name'); reflexivity|].
  destruct (same_id n name) eqn:E; cbn [retrieve].
  - apply same_id_spec in E. subst n. destruct (same_id name name'); reflexivity.
  - rewrite IH. destruct (same_id name name') eqn:E2; [|reflexivity]. apply same_id_spec in E2. subst name'. rewrite E. reflexivity.
Qed.
Lemma retrieve_app g name c name' : retrieve (g ++ [(name, c)]) name' =
  match retrieve g name' with Some x => Some x | None => if same_id name name' then Some c else None end.
Proof. induction g as [|[n x] g IH]; cbn [List.app retrieve]; [destruct (same_id name name'); reflexivity|]. destruct (same_id n name'); [reflexivity|exact IH]. Qed.
Lemma read_head_name c name x : read_head c = Some (name, x) -> c_name c = Some name.
Proof.
  unfold read_head. destruct (c_name c) as [nm|]; [|discriminate]. destruct (negb _); [discriminate|]. destruct (c_seq c) as [| |s j]; try discriminate. destruct j; [discriminate|].
  destruct (int_attr (c_port_ c) None); [|discriminate]. destruct (_ || _); [discriminate|]. destruct (int_attr (c_period c) _); [|discriminate]. destruct (_ || _); [discriminate|].
  destruct (int_attr (c_timeout c) _); [|discriminate]. destruct (_ <? _)%Z; [discriminate|]. destruct (int_attr (c_maturity c) _); [|discriminate]. destruct (_ && _); [discriminate|]. intros H. injection H as H _. congruence.
Qed.
(** every entry of the table is only ever replaced by one with a larger sequence number *)
Lemma update_monotone nsort wr c g name x : retrieve g name = Some x ->
  exists y, retrieve (snd (update nsort wr c g)) name = Some y /\ (y = x \/ (r_seq x < r_seq y)%Z /\ c_name c = Some name).
Proof.
  intros R. unfold update. destruct (read_head c) as [[nm h]|] eqn:H; [|exists x; auto]. destruct (read_nodes _ _) as [[ids rv]|rv]; [|exists x; auto].
  destruct (retrieve g nm) as [o|] eqn:O.
  - cbn [r_seq]. destruct (Z.leb_spec (r_seq h) (r_seq o)) as [S1|S1]; [exists x; auto|]. destruct wr; [|exists x; auto]. cbn [snd]. rewrite retrieve_replace.
    destruct (same_id nm name) eqn:E; [|exists x; auto]. apply same_id_spec in E. subst nm. rewrite O. eexists. split; [reflexivity|]. right. cbn [r_seq].
    rewrite O in R. injection R as ->. split; [exact S1|]. eapply read_head_name. exact H.
  - destruct wr; [|exists x; auto]. cbn [snd]. rewrite retrieve_app, R. exists x. auto.
Qed.
Lemma updates_monotone nsort l : forall g name x, retrieve g name = Some x ->
  exists y, retrieve (fold_left (fun g (u : bool * conf) => snd (update nsort (fst u) (snd u) g)) l g) name = Some y /\ (y = x \/ (r_seq x < r_seq y)%Z).
Proof.
  induction l as [|u l IH]; intros g name x R; cbn [fold_left]; [exists x; auto|]. destruct (update_monotone nsort (fst u) (snd u) g name x R) as (y & Ry & Y).
  destruct (IH _ _ _ Ry) as (z & Rz & Z1). exists z. split; [exact Rz|]. destruct Y as [->|[Y _]]; [exact Z1|]. right. destruct Z1 as [->|Z1]; lia.
Qed.
Lemma read_nodes_ok l : forall rv ids rv', read_nodes l rv = inl (ids, rv') -> map c_id l = map Some ids.
Proof.
  induction l as [|n t IH]; intros rv ids rv'; cbn [read_nodes]; [intros H; injection H as <- _; reflexivity|]. destruct (c_id n) as [id|] eqn:E; [|discriminate].
  destruct (negb _); [discriminate|]. destruct (c_port n) as [p|]; [|discriminate]. destruct (_ || _); [discriminate|].
  destruct (c_addr n); try discriminate; (destruct (read_nodes t 1) as [[ids0 rv0]|] eqn:R; [|discriminate]; intros H; injection H as <- _; cbn [map]; rewrite E; f_equal; eapply IH; exact R).
Qed.
(** a table element the administrator got right *)
Lemma read_nodes_good l : Forall good_node l -> forall rv, exists ids rv', read_nodes l rv = inl (ids, rv').
Proof.
  induction 1 as [|n t (A & B & p & C & D & E) F IH]; intros rv; cbn [read_nodes]; [eauto|]. destruct (c_id n) as [id|]; [|congruence]. rewrite B, C. cbn [negb].
  replace ((p <? 0)%Z || (p >? 65535)%Z) with false by lia. destruct (IH 1%Z) as (ids & rv' & R). destruct E as [-> | ->]; rewrite R; eauto.
Qed.
Lemma read_nodes_bad l : forall rv rv', read_nodes l rv = inr rv' ->
  exists a n b, l = a ++ n :: b /\ Forall good_node a /\ ~ good_node n /\
  rv' = if match c_addr n with BadAddress => refused_by_address n | _ => false end then 0%Z else match a with [] => rv | _ => 1%Z end.
Proof.
  induction l as [|n t IH]; intros rv rv'; cbn [read_nodes]; [discriminate|].
  assert (B : forall v, ~ good_node n -> (if match c_addr n with BadAddress => refused_by_address n | _ => false end then 0%Z else rv) = v ->
     exists a n0 b, n :: t = a ++ n0 :: b /\ Forall good_node a /\ ~ good_node n0 /\ v = if match c_addr n0 with BadAddress => refused_by_address n0 | _ => false end then 0%Z else match a with [] => rv | _ => 1%Z end).
  { intros v G <-. exists [], n, t. repeat split; auto. }
  destruct (c_id n) as [id|] eqn:E1.
  2:{ intros H. injection H as <-. apply B; [intros (Q & _); congruence|]. unfold refused_by_address. rewrite E1. destruct (c_addr n); reflexivity. }
  destruct (c_cn n) eqn:E2; cbn [negb].
  2:{ intros H. injection H as <-. apply B; [intros (_ & Q & _); congruence|]. unfold refused_by_address. rewrite E1, E2. destruct (c_addr n); reflexivity. }
  destruct (c_port n) as [p|] eqn:E3.
  2:{ intros H. injection H as <-. apply B; [intros (_ & _ & p & Q & _); congruence|]. unfold refused_by_address. rewrite E1, E2, E3. destruct (c_addr n); reflexivity. }
  destruct ((p <? 0)%Z || (p >? 65535)%Z) eqn:E4.
  { intros H. injection H as <-. apply B; [intros (_ & _ & p' & Q & R & _); rewrite E3 in Q; injection Q as <-; lia|]. unfold refused_by_address. rewrite E1, E2, E3, E4. destruct (c_addr n); reflexivity. }
  destruct (c_addr n) eqn:E5.
  - intros H. injection H as <-. apply B; [intros (_ & _ & p' & _ & _ & [Q|Q]); congruence|]. reflexivity.
  - destruct (read_nodes t 1) as [[? ?]|v] eqn:R; [discriminate|]. intros H. injection H as <-. destruct (IH _ _ R) as (a & m & b & -> & F & G & V). exists (n :: a), m, b.
    split; [reflexivity|]. split; [constructor; [|exact F]; split; [congruence|]; split; [exact E2|]; exists p; split; [exact E3|]; split; [lia|auto]|]. split; [exact G|]. rewrite V. destruct a; reflexivity.
  - destruct (read_nodes t 1) as [[? ?]|v] eqn:R; [discriminate|]. intros H. injection H as <-. destruct (IH _ _ R) as (a & m & b & -> & F & G & V). exists (n :: a), m, b.
    split; [reflexivity|]. split; [constructor; [|exact F]; split; [congruence|]; split; [exact E2|]; exists p; split; [exact E3|]; split; [lia|auto]|]. split; [exact G|]. rewrite V. destruct a; reflexivity.
  - intros H. injection H as <-. apply B; [intros (_ & _ & p' & _ & _ & [Q|Q]); congruence|]. unfold refused_by_address. rewrite E1, E2, E3, E4. reflexivity.
Qed.
Lemma update_good nsort wr c g name : c_name c = Some name -> Forall good_node (c_nodes c) -> let r := update nsort wr c g in answers name (fst r) g (snd r).
Proof.
  intros Nm F. cbv zeta. unfold update, answers. destruct (read_head c) as [[nm h]|] eqn:H; [|left; auto]. apply read_head_name in H. assert (nm = name) as -> by congruence. clear H.
  destruct (read_nodes_good _ F (-1)%Z) as (ids & rv & R). rewrite R.
  destruct (retrieve g name) as [o|] eqn:O; cbn [r_seq].
  - destruct (Z.leb_spec (r_seq h) (r_seq o)); [right; right; right; cbn [fst snd]; eauto|]. destruct wr; cbn [fst snd]; [|auto].
    right. right. left. split; [reflexivity|]. exists o. eexists. split; [reflexivity|]. rewrite retrieve_replace, same_id_refl, O. split; [reflexivity|assumption].
  - destruct wr; cbn [fst snd]; [|auto]. right. left. split; [reflexivity|]. split; [reflexivity|]. rewrite retrieve_app, O, same_id_refl. eauto.
Qed.
Lemma update_bad nsort wr c g : read_head c <> None -> ~ Forall good_node (c_nodes c) ->
  exists a n b, c_nodes c = a ++ n :: b /\ Forall good_node a /\ ~ good_node n /\
  update nsort wr c g = (if match c_addr n with BadAddress => refused_by_address n | _ => false end then 0%Z else match a with [] => (-1)%Z | _ => 1%Z end, g).
Proof.
  intros H F. unfold update. destruct (read_head c) as [[nm h]|]; [|congruence]. destruct (read_nodes (c_nodes c) (-1)) as [[ids rv]|rv] eqn:R.
  - exfalso. apply F. clear -R. revert R. generalize (-1)%Z. revert ids rv. induction (c_nodes c) as [|n t IH]; intros ids rv v; [constructor|]. cbn [read_nodes].
    destruct (c_id n) as [id|] eqn:E1; [|discriminate]. destruct (c_cn n) eqn:E2; [|discriminate]. cbn [negb]. destruct (c_port n) as [p|] eqn:E3; [|discriminate].
    destruct ((p <? 0)%Z || (p >? 65535)%Z) eqn:E4; [discriminate|].
    destruct (c_addr n) eqn:E5; try discriminate; (destruct (read_nodes t 1) as [[i0 r0]|] eqn:R; [|discriminate]; intros _; constructor; [|eapply IH; exact R]; split; [congruence|]; split; [exact E2|]; exists p; split; [exact E3|]; split; [lia|auto]).
  - destruct (read_nodes_bad _ _ _ R) as (a & n & b & E & A & B & V). exists a, n, b. split; [exact E|]. split; [exact A|]. split; [exact B|]. rewrite V. reflexivity.
Qed.
Lemma to_int_id v : to_int v = v <-> (- 2 ^ 31 <= v < 2 ^ 31)%Z.
Proof. unfold to_int. split; intros H; [|rewrite Z.mod_small; lia]. pose proof (Z.mod_pos_bound (v + 2 ^ 31) (2 ^ 32) ltac:(lia)). lia. Qed.
Lemma head_values c name x : read_head c = Some (name, x) ->
  exists s p, c_seq c = Text s false /\ r_seq x = s /\ c_port_ c = Text p false /\ r_port x = to_int p /\ (0 < r_port x <= 65535)%Z /\
  r_period x = match c_period c with Text v _ => to_int v | _ => 200%Z end /\ (0 <= r_period x <= 5000)%Z /\
  r_timeout x = match c_timeout c with Text v _ => to_int v | _ => 5000%Z end /\ (r_period x <= r_timeout x)%Z /\
  r_maturity x = match c_maturity c with Text v _ => to_int v | _ => r_timeout x end /\ (0 <= r_maturity x)%Z.
Proof.
  unfold read_head. destruct (c_name c) as [nm|]; [|discriminate]. destruct (negb _); [discriminate|]. destruct (c_seq c) as [| |s j]; try discriminate. destruct j; [discriminate|].
  unfold int_attr. destruct (c_port_ c) as [| |p j]; try discriminate. destruct j; [discriminate|]. destruct ((to_int p <=? 0)%Z || (to_int p >? 65535)%Z) eqn:E1; [discriminate|].
  set (pe := match c_period c with Text v _ => to_int v | _ => 200%Z end).
  assert (X : match c_period c with Text v junk => if junk then None else Some (to_int v) | _ => Some 200%Z end = Some pe \/ match c_period c with Text v junk => if junk then None else Some (to_int v) | _ => Some 200%Z end = None) by (subst pe; destruct (c_period c) as [| |v [|]]; auto).
  destruct X as [X|X]; rewrite X; [|discriminate]. clear X. destruct ((pe <? 0)%Z || (pe >? 5000)%Z) eqn:E2; [discriminate|].
  set (ti := match c_timeout c with Text v _ => to_int v | _ => 5000%Z end).
  assert (X : match c_timeout c with Text v junk => if junk then None else Some (to_int v) | _ => Some 5000%Z end = Some ti \/ match c_timeout c with Text v junk => if junk then None else Some (to_int v) | _ => Some 5000%Z end = None) by (subst ti; destruct (c_timeout c) as [| |v [|]]; auto).
  destruct X as [X|X]; rewrite X; [|discriminate]. clear X. destruct (ti <? pe)%Z eqn:E3; [discriminate|].
  destruct (c_maturity c) as [| |m [|]]; try discriminate; rewrite ?andb_false_r, ?andb_true_r; [| |destruct (to_int m <? 0)%Z eqn:E4; [discriminate|]];
    intros H; injection H as <- <-; exists s, p; cbn [r_seq r_port r_period r_timeout r_maturity];
    (split; [reflexivity|]; split; [reflexivity|]; split; [reflexivity|]; split; [reflexivity|]; split; [lia|]; split; [reflexivity|]; split; [lia|]; split; [reflexivity|]; split; [lia|]; split; [reflexivity|lia]).
Qed.
Lemma read_nodes_all_good l : forall rv ids rv', read_nodes l rv = inl (ids, rv') -> Forall good_node l.
Proof.
  induction l as [|n t IH]; intros rv ids rv'; [constructor|]. cbn [read_nodes].
  destruct (c_id n) as [id|] eqn:E1; [|discriminate]. destruct (c_cn n) eqn:E2; [|discriminate]. cbn [negb]. destruct (c_port n) as [p|] eqn:E3; [|discriminate].
  destruct ((p <? 0)%Z || (p >? 65535)%Z) eqn:E4; [discriminate|].
  destruct (c_addr n) eqn:E5; try discriminate; (destruct (read_nodes t 1) as [[i0 r0]|] eqn:R; [|discriminate]; intros _; constructor; [|eapply IH; exact R]; split; [congruence|]; split; [exact E2|]; exists p; split; [exact E3|]; split; [lia|auto]).
Qed.
Lemma update_stored nsort wr c g name : retrieve (snd (update nsort wr c g)) name <> retrieve g name ->
  exists y p ids, retrieve (snd (update nsort wr c g)) name = Some y /\ c_name c = Some name /\ Forall good_node (c_nodes c) /\
  map c_id (c_nodes c) = map Some ids /\ r_ids y = nsort ids /\ c_seq c = Text (r_seq y) false /\
  c_port_ c = Text p false /\ r_port y = to_int p /\ (0 < r_port y <= 65535)%Z /\
  r_period y = match c_period c with Text v _ => to_int v | _ => 200%Z end /\ (0 <= r_period y <= 5000)%Z /\
  r_timeout y = match c_timeout c with Text v _ => to_int v | _ => 5000%Z end /\ (r_period y <= r_timeout y)%Z /\
  r_maturity y = match c_maturity c with Text v _ => to_int v | _ => r_timeout y end /\ (0 <= r_maturity y)%Z.
Proof.
  unfold update. destruct (read_head c) as [[nm h]|] eqn:H; [|cbn [snd]; congruence]. destruct (read_nodes _ _) as [[ids rv]|rv] eqn:R; [|cbn [snd]; congruence].
  pose proof (read_nodes_ok _ _ _ _ R) as I. pose proof (read_nodes_all_good _ _ _ _ R) as F. pose proof (read_head_name _ _ _ H) as Nm. destruct (head_values _ _ _ H) as (s & p & V1 & V2 & V3 & V4 & V5 & V6 & V7 & V8 & V9 & V10 & V11).
  set (x := {| r_seq := r_seq h; r_port := r_port h; r_period := r_period h; r_timeout := r_timeout h; r_maturity := r_maturity h; r_ids := nsort ids |}).
  assert (K : forall g', g' = Some x -> nm = name -> exists y p0 ids0, g' = Some y /\ c_name c = Some name /\ Forall good_node (c_nodes c) /\
    map c_id (c_nodes c) = map Some ids0 /\ r_ids y = nsort ids0 /\ c_seq c = Text (r_seq y) false /\
    c_port_ c = Text p0 false /\ r_port y = to_int p0 /\ (0 < r_port y <= 65535)%Z /\
    r_period y = match c_period c with Text v _ => to_int v | _ => 200%Z end /\ (0 <= r_period y <= 5000)%Z /\
    r_timeout y = match c_timeout c with Text v _ => to_int v | _ => 5000%Z end /\ (r_period y <= r_timeout y)%Z /\
    r_maturity y = match c_maturity c with Text v _ => to_int v | _ => r_timeout y end /\ (0 <= r_maturity y)%Z).
  { intros g' -> <-. exists x, p, ids. unfold x. cbn [r_seq r_port r_period r_timeout r_maturity r_ids]. rewrite V2. split; [reflexivity|]. split; [exact Nm|]. split; [exact F|]. split; [exact I|].
    split; [reflexivity|]. split; [exact V1|]. split; [exact V3|]. split; [exact V4|]. split; [exact V5|]. split; [exact V6|]. split; [exact V7|]. split; [exact V8|]. split; [exact V9|]. split; [exact V10|exact V11]. }
  destruct (retrieve g nm) as [o|] eqn:O.
  - destruct (_ <=? _)%Z; [cbn [snd]; congruence|]. destruct wr; [|cbn [snd]; congruence]. cbn [snd]. rewrite retrieve_replace.
    destruct (same_id nm name) eqn:E; [|congruence]. apply same_id_spec in E. subst nm. rewrite O. intros _. apply K; reflexivity.
  - destruct wr; [|cbn [snd]; congruence]. cbn [snd]. rewrite retrieve_app. destruct (retrieve g name) eqn:G; [congruence|].
    destruct (same_id nm name) eqn:E; [|congruence]. apply same_id_spec in E. intros _. apply K; [reflexivity|exact E].
Qed.
