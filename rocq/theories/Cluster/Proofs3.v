(** The oldest node, timeouts, the update hook. *)
From Coq Require Import Arith NArith ZArith List Bool Lia ZifyBool ZifyNat ZifyN.
From Verif.Common Require Import Bits.
From Verif.Cluster Require Import Model Spec Proofs.
Import ListNotations.
Local Open Scope N_scope.
Ltac Zify.zify_post_hook ::= Z.div_mod_to_equations.

(** * The oldest node *)
Lemma eos_refl t : earlier_or_same t t. Proof. right. lia. Qed.
Lemma eos_trans a b c : earlier_or_same a b -> earlier_or_same b c -> earlier_or_same a c.
Proof. unfold earlier_or_same. lia. Qed.
Lemma live_iff l i : live l i <-> (i < length l)%nat /\ is_dead (nth_node l i) = false.
Proof.
  split.
  - intros (n & E & D). split; [eapply nth_some_lt; exact E|]. rewrite (nth_node_some _ _ _ E). destruct (is_dead n) eqn:Q; [|reflexivity]. apply dead_spec in Q. contradiction.
  - intros [L D]. destruct (nth_error l i) as [n|] eqn:E; [|apply nth_error_None in E; lia]. exists n. split; [exact E|]. rewrite (nth_node_some _ _ _ E) in D.
    intros Q. apply dead_spec in Q. congruence.
Qed.
Lemma live_lt l i : live l i -> (i < length l)%nat. Proof. intros H. apply live_iff in H. apply H. Qed.
Lemma is_oldest_iff l o : is_oldest l o <-> live l o /\ forall j, live l j -> earlier_or_same (boot (nth_node l o)) (boot (nth_node l j)).
Proof.
  split; intros [L H]; (split; [exact L|]).
  - intros j J. destruct L as (n & E & _). pose proof J as (m & F & _). rewrite (nth_node_some _ _ _ E), (nth_node_some _ _ _ F). exact (H j n m E F J).
  - intros j n m E F J. specialize (H j J). rewrite (nth_node_some _ _ _ E), (nth_node_some _ _ _ F) in H. exact H.
Qed.
Definition best_below (l : list node) (k o : nat) : Prop :=
  (o < k)%nat /\ forall j, (j < k)%nat -> live l j -> live l o /\ earlier_or_same (boot (nth_node l o)) (boot (nth_node l j)).
Lemma older_best l k o : (k < length l)%nat -> best_below l k o -> best_below l (S k) (older l o k).
Proof.
  intros L [O B]. unfold older. assert (Lo : (o < length l)%nat) by lia.
  destruct (is_dead (nth_node l o)) eqn:D; cbn [orb].
  - split; [lia|]. intros j J Q. destruct (Nat.eq_dec j k) as [->|N]; [split; [exact Q|apply eos_refl]|].
    destruct (B j ltac:(lia) Q) as [C _]. apply live_iff in C. destruct C; congruence.
  - assert (LO : live l o) by (apply live_iff; auto).
    destruct (compare_timeval (boot (nth_node l k)) (boot (nth_node l o))) eqn:C; cbn [andb].
    + split; [lia|]. intros j J Q. split; [exact LO|]. destruct (Nat.eq_dec j k) as [->|N]; [apply cmp_not_lt; congruence|apply B; [lia|exact Q]].
    + destruct (is_dead (nth_node l k)) eqn:K; cbn [negb].
      * split; [lia|]. intros j J Q. split; [exact LO|]. destruct (Nat.eq_dec j k) as [->|N]; [|apply B; [lia|exact Q]]. apply live_iff in Q. destruct Q; congruence.
      * split; [lia|]. intros j J Q. split; [apply live_iff; auto|]. destruct (Nat.eq_dec j k) as [->|N]; [apply eos_refl|].
        destruct (B j ltac:(lia) Q) as [_ E]. eapply eos_trans; [|exact E]. apply cmp_lt in C. unfold earlier_or_same. lia.
    + split; [lia|]. intros j J Q. split; [exact LO|]. destruct (Nat.eq_dec j k) as [->|N]; [apply cmp_not_lt; congruence|apply B; [lia|exact Q]].
Qed.
Lemma fold_best l : forall m k o, (k + m)%nat = length l -> best_below l k o -> best_below l (length l) (fold_left (older l) (seq k m) o).
Proof.
  induction m as [|m IH]; intros k o E B; cbn [seq fold_left]; [rewrite Nat.add_0_r in E; subst k; exact B|].
  apply IH; [lia|]. apply older_best; [lia|exact B].
Qed.
Lemma find_oldest_best l : (0 < length l)%nat -> best_below l (length l) (find_oldest l).
Proof.
  intros L. unfold find_oldest. apply fold_best; [lia|]. split; [lia|]. intros j J Q. assert (j = O) by lia. subst j. split; [exact Q|apply eos_refl].
Qed.
Definition good_at (l : list node) (o : option nat) : Prop :=
  match o with
  | None => forall j, ~ live l j
  | Some o => (o < length l)%nat /\ ((forall j, ~ live l j) \/ is_oldest l o)
  end.
Lemma good_right w : good_at (nodes w) (oldest w) -> oldest_right w.
Proof.
  unfold good_at, oldest_right. intros G [j J]. destruct (oldest w) as [o|]; [|destruct (G j J)]. destruct G as [_ [G|G]]; [destruct (G j J)|]. exists o. auto.
Qed.
Lemma find_oldest_good l : (0 < length l)%nat -> good_at l (Some (find_oldest l)).
Proof.
  intros L. destruct (find_oldest_best l L) as [B1 B2]. split; [exact B1|].
  destruct (is_dead (nth_node l (find_oldest l))) eqn:D.
  - left. intros j J. destruct (B2 j (live_lt _ _ J) J) as [C _]. apply live_iff in C. destruct C; congruence.
  - right. apply is_oldest_iff. split; [apply live_iff; auto|]. intros j J. apply B2; [apply live_lt; exact J|exact J].
Qed.
(** everything depends on boot times only *)
Lemma boots_live l l' : map boot l = map boot l' -> forall j, live l j <-> live l' j.
Proof.
  intros E j. assert (Q : nth_error (map boot l) j = nth_error (map boot l') j) by congruence. rewrite !nth_error_map in Q.
  split; intros (n & N & D); rewrite N in Q; cbn in Q; [destruct (nth_error l' j) as [m|] eqn:M|destruct (nth_error l j) as [m|] eqn:M]; cbn in Q; try discriminate; exists m; (split; [exact M|congruence]).
Qed.
Lemma boots_nth l l' j : map boot l = map boot l' -> boot (nth_node l j) = boot (nth_node l' j).
Proof. intros E. unfold nth_node. rewrite <- !(map_nth boot). rewrite E. reflexivity. Qed.
Lemma boots_good l l' o : map boot l = map boot l' -> good_at l o -> good_at l' o.
Proof.
  intros E. unfold good_at. destruct o as [o|].
  - intros [L G]. split; [rewrite <- (map_length boot), <- E, map_length; exact L|]. destruct G as [G|G].
    + left. intros j J. apply (G j). apply (boots_live l l' E). exact J.
    + right. apply is_oldest_iff in G. apply is_oldest_iff. split; [apply (boots_live l l' E); apply G|]. intros j J.
      rewrite <- !(boots_nth l l' _ E). apply G. apply (boots_live l l' E). exact J.
  - intros G j J. apply (G j). apply (boots_live l l' E). exact J.
Qed.
Lemma set_nth_boots l i x : (forall n, nth_error l i = Some n -> boot x = boot n) -> map boot (set_nth l i x) = map boot l.
Proof.
  revert i. induction l as [|y l IH]; intros [|i] H; cbn; try reflexivity; [rewrite (H y eq_refl); reflexivity|]. f_equal. apply IH. exact H.
Qed.

Definition collides (w : world) (id : list N) (t : tv) : Prop := t = my_boot w /\ id <> me w.
Lemma collide_test w id t :
  negb (same_id (me w) id) && match compare_timeval t (my_boot w) with Eq => true | _ => false end = true <-> collides w id t.
Proof.
  unfold collides. rewrite <- (cmp_eq t). destruct (same_id (me w) id) eqn:E; cbn [negb andb].
  - apply same_id_spec in E. split; [discriminate|]. intros [_ Q]. congruence.
  - assert (me w <> id) by (intros Q; apply same_id_spec in Q; congruence). destruct (compare_timeval t (my_boot w)); split; intros Q; try discriminate; try (destruct Q; congruence); auto.
Qed.
(** what on_node_changed does apart from the nodes *)
Lemma onc_oldest w i t s ch r n : nth_error (nodes w) i = Some n -> ~ collides w (nid n) t ->
  let l := set_nth (nodes w) i (with_boot n t s) in
  my_boot (on_node_changed w i t s ch r) = my_boot w /\
  log (on_node_changed w i t s ch r) = log w ++ [{| what := ch; who := i; old_boot := boot n |}] /\
  oldest (on_node_changed w i t s ch r) =
    (if is_dead (with_boot n t s) || match oldest w with Some o => (o =? i)%nat | None => false end then Some (find_oldest l)
     else match oldest w with
          | None => Some i
          | Some o => match compare_timeval t (boot (nth_node l o)) with Lt => Some i | _ => Some o end
          end).
Proof.
  intros Hn NC. unfold on_node_changed. cbn [nodes with_nodes me my_boot oldest]. rewrite (nth_node_some _ _ _ Hn). cbn [nid with_boot].
  destruct (negb (same_id (me w) (nid n)) && _) eqn:E; [apply collide_test in E; contradiction|].
  clear E. destruct (_ || _); [repeat split|]. destruct (oldest w) as [o|] eqn:O; [|repeat split]. destruct (compare_timeval _ _); cbn [my_boot log oldest with_event with_oldest with_nodes nodes]; rewrite ?O; auto.
Qed.
Lemma onc_collide w i t s ch r n : nth_error (nodes w) i = Some n -> collides w (nid n) t ->
  oldest (on_node_changed w i t s ch r) = oldest w /\ log (on_node_changed w i t s ch r) = log w /\
  sec (my_boot (on_node_changed w i t s ch r)) = sec (my_boot w).
Proof.
  intros Hn NC. unfold on_node_changed. cbn [nodes with_nodes me my_boot oldest]. rewrite (nth_node_some _ _ _ Hn). cbn [nid with_boot].
  apply collide_test in NC. rewrite NC. auto.
Qed.
Lemma dead_with_boot n t s : is_dead (with_boot n t s) = true <-> t = {| sec := 0; usec := 0 |}.
Proof. apply dead_spec. Qed.
Lemma onc_good w i t s ch r n : nth_error (nodes w) i = Some n -> ~ collides w (nid n) t ->
  good_at (nodes w) (oldest w) -> (exists j, live (nodes w) j) \/ oldest w = None \/ t = {| sec := 0; usec := 0 |} \/ oldest w = Some i ->
  good_at (nodes (on_node_changed w i t s ch r)) (oldest (on_node_changed w i t s ch r)).
Proof.
  intros Hn NC G C. destruct (onc_oldest w i t s ch r n Hn NC) as (_ & _ & O). rewrite onc_nodes, (nth_node_some _ _ _ Hn), O. clear O.
  set (l := set_nth (nodes w) i (with_boot n t s)). pose proof (nth_some_lt _ _ _ Hn) as L.
  assert (Ll : length l = length (nodes w)) by apply set_nth_length.
  assert (Hi : nth_error l i = Some (with_boot n t s)) by (apply nth_set_same; exact L).
  assert (Ho : forall j, j <> i -> nth_error l j = nth_error (nodes w) j) by (intros j J; apply nth_set_other; exact J).
  assert (Ho' : forall j, j <> i -> nth_node l j = nth_node (nodes w) j) by (intros j J; unfold nth_node; rewrite !(nth_default_eq) || idtac; specialize (Ho j J); destruct (nth_error l j) eqn:E1; [rewrite (nth_error_nth _ _ _ E1); symmetry in Ho; rewrite (nth_error_nth _ _ _ Ho); reflexivity|rewrite !nth_overflow; [reflexivity| |]; apply nth_error_None; congruence]).
  assert (Hv : forall j, j <> i -> (live l j <-> live (nodes w) j)) by (intros j J; unfold live; rewrite (Ho j J); reflexivity).
  destruct (is_dead (with_boot n t s)) eqn:D; cbn [orb]; [apply find_oldest_good; lia|].
  assert (Ti : live l i) by (exists (with_boot n t s); split; [exact Hi|]; intros Q; cbn in Q; apply dead_with_boot with (n := n) (s := s) in Q; congruence).
  assert (Tn : t <> {| sec := 0; usec := 0 |}) by (intros Q; apply dead_with_boot with (n := n) (s := s) in Q; congruence).
  assert (Bi : boot (nth_node l i) = t) by (rewrite (nth_node_some _ _ _ Hi); reflexivity).
  destruct (oldest w) as [o|] eqn:O.
  - destruct (Nat.eqb_spec o i) as [->|N]; [apply find_oldest_good; lia|].
    destruct C as [[j J]|[C|[C|C]]]; try congruence. cbn [good_at] in G. destruct G as [Lo [G|G]]; [destruct (G j J)|].
    apply is_oldest_iff in G. destruct G as [G1 G2].
    destruct (compare_timeval t (boot (nth_node l o))) eqn:E; split; try lia; right; apply is_oldest_iff; rewrite ?Bi.
    + split; [apply Hv; assumption|]. intros k K. destruct (Nat.eq_dec k i) as [->|NK]; [rewrite Bi; apply cmp_not_lt; congruence|]. rewrite !Ho' by assumption. apply G2. apply Hv; assumption.
    + split; [exact Ti|]. intros k K. destruct (Nat.eq_dec k i) as [->|NK]; [rewrite Bi; apply eos_refl|]. apply eos_trans with (boot (nth_node l o)).
      * apply cmp_lt in E. unfold earlier_or_same. lia.
      * rewrite !Ho' by assumption. apply G2. apply Hv; assumption.
    + split; [apply Hv; assumption|]. intros k K. destruct (Nat.eq_dec k i) as [->|NK]; [rewrite Bi; apply cmp_not_lt; congruence|]. rewrite !Ho' by assumption. apply G2. apply Hv; assumption.
  - cbn [good_at] in G. split; [lia|]. right. apply is_oldest_iff. split; [exact Ti|]. intros k K. destruct (Nat.eq_dec k i) as [->|NK]; [apply eos_refl|].
    exfalso. apply (G k). apply Hv; assumption.
Qed.

(** what a message says *)
Lemma number_bound l : Forall byte l -> number l < 256 ^ N.of_nat (length l).
Proof.
  induction l as [|x l IH]; intros F; [cbn; lia|]. inversion F as [|? ? B F']; subst. unfold number. cbn [fold_left length].
  rewrite unbe_acc. fold (number l) in IH. specialize (IH F'). unfold unbe. fold (number l). rewrite Nat2N.inj_succ, N.pow_succ_r'. unfold byte in B. nia.
Qed.
Lemma number_app a b : number (a ++ b) = number a * 256 ^ N.of_nat (length b) + number b.
Proof. unfold number. rewrite fold_left_app. apply unbe_acc. Qed.
Lemma Forall_firstn {A} (P : A -> Prop) n l : Forall P l -> Forall P (firstn n l).
Proof. intros H. rewrite Forall_forall in *. intros x X. apply H. rewrite <- (firstn_skipn n l). apply in_or_app. auto. Qed.
Lemma Forall_skipn {A} (P : A -> Prop) n l : Forall P l -> Forall P (skipn n l).
Proof. intros H. rewrite Forall_forall in *. intros x X. apply H. rewrite <- (firstn_skipn n l). apply in_or_app. auto. Qed.
Lemma skipn_plus {A} a b (l : list A) : skipn a (skipn b l) = skipn (a + b) l.
Proof. revert l. induction b as [|b IH]; intros l; [rewrite Nat.add_0_r; reflexivity|]. destruct l; [rewrite !skipn_nil; reflexivity|]. rewrite Nat.add_succ_r. apply IH. Qed.
Lemma firstn_split {A} a b (l : list A) : firstn (a + b) l = firstn a l ++ firstn b (skipn a l).
Proof. revert l. induction a as [|a IH]; intros l; [reflexivity|]. destruct l; [rewrite skipn_nil, !firstn_nil; reflexivity|]. cbn. rewrite IH. reflexivity. Qed.
Lemma time_read m : Forall byte m -> (34 <= length m)%nat ->
  {| sec := Z.of_N ((unbe (firstn 8 (skipn 17 m)) / 2 ^ 24) mod 2 ^ 40); usec := Z.of_N (unbe (firstn 8 (skipn 17 m)) mod 2 ^ 24) |} = message_time m.
Proof.
  intros F L. unfold message_time. change unbe with number. rewrite (firstn_split 5 3), skipn_plus. change (5 + 17)%nat with 22%nat. rewrite number_app.
  set (a := firstn 5 (skipn 17 m)). set (b := firstn 3 (skipn 22 m)).
  assert (La : length a = 5%nat) by (unfold a; rewrite firstn_length, skipn_length; lia).
  assert (Lb : length b = 3%nat) by (unfold b; rewrite firstn_length, skipn_length; lia).
  assert (Ba : number a < 2 ^ 40). { pose proof (number_bound a (Forall_firstn _ _ _ (Forall_skipn _ _ _ F))) as H. rewrite La in H. exact H. }
  assert (Bb : number b < 2 ^ 24). { pose proof (number_bound b (Forall_firstn _ _ _ (Forall_skipn _ _ _ F))) as H. rewrite Lb in H. exact H. }
  rewrite Lb. change (256 ^ N.of_nat 3) with (2 ^ 24). rewrite N.div_add_l by discriminate. rewrite (N.div_small (number b)) by exact Bb. rewrite N.add_0_r, (N.mod_small (number a)) by exact Ba.
  rewrite (N.add_comm (_ * _)), N.mod_add by discriminate. rewrite N.mod_small by exact Bb. reflexivity.
Qed.
Lemma process_read m now r w : Forall byte m ->
  snd (process m now r w) = w \/
  exists i p count, find_node (nodes w) (message_id m) 0 = Some i /\ snd (process m now r w) = heard w i (message_time m) (message_seq m) p count now r.
Proof.
  intros F. unfold process. destruct (_ <? 1)%nat; [auto|]. destruct (_ <? 17)%nat; [auto|]. destruct (_ <? 25)%nat; [auto|].
  destruct (_ <? 33)%nat; [auto|]. destruct (Nat.ltb_spec (length m) 34); [auto|]. destruct (_ <? 1); [auto|]. destruct (negb _); [auto|].
  rewrite time_read by assumption. fold (message_id m). destruct (find_node _ _ _) as [i|]; [|auto]. right. do 3 eexists. split; reflexivity.
Qed.
Lemma process_understood m now r w i : understood m -> find_node (nodes w) (message_id m) 0 = Some i ->
  snd (process m now r w) = heard w i (message_time m) (message_seq m) (message_payload m) (nth 33 m 0) now r.
Proof.
  intros (F & L & V1 & V2) E. unfold process. destruct (Nat.ltb_spec (length m) 1); [lia|]. destruct (Nat.ltb_spec (length m) 17); [lia|]. destruct (Nat.ltb_spec (length m) 25); [lia|].
  destruct (Nat.ltb_spec (length m) 33); [lia|]. destruct (Nat.ltb_spec (length m) 34); [lia|].
  destruct (N.ltb_spec (hd 0 m mod 16) 1); [lia|]. rewrite V1, N.eqb_refl. cbn [negb]. rewrite time_read by (try assumption; lia). fold (message_id m). rewrite E.
  replace (firstn (N.to_nat (N.of_nat (length m - 34) mod 65536)) (skipn 34 m)) with (message_payload m); [reflexivity|].
  unfold message_payload. rewrite N.mod_small by lia. rewrite Nat2N.id. rewrite <- (skipn_length 34 m). symmetry. apply firstn_all.
Qed.

Lemma set_set l i (x y : node) : set_nth (set_nth l i x) i y = set_nth l i y.
Proof. revert i. induction l as [|z l IH]; intros [|i]; cbn; try reflexivity. f_equal. apply IH. Qed.
(** hearing from a node: the part other than the nodes *)
Lemma heard_rest w i t s p count now r n : nth_error (nodes w) i = Some n ->
  let ch := changes n t s p in
  let w1 := with_nodes w (set_nth (nodes w) i (store_payload n p count)) in
  let w2 := if ch =? 0 then w else on_node_changed w1 i t s ch r in
  let w' := heard w i t s p count now r in
  oldest w' = oldest w2 /\ my_boot w' = my_boot w2 /\ log w' = log w2 /\ map boot (nodes w') = map boot (nodes w2).
Proof.
  intros H ch w1 w2 w'. unfold w', heard. rewrite (nth_node_some _ _ _ H). fold ch w1 w2. repeat split.
  cbn [nodes with_nodes]. apply set_nth_boots. intros m M. rewrite (nth_node_some _ _ _ M). reflexivity.
Qed.
Lemma heard_good w i t s p count now r n : nth_error (nodes w) i = Some n -> ~ collides w (nid n) t -> good_at (nodes w) (oldest w) ->
  (exists j, live (nodes w) j) \/ oldest w = None \/ t = {| sec := 0; usec := 0 |} \/ oldest w = Some i ->
  good_at (nodes (heard w i t s p count now r)) (oldest (heard w i t s p count now r)).
Proof.
  intros H NC G C. destruct (heard_rest w i t s p count now r n H) as (O & _ & _ & B). rewrite O. eapply boots_good; [symmetry; exact B|].
  destruct (_ =? 0); [exact G|]. set (n1 := store_payload n p count). set (w1 := with_nodes w (set_nth (nodes w) i n1)).
  assert (B1 : map boot (nodes w) = map boot (nodes w1)). { symmetry. apply set_nth_boots. intros m M. rewrite H in M. injection M as <-. reflexivity. }
  apply (onc_good w1 i t s _ r n1).
  - apply nth_set_same. eapply nth_some_lt. exact H.
  - exact NC.
  - eapply boots_good; [exact B1|exact G].
  - destruct C as [[j J]|C]; [left; exists j; apply (boots_live _ _ B1); exact J|right; exact C].
Qed.
Lemma heard_my_boot w i t s p count now r n : nth_error (nodes w) i = Some n -> sec (my_boot (heard w i t s p count now r)) = sec (my_boot w).
Proof.
  intros H. destruct (heard_rest w i t s p count now r n H) as (_ & -> & _). destruct (_ =? 0); [reflexivity|].
  set (n1 := store_payload n p count). set (w1 := with_nodes w (set_nth (nodes w) i n1)).
  assert (H1 : nth_error (nodes w1) i = Some n1) by (apply nth_set_same; eapply nth_some_lt; exact H).
  unfold on_node_changed. cbn [with_nodes my_boot me nodes oldest]. destruct (_ && _); [reflexivity|]. destruct (_ || _); [reflexivity|].
  change (oldest w1) with (oldest w). destruct (oldest w); [|reflexivity]. destruct (compare_timeval _ _); reflexivity.
Qed.

(** the timeout check *)
Definition expires (now : tv) (w : world) (n : node) : bool :=
  (sub_timeval_ms now (contact n) >? timeout w)%Z && negb (is_dead n) && (sec (boot n) >? 0)%Z && (sub_timeval_ms now (boot n) >? maturity w)%Z.
Lemma check_node_eq now r w i n : nth_error (nodes w) i = Some n ->
  check_node now r w i = if expires now w n then on_node_changed w i boot_time_of_dead_node (cseq n) DIED r else w.
Proof. intros H. unfold check_node. rewrite (nth_node_some _ _ _ H). reflexivity. Qed.
Lemma no_collision_dead w id : sec (my_boot w) <> 0%Z -> ~ collides w id boot_time_of_dead_node.
Proof. intros H [E _]. rewrite <- E in H. cbn in H. congruence. Qed.
Lemma check_node_good now r w i : sec (my_boot w) <> 0%Z -> good_at (nodes w) (oldest w) ->
  good_at (nodes (check_node now r w i)) (oldest (check_node now r w i)).
Proof.
  intros M G. destruct (nth_error (nodes w) i) as [n|] eqn:E.
  - rewrite (check_node_eq _ _ _ _ _ E). destruct (expires now w n); [|exact G]. apply (onc_good w i _ _ _ r n E); [apply no_collision_dead; exact M|exact G|].
    right. right. left. reflexivity.
  - unfold check_node. unfold nth_node. rewrite nth_overflow by (apply nth_error_None; exact E). change (is_dead (fresh [])) with true. rewrite andb_false_r. exact G.
Qed.
Lemma check_node_my_boot now r w i : sec (my_boot w) <> 0%Z -> my_boot (check_node now r w i) = my_boot w.
Proof.
  intros M. destruct (nth_error (nodes w) i) as [n|] eqn:E.
  - rewrite (check_node_eq _ _ _ _ _ E). destruct (expires now w n); [|reflexivity]. apply (onc_oldest w i _ _ DIED r n E (no_collision_dead _ _ M)).
  - unfold check_node. unfold nth_node. rewrite nth_overflow by (apply nth_error_None; exact E). change (is_dead (fresh [])) with true. rewrite andb_false_r. reflexivity.
Qed.
Lemma check_fold_good now r l : forall w, sec (my_boot w) <> 0%Z -> good_at (nodes w) (oldest w) ->
  good_at (nodes (fold_left (check_node now r) l w)) (oldest (fold_left (check_node now r) l w)).
Proof.
  induction l as [|i l IH]; intros w M G; cbn [fold_left]; [exact G|]. apply IH; [rewrite check_node_my_boot; assumption|apply check_node_good; assumption].
Qed.
Lemma check_fold_my_boot now r l : forall w, sec (my_boot w) <> 0%Z -> my_boot (fold_left (check_node now r) l w) = my_boot w.
Proof.
  induction l as [|i l IH]; intros w M; cbn [fold_left]; [reflexivity|]. rewrite IH; rewrite check_node_my_boot; auto.
Qed.
Lemma check_recomputes now r l : forall w, sec (my_boot w) <> 0%Z -> nodes (fold_left (check_node now r) l w) <> nodes w ->
  good_at (nodes (fold_left (check_node now r) l w)) (oldest (fold_left (check_node now r) l w)).
Proof.
  induction l as [|i l IH]; intros w M D; cbn [fold_left] in *; [congruence|].
  assert (M' : sec (my_boot (check_node now r w i)) <> 0%Z) by (rewrite check_node_my_boot; assumption).
  destruct (nth_error (nodes w) i) as [n|] eqn:E.
  - rewrite (check_node_eq _ _ _ _ _ E) in *. destruct (expires now w n); [|apply IH; assumption].
    apply check_fold_good; [exact M'|]. destruct (onc_oldest w i boot_time_of_dead_node (cseq n) DIED r n E (no_collision_dead _ _ M)) as (_ & _ & O).
    change (is_dead (with_boot n boot_time_of_dead_node (cseq n))) with true in O. cbn [orb] in O. rewrite O.
    rewrite onc_nodes, (nth_node_some _ _ _ E). apply find_oldest_good. rewrite set_nth_length. apply nth_some_lt in E. lia.
  - assert (Q : check_node now r w i = w).
    { unfold check_node. unfold nth_node. rewrite nth_overflow by (apply nth_error_None; exact E). change (is_dead (fresh [])) with true. rewrite andb_false_r. reflexivity. }
    rewrite Q in *. apply IH; assumption.
Qed.
Lemma good_start ids my mb tmo mat : good_at (nodes (start ids my mb tmo mat)) (oldest (start ids my mb tmo mat)).
Proof.
  cbn. intros j (n & E & D). apply D. rewrite nth_error_map in E. destruct (nth_error ids j); [|discriminate]. injection E as <-. reflexivity.
Qed.
Lemma onc_nids w i t s ch r : map nid (nodes (on_node_changed w i t s ch r)) = map nid (nodes w).
Proof.
  rewrite onc_nodes. destruct (nth_error (nodes w) i) as [n|] eqn:E.
  - eapply set_nth_nid; [exact E|]. rewrite (nth_node_some _ _ _ E). reflexivity.
  - f_equal. generalize (with_boot (nth_node (nodes w) i) t s). revert i E. induction (nodes w) as [|y l IH]; intros [|i] E x; cbn in *; try reflexivity; [discriminate|]. f_equal. apply IH. exact E.
Qed.
Lemma check_fold_nids now r l : forall w, map nid (nodes (fold_left (check_node now r) l w)) = map nid (nodes w).
Proof. induction l as [|i l IH]; intros w; cbn [fold_left]; [reflexivity|]. rewrite IH. unfold check_node. destruct (_ && _); [apply onc_nids|reflexivity]. Qed.
Lemma heard_nids w i t s p count now r n : nth_error (nodes w) i = Some n -> map nid (nodes (heard w i t s p count now r)) = map nid (nodes w).
Proof. intros H. rewrite (heard_nodes _ _ _ _ _ _ _ _ _ H). eapply set_nth_nid; [exact H|]. apply heard_nid. Qed.
Lemma find_unique w i o id : NoDup (map nid (nodes w)) -> find_node (nodes w) id 0 = Some i -> member w o id -> o = i.
Proof. intros D F (n & E & Q). rewrite (find_node_in _ _ 0 o n D E Q) in F. injection F as F. exact F. Qed.
Lemma calm_good l : forall w, sec (my_boot w) <> 0%Z -> NoDup (map nid (nodes w)) -> good_at (nodes w) (oldest w) -> calm w l ->
  good_at (nodes (fold_left apply l w)) (oldest (fold_left apply l w)).
Proof.
  induction l as [|s l IH]; intros w M U G C; cbn [fold_left]; [exact G|]. cbn [calm] in C. destruct C as [C1 C2].
  destruct s as [m now r|now r].
  - cbn [apply calm_step] in *. destruct C1 as (F & NC & NR). destruct (process_read m now r w F) as [E|(i & p & count & FN & E)].
    + rewrite E in *. apply IH; assumption.
    + rewrite E in *. pose proof FN as FN'. apply find_node_some in FN'. destruct FN' as (n & _ & Hn & Q). rewrite Nat.sub_0_r in Hn.
      apply IH; [rewrite (heard_my_boot _ _ _ _ _ _ _ _ _ Hn); exact M|rewrite (heard_nids _ _ _ _ _ _ _ _ _ Hn); exact U| |exact C2]. apply (heard_good _ _ _ _ _ _ _ _ n Hn); [|exact G|].
      * intros [K1 K2]. rewrite Q in K2. auto.
      * destruct NR as [NR|[NR|[NR|(o & O & Mb)]]]; auto. right. right. right. rewrite O. f_equal. eapply find_unique; eassumption.
  - cbn [apply calm_step] in *. unfold check_timeout in *. apply IH; [rewrite check_fold_my_boot; assumption|rewrite check_fold_nids; exact U|apply check_fold_good; assumption|exact C2].
Qed.
Lemma start_nids ids my mb tmo mat : map nid (nodes (start ids my mb tmo mat)) = ids.
Proof. cbn. rewrite map_map. cbn. apply map_id. Qed.
Lemma calm_right ids my mb tmo mat l : NoDup ids -> sec mb <> 0%Z -> calm (start ids my mb tmo mat) l -> oldest_right (fold_left apply l (start ids my mb tmo mat)).
Proof. intros D M C. apply good_right. apply calm_good; [exact M|rewrite start_nids; exact D|apply good_start|exact C]. Qed.
Lemma check_right now r w : sec (my_boot w) <> 0%Z -> nodes (check_timeout now r w) <> nodes w -> oldest_right (check_timeout now r w).
Proof. intros M D. apply good_right. apply check_recomputes; assumption. Qed.
(** a node that comes back while all are dead and another one is recorded *)
Lemma revival m now r w i o n : understood m -> NoDup (map nid (nodes w)) -> nth_error (nodes w) i = Some n -> nid n = message_id m -> no_clash w m ->
  (forall j, ~ live (nodes w) j) -> oldest w = Some o -> (o < length (nodes w))%nat -> o <> i -> message_time m <> {| sec := 0; usec := 0 |} ->
  let w' := snd (process m now r w) in oldest w' = Some o /\ live (nodes w') i /\ ~ live (nodes w') o.
Proof.
  intros U D Hn Q NC A O Lo NE T. cbv zeta. pose proof (find_node_in _ _ 0 i n D Hn Q) as FN. cbn [Nat.add] in FN. rewrite (process_understood m now r w i U FN).
  set (t := message_time m) in *. set (s := message_seq m). set (p := message_payload m). set (count := nth 33 m 0).
  destruct (heard_rest w i t s p count now r n Hn) as (E1 & _ & _ & E2).
  assert (Dn : boot n = {| sec := 0; usec := 0 |}). { destruct (is_dead n) eqn:K; [apply dead_spec; exact K|]. exfalso. apply (A i). exists n. split; [exact Hn|]. intros K'. apply dead_spec in K'. congruence. }
  assert (Ch : changes n t s p = REBOOTED). { unfold changes. destruct (compare_timeval (boot n) t) eqn:K; try reflexivity. apply cmp_eq in K. congruence. }
  rewrite Ch in *. cbn [N.eqb REBOOTED] in E1, E2. set (n1 := store_payload n p count) in *. set (w1 := with_nodes w (set_nth (nodes w) i n1)) in *.
  assert (H1 : nth_error (nodes w1) i = Some n1) by (apply nth_set_same; eapply nth_some_lt; exact Hn).
  assert (NC1 : ~ collides w1 (nid n1) t). { intros [K1 K2]. apply K2. change (nid n1) with (nid n). rewrite Q. apply NC. exact K1. }
  destruct (onc_oldest w1 i t s REBOOTED r n1 H1 NC1) as (_ & _ & E3).
  assert (is_dead (with_boot n1 t s) = false) as K. { destruct (is_dead (with_boot n1 t s)) eqn:K; [|reflexivity]. apply dead_with_boot in K. congruence. }
  rewrite K in E3. change (oldest w1) with (oldest w) in E3. rewrite O in E3. cbn [orb] in E3. destruct (Nat.eqb_spec o i); [congruence|].
  set (l := set_nth (nodes w1) i (with_boot n1 t s)) in *.
  assert (L2 : map boot (nodes (heard w i t s p count now r)) = map boot l). { rewrite E2, onc_nodes, (nth_node_some _ _ _ H1). reflexivity. }
  assert (Ko : nth_error l o = nth_error (nodes w) o). { unfold l, w1. cbn [with_nodes nodes]. rewrite set_set. apply nth_set_other. exact n0. }
  destruct (nth_error (nodes w) o) as [no|] eqn:No; [|apply nth_error_None in No; lia].
  assert (Do : boot no = {| sec := 0; usec := 0 |}). { destruct (is_dead no) eqn:K2; [apply dead_spec; exact K2|]. exfalso. apply (A o). exists no. split; [exact No|]. intros K'. apply dead_spec in K'. congruence. }
  assert (Dl : ~ live l o). { intros (x & X & Y). congruence. }
  split; [|split].
  - rewrite E1, E3, (nth_node_some _ _ _ Ko), Do. clear E3. destruct (compare_timeval t _) eqn:C; try reflexivity. apply cmp_lt in C. cbn [sec usec] in C.
    unfold t, message_time in C. cbn [sec usec] in C. lia.
  - apply (boots_live _ _ L2). exists (with_boot n1 t s). split; [apply nth_set_same; apply nth_some_lt in H1; exact H1|]. exact T.
  - intros C. apply Dl. apply (boots_live _ _ L2). exact C.
Qed.

(** * Timeouts *)
Lemma ms_since a b d : valid_time a -> valid_time b -> (0 <= d)%Z -> (sub_timeval_ms a b >? d)%Z = true <-> since a b d.
Proof.
  intros [A1 A2] [B1 B2] D. unfold since, micros, sub_timeval_ms, sub_timeval. rewrite Z.gtb_lt.
  destruct (Z.ltb_spec (usec a - usec b) 0).
  - destruct (Z.ltb_spec (sec a - 1 - sec b) 0); cbn [sec usec].
    + assert (Z.quot (usec a - usec b + 1000000 - 1000000) 1000 <= 0)%Z. { replace (usec a - usec b + 1000000 - 1000000)%Z with (- (usec b - usec a))%Z by lia. rewrite Z.quot_opp_l by lia. assert (0 <= Z.quot (usec b - usec a) 1000)%Z by (apply Z.quot_pos; lia). lia. }
      split; intros; lia.
    + rewrite Z.quot_div_nonneg by lia. split; intros; lia.
  - destruct (Z.ltb_spec (sec a - sec b) 0); cbn [sec usec].
    + assert (Z.quot (usec a - usec b - 1000000) 1000 <= 0)%Z. { replace (usec a - usec b - 1000000)%Z with (- (1000000 - (usec a - usec b)))%Z by lia. rewrite Z.quot_opp_l by lia. assert (0 <= Z.quot (1000000 - (usec a - usec b)) 1000)%Z by (apply Z.quot_pos; lia). lia. }
      split; intros; lia.
    + rewrite Z.quot_div_nonneg by lia. split; intros; lia.
Qed.
Lemma check_node_static now r w i : timeout (check_node now r w i) = timeout w /\ maturity (check_node now r w i) = maturity w.
Proof. unfold check_node. destruct (_ && _); [|auto]. destruct (onc_static w i boot_time_of_dead_node (cseq (nth_node (nodes w) i)) DIED r) as (_ & A & B). auto. Qed.
Lemma check_other now r w i j : j <> i -> nth_error (nodes (check_node now r w i)) j = nth_error (nodes w) j.
Proof. intros H. unfold check_node. destruct (_ && _); [|reflexivity]. rewrite onc_nodes. apply nth_set_other. exact H. Qed.
Definition aged (now : tv) (w : world) (n : node) : node := if expires now w n then with_boot n boot_time_of_dead_node (cseq n) else n.
Lemma check_same now r w i n : nth_error (nodes w) i = Some n -> nth_error (nodes (check_node now r w i)) i = Some (aged now w n).
Proof.
  intros H. rewrite (check_node_eq _ _ _ _ _ H). unfold aged. destruct (expires now w n); [|exact H].
  rewrite onc_nodes, (nth_node_some _ _ _ H). apply nth_set_same. eapply nth_some_lt. exact H.
Qed.
Lemma check_fold_aged now r : forall m k w i n, (k + m)%nat = length (nodes w) -> (k <= i)%nat -> nth_error (nodes w) i = Some n ->
  nth_error (nodes (fold_left (check_node now r) (seq k m) w)) i = Some (aged now w n).
Proof.
  induction m as [|m IH]; intros k w i n E K H; [apply nth_some_lt in H; lia|]. cbn [seq fold_left].
  destruct (check_node_static now r w k) as [S1 S2].
  assert (EX : forall x, aged now (check_node now r w k) x = aged now w x) by (intros x; unfold aged, expires; rewrite S1, S2; reflexivity).
  destruct (Nat.eq_dec i k) as [->|D].
  - assert (Q : forall m' k' w' , (k < k')%nat -> nth_error (nodes (fold_left (check_node now r) (seq k' m') w')) k = nth_error (nodes w') k).
    { induction m' as [|m' IH']; intros k' w' L; cbn [seq fold_left]; [reflexivity|]. rewrite IH' by lia. apply check_other. lia. }
    rewrite Q by lia. apply check_same. exact H.
  - rewrite (IH (S k) _ i n); [rewrite EX; reflexivity|rewrite check_node_length; lia|lia|rewrite check_other by exact D; exact H].
Qed.
Lemma check_timeout_node now r w i n : nth_error (nodes w) i = Some n -> nth_error (nodes (check_timeout now r w)) i = Some (aged now w n).
Proof. intros H. unfold check_timeout. apply check_fold_aged; [reflexivity|lia|exact H]. Qed.
Lemma timeouts now r w i n : valid_time now -> valid_time (contact n) -> valid_time (boot n) -> (0 <= timeout w)%Z -> (0 <= maturity w)%Z ->
  nth_error (nodes w) i = Some n ->
  exists n', nth_error (nodes (check_timeout now r w)) i = Some n' /\ same_but_boot n' n /\
  ((since now (contact n) (timeout w) /\ (0 < sec (boot n))%Z /\ since now (boot n) (maturity w) /\ boot n' = {| sec := 0; usec := 0 |}) \/
   (~ (since now (contact n) (timeout w) /\ (0 < sec (boot n))%Z /\ since now (boot n) (maturity w)) /\ boot n' = boot n)).
Proof.
  intros V1 V2 V3 T M H. exists (aged now w n). split; [apply check_timeout_node; exact H|]. unfold aged, expires.
  pose proof (ms_since now (contact n) (timeout w) V1 V2 T) as E1. pose proof (ms_since now (boot n) (maturity w) V1 V3 M) as E2.
  pose proof (Z.gtb_lt (sec (boot n)) 0) as E3. destruct (_ >? timeout w)%Z; cbn [andb].
  2:{ split; [apply sbb_refl|]. right. split; [|reflexivity]. intros (Q & _). apply E1 in Q. discriminate. }
  destruct (is_dead n) eqn:D; cbn [negb andb].
  { split; [apply sbb_refl|]. right. split; [|reflexivity]. intros (_ & Q & _). apply dead_spec in D. rewrite D in Q. cbn in Q. lia. }
  destruct (_ >? 0)%Z; cbn [andb].
  2:{ split; [apply sbb_refl|]. right. split; [|reflexivity]. intros (_ & Q & _). apply E3 in Q. discriminate. }
  destruct (_ >? maturity w)%Z.
  2:{ split; [apply sbb_refl|]. right. split; [|reflexivity]. intros (_ & _ & Q). apply E2 in Q. discriminate. }
  split; [repeat split|]. left. intuition.
Qed.

(** * The hook *)
Lemma hook_called m now r w i n : understood m -> NoDup (map nid (nodes w)) -> nth_error (nodes w) i = Some n -> nid n = message_id m ->
  stored_wf_node n -> no_clash w m ->
  let w' := snd (process m now r w) in
  (boot n = message_time m /\ cseq n = message_seq m /\ payload_of n = message_payload m -> log w' = log w) /\
  (~ (boot n = message_time m /\ cseq n = message_seq m /\ payload_of n = message_payload m) ->
   exists ch, log w' = log w ++ [{| what := ch; who := i; old_boot := boot n |}] /\
   (ch = REBOOTED <-> boot n <> message_time m) /\
   (boot n = message_time m -> (N.testbit ch 2 = true <-> cseq n <> message_seq m) /\ (N.testbit ch 3 = true <-> payload_of n <> message_payload m))).
Proof.
  intros U D Hn Q W NC. cbv zeta. pose proof (find_node_in _ _ 0 i n D Hn Q) as FN. cbn [Nat.add] in FN. rewrite (process_understood m now r w i U FN).
  set (t := message_time m) in *. set (s := message_seq m). set (p := message_payload m). set (count := nth 33 m 0).
  destruct (heard_rest w i t s p count now r n Hn) as (_ & _ & E & _). rewrite E. pose proof (changes_zero_iff n t s p W) as Z.
  split; [intros K; apply Z in K; rewrite K; reflexivity|]. intros K.
  destruct (N.eqb_spec (changes n t s p) 0) as [C|C]; [apply Z in C; contradiction|].
  set (n1 := store_payload n p count). set (w1 := with_nodes w (set_nth (nodes w) i n1)).
  assert (H1 : nth_error (nodes w1) i = Some n1) by (apply nth_set_same; eapply nth_some_lt; exact Hn).
  assert (NC1 : ~ collides w1 (nid n1) t). { intros [K1 K2]. apply K2. change (nid n1) with (nid n). rewrite Q. apply NC. exact K1. }
  destruct (onc_oldest w1 i t s (changes n t s p) r n1 H1 NC1) as (_ & L & _). exists (changes n t s p). split; [exact L|].
  unfold changes. destruct (compare_timeval (boot n) t) eqn:B.
  - apply cmp_eq in B. split.
    + split; [|intros X; congruence]. destruct (s =? cseq n), (same_payload n p); discriminate.
    + intros _. assert (PQ : same_payload n p = true <-> payload_of n = p).
      { unfold same_payload. split.
        - intros X. apply andb_true_iff in X. destruct X as [X1 X2]. apply N.eqb_eq in X1. apply same_id_spec in X2. unfold payload_of. rewrite <- X1, Nat2N.id. symmetry. exact X2.
        - intros X. assert (LP : N.of_nat (length p) = plen n) by (rewrite <- X; exact W). rewrite LP, N.eqb_refl. cbn [andb].
          replace (length p) with (N.to_nat (plen n)) by (rewrite <- LP; apply Nat2N.id). fold (payload_of n). rewrite X. apply same_id_refl. }
      assert (B2 : N.testbit ((if s =? cseq n then 0 else CHANGED_SEQ) + (if same_payload n p then 0 else CHANGED_PAYLOAD)) 2 = negb (s =? cseq n)) by (destruct (s =? cseq n), (same_payload n p); reflexivity).
      assert (B3 : N.testbit ((if s =? cseq n then 0 else CHANGED_SEQ) + (if same_payload n p then 0 else CHANGED_PAYLOAD)) 3 = negb (same_payload n p)) by (destruct (s =? cseq n), (same_payload n p); reflexivity).
      rewrite B2, B3, !negb_true_iff, N.eqb_neq. split; [split; congruence|]. destruct (same_payload n p); intuition congruence.
  - assert (boot n <> t) by (intros X; apply cmp_eq in X; congruence). split; [split; auto|contradiction].
  - assert (boot n <> t) by (intros X; apply cmp_eq in X; congruence). split; [split; auto|contradiction].
Qed.
Lemma clash_silent m now r w i n : understood m -> NoDup (map nid (nodes w)) -> nth_error (nodes w) i = Some n -> nid n = message_id m ->
  ~ no_clash w m -> let w' := snd (process m now r w) in log w' = log w /\ oldest w' = oldest w /\
  exists n', nth_error (nodes w') i = Some n' /\ boot n' = message_time m.
Proof.
  intros U D Hn Q NC. cbv zeta. pose proof (find_node_in _ _ 0 i n D Hn Q) as FN. cbn [Nat.add] in FN. rewrite (process_understood m now r w i U FN).
  set (t := message_time m) in *. set (s := message_seq m). set (p := message_payload m). set (count := nth 33 m 0).
  destruct (heard_rest w i t s p count now r n Hn) as (O & _ & E & _). rewrite E, O.
  set (n1 := store_payload n p count). set (w1 := with_nodes w (set_nth (nodes w) i n1)).
  assert (H1 : nth_error (nodes w1) i = Some n1) by (apply nth_set_same; eapply nth_some_lt; exact Hn).
  assert (C1 : collides w1 (nid n1) t).
  { unfold no_clash in NC. destruct (compare_timeval t (my_boot w)) eqn:B.
    - apply cmp_eq in B. split; [exact B|]. intros X. apply NC. intros _. change (nid n1) with (nid n) in X. rewrite Q in X. exact X.
    - exfalso. apply NC. intros X. apply cmp_eq in X. fold t in X. congruence.
    - exfalso. apply NC. intros X. apply cmp_eq in X. fold t in X. congruence. }
  destruct (onc_collide w1 i t s (changes n t s p) r n1 H1 C1) as (L1 & L2 & _).
  split; [destruct (_ =? 0); [reflexivity|exact L2]|]. split; [destruct (_ =? 0); [reflexivity|exact L1]|].
  rewrite (heard_nodes _ _ _ _ _ _ _ _ _ Hn). eexists. split; [apply nth_set_same; eapply nth_some_lt; exact Hn|].
  unfold heard_node. destruct (N.eqb_spec (changes n t s p) 0) as [C|C]; [|reflexivity]. apply changes_zero in C. apply C.
Qed.
Lemma any_bytes m now r w i n : understood m -> NoDup (map nid (nodes w)) -> nth_error (nodes w) i = Some n -> nid n = message_id m -> stored_wf_node n ->
  exists n', nth_error (nodes (snd (process m now r w))) i = Some n' /\ boot n' = message_time m /\ cseq n' = message_seq m /\
  payload_of n' = message_payload m /\ stored_wf_node n' /\ contact n' = now /\ nid n' = nid n.
Proof.
  intros U D Hn Q W. pose proof (find_node_in _ _ 0 i n D Hn Q) as FN. cbn [Nat.add] in FN. rewrite (process_understood m now r w i U FN).
  set (t := message_time m). set (s := message_seq m). set (p := message_payload m). set (count := nth 33 m 0).
  rewrite (heard_nodes _ _ _ _ _ _ _ _ _ Hn). eexists. split; [apply nth_set_same; eapply nth_some_lt; exact Hn|].
  unfold heard_node. destruct (N.eqb_spec (changes n t s p) 0) as [C|C].
  - apply changes_zero_iff in C; [|exact W]. destruct C as (C1 & C2 & C3). split; [exact C1|]. split; [exact C2|]. split; [exact C3|]. split; [exact W|]. split; reflexivity.
  - split; [reflexivity|]. split; [reflexivity|]. split; [apply (payload_stored n p count)|]. split; [apply (stored_wf n p count)|]. split; reflexivity.
Qed.
