(** The bucket list as an ordered list of (entry, frequency) pairs. *)
From Coq Require Import Arith NArith ZArith List Bool Lia ZifyBool Permutation.
From Verif.Lru Require Import Model Spec Proofs.
From Verif.Lfu Require Import Model.
Import ListNotations.

Definition pb (b : bucket) : list (nat * nat) := map (fun i => (i, freq b)) (items b).
Definition pairs (fl : list bucket) : list (nat * nat) := flat_map pb fl.
Fixpoint pins (p : nat * nat) (P : list (nat * nat)) : list (nat * nat) :=
  match P with
  | [] => [p]
  | y :: r => if Nat.leb (snd y) (snd p) then y :: pins p r else p :: y :: r
  end.
Definition pdrop (i : nat) (P : list (nat * nat)) : list (nat * nat) := filter (fun p => negb (Nat.eqb (fst p) i)) P.

Lemma pairs_app a b : pairs (a ++ b) = pairs a ++ pairs b.
Proof. apply flat_map_app. Qed.

Lemma in_pairs fl i f : In (i, f) (pairs fl) <-> exists b, In b fl /\ In i (items b) /\ freq b = f.
Proof.
  unfold pairs. rewrite in_flat_map. split.
  - intros (b & Hb & H). unfold pb in H. apply in_map_iff in H. destruct H as (j & E & Hj). injection E as -> <-. eauto.
  - intros (b & Hb & Hi & <-). exists b. split; [exact Hb|]. unfold pb. apply in_map_iff. eauto.
Qed.

Lemma pins_le i f A B : Forall (fun p => snd p <= f) A -> pins (i, f) (A ++ B) = A ++ pins (i, f) B.
Proof.
  induction 1 as [|y A Hy HA IH]; [reflexivity|]. cbn. destruct (Nat.leb_spec (snd y) f); [|lia]. f_equal. exact IH.
Qed.

Lemma pins_gt i f B : match B with [] => True | y :: _ => f < snd y end -> pins (i, f) B = (i, f) :: B.
Proof. destruct B as [|y B]; [reflexivity|]. cbn. destruct (Nat.leb_spec (snd y) f); [lia|reflexivity]. Qed.

Lemma pins_perm p P : Permutation (pins p P) (p :: P).
Proof.
  induction P as [|y P IH]; [apply Permutation_refl|]. cbn. destruct (Nat.leb _ _); [|apply Permutation_refl].
  eapply Permutation_trans; [apply perm_skip; exact IH|]. apply perm_swap.
Qed.

Lemma pdrop_notin i P : ~ In i (map fst P) -> pdrop i P = P.
Proof.
  unfold pdrop. induction P as [|y P IH]; intros H; [reflexivity|]. cbn in *. destruct (Nat.eqb_spec (fst y) i); [tauto|]. cbn. f_equal. apply IH. tauto.
Qed.

Lemma pdrop_app i A B : pdrop i (A ++ B) = pdrop i A ++ pdrop i B.
Proof. apply filter_app. Qed.

Lemma pdrop_pb i b : pdrop i (pb b) = pb (del_item i b).
Proof.
  unfold pdrop, pb, del_item. cbn. induction (items b) as [|j l IH]; [reflexivity|]. cbn. destruct (Nat.eqb j i); cbn; [exact IH|f_equal; exact IH].
Qed.

Lemma map_fst_pdrop i P : map fst (pdrop i P) = without_id i (map fst P).
Proof. unfold pdrop, without_id. induction P as [|y P IH]; [reflexivity|]. cbn. destruct (Nat.eqb (fst y) i); cbn; [exact IH|f_equal; exact IH]. Qed.

(** strictly increasing frequencies above [lo] *)
Fixpoint incr (lo : nat) (fl : list bucket) : Prop :=
  match fl with [] => True | b :: r => lo < freq b /\ incr (freq b) r end.
Fixpoint lastf (lo : nat) (fl : list bucket) : nat := match fl with [] => lo | b :: r => lastf (freq b) r end.

Lemma incr_app a b : forall lo, incr lo (a ++ b) <-> incr lo a /\ incr (lastf lo a) b.
Proof. induction a as [|x a IH]; intros lo; cbn; [tauto|]. rewrite IH. tauto. Qed.

Lemma incr_weak lo lo' fl : lo' <= lo -> incr lo fl -> incr lo' fl.
Proof. destruct fl; cbn; [trivial|]. intros. split; [lia|tauto]. Qed.

Lemma incr_lastf fl : forall lo, incr lo fl -> lo <= lastf lo fl /\ Forall (fun b => freq b <= lastf lo fl) fl.
Proof.
  induction fl as [|x fl IH]; intros lo H; cbn in *; [split; [lia|constructor]|]. destruct H as [H1 H2].
  destruct (IH _ H2) as [A B]. split; [lia|]. constructor; [lia|exact B].
Qed.

Lemma pairs_bound fl f : Forall (fun b => freq b <= f) fl -> Forall (fun p => snd p <= f) (pairs fl).
Proof.
  intros H. apply Forall_forall. intros [i g] Hp. apply in_pairs in Hp. destruct Hp as (b & Hb & _ & <-).
  rewrite Forall_forall in H. apply H; exact Hb.
Qed.

Lemma pairs_head lo fl : incr lo fl -> Forall (fun b => items b <> []) fl -> match pairs fl with [] => True | y :: _ => lo < snd y end.
Proof.
  destruct fl as [|b fl]; [trivial|]. cbn. intros [H _] N. inversion N as [|? ? N1 _]; subst.
  unfold pb. destruct (items b); [congruence|]. cbn. exact H.
Qed.

Definition hd_ok (fh : nat -> option nat) (b : bucket) : Prop := Forall (fun i => fh i = Some (bid b)) (items b).

Record WF (c : lfu) : Prop := {
  w_ids : NoDup (bfreed c ++ map bid (flist c));
  w_lt : Forall (fun x => x < nextb c) (bfreed c ++ map bid (flist c));
  w_inc : incr 0 (flist c);
  w_ne : Forall (fun b => items b <> []) (flist c);
  w_q : NoDup (map fst (pairs (flist c)));
  w_hd : Forall (hd_ok (fhead c)) (flist c)
}.

Section Lists.
Variables (pre post : list bucket) (x : bucket).
Hypothesis ND : NoDup (map bid (pre ++ x :: post)).

Lemma nd_pre : ~ In (bid x) (map bid pre).
Proof. rewrite map_app in ND. cbn in ND. apply NoDup_remove_2 in ND. rewrite in_app_iff in ND. tauto. Qed.
Lemma nd_post : ~ In (bid x) (map bid post).
Proof. rewrite map_app in ND. cbn in ND. apply NoDup_remove_2 in ND. rewrite in_app_iff in ND. tauto. Qed.
End Lists.

Lemma find_b_app pre x post : ~ In (bid x) (map bid pre) -> find_b (pre ++ x :: post) (bid x) = Some x.
Proof.
  unfold find_b. induction pre as [|y pre IH]; intros H; cbn in *; [now rewrite Nat.eqb_refl|].
  destruct (Nat.eqb_spec (bid y) (bid x)); [tauto|]. apply IH; tauto.
Qed.
Lemma next_b_app pre x post : ~ In (bid x) (map bid pre) -> next_b (pre ++ x :: post) (bid x) = hd_error post.
Proof.
  induction pre as [|y pre IH]; intros H; cbn in *; [now rewrite Nat.eqb_refl|].
  destruct (Nat.eqb_spec (bid y) (bid x)); [tauto|]. apply IH; tauto.
Qed.
Lemma prev_b_none b l : ~ In b (map bid (tl l)) -> prev_b l b = None.
Proof.
  induction l as [|y l IH]; intros H; cbn in *; [reflexivity|]. destruct l as [|z l]; [reflexivity|]. cbn in H.
  destruct (Nat.eqb_spec (bid z) b); [tauto|]. apply IH. cbn. tauto.
Qed.
Lemma prev_b_some pre z x post : ~ In (bid x) (map bid (pre ++ [z])) -> prev_b (pre ++ z :: x :: post) (bid x) = Some z.
Proof.
  induction pre as [|y pre IH]; intros H; cbn in *; [now rewrite Nat.eqb_refl|].
  destruct pre as [|w pre]; cbn in *.
  - destruct (Nat.eqb_spec (bid z) (bid x)); [tauto|]. now rewrite Nat.eqb_refl.
  - destruct (Nat.eqb_spec (bid w) (bid x)); [tauto|]. apply IH. tauto.
Qed.
Lemma del_b_notin b l : ~ In b (map bid l) -> del_b l b = l.
Proof.
  unfold del_b. induction l as [|y l IH]; intros H; cbn in *; [reflexivity|]. destruct (Nat.eqb_spec (bid y) b); [tauto|]. cbn. f_equal. apply IH; tauto.
Qed.
Lemma del_b_app pre x post : ~ In (bid x) (map bid pre) -> ~ In (bid x) (map bid post) -> del_b (pre ++ x :: post) (bid x) = pre ++ post.
Proof.
  intros A B. unfold del_b. rewrite filter_app. cbn. rewrite Nat.eqb_refl. cbn. f_equal; now apply del_b_notin.
Qed.
Lemma mod_b_notin b f l : ~ In b (map bid l) -> mod_b l b f = l.
Proof.
  unfold mod_b. induction l as [|y l IH]; intros H; cbn in *; [reflexivity|]. destruct (Nat.eqb_spec (bid y) b); [tauto|]. f_equal. apply IH; tauto.
Qed.
Lemma mod_b_app pre x post f b : b = bid x -> ~ In b (map bid pre) -> ~ In b (map bid post) -> mod_b (pre ++ x :: post) b f = pre ++ f x :: post.
Proof.
  intros -> A B. unfold mod_b. rewrite map_app. cbn. rewrite Nat.eqb_refl. f_equal; [|f_equal]; now apply mod_b_notin.
Qed.
Lemma insert_after_app pre x post nb : ~ In (bid x) (map bid pre) -> insert_after (pre ++ x :: post) (bid x) nb = pre ++ x :: nb :: post.
Proof.
  induction pre as [|y pre IH]; intros H; cbn in *; [now rewrite Nat.eqb_refl|].
  destruct (Nat.eqb_spec (bid y) (bid x)); [tauto|]. f_equal. apply IH; tauto.
Qed.

Lemma nodup_app_r {A} (a b : list A) : NoDup (a ++ b) -> NoDup b.
Proof. induction a as [|x a IH]; [trivial|]. cbn. inversion 1; auto. Qed.

(** *** removing an entry from its bucket *)
Lemma remove_from_list_ok c i pre x post : WF c -> flist c = pre ++ x :: post -> In i (items x) ->
  exists c' empty, remove_from_list c i = Ok (c', empty) /\
    h c' = h c /\ nextb c' = nextb c /\ bfreed c' = bfreed c /\
    (forall j, fhead c' j = if Nat.eqb j i then None else fhead c j) /\
    ((items (del_item i x) = [] /\ empty = Some (bid x) /\ flist c' = pre ++ post) \/
     (items (del_item i x) <> [] /\ empty = None /\ flist c' = pre ++ del_item i x :: post)).
Proof.
  intros W E Hi. unfold remove_from_list.
  assert (fhead c i = Some (bid x)) as ->.
  { pose proof (w_hd _ W) as H. rewrite E in H. apply Forall_elt in H. unfold hd_ok in H. rewrite Forall_forall in H. apply H; exact Hi. }
  pose proof (nodup_app_r _ _ (w_ids _ W)) as ND. rewrite E in ND.
  pose proof (nd_pre _ _ _ ND) as N1. pose proof (nd_post _ _ _ ND) as N2.
  rewrite E, find_b_app by exact N1.
  assert (existsb (Nat.eqb i) (items x) = true) as -> by (apply mem_existsb; exact Hi).
  destruct (items (del_item i x)) as [|j l] eqn:EI.
  - eexists _, _. split; [reflexivity|]. cbn. repeat (split; [reflexivity|]). left.
    split; [reflexivity|]. split; [reflexivity|]. apply del_b_app; assumption.
  - eexists _, _. split; [reflexivity|]. cbn. repeat (split; [reflexivity|]). right.
    split; [discriminate|]. split; [reflexivity|]. apply mod_b_app; auto.
Qed.

Lemma hd_ok_ext fh fh' b : (forall i, In i (items b) -> fh' i = fh i) -> hd_ok fh b -> hd_ok fh' b.
Proof. unfold hd_ok. rewrite !Forall_forall. intros E H i Hi. rewrite E by exact Hi. auto. Qed.

Lemma items_in_pairs fl b i : In b fl -> In i (items b) -> In i (map fst (pairs fl)).
Proof. intros Hb Hi. apply in_map_iff. exists (i, freq b). split; [reflexivity|]. apply in_pairs. eauto. Qed.

Lemma map_fst_pb b : map fst (pb b) = items b.
Proof. unfold pb. rewrite map_map. cbn. apply map_id. Qed.

Lemma map_fst_pairs fl : map fst (pairs fl) = flat_map items fl.
Proof. induction fl as [|b fl IH]; [reflexivity|]. cbn. rewrite map_app, map_fst_pb. f_equal. exact IH. Qed.

Lemma pdrop_split i pre x post : NoDup (map fst (pairs (pre ++ x :: post))) -> In i (items x) ->
  pdrop i (pairs (pre ++ x :: post)) = pairs pre ++ pb (del_item i x) ++ pairs post /\
  ~ In i (map fst (pairs pre)) /\ ~ In i (map fst (pairs post)).
Proof.
  intros ND Hi. rewrite pairs_app in *. cbn [pairs flat_map] in *. fold (pairs post) in *.
  rewrite !map_app, map_fst_pb in ND.
  assert (~ In i (map fst (pairs pre)) /\ ~ In i (map fst (pairs post))) as [A B].
  { apply in_split in Hi. destruct Hi as (u & w & Hi). rewrite Hi in ND. split.
    - intros H. rewrite <- app_assoc in ND. rewrite app_assoc in ND.
      cbn in ND. apply NoDup_remove_2 in ND. apply ND. rewrite !in_app_iff. auto.
    - intros H. rewrite <- app_assoc in ND. rewrite app_assoc in ND.
      cbn in ND. apply NoDup_remove_2 in ND. apply ND. rewrite !in_app_iff. auto. }
  split; [|split; assumption].
  rewrite !pdrop_app, pdrop_pb, !pdrop_notin by assumption. reflexivity.
Qed.

(** taking an entry out and freeing its bucket if that emptied it *)
Lemma take_out c i pre x post : WF c -> flist c = pre ++ x :: post -> In i (items x) ->
  exists c' empty, remove_from_list c i = Ok (c', empty) /\
    h c' = h c /\ WF (free_b c' empty) /\ pairs (flist c') = pdrop i (pairs (flist c)).
Proof.
  intros W E Hi. destruct (remove_from_list_ok c i pre x post W E Hi) as (c' & empty & R & Hh & Hn & Hf & Hd & D).
  exists c', empty. split; [exact R|]. split; [exact Hh|].
  pose proof (w_q _ W) as Q. rewrite E in Q. destruct (pdrop_split i pre x post Q Hi) as (PD & N1 & N2).
  assert (pairs (flist c') = pdrop i (pairs (flist c))) as PP.
  { rewrite E, PD. destruct D as [(A & _ & ->)|(A & _ & ->)]; rewrite pairs_app.
    - unfold pb. rewrite A. reflexivity.
    - reflexivity. }
  split; [|exact PP].
  pose proof (w_ids _ W) as I. pose proof (w_lt _ W) as LT. pose proof (w_inc _ W) as IN. pose proof (w_ne _ W) as NE. pose proof (w_hd _ W) as HD.
  rewrite E in I, LT, IN, NE, HD.
  assert (forall b, In b pre \/ In b post -> hd_ok (fhead c) b -> hd_ok (fhead c') b) as HK.
  { intros b Hb. apply hd_ok_ext. intros j Hj. rewrite Hd. destruct (Nat.eqb_spec j i) as [->|]; [|reflexivity].
    exfalso. destruct Hb as [Hb|Hb]; [apply N1|apply N2]; eapply items_in_pairs; eassumption. }
  apply Forall_app in NE. destruct NE as [NE1 NE2]. inversion NE2 as [|? ? NEx NE3]; subst.
  apply Forall_app in HD. destruct HD as [HD1 HD2]. inversion HD2 as [|? ? HDx HD3]; subst.
  assert (Forall (hd_ok (fhead c')) pre) as K1. { apply Forall_forall. intros b Hb. apply HK; [auto|]. rewrite Forall_forall in HD1. auto. }
  assert (Forall (hd_ok (fhead c')) post) as K2. { apply Forall_forall. intros b Hb. apply HK; [auto|]. rewrite Forall_forall in HD3. auto. }
  apply incr_app in IN. destruct IN as [IN1 IN2]. cbn in IN2.
  destruct D as [(A & -> & F)|(A & -> & F)].
  - split; cbn [free_b flist bfreed nextb fhead]; rewrite ?F, ?Hn, ?Hf.
    + eapply Permutation_NoDup; [|exact I]. rewrite <- app_assoc, !map_app. apply Permutation_app_head. cbn. apply Permutation_sym, Permutation_middle.
    + eapply Permutation_Forall; [|exact LT]. rewrite <- app_assoc, !map_app. apply Permutation_app_head. cbn. apply Permutation_sym, Permutation_middle.
    + apply incr_app. split; [exact IN1|]. eapply incr_weak; [|apply IN2]. lia.
    + apply Forall_app; auto.
    + rewrite <- F, PP, map_fst_pdrop. apply nodup_without, W.
    + apply Forall_app; auto.
  - assert (map bid (pre ++ del_item i x :: post) = map bid (pre ++ x :: post)) as MB by (rewrite !map_app; reflexivity).
    split; cbn [free_b flist bfreed nextb fhead]; rewrite ?F, ?Hn, ?Hf, ?MB; try assumption.
    + apply incr_app. split; [exact IN1|]. exact IN2.
    + apply Forall_app. split; [exact NE1|]. constructor; assumption.
    + rewrite <- F, PP, map_fst_pdrop. apply nodup_without, W.
    + apply Forall_app. split; [exact K1|]. constructor; [|exact K2].
      unfold hd_ok in *. rewrite Forall_forall in *. intros j Hj. cbn in Hj. apply in_without in Hj. rewrite Hd.
      destruct (Nat.eqb_spec j i); [tauto|]. cbn. apply HDx. tauto.
Qed.

(** *** linking a new entry at frequency 1 *)
Definition link_new (c : lfu) (i : nat) : lfu :=
  let (c1, b) :=
    match flist c with
    | [] => new_bucket c 1 None
    | e :: _ => if Nat.ltb 1 (freq e) then new_bucket c 1 None else (c, bid e)
    end in link_item c1 b i.

Lemma link_new_ok c i : WF c -> ~ In i (map fst (pairs (flist c))) ->
  h (link_new c i) = h c /\ WF (link_new c i) /\ pairs (flist (link_new c i)) = pins (i, 1) (pairs (flist c)).
Proof.
  intros W NI. pose proof (w_ids _ W) as I. pose proof (w_lt _ W) as LT. pose proof (w_inc _ W) as IN. pose proof (w_ne _ W) as NE. pose proof (w_hd _ W) as HD.
  assert (forall t, Forall (hd_ok (fun j => if Nat.eqb j i then t else fhead c j)) (flist c)) as K.
  { intros t. apply Forall_forall. intros b Hb. eapply hd_ok_ext; [|rewrite Forall_forall in HD; apply HD; exact Hb].
    intros j Hj. cbn. destruct (Nat.eqb_spec j i) as [->|]; [|reflexivity]. exfalso. apply NI. eapply items_in_pairs; eassumption. }
  assert ((flist c = [] \/ exists e r, flist c = e :: r /\ 1 < freq e) \/ exists e r, flist c = e :: r /\ freq e = 1) as [CA|(e & r & E & F1)].
  { destruct (flist c) as [|e r]; [left; left; reflexivity|]. cbn in IN. destruct (Nat.eq_dec (freq e) 1); [right; eauto|left; right; exists e, r; split; [reflexivity|lia]]. }
  - set (nb := {| bid := nextb c; freq := 1; items := [i] |}).
    assert (link_new c i = {| h := h c; flist := nb :: flist c; fhead := fun j => if Nat.eqb j i then Some (nextb c) else fhead c j; nextb := S (nextb c); bfreed := bfreed c |}) as ->.
    { unfold link_new. assert (match flist c with [] => new_bucket c 1 None | e :: _ => if Nat.ltb 1 (freq e) then new_bucket c 1 None else (c, bid e) end = new_bucket c 1 None) as ->.
      { destruct CA as [->|(e & r & -> & L)]; [reflexivity|]. destruct (Nat.ltb_spec 1 (freq e)); [reflexivity|lia]. }
      unfold new_bucket, insert_to_list_after, link_item. unfold set_head, set_fl. cbn -[mod_b]. f_equal.
      unfold mod_b. cbn. rewrite Nat.eqb_refl. cbn. f_equal. apply mod_b_notin.
      rewrite Forall_forall in LT. intros H. specialize (LT (nextb c)). rewrite in_app_iff in LT. specialize (LT (or_intror H)). lia. }
    cbn [h flist]. split; [reflexivity|].
    assert (pairs (nb :: flist c) = pins (i, 1) (pairs (flist c))) as PP.
    { rewrite pins_gt; [reflexivity|]. apply pairs_head; [|exact NE]. destruct CA as [->|(e & r & E & L)]; [exact Logic.I|]. rewrite E in *. cbn in *. tauto. }
    split; [|exact PP].
    split; cbn [h flist fhead nextb bfreed].
    + cbn. apply (Permutation_NoDup (l := nextb c :: bfreed c ++ map bid (flist c))); [apply Permutation_middle|].
      constructor; [|exact I]. intros H. rewrite Forall_forall in LT. specialize (LT _ H). lia.
    + apply (Permutation_Forall (x := nextb c :: bfreed c ++ map bid (flist c))); [apply Permutation_middle|].
      constructor; [lia|]. eapply Forall_impl; [|exact LT]. cbn. lia.
    + cbn. split; [lia|]. destruct CA as [->|(e & r & E & L)]; [exact Logic.I|]. rewrite E in *. cbn in *. tauto.
    + constructor; [discriminate|exact NE].
    + rewrite PP. eapply Permutation_NoDup; [apply Permutation_map, Permutation_sym, pins_perm|]. cbn. constructor; [exact NI|apply W].
    + constructor; [|apply K]. unfold hd_ok. cbn. constructor; [now rewrite Nat.eqb_refl|constructor].
  - assert (link_new c i = {| h := h c; flist := add_item i e :: r; fhead := fun j => if Nat.eqb j i then Some (bid e) else fhead c j; nextb := nextb c; bfreed := bfreed c |}) as ->.
    { unfold link_new. rewrite E. destruct (Nat.ltb_spec 1 (freq e)); [lia|]. unfold link_item, set_head, set_fl. cbn -[mod_b]. rewrite E. f_equal.
      apply nodup_app_r in I. rewrite E in I. apply (mod_b_app [] e r); [reflexivity|tauto|]. inversion I; assumption. }
    cbn [h flist]. split; [reflexivity|]. rewrite E in IN, NE. cbn in IN. destruct IN as [_ IN2]. inversion NE as [|? ? NEx NE2]; subst.
    assert (pairs (add_item i e :: r) = pins (i, 1) (pairs (flist c))) as PP.
    { rewrite E. cbn [pairs flat_map]. fold (pairs r). rewrite pins_le.
      - rewrite pins_gt; [|apply pairs_head; [|exact NE2]; rewrite <- F1; exact IN2].
        unfold pb, add_item. cbn. rewrite map_app, <- app_assoc. cbn. rewrite F1. reflexivity.
      - unfold pb. rewrite Forall_map. apply Forall_forall. intros j _. cbn. lia. }
    split; [|exact PP].
    assert (map bid (add_item i e :: r) = map bid (flist c)) as MB by (rewrite E; reflexivity).
    split; cbn [h flist fhead nextb bfreed]; rewrite ?MB; try assumption.
    + cbn. split; [lia|exact IN2].
    + constructor; [|exact NE2]. cbn. intros X. apply app_eq_nil in X. destruct X; discriminate.
    + rewrite PP. eapply Permutation_NoDup; [apply Permutation_map, Permutation_sym, pins_perm|]. cbn. constructor; [exact NI|apply W].
    + specialize (K (Some (bid e))). rewrite E in K. inversion K as [|? ? K1 K2]; subst. constructor; [|exact K2].
      unfold hd_ok in *. cbn. apply Forall_app. split; [exact K1|]. constructor; [now rewrite Nat.eqb_refl|constructor].
Qed.

(** *** one use of an entry *)
Lemma touch_ok c i pre x post : WF c -> (0 < max_entries (h c))%Z -> flist c = pre ++ x :: post -> In i (items x) ->
  exists c', lfu_touch c i = Ok c' /\ h c' = h c /\ WF c' /\
    pairs (flist c') = pins (i, S (freq x)) (pdrop i (pairs (flist c))).
Proof.
  intros W MX E Hi. unfold lfu_touch. destruct (0 <? max_entries (h c))%Z eqn:EZ; [|lia].
  assert (fhead c i = Some (bid x)) as ->.
  { pose proof (w_hd _ W) as H. rewrite E in H. apply Forall_elt in H. unfold hd_ok in H. rewrite Forall_forall in H. apply H; exact Hi. }
  pose proof (w_ids _ W) as I. pose proof (w_lt _ W) as LT. pose proof (w_inc _ W) as IN. pose proof (w_ne _ W) as NE. pose proof (w_hd _ W) as HD.
  pose proof (w_q _ W) as Q.
  pose proof (nodup_app_r _ _ I) as ND. rewrite E in ND.
  pose proof (nd_pre _ _ _ ND) as N1. pose proof (nd_post _ _ _ ND) as N2.
  rewrite E. rewrite find_b_app, next_b_app by exact N1.
  destruct (remove_from_list_ok c i pre x post W E Hi) as (c1 & empty & R & Hh & Hn & Hf & Hd & D).
  rewrite R. cbn [bind].
  rewrite E in Q. destruct (pdrop_split i pre x post Q Hi) as (PD & P1 & P2). rewrite PD.
  rewrite E in I, LT, IN, NE, HD.
  assert (forall t b, In b pre \/ In b post -> hd_ok (fhead c) b -> hd_ok (fun j => if Nat.eqb j i then Some t else fhead c1 j) b) as HK.
  { intros t b Hb. apply hd_ok_ext. intros j Hj. cbn. rewrite Hd. destruct (Nat.eqb_spec j i) as [->|]; [|reflexivity].
    exfalso. destruct Hb as [Hb|Hb]; [apply P1|apply P2]; eapply items_in_pairs; eassumption. }
  apply Forall_app in NE. destruct NE as [NE1 NE2]. inversion NE2 as [|? ? NEx NE3]; subst.
  apply Forall_app in HD. destruct HD as [HD1 HD2]. inversion HD2 as [|? ? HDx HD3]; subst.
  assert (forall t, Forall (hd_ok (fun j => if Nat.eqb j i then Some t else fhead c1 j)) pre) as K1.
  { intros t. apply Forall_forall. intros b Hb. apply HK; [auto|]. rewrite Forall_forall in HD1. auto. }
  assert (forall t, Forall (hd_ok (fun j => if Nat.eqb j i then Some t else fhead c1 j)) post) as K2.
  { intros t. apply Forall_forall. intros b Hb. apply HK; [auto|]. rewrite Forall_forall in HD3. auto. }
  assert (forall t, hd_ok (fun j => if Nat.eqb j i then Some t else fhead c1 j) (del_item i x)) as Kx.
  { intros t. unfold hd_ok in *. rewrite Forall_forall in *. intros j Hj. cbn in Hj. apply in_without in Hj. rewrite Hd.
    destruct (Nat.eqb_spec j i); [tauto|]. cbn. apply HDx. tauto. }
  apply incr_app in IN. destruct IN as [IN1 IN2]. cbn in IN2. destruct IN2 as [INx IN3].
  set (f := freq x) in *.
  (* everything before [post] has frequency at most f *)
  assert (pins (i, S f) (pairs pre ++ pb (del_item i x) ++ pairs post) = pairs pre ++ pb (del_item i x) ++ pins (i, S f) (pairs post)) as PI.
  { rewrite app_assoc, pins_le, <- app_assoc; [reflexivity|]. apply Forall_app. split.
    - apply pairs_bound. destruct (incr_lastf _ _ IN1) as [_ B]. eapply Forall_impl; [|exact B]. cbn. intros; lia.
    - unfold pb. rewrite Forall_map. apply Forall_forall. intros j _. cbn. fold f. lia. }
  rewrite PI.
  assert (NoDup (map fst (pins (i, S f) (pdrop i (pairs (pre ++ x :: post)))))) as NDP.
  { eapply Permutation_NoDup; [apply Permutation_map, Permutation_sym, pins_perm|]. cbn. rewrite map_fst_pdrop.
    constructor; [rewrite in_without; tauto|]. apply nodup_without. exact Q. }
  rewrite PD, PI in NDP.
  assert (~ In (nextb c) (bfreed c ++ map bid (pre ++ x :: post))) as NNB.
  { intros H. rewrite Forall_forall in LT. specialize (LT _ H). lia. }
  match goal with |- context [if ?n then _ else (c1, _)] => set (need := n) end.
  assert (need = match hd_error post with None => true | Some n => negb (Nat.eqb (freq n) (f + 1)) end) as EN.
  { unfold need. destruct (hd_error post) as [n|] eqn:EP; [|reflexivity].
    assert (match pre ++ x :: post with [] => false | f0 :: _ => bid n =? bid f0 end = false) as ->; [|reflexivity].
    destruct post as [|n' post']; [discriminate|]. injection EP as ->.
    rewrite map_app in ND. cbn in ND. destruct pre as [|p pre']; cbn in *.
    - destruct (Nat.eqb_spec (bid n) (bid x)) as [EE|]; [|reflexivity]. exfalso. inversion ND as [|? ? A _]; subst. apply A. left; exact EE.
    - destruct (Nat.eqb_spec (bid n) (bid p)) as [EE|]; [|reflexivity]. exfalso. inversion ND as [|? ? A _]; subst. apply A.
      rewrite in_app_iff. right. right. left. exact EE. }
  clearbody need.
  destruct need.
  - (* a new bucket of frequency f+1 is needed *)
    assert (pins (i, S f) (pairs post) = (i, S f) :: pairs post) as PG.
    { apply pins_gt. apply pairs_head; [|exact NE3]. destruct post as [|n post']; [exact Logic.I|]. cbn in *.
      destruct (Nat.eqb_spec (freq n) (f + 1)); [discriminate|]. split; [lia|tauto]. }
    assert (incr (S f) post) as IS.
    { destruct post as [|n post']; [exact Logic.I|]. cbn in *. destruct (Nat.eqb_spec (freq n) (f + 1)); [discriminate|]. split; [lia|tauto]. }
    rewrite PG in *. replace (f + 1) with (S f) by lia.
    destruct D as [(A & -> & F)|(A & -> & F)].
    + (* the emptied bucket is reused *)
      set (nb := {| bid := bid x; freq := S f; items := [i] |}).
      assert (link_item (insert_to_list_after c1 {| bid := bid x; freq := S f; items := [] |} (option_map bid (prev_b (pre ++ x :: post) (bid x)))) (bid x) i
        = {| h := h c; flist := pre ++ nb :: post; fhead := fun j => if Nat.eqb j i then Some (bid x) else fhead c1 j; nextb := nextb c; bfreed := bfreed c |}) as ->.
      { assert (insert_to_list_after c1 {| bid := bid x; freq := S f; items := [] |} (option_map bid (prev_b (pre ++ x :: post) (bid x)))
          = set_fl c1 (pre ++ {| bid := bid x; freq := S f; items := [] |} :: post)) as ->.
        { destruct pre as [|p0 pre0] using rev_ind.
          - cbn [app] in *. rewrite prev_b_none by exact N2. cbn. rewrite F. reflexivity.
          - clear IHpre0. rewrite <- app_assoc. cbn [app]. rewrite prev_b_some by exact N1. cbn [option_map].
            unfold insert_to_list_after. rewrite F.
            assert (match (pre0 ++ [p0]) ++ post with [] => true | _ :: _ => false end = false) as ->.
            { destruct pre0; reflexivity. }
            cbn [bid]. assert (bid x <> bid p0) as NB. { intros X. apply N1. rewrite map_app, in_app_iff. right. left. symmetry. exact X. }
            destruct (Nat.eqb_spec (bid x) (bid p0)); [contradiction|]. cbn [negb andb].
            rewrite <- !app_assoc. cbn [app]. rewrite insert_after_app; [reflexivity|].
            rewrite <- app_assoc, map_app in ND. cbn [app map] in ND. apply NoDup_remove_2 in ND.
            intros X. apply ND. rewrite in_app_iff. left. exact X. }
        unfold link_item, set_head, set_fl. cbn [h flist fhead nextb bfreed]. rewrite Hh, Hn, Hf. f_equal.
        rewrite mod_b_app; [reflexivity|reflexivity|exact N1|exact N2]. }
      eexists. split; [reflexivity|]. cbn [h flist]. split; [reflexivity|].
      assert (pairs (pre ++ nb :: post) = pairs pre ++ pb (del_item i x) ++ (i, S f) :: pairs post) as PP.
      { rewrite pairs_app. cbn [pairs flat_map]. fold (pairs post). unfold pb at 2. rewrite A. reflexivity. }
      split; [|exact PP].
      assert (map bid (pre ++ nb :: post) = map bid (pre ++ x :: post)) as MB by (rewrite !map_app; reflexivity).
      split; cbn [h flist fhead nextb bfreed]; rewrite ?MB; try assumption.
      * apply incr_app. split; [exact IN1|]. cbn. split; [lia|exact IS].
      * apply Forall_app. split; [exact NE1|]. constructor; [discriminate|exact NE3].
      * rewrite PP. exact NDP.
      * apply Forall_app. split; [apply K1|]. constructor; [|apply K2]. constructor; [|constructor]. cbn. now rewrite Nat.eqb_refl.
    + (* a bucket is allocated *)
      set (nb := {| bid := nextb c; freq := S f; items := [i] |}).
      assert ((let (c2, target) := new_bucket c1 (S f) (Some (bid x)) in Ok (link_item c2 target i))
        = Ok {| h := h c; flist := pre ++ del_item i x :: nb :: post; fhead := fun j => if Nat.eqb j i then Some (nextb c) else fhead c1 j; nextb := S (nextb c); bfreed := bfreed c |}) as ->.
      { unfold new_bucket, insert_to_list_after. cbn [flist]. rewrite F.
        assert (match pre ++ del_item i x :: post with [] => true | _ :: _ => false end = false) as -> by (destruct pre; reflexivity).
        cbn [bid]. rewrite Hn. assert (nextb c <> bid x) as NB.
        { intros X. apply NNB. rewrite in_app_iff. right. rewrite map_app, in_app_iff. right. left. symmetry; exact X. }
        destruct (Nat.eqb_spec (nextb c) (bid x)); [contradiction|]. cbn [negb andb].
        change (bid x) with (bid (del_item i x)). rewrite insert_after_app by exact N1.
        unfold link_item, set_head, set_fl. cbn [h flist fhead nextb bfreed]. rewrite Hh, Hf. f_equal. f_equal.
        change (pre ++ del_item i x :: {| bid := nextb c; freq := S f; items := [] |} :: post)
          with (pre ++ [del_item i x] ++ {| bid := nextb c; freq := S f; items := [] |} :: post).
        rewrite app_assoc, mod_b_app.
        - rewrite <- app_assoc. reflexivity.
        - reflexivity.
        - intros X. apply NNB. rewrite in_app_iff. right. rewrite !map_app, in_app_iff in *. cbn in *. tauto.
        - intros X. apply NNB. rewrite in_app_iff. right. rewrite !map_app, in_app_iff in *. cbn in *. tauto. }
      eexists. split; [reflexivity|]. cbn [h flist]. split; [reflexivity|].
      assert (pairs (pre ++ del_item i x :: nb :: post) = pairs pre ++ pb (del_item i x) ++ (i, S f) :: pairs post) as PP.
      { rewrite pairs_app. reflexivity. }
      split; [|exact PP].
      assert (Permutation (nextb c :: bfreed c ++ map bid (pre ++ x :: post)) (bfreed c ++ map bid (pre ++ del_item i x :: nb :: post))) as PM.
      { eapply Permutation_trans; [apply Permutation_middle|]. apply Permutation_app_head.
        rewrite !map_app. cbn. eapply Permutation_trans; [apply Permutation_middle|]. apply Permutation_app_head. apply perm_swap. }
      split; cbn [h flist fhead nextb bfreed].
      * eapply Permutation_NoDup; [exact PM|]. constructor; [exact NNB|exact I].
      * eapply Permutation_Forall; [exact PM|]. constructor; [lia|]. eapply Forall_impl; [|exact LT]. cbn. lia.
      * apply incr_app. split; [exact IN1|]. cbn. fold f. split; [lia|]. split; [lia|exact IS].
      * apply Forall_app. split; [exact NE1|]. constructor; [exact A|]. constructor; [discriminate|exact NE3].
      * rewrite PP. exact NDP.
      * apply Forall_app. split; [apply K1|]. constructor; [apply Kx|]. constructor; [|apply K2]. constructor; [|constructor]. cbn. now rewrite Nat.eqb_refl.
  - (* the next bucket has frequency f+1 *)
    destruct post as [|n post']; [discriminate|]. cbn [hd_error] in *.
    destruct (Nat.eqb_spec (freq n) (f + 1)) as [FN|]; [|discriminate]. clear EN.
    cbn in IN3. destruct IN3 as [IN3 IN4]. inversion NE3 as [|? ? NEn NE4]; subst.
    assert (pins (i, S f) (pairs (n :: post')) = pb (add_item i n) ++ pairs post') as PG.
    { cbn [pairs flat_map]. fold (pairs post'). rewrite pins_le.
      - rewrite pins_gt; [|apply pairs_head; [|exact NE4]; replace (S f) with (freq n) by lia; exact IN4].
        unfold pb, add_item. cbn. rewrite map_app, <- app_assoc. cbn. do 3 f_equal. lia.
      - unfold pb. rewrite Forall_map. apply Forall_forall. intros j _. cbn. lia. }
    rewrite PG in *.
    assert (forall mid, flist c1 = pre ++ mid ++ n :: post' -> ~ In (bid n) (map bid mid) ->
      link_item c1 (bid n) i = {| h := h c; flist := pre ++ mid ++ add_item i n :: post'; fhead := fun j => if Nat.eqb j i then Some (bid n) else fhead c1 j; nextb := nextb c; bfreed := bfreed c |}) as LK.
    { intros mid F NM. unfold link_item, set_head, set_fl. cbn [h flist fhead nextb bfreed]. rewrite Hh, Hn, Hf, F. f_equal.
      rewrite map_app in ND. cbn in ND.
      rewrite app_assoc, mod_b_app; [now rewrite <- app_assoc|reflexivity| |].
      - rewrite map_app, in_app_iff. intros [X|X]; [|contradiction].
        apply NoDup_remove_1 in ND. apply NoDup_remove_2 in ND. apply ND. rewrite in_app_iff. auto.
      - apply NoDup_remove_1 in ND. apply NoDup_remove_2 in ND. intros X. apply ND. rewrite in_app_iff. auto. }
    pose proof (K2 (bid n)) as K2n. inversion K2n as [|? ? Kn K3]; subst.
    assert (hd_ok (fun j => if Nat.eqb j i then Some (bid n) else fhead c1 j) (add_item i n)) as Kn'.
    { unfold hd_ok in *. cbn. apply Forall_app. split; [exact Kn|]. constructor; [now rewrite Nat.eqb_refl|constructor]. }
    assert (items (add_item i n) <> []) as NEn'. { cbn. intros X. apply app_eq_nil in X. destruct X; discriminate. }
    destruct D as [(A & -> & F)|(A & -> & F)].
    + rewrite (LK [] F) by tauto. cbn [app]. eexists. split; [reflexivity|]. cbn [h flist]. split; [reflexivity|].
      assert (pairs (pre ++ add_item i n :: post') = pairs pre ++ pb (del_item i x) ++ pb (add_item i n) ++ pairs post') as PP.
      { rewrite pairs_app. assert (pb (del_item i x) = []) as -> by (unfold pb; now rewrite A). reflexivity. }
      split; [|exact PP].
      split; cbn [h flist fhead nextb bfreed].
      * rewrite map_app in *. cbn in *. rewrite app_assoc in I. apply NoDup_remove_1 in I. rewrite <- app_assoc in I. exact I.
      * rewrite map_app in *. cbn in *. rewrite !Forall_app in *. destruct LT as (L1 & L2 & L3). inversion L3; auto.
      * apply incr_app. split; [exact IN1|]. cbn. split; [lia|exact IN4].
      * apply Forall_app. split; [exact NE1|]. constructor; [exact NEn'|exact NE4].
      * rewrite PP. exact NDP.
      * apply Forall_app. split; [apply K1|]. constructor; [exact Kn'|exact K3].
    + rewrite (LK [del_item i x] F). 2:{ intros [X|[]]. apply N2. left. symmetry. exact X. }
      cbn [app]. eexists. split; [reflexivity|]. cbn [h flist]. split; [reflexivity|].
      assert (pairs (pre ++ del_item i x :: add_item i n :: post') = pairs pre ++ pb (del_item i x) ++ pb (add_item i n) ++ pairs post') as PP.
      { rewrite pairs_app. reflexivity. }
      split; [|exact PP].
      assert (map bid (pre ++ del_item i x :: add_item i n :: post') = map bid (pre ++ x :: n :: post')) as MB by (rewrite !map_app; reflexivity).
      split; cbn [h flist fhead nextb bfreed]; rewrite ?MB; try assumption.
      * apply incr_app. split; [exact IN1|]. cbn. fold f. split; [lia|]. split; [lia|exact IN4].
      * apply Forall_app. split; [exact NE1|]. constructor; [exact A|]. constructor; [exact NEn'|exact NE4].
      * rewrite PP. exact NDP.
      * apply Forall_app. split; [apply K1|]. constructor; [apply Kx|]. constructor; [exact Kn'|exact K3].
Qed.
