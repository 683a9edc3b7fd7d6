From Coq Require Import Arith NArith ZArith List Bool Lia Permutation ZifyBool ZifyNat ZifyN.
From Verif.Hash Require Import Model Spec.
Import ListNotations.
Local Open Scope N_scope.
Ltac Zify.zify_post_hook ::= Z.div_mod_to_equations.

Lemma le32_length : forall x, length (le32 x) = 4%nat. Proof. reflexivity. Qed.
Lemma memeq_true : forall a b, memeq a b = true <-> a = b.
Proof.
  induction a as [|x a IH]; intros [|y b]; cbn [memeq]; split; intros H; try discriminate; auto.
  - apply andb_prop in H as (H1 & H2). apply N.eqb_eq in H1. apply IH in H2. congruence.
  - inversion H; subst. rewrite N.eqb_refl. cbn [andb]. apply IH; reflexivity.
Qed.
Definition klen_of (k : list N) : N := N.of_nat (length k) + 4.
Lemma firstn_key : forall k r, firstn (N.to_nat (klen_of k)) (key_bytes (klen_of k) (k ++ r)) = le32 (klen_of k) ++ k.
Proof.
  intros k r. unfold key_bytes. rewrite firstn_app, le32_length.
  rewrite firstn_all2 by (rewrite le32_length; unfold klen_of; lia). f_equal.
  replace (N.to_nat (klen_of k) - 4)%nat with (length k + 0)%nat by (unfold klen_of; lia).
  rewrite firstn_app_2. cbn [firstn]. apply app_nil_r.
Qed.
Lemma compare_key : forall k k', hs_compare (klen_of k) (k ++ [0]) (klen_of k') (k' ++ [0]) = true <-> k = k'.
Proof.
  intros k k'. unfold hs_compare. destruct (N.eqb (klen_of k) (klen_of k')) eqn:E.
  - apply N.eqb_eq in E. rewrite memeq_true. rewrite firstn_key, E, firstn_key. split; intros H.
    + apply app_inv_head in H. exact H.
    + rewrite H. reflexivity.
  - apply N.eqb_neq in E. split; [discriminate|]. intros ->. congruence.
Qed.

Definition wf (a : attr) (k : list N) : Prop := alen a = klen_of k /\ alabel a = k ++ [0] /\ N.of_nat (length k) < 2 ^ 31.
Definition khash (xxh : list N -> N) (k : list N) : N := hs_hash xxh (klen_of k) (k ++ [0]).
Definition ent (at_ : nat -> option attr) (x : N * nat) : list N * (N * N) :=
  match at_ (snd x) with Some a => (firstn (N.to_nat (alen a - 4)) (alabel a), (akp a, adata a)) | None => ([], (0, 0)) end.
Lemma wf_ent : forall (at_ : nat -> option attr) x a k, at_ (snd x) = Some a -> wf a k -> ent at_ x = (k, (akp a, adata a)).
Proof.
  intros at_ x a k H (H1 & H2 & H3). unfold ent. rewrite H, H1, H2. f_equal. unfold klen_of.
  replace (N.to_nat (N.of_nat (length k) + 4 - 4)) with (length k + 0)%nat by lia. rewrite firstn_app_2. apply app_nil_r.
Qed.

(** the finite map *)
Lemma lookup_in : forall m k v, NoDup (map fst m) -> (lookup k m = Some v <-> In (k, v) m).
Proof.
  induction m as [|[k' v'] m IH]; intros k v H; cbn [lookup In]; [split; [discriminate|intros []]|].
  inversion H as [|? ? Hn Hd]; subst. destruct (key_dec k k') as [->|Hk].
  - split; intros E; [injection E as ->; auto|]. destruct E as [E|E]; [congruence|].
    exfalso. apply Hn. change k' with (fst (k', v)). apply in_map. exact E.
  - rewrite IH by exact Hd. split; intros E; auto. destruct E as [E|E]; [congruence|exact E].
Qed.
Lemma lookup_none : forall m k, lookup k m = None <-> ~ In k (map fst m).
Proof.
  induction m as [|[k' v'] m IH]; intros k; cbn [lookup map In fst]; [tauto|].
  destruct (key_dec k k') as [->|Hk]; [split; [discriminate|tauto]|]. rewrite IH. split; intros H; [|tauto].
  intros [E|E]; [congruence|tauto].
Qed.
Lemma lookup_perm : forall m m' k, NoDup (map fst m) -> Permutation m m' -> lookup k m = lookup k m'.
Proof.
  intros m m' k H P. assert (H' : NoDup (map fst m')) by (eapply Permutation_NoDup; [apply Permutation_map; exact P|exact H]).
  destruct (lookup k m) as [v|] eqn:E.
  - symmetry. apply lookup_in; [exact H'|]. apply lookup_in in E; [|exact H]. eapply Permutation_in; eauto.
  - symmetry. apply lookup_none. apply lookup_none in E. intros F. apply E.
    eapply Permutation_in; [apply Permutation_sym, Permutation_map; exact P|exact F].
Qed.
Lemma remove_filter : forall k m, remove k m = filter (fun b => if key_dec k (fst b) then false else true) m.
Proof.
  induction m as [|[k' v] m IH]; cbn [remove filter fst]; [reflexivity|]. destruct (key_dec k k'); rewrite IH; reflexivity.
Qed.
Lemma perm_filter : forall A (f : A -> bool) l l', Permutation l l' -> Permutation (filter f l) (filter f l').
Proof.
  induction 1; cbn [filter]; auto.
  - destruct (f x); auto.
  - destruct (f x), (f y); auto. apply perm_swap.
  - eapply perm_trans; eauto.
Qed.
Lemma remove_perm : forall k m m', Permutation m m' -> Permutation (remove k m) (remove k m').
Proof. intros. rewrite !remove_filter. apply perm_filter; assumption. Qed.
Lemma remove_keys : forall k m x, In x (map fst (remove k m)) -> x <> k /\ In x (map fst m).
Proof.
  induction m as [|[k' v] m IH]; cbn [remove map In fst]; intros x H; [contradiction|].
  destruct (key_dec k k') as [->|Hk]; [apply IH in H; tauto|].
  cbn [map fst In] in H. destruct H as [<-|H]; [split; [congruence|auto]|]. apply IH in H. tauto.
Qed.
Lemma remove_nodup : forall k m, NoDup (map fst m) -> NoDup (map fst (remove k m)).
Proof.
  induction m as [|[k' v] m IH]; cbn [remove map fst]; intros H; [constructor|]. inversion H; subst.
  destruct (key_dec k k'); [auto|]. cbn [map fst]. constructor; [|auto]. intros F. apply remove_keys in F. tauto.
Qed.
Lemma remove_none : forall k m, ~ In k (map fst m) -> remove k m = m.
Proof.
  induction m as [|[k' v] m IH]; cbn [remove map fst In]; intros H; [reflexivity|].
  destruct (key_dec k k') as [->|]; [exfalso; tauto|]. rewrite IH by tauto. reflexivity.
Qed.
Lemma bind_nodup : forall k v m, NoDup (map fst m) -> NoDup (map fst (bind k v m)).
Proof.
  intros. unfold bind. cbn [map fst]. constructor; [|apply remove_nodup; assumption]. intros F. apply remove_keys in F. tauto.
Qed.
Lemma remove_cut : forall k v l1 l2, NoDup (map fst (l1 ++ (k, v) :: l2)) -> remove k (l1 ++ (k, v) :: l2) = l1 ++ l2.
Proof.
  intros k v l1 l2 H. rewrite map_app in H. cbn [map fst] in H. apply NoDup_remove in H as (_ & H).
  rewrite remove_filter, filter_app. cbn [filter fst]. destruct (key_dec k k); [|congruence].
  rewrite <- !remove_filter, !remove_none; [reflexivity| |]; intros F; apply H; apply in_or_app; auto.
Qed.

Section P.
Variable xxh : list N -> N.
Variable ord : list (N * nat) -> list (N * nat).
Hypothesis Hord : forall l, Permutation (ord l) l.

Record Inv (s : st) (m : fmap) : Prop := {
  i_el : forall x, In x (hs s) -> exists a k, attrs s (snd x) = Some a /\ wf a k /\ fst x = khash xxh k;
  i_nd : NoDup (map snd (hs s));
  i_live : forall p, attrs s p <> None -> In p (map snd (hs s));
  i_next : forall p, attrs s p <> None -> (p < next s)%nat;
  i_perm : Permutation (map (ent (attrs s)) (hs s)) m;
  i_keys : NoDup (map fst m);
  i_ready : ready s = false -> hs s = []
}.

(** before an element that is allocated and not in the set ([q]) is put there or freed *)
Record Pre (s : st) (m : fmap) (q : nat) (k : list N) (v : N * N) : Prop := {
  p_el : forall x, In x (hs s) -> exists a k, attrs s (snd x) = Some a /\ wf a k /\ fst x = khash xxh k;
  p_nd : NoDup (map snd (hs s));
  p_live : forall p, attrs s p <> None -> p = q \/ In p (map snd (hs s));
  p_next : forall p, attrs s p <> None -> (p < next s)%nat;
  p_perm : Permutation (map (ent (attrs s)) (hs s)) m;
  p_keys : NoDup (map fst m);
  p_ready : ready s = true;
  p_q : ~ In q (map snd (hs s));
  p_a : exists a, attrs s q = Some a /\ wf a k /\ (akp a, adata a) = v
}.

Lemma inv_live : forall (s : st), (forall x, In x (hs s) -> exists a k, attrs s (snd x) = Some a /\ wf a k /\ fst x = khash xxh k) ->
  all_live s = true.
Proof.
  intros s H. unfold all_live. apply forallb_forall. intros x Hx. destruct (H x Hx) as (a & k & Ha & _). rewrite Ha. reflexivity.
Qed.
Lemma answers_key : forall s x a k k', attrs s (snd x) = Some a -> wf a k' -> fst x = khash xxh k' ->
  answers s (khash xxh k) (klen_of k) (k ++ [0]) x = true <-> k' = k.
Proof.
  intros s x a k k' Ha Hw Hx. unfold answers. rewrite Ha, Hx. destruct Hw as (E1 & E2 & _). rewrite E1, E2.
  rewrite andb_true_iff, compare_key, N.eqb_eq. split; [tauto|]. intros ->. auto.
Qed.

(** what a search finds *)
Lemma find_spec : forall s k,
  (forall x, In x (hs s) -> exists a k, attrs s (snd x) = Some a /\ wf a k /\ fst x = khash xxh k) ->
  match ck_find s (khash xxh k) (klen_of k) (k ++ [0]) with
  | Some p => exists l1 h l2 a, hs s = l1 ++ (h, p) :: l2 /\ attrs s p = Some a /\ wf a k /\ h = khash xxh k
  | None => ~ In k (map fst (map (ent (attrs s)) (hs s)))
  end.
Proof.
  intros s k H. unfold ck_find. destruct (find (answers s (khash xxh k) (klen_of k) (k ++ [0])) (hs s)) as [x|] eqn:E; cbn [option_map].
  - apply find_some in E as (E1 & E2). destruct (H x E1) as (a & k' & Ha & Hw & Hx).
    apply (answers_key s x a k k' Ha Hw Hx) in E2. subst k'. apply in_split in E1 as (l1 & l2 & E1).
    exists l1, (fst x), l2, a. destruct x; cbn [fst snd] in *. auto.
  - intros F. rewrite map_map in F. apply in_map_iff in F as (x & F1 & F2). destruct (H x F2) as (a & k' & Ha & Hw & Hx).
    rewrite (wf_ent _ _ _ _ Ha Hw) in F1. cbn [fst] in F1. pose proof (find_none _ _ E x F2) as G.
    apply (answers_key s x a k k' Ha Hw Hx) in F1. congruence.
Qed.
Lemma ent_ext : forall f g l, (forall x, In x l -> f (snd x) = g (snd x)) -> map (ent f) l = map (ent g) l.
Proof. intros f g l H. apply map_ext_in. intros x Hx. unfold ent. rewrite H by exact Hx. reflexivity. Qed.

Lemma copy_ok : forall s k klen, readable (um s) k klen -> copy s k klen = Some (bytes (um s) k klen) /\
  N.of_nat (length (bytes (um s) k klen)) = klen.
Proof.
  intros s k klen (H1 & H2). unfold copy. destruct (N.of_nat (length (um s k)) <? klen) eqn:E; [lia|]. split; [reflexivity|].
  unfold bytes. rewrite firstn_length. lia.
Qed.
Lemma len_ok : forall klen, klen < 2 ^ 31 -> (klen + 4) mod 2 ^ 32 = klen + 4.
Proof. intros. apply N.mod_small. lia. Qed.

Lemma new_attr_ok : forall s m k klen d, Inv s m -> readable (um s) k klen ->
  exists s', new_attr (touch s) k klen d = Some (s', next s, klen_of (bytes (um s) k klen), bytes (um s) k klen ++ [0]) /\
    Pre s' m (next s) (bytes (um s) k klen) (k, d) /\ um s' = um s /\ brk s' = brk s /\ hs s' = hs s.
Proof.
  intros s m k klen d I R. unfold new_attr. destruct (copy_ok (touch s) k klen R) as (E & L). rewrite E.
  cbn [touch um] in *. rewrite len_ok by apply R. replace (klen + 4) with (klen_of (bytes (um s) k klen)) by (unfold klen_of; lia).
  eexists. split; [reflexivity|]. split; [|auto].
  assert (Hout : attrs s (next s) = None).
  { destruct (attrs s (next s)) eqn:F; [|reflexivity]. assert (X : (next s < next s)%nat) by (apply (i_next s m I); congruence). lia. }
  assert (Hdom : forall x, In x (hs s) -> snd x <> next s).
  { intros x Hx F. destruct (i_el s m I x Hx) as (a & k' & Ha & _). congruence. }
  assert (Hupd : forall v x, In x (hs s) -> upd (attrs s) (next s) v (snd x) = attrs s (snd x)).
  { intros v x Hx. unfold upd. destruct (Nat.eqb (snd x) (next s)) eqn:F; [|reflexivity].
    apply Nat.eqb_eq in F. destruct (Hdom x Hx F). }
  constructor; cbn [hs attrs next ready touch].
  - intros x Hx. rewrite Hupd by exact Hx. apply (i_el s m I x Hx).
  - apply (i_nd s m I).
  - intros p Hp. unfold upd in Hp. destruct (Nat.eqb p (next s)) eqn:F; [left; apply Nat.eqb_eq; exact F|].
    right. apply (i_live s m I p Hp).
  - intros p Hp. unfold upd in Hp. destruct (Nat.eqb p (next s)) eqn:F; [apply Nat.eqb_eq in F; lia|].
    pose proof (i_next s m I p Hp). lia.
  - rewrite (ent_ext _ (attrs s)); [apply (i_perm s m I)|]. intros x Hx. apply Hupd. exact Hx.
  - apply (i_keys s m I).
  - reflexivity.
  - intros F. apply in_map_iff in F as (x & F1 & F2). apply (Hdom x F2 F1).
  - eexists. unfold upd at 1. rewrite Nat.eqb_refl. split; [reflexivity|]. split; [|reflexivity].
    unfold wf. cbn [alen alabel]. split; [reflexivity|]. split; [reflexivity|]. rewrite L. apply R.
Qed.

Lemma upd_same : forall A (f : nat -> A) p v, upd f p v p = v.
Proof. intros. unfold upd. rewrite Nat.eqb_refl. reflexivity. Qed.
Lemma upd_other : forall A (f : nat -> A) p v x, x <> p -> upd f p v x = f x.
Proof. intros A f p v x H. unfold upd. destruct (Nat.eqb x p) eqn:E; [apply Nat.eqb_eq in E; congruence|reflexivity]. Qed.

(** the element is given up *)
Lemma drop_new : forall s m q k v, Pre s m q k v -> Inv (free_attr s q) m.
Proof.
  intros s m q k v P.
  assert (Hd : forall x, In x (hs s) -> snd x <> q).
  { intros x Hx F. apply (p_q _ _ _ _ _ P). rewrite <- F. apply in_map. exact Hx. }
  constructor; cbn [free_attr hs attrs next ready].
  - intros x Hx. rewrite upd_other by (apply Hd; exact Hx). apply (p_el _ _ _ _ _ P x Hx).
  - apply (p_nd _ _ _ _ _ P).
  - intros p Hp. destruct (Nat.eq_dec p q) as [->|F]; [rewrite upd_same in Hp; congruence|]. rewrite upd_other in Hp by exact F.
    destruct (p_live _ _ _ _ _ P p Hp); [congruence|assumption].
  - intros p Hp. destruct (Nat.eq_dec p q) as [->|F]; [rewrite upd_same in Hp; congruence|]. rewrite upd_other in Hp by exact F.
    apply (p_next _ _ _ _ _ P p Hp).
  - rewrite (ent_ext _ (attrs s)); [apply (p_perm _ _ _ _ _ P)|]. intros x Hx. apply upd_other. apply Hd. exact Hx.
  - apply (p_keys _ _ _ _ _ P).
  - rewrite (p_ready _ _ _ _ _ P). discriminate.
Qed.
(** the element is put into the set, its key being new *)
Lemma put_new : forall s m q k v, Pre s m q k v -> ~ In k (map fst m) ->
  Inv (set_hs ord s ((khash xxh k, q) :: hs s)) (bind k v m).
Proof.
  intros s m q k v P Hk. destruct (p_a _ _ _ _ _ P) as (a & Ha & Hw & Hv).
  pose proof (Hord ((khash xxh k, q) :: hs s)) as O.
  constructor; cbn [set_hs hs attrs next ready].
  - intros x Hx. apply (Permutation_in _ O) in Hx. destruct Hx as [<-|Hx]; [exists a, k; auto|apply (p_el _ _ _ _ _ P x Hx)].
  - eapply Permutation_NoDup; [apply Permutation_sym, Permutation_map; exact O|]. cbn [map snd].
    constructor; [apply (p_q _ _ _ _ _ P)|apply (p_nd _ _ _ _ _ P)].
  - intros p Hp. eapply Permutation_in; [apply Permutation_sym, Permutation_map; exact O|]. cbn [map snd In].
    destruct (p_live _ _ _ _ _ P p Hp); auto.
  - apply (p_next _ _ _ _ _ P).
  - eapply perm_trans; [apply Permutation_map; exact O|]. cbn [map]. unfold bind. rewrite remove_none by exact Hk.
    rewrite (wf_ent _ _ a k) by assumption. rewrite Hv. constructor. apply (p_perm _ _ _ _ _ P).
  - apply bind_nodup. apply (p_keys _ _ _ _ _ P).
  - rewrite (p_ready _ _ _ _ _ P). discriminate.
Qed.

Lemma split_nodup : forall (l1 l2 : list (N * nat)) h p, NoDup (map snd (l1 ++ (h, p) :: l2)) ->
  forall x, In x (l1 ++ l2) -> snd x <> p.
Proof.
  intros l1 l2 h p H x Hx F. rewrite map_app in H. cbn [map snd] in H. apply NoDup_remove in H as (_ & H).
  apply H. rewrite <- map_app, <- F. apply in_map. exact Hx.
Qed.
(** the element displaces another one with the same key *)
Lemma swap_new : forall s m q k v p l1 l2 o, Pre s m q k v -> hs s = l1 ++ (khash xxh k, p) :: l2 -> attrs s p = Some o -> wf o k ->
  Inv (free_attr (ck_replace ord s p q) p) (bind k v m) /\ lookup k m = Some (akp o, adata o).
Proof.
  intros s m q k v p l1 l2 o P Hs Ho Hwo. destruct (p_a _ _ _ _ _ P) as (a & Ha & Hw & Hv).
  pose proof (p_nd _ _ _ _ _ P) as ND. rewrite Hs in ND. pose proof (split_nodup _ _ _ _ ND) as Hne.
  assert (Hq : ~ In q (map snd (l1 ++ (khash xxh k, p) :: l2))) by (rewrite <- Hs; apply (p_q _ _ _ _ _ P)).
  assert (Hqp : q <> p). { intros F. apply Hq. rewrite F. rewrite map_app. apply in_or_app. right. left. reflexivity. }
  assert (Em : map (fun x : N * nat => if Nat.eqb (snd x) p then (fst x, q) else x) (hs s) = l1 ++ (khash xxh k, q) :: l2).
  { rewrite Hs, map_app. cbn [map fst snd]. rewrite Nat.eqb_refl. f_equal; [|f_equal].
    - rewrite <- (map_id l1) at 2. apply map_ext_in. intros x Hx. destruct (Nat.eqb (snd x) p) eqn:F; [|reflexivity].
      apply Nat.eqb_eq in F. destruct (Hne x (in_or_app _ _ _ (or_introl Hx)) F).
    - rewrite <- (map_id l2) at 2. apply map_ext_in. intros x Hx. destruct (Nat.eqb (snd x) p) eqn:F; [|reflexivity].
      apply Nat.eqb_eq in F. destruct (Hne x (in_or_app _ _ _ (or_intror Hx)) F). }
  pose proof (Hord (l1 ++ (khash xxh k, q) :: l2)) as O.
  pose proof (p_perm _ _ _ _ _ P) as PP. rewrite Hs, map_app in PP. cbn [map] in PP.
  rewrite (wf_ent (attrs s) (khash xxh k, p) o k Ho Hwo) in PP.
  assert (Hl : lookup k m = Some (akp o, adata o)).
  { apply lookup_in; [apply (p_keys _ _ _ _ _ P)|]. eapply Permutation_in; [exact PP|]. apply in_or_app. right. left. reflexivity. }
  split; [|exact Hl].
  assert (Hmid : forall x, In x (l1 ++ l2) -> In x (hs s)).
  { intros x Hx. rewrite Hs. apply in_app_or in Hx. apply in_or_app. cbn [In]. tauto. }
  assert (Hperm2 : Permutation (l1 ++ (khash xxh k, q) :: l2) ((khash xxh k, q) :: l1 ++ l2)) by (apply Permutation_sym, Permutation_middle).
  assert (O2 : Permutation (ord (l1 ++ (khash xxh k, q) :: l2)) ((khash xxh k, q) :: l1 ++ l2)) by (eapply perm_trans; eauto).
  unfold ck_replace. rewrite Em.
  constructor; cbn [free_attr set_hs hs attrs next ready].
  - intros x Hx. apply (Permutation_in _ O2) in Hx. destruct Hx as [<-|Hx].
    + exists a, k. cbn [snd fst]. rewrite upd_other by exact Hqp. auto.
    + rewrite upd_other by (apply Hne; exact Hx). apply (p_el _ _ _ _ _ P x). apply Hmid. exact Hx.
  - eapply Permutation_NoDup; [apply Permutation_sym, Permutation_map; exact O2|]. cbn [map snd]. constructor.
    + intros F. apply Hq. rewrite map_app in F |- *. apply in_app_or in F. apply in_or_app. cbn [map In snd]. tauto.
    + rewrite map_app in ND |- *. cbn [map snd] in ND. apply NoDup_remove in ND as (ND & _). exact ND.
  - intros x Hx. destruct (Nat.eq_dec x p) as [->|F]; [rewrite upd_same in Hx; congruence|]. rewrite upd_other in Hx by exact F.
    eapply Permutation_in; [apply Permutation_sym, Permutation_map; exact O2|]. cbn [map snd In].
    destruct (p_live _ _ _ _ _ P x Hx) as [|G]; auto. right. rewrite Hs in G. rewrite map_app in G |- *. cbn [map snd] in G.
    apply in_app_or in G. cbn [In] in G. apply in_or_app. destruct G as [G|[G|G]]; auto. congruence.
  - intros x Hx. destruct (Nat.eq_dec x p) as [->|F]; [rewrite upd_same in Hx; congruence|]. rewrite upd_other in Hx by exact F.
    apply (p_next _ _ _ _ _ P x Hx).
  - eapply perm_trans; [apply Permutation_map; exact O2|]. cbn [map]. unfold bind.
    rewrite (wf_ent _ _ a k) by (cbn [snd]; try rewrite upd_other by exact Hqp; assumption). rewrite Hv. constructor.
    rewrite (ent_ext _ (attrs s)) by (intros x Hx; apply upd_other; apply Hne; exact Hx).
    assert (PR : Permutation (remove k (map (ent (attrs s)) l1 ++ (k, (akp o, adata o)) :: map (ent (attrs s)) l2)) (remove k m))
      by (apply remove_perm; exact PP).
    rewrite remove_cut in PR.
    + rewrite map_app. exact PR.
    + eapply Permutation_NoDup; [apply Permutation_sym, Permutation_map; exact PP|apply (p_keys _ _ _ _ _ P)].
  - apply bind_nodup. apply (p_keys _ _ _ _ _ P).
  - rewrite (p_ready _ _ _ _ _ P). discriminate.
Qed.

Lemma perm_keys : forall (m m' : fmap) k, Permutation m m' -> ~ In k (map fst m) -> ~ In k (map fst m').
Proof. intros m m' k P H F. apply H. eapply Permutation_in; [apply Permutation_sym, Permutation_map; exact P|exact F]. Qed.

Lemma store_ok : forall s m k klen d, Inv s m -> readable (um s) k klen ->
  exists s', store xxh ord s k klen d = Some (s', match lookup (bytes (um s) k klen) m with Some _ => 0 | None => 1 end) /\
    Inv s' (match lookup (bytes (um s) k klen) m with Some _ => m | None => bind (bytes (um s) k klen) (k, d) m end) /\
    um s' = um s /\ brk s' = brk s.
Proof.
  intros s m k klen d I R. unfold store. destruct (new_attr_ok s m k klen d I R) as (s1 & E & P & U & B & Hh). rewrite E.
  set (key := bytes (um s) k klen) in *. change (hs_hash xxh (klen_of key) (key ++ [0])) with (khash xxh key). cbv zeta.
  rewrite (inv_live s1) by apply (p_el _ _ _ _ _ P).
  pose proof (find_spec s1 key (p_el _ _ _ _ _ P)) as F. destruct (ck_find s1 (khash xxh key) (klen_of key) (key ++ [0])) as [p|].
  - destruct F as (l1 & h & l2 & o & F1 & F2 & F3 & F4). subst h.
    destruct (swap_new s1 m (next s) key (k, d) p l1 l2 o P F1 F2 F3) as (_ & L). rewrite L.
    eexists. split; [reflexivity|]. split; [eapply drop_new; exact P|]. cbn [free_attr um brk]. auto.
  - pose proof (perm_keys _ _ _ (p_perm _ _ _ _ _ P) F) as F'. pose proof (proj2 (lookup_none m key) F') as L. rewrite L.
    eexists. split; [reflexivity|]. split; [apply put_new; assumption|]. cbn [set_hs um brk]. auto.
Qed.
Lemma set_ok : forall s m k klen d, Inv s m -> readable (um s) k klen ->
  exists s', set_ xxh ord s k klen d = Some (s', match lookup (bytes (um s) k klen) m with Some _ => 2 | None => 1 end,
      lookup (bytes (um s) k klen) m) /\
    Inv s' (bind (bytes (um s) k klen) (k, d) m) /\ um s' = um s /\ brk s' = brk s.
Proof.
  intros s m k klen d I R. unfold set_. destruct (new_attr_ok s m k klen d I R) as (s1 & E & P & U & B & Hh). rewrite E.
  set (key := bytes (um s) k klen) in *. change (hs_hash xxh (klen_of key) (key ++ [0])) with (khash xxh key). cbv zeta.
  rewrite (inv_live s1) by apply (p_el _ _ _ _ _ P).
  pose proof (find_spec s1 key (p_el _ _ _ _ _ P)) as F. destruct (ck_find s1 (khash xxh key) (klen_of key) (key ++ [0])) as [p|].
  - destruct F as (l1 & h & l2 & o & F1 & F2 & F3 & F4). subst h.
    destruct (swap_new s1 m (next s) key (k, d) p l1 l2 o P F1 F2 F3) as (I' & L). rewrite L, F2.
    eexists. split; [reflexivity|]. split; [exact I'|]. cbn [free_attr ck_replace set_hs um brk]. auto.
  - pose proof (perm_keys _ _ _ (p_perm _ _ _ _ _ P) F) as F'. pose proof (proj2 (lookup_none m key) F') as L. rewrite L.
    eexists. split; [reflexivity|]. split; [apply put_new; assumption|]. cbn [set_hs um brk]. auto.
Qed.
Lemma replace_ok : forall s m k klen d kf df, Inv s m -> readable (um s) k klen ->
  exists s', replace xxh ord s k klen d kf df = Some (s', match lookup (bytes (um s) k klen) m with Some _ => 2 | None => 1 end,
      match lookup (bytes (um s) k klen) m with Some v => frees kf df v | None => [] end) /\
    Inv s' (bind (bytes (um s) k klen) (k, d) m) /\ um s' = um s /\ brk s' = brk s.
Proof.
  intros s m k klen d kf df I R. unfold replace. destruct (set_ok s m k klen d I R) as (s' & E & I' & U & B). rewrite E.
  exists s'. split; [|auto]. destruct (lookup (bytes (um s) k klen) m) as [[ok od]|]; reflexivity.
Qed.

Lemma inv_touch : forall s m, Inv s m -> Inv (touch s) m.
Proof. intros s m I. destruct I. constructor; cbn [touch hs attrs next ready]; auto. discriminate. Qed.

Lemma search_ok : forall s m k klen, Inv s m -> readable (um s) k klen ->
  exists r, search xxh s k klen = Some r /\
    match r with
    | None => lookup (bytes (um s) k klen) m = None
    | Some p => exists l1 l2 a, hs s = l1 ++ (khash xxh (bytes (um s) k klen), p) :: l2 /\ attrs s p = Some a /\
                  wf a (bytes (um s) k klen) /\ lookup (bytes (um s) k klen) m = Some (akp a, adata a)
    end.
Proof.
  intros s m k klen I R. unfold search. destruct (copy_ok s k klen R) as (E & L). rewrite E.
  set (key := bytes (um s) k klen) in *. cbv zeta. rewrite len_ok by apply R.
  replace (klen <? (if 128 <=? klen then klen + 2 else 128)) with true by (destruct (128 <=? klen) eqn:C; lia).
  replace (klen + 4) with (klen_of key) by (unfold klen_of; lia). change (hs_hash xxh (klen_of key) (key ++ [0])) with (khash xxh key).
  rewrite (inv_live s) by apply (i_el s m I).
  pose proof (find_spec s key (i_el s m I)) as F. destruct (ck_find s (khash xxh key) (klen_of key) (key ++ [0])) as [p|].
  - eexists. split; [reflexivity|]. destruct F as (l1 & h & l2 & o & F1 & F2 & F3 & F4). subst h. exists l1, l2, o.
    split; [exact F1|]. split; [exact F2|]. split; [exact F3|]. apply lookup_in; [apply (i_keys s m I)|].
    eapply Permutation_in; [apply (i_perm s m I)|]. rewrite F1, map_app. apply in_or_app. right. left.
    rewrite (wf_ent (attrs s) (khash xxh key, p) o key) by assumption. reflexivity.
  - eexists. split; [reflexivity|]. apply lookup_none. apply (perm_keys _ _ _ (i_perm s m I) F).
Qed.
Lemma retrieve_ok : forall s m k klen, Inv s m -> readable (um s) k klen ->
  exists s', retrieve xxh s k klen = Some (s', match lookup (bytes (um s) k klen) m with Some _ => 1 | None => 0 end,
      option_map snd (lookup (bytes (um s) k klen) m)) /\ Inv s' m /\ um s' = um s /\ brk s' = brk s.
Proof.
  intros s m k klen I R. unfold retrieve. destruct (search_ok (touch s) m k klen (inv_touch s m I) R) as (r & E & F). rewrite E.
  cbn [touch um] in F. exists (touch s). split; [|split; [apply inv_touch; exact I|auto]]. destruct r as [p|].
  - destruct F as (l1 & l2 & a & F1 & F2 & F3 & F4). rewrite F2, F4. reflexivity.
  - rewrite F. reflexivity.
Qed.
Lemma get_ok : forall s m k klen, Inv s m -> readable (um s) k klen ->
  exists s', get xxh s k klen = Some (s', match lookup (bytes (um s) k klen) m with Some v => snd v | None => 0 end) /\
    Inv s' m /\ um s' = um s /\ brk s' = brk s.
Proof.
  intros s m k klen I R. unfold get. destruct (retrieve_ok s m k klen I R) as (s' & E & I' & U & B). rewrite E. exists s'.
  split; [|auto]. destruct (lookup (bytes (um s) k klen) m); reflexivity.
Qed.

Lemma filter_out : forall (l1 l2 : list (N * nat)) h p, NoDup (map snd (l1 ++ (h, p) :: l2)) ->
  filter (fun x => negb (Nat.eqb (snd x) p)) (l1 ++ (h, p) :: l2) = l1 ++ l2.
Proof.
  intros l1 l2 h p ND. pose proof (split_nodup _ _ _ _ ND) as Hne. rewrite filter_app. cbn [filter snd]. rewrite Nat.eqb_refl. cbn [negb].
  assert (G : forall l : list (N * nat), (forall x, In x l -> snd x <> p) -> filter (fun x => negb (Nat.eqb (snd x) p)) l = l).
  { induction l as [|x l IH]; intros H; [reflexivity|]. cbn [filter]. destruct (Nat.eqb (snd x) p) eqn:F.
    - apply Nat.eqb_eq in F. destruct (H x (or_introl eq_refl) F).
    - cbn [negb]. rewrite IH; [reflexivity|]. intros y Hy. apply H. right. exact Hy. }
  rewrite !G; [reflexivity| |]; intros x Hx; apply Hne; apply in_or_app; auto.
Qed.
Lemma delete_ok : forall s m k klen kf df, Inv s m -> readable (um s) k klen ->
  exists s', delete xxh ord s k klen kf df = Some (s', match lookup (bytes (um s) k klen) m with Some _ => 1 | None => 0 end,
      match lookup (bytes (um s) k klen) m with Some v => frees kf df v | None => [] end) /\
    Inv s' (match lookup (bytes (um s) k klen) m with Some _ => remove (bytes (um s) k klen) m | None => m end) /\
    um s' = um s /\ brk s' = brk s.
Proof.
  intros s0 m k klen kf df I0 R. unfold delete. pose proof (inv_touch s0 m I0) as I. cbv zeta.
  destruct (search_ok (touch s0) m k klen I R) as (r & E & F). rewrite E.
  change (um (touch s0)) with (um s0) in F. set (key := bytes (um s0) k klen) in *. destruct r as [p|].
  2: { rewrite F. exists (touch s0). auto. }
  destruct F as (l1 & l2 & a & F1 & F2 & F3 & F4). rewrite F2, F4. eexists. split; [reflexivity|].
  split; [|auto]. assert (Hrd : ready (touch s0) = true) by reflexivity.
  set (s := touch s0) in *. clearbody s. pose proof (i_nd _ _ I) as ND. rewrite F1 in ND. pose proof (split_nodup _ _ _ _ ND) as Hne.
  unfold ck_remove. rewrite F1, filter_out by exact ND. pose proof (Hord (l1 ++ l2)) as O.
  assert (Hmid : forall x, In x (l1 ++ l2) -> In x (hs s)).
  { intros x Hx. rewrite F1. apply in_app_or in Hx. apply in_or_app. cbn [In]. tauto. }
  pose proof (i_perm _ _ I) as PP. rewrite F1, map_app in PP. cbn [map] in PP. rewrite (wf_ent (attrs s) (khash xxh key, p) a key F2 F3) in PP.
  constructor; cbn [free_attr set_hs hs attrs next ready].
  - intros x Hx. apply (Permutation_in _ O) in Hx. rewrite upd_other by (apply Hne; exact Hx). apply (i_el _ _ I). apply Hmid. exact Hx.
  - eapply Permutation_NoDup; [apply Permutation_sym, Permutation_map; exact O|].
    rewrite map_app in ND |- *. cbn [map snd] in ND. apply NoDup_remove in ND as (ND & _). exact ND.
  - intros x Hx. destruct (Nat.eq_dec x p) as [->|F]; [rewrite upd_same in Hx; congruence|]. rewrite upd_other in Hx by exact F.
    eapply Permutation_in; [apply Permutation_sym, Permutation_map; exact O|].
    pose proof (i_live _ _ I x Hx) as G. rewrite F1 in G. rewrite map_app in G |- *. cbn [map snd] in G.
    apply in_app_or in G. cbn [In] in G. apply in_or_app. destruct G as [G|[G|G]]; auto. congruence.
  - intros x Hx. destruct (Nat.eq_dec x p) as [->|F]; [rewrite upd_same in Hx; congruence|]. rewrite upd_other in Hx by exact F.
    apply (i_next _ _ I x Hx).
  - eapply perm_trans; [apply Permutation_map; exact O|].
    rewrite (ent_ext _ (attrs s)) by (intros x Hx; apply upd_other; apply Hne; exact Hx).
    assert (PR : Permutation (remove key (map (ent (attrs s)) l1 ++ (key, (akp a, adata a)) :: map (ent (attrs s)) l2)) (remove key m))
      by (apply remove_perm; exact PP).
    rewrite remove_cut in PR.
    + rewrite map_app. exact PR.
    + eapply Permutation_NoDup; [apply Permutation_sym, Permutation_map; exact PP|apply (i_keys _ _ I)].
  - apply remove_nodup. apply (i_keys _ _ I).
  - rewrite Hrd. discriminate.
Qed.

Lemma free_all_ok : forall l s kf df,
  (forall x, In x l -> exists a k, attrs s (snd x) = Some a /\ wf a k) -> NoDup (map snd l) ->
  exists s', free_all l s kf df = Some (s', flat_map (fun x => frees kf df (snd (ent (attrs s) x))) l) /\
    hs s' = hs s /\ next s' = next s /\ um s' = um s /\ brk s' = brk s /\ ready s' = ready s /\
    (forall p, attrs s' p = if in_dec Nat.eq_dec p (map snd l) then None else attrs s p).
Proof.
  induction l as [|[h p] l IH]; intros s kf df H ND; cbn [free_all].
  - exists s. cbn [flat_map]. repeat split; auto.
  - destruct (H (h, p) (or_introl eq_refl)) as (a & k & Ha & Hw). cbn [snd] in Ha. rewrite Ha.
    cbn [map snd] in ND. inversion ND as [|? ? Hn ND']; subst.
    assert (Hne : forall x, In x l -> snd x <> p).
    { intros x Hx F. apply Hn. rewrite <- F. apply in_map. exact Hx. }
    destruct (IH (free_attr s p) kf df) as (s' & E & E1 & E2 & E3 & E4 & E5 & E6).
    + intros x Hx. cbn [free_attr attrs]. rewrite upd_other by (apply Hne; exact Hx). apply H. right. exact Hx.
    + exact ND'.
    + rewrite E. exists s'. split.
      * f_equal. f_equal. cbn [flat_map]. unfold ent at 2. cbn [snd]. rewrite Ha. cbn [snd fst].
        unfold frees at 2. cbn [fst snd]. rewrite <- app_assoc. unfold fk, fd. f_equal. f_equal.
        rewrite !flat_map_concat_map. f_equal. apply map_ext_in. intros x Hx. f_equal. f_equal. cbn [free_attr attrs].
        unfold ent. rewrite upd_other by (apply Hne; exact Hx). reflexivity.
      * repeat split; auto. intros q. rewrite E6. cbn [free_attr attrs map snd].
        destruct (in_dec Nat.eq_dec q (map snd l)) as [i|i], (in_dec Nat.eq_dec q (p :: map snd l)) as [j|j]; auto.
        -- exfalso. apply j. right. exact i.
        -- destruct j as [<-|j]; [apply upd_same|contradiction].
        -- apply upd_other. intros ->. apply j. left. reflexivity.
Qed.
Lemma perm_flat_map : forall A B (f : A -> list B) l l', Permutation l l' -> Permutation (flat_map f l) (flat_map f l').
Proof.
  induction 1; cbn [flat_map]; auto.
  - apply Permutation_app_head. assumption.
  - rewrite !app_assoc. apply Permutation_app_tail. apply Permutation_app_comm.
  - eapply perm_trans; eauto.
Qed.
Lemma delete_all_ok : forall s m kf df, Inv s m ->
  exists s' ev, delete_all ord s kf df = Some (s', ev) /\ Permutation ev (flat_map (fun b => frees kf df (snd b)) m) /\
    Inv s' [] /\ um s' = um s /\ brk s' = brk s.
Proof.
  intros s m kf df I. unfold delete_all. cbv zeta. destruct (free_all_ok (hs (touch s)) (touch s) kf df) as (s' & E & E1 & E2 & E3 & E4 & E5 & E6).
  - intros x Hx. destruct (i_el _ _ I x Hx) as (a & k & Ha & Hw & _). eauto.
  - apply (i_nd _ _ I).
  - rewrite E. do 2 eexists. split; [reflexivity|]. split.
    + cbn [touch attrs hs]. rewrite <- (perm_flat_map _ _ _ _ _ (i_perm _ _ I)).
      rewrite !flat_map_concat_map, map_map. reflexivity.
    + assert (O : ord [] = []) by (apply Permutation_nil; apply Permutation_sym; apply Hord).
      assert (Hno : forall p, attrs s' p = None).
      { intros p. rewrite E6. destruct (in_dec Nat.eq_dec p (map snd (hs (touch s)))) as [i|i]; [reflexivity|].
        destruct (attrs (touch s) p) eqn:F; [|reflexivity]. exfalso. apply i. apply (i_live _ _ I). cbn [touch attrs] in F. congruence. }
      split; [|cbn [set_hs um brk touch] in *; auto]. constructor; cbn [set_hs hs attrs next ready]; rewrite ?O.
      * intros x [].
      * constructor.
      * intros p Hp. rewrite Hno in Hp. congruence.
      * intros p Hp. rewrite Hno in Hp. congruence.
      * constructor.
      * constructor.
      * intros _. reflexivity.
Qed.
Lemma entries_ok : forall s l, (forall x, In x l -> exists a k, attrs s (snd x) = Some a /\ wf a k) ->
  entries s l = Some (map (fun b : list N * (N * N) => (fst (snd b), N.of_nat (length (fst b)), snd (snd b))) (map (ent (attrs s)) l)).
Proof.
  induction l as [|[h p] l IH]; intros H; cbn [entries map]; [reflexivity|].
  destruct (H (h, p) (or_introl eq_refl)) as (a & k & Ha & Hw). pose proof (wf_ent _ _ _ _ Ha Hw) as W. cbn [snd] in Ha. rewrite Ha.
  rewrite IH by (intros x Hx; apply H; right; exact Hx). rewrite W. cbn [fst snd]. f_equal. f_equal.
  destruct Hw as (Hw & _ & Hl). rewrite Hw. unfold klen_of. rewrite N.mod_small by lia. f_equal. f_equal. lia.
Qed.
Lemma iterate_ok : forall s m, Inv s m -> exists l, iterate s = Some l /\
  Permutation l (map (fun b => (fst (snd b), N.of_nat (length (fst b)), snd (snd b))) m).
Proof.
  intros s m I. unfold iterate.
  assert (E : (if ready s then entries s (hs s) else Some []) = entries s (hs s)).
  { destruct (ready s) eqn:R; [reflexivity|]. rewrite (i_ready _ _ I R). reflexivity. }
  rewrite E. rewrite entries_ok.
  - eexists. split; [reflexivity|]. apply Permutation_map. apply (i_perm _ _ I).
  - intros x Hx. destruct (i_el _ _ I x Hx) as (a & k & Ha & Hw & _). eauto.
Qed.

Lemma step_ok : forall s m o, Inv s m -> ok (um s) o ->
  let '(u, m', r', ev') := sstep (um s) m o in
  exists s' r ev, step xxh ord s o = Some (s', r, ev) /\ Inv s' m' /\ um s' = u /\ agree (r, ev) (r', ev').
Proof.
  intros s m o I K. destruct o; cbn [ok] in K; cbn [sstep step].
  - do 3 eexists. split; [reflexivity|]. split; [|split; [reflexivity|split; [constructor|reflexivity]]].
    destruct I. constructor; cbn [hs attrs next ready]; auto.
  - destruct (store_ok s m k klen d I K) as (s' & E & I' & U & _). rewrite E.
    destruct (lookup (bytes (um s) k klen) m); (do 3 eexists; split; [reflexivity|]; split; [exact I'|]; split; [exact U|]; split; [constructor|reflexivity]).
  - destruct (set_ok s m k klen d I K) as (s' & E & I' & U & _). rewrite E.
    destruct (lookup (bytes (um s) k klen) m); (do 3 eexists; split; [reflexivity|]; split; [exact I'|]; split; [exact U|]; split; [constructor|reflexivity]).
  - destruct (replace_ok s m k klen d kf df I K) as (s' & E & I' & U & _). rewrite E.
    destruct (lookup (bytes (um s) k klen) m); (do 3 eexists; split; [reflexivity|]; split; [exact I'|]; split; [exact U|]; split; [apply Permutation_refl|reflexivity]).
  - destruct (retrieve_ok s m k klen I K) as (s' & E & I' & U & _). rewrite E.
    destruct (lookup (bytes (um s) k klen) m); (do 3 eexists; split; [reflexivity|]; split; [exact I'|]; split; [exact U|]; split; [constructor|reflexivity]).
  - destruct (get_ok s m k klen I K) as (s' & E & I' & U & _). rewrite E.
    (do 3 eexists; split; [reflexivity|]; split; [exact I'|]; split; [exact U|]; split; [constructor|reflexivity]).
  - destruct (delete_ok s m k klen kf df I K) as (s' & E & I' & U & _). rewrite E.
    destruct (lookup (bytes (um s) k klen) m); (do 3 eexists; split; [reflexivity|]; split; [exact I'|]; split; [exact U|]; split; [apply Permutation_refl|reflexivity]).
  - destruct (delete_all_ok s m kf df I) as (s' & ev & E & Pe & I' & U & _). rewrite E.
    (do 3 eexists; split; [reflexivity|]; split; [exact I'|]; split; [exact U|]; split; [exact Pe|reflexivity]).
  - do 3 eexists. split; [reflexivity|]. split; [apply inv_touch; exact I|]. split; [reflexivity|]. split; [constructor|].
    cbn [fst]. f_equal. f_equal. rewrite <- (Permutation_length (i_perm _ _ I)), map_length. reflexivity.
  - destruct (iterate_ok s m I) as (l & E & Pe). rewrite E.
    (do 3 eexists; split; [reflexivity|]; split; [exact I|]; split; [reflexivity|]; split; [constructor|exact Pe]).
Qed.
Lemma run_ok : forall os s m, Inv s m -> oks (um s) m os ->
  let '(u, m', rs') := srun (um s) m os in
  exists s' rs, run xxh ord s os = Some (s', rs) /\ Inv s' m' /\ um s' = u /\ Forall2 agree rs rs'.
Proof.
  induction os as [|o os IH]; intros s m I K; cbn [srun run].
  - exists s, []. auto.
  - destruct K as (K1 & K2). pose proof (step_ok s m o I K1) as St. destruct (sstep (um s) m o) as [[[u m1] r'] ev'].
    destruct St as (s1 & r & ev & E & I1 & U & A). rewrite E. subst u. specialize (IH s1 m1 I1 K2).
    destruct (srun (um s1) m1 os) as [[u m2] rs']. destruct IH as (s2 & rs & E2 & I2 & U2 & A2). rewrite E2.
    exists s2, ((r, ev) :: rs). split; [reflexivity|]. split; [exact I2|]. split; [exact U2|]. constructor; assumption.
Qed.
Lemma inv_empty : forall u b, Inv (empty u b) [].
Proof.
  intros. constructor; cbn [empty hs attrs next ready map].
  - intros x [].
  - constructor.
  - intros p H. congruence.
  - intros p H. congruence.
  - constructor.
  - constructor.
  - reflexivity.
Qed.

(** the whole table *)
Lemma refines : forall u b os, oks u [] os ->
  let '(u', m, rs') := srun u [] os in
  exists s rs, run xxh ord (empty u b) os = Some (s, rs) /\ Forall2 agree rs rs' /\
    (exists l, iterate s = Some l /\ Permutation l (map (fun e => (fst (snd e), N.of_nat (length (fst e)), snd (snd e))) m)) /\
    (forall p, attrs s p <> None <-> In p (map snd (hs s))) /\ length (hs s) = length m.
Proof.
  intros u b os K. pose proof (run_ok os (empty u b) [] (inv_empty u b) K) as H. cbn [empty um] in H.
  destruct (srun u [] os) as [[u' m] rs']. destruct H as (s & rs & E & I & U & A). exists s, rs.
  split; [exact E|]. split; [exact A|]. split; [apply iterate_ok; exact I|]. split.
  - intros p. split; [apply (i_live _ _ I)|]. intros Hp. apply in_map_iff in Hp as (x & <- & Hx).
    destruct (i_el _ _ I x Hx) as (a & k & Ha & _). congruence.
  - rewrite <- (Permutation_length (i_perm _ _ I)), map_length. reflexivity.
Qed.

(** store never overwrites *)
Lemma store_keeps : forall u b os k klen d, oks u [] os ->
  let '(u', m, _) := srun u [] os in
  readable u' k klen ->
  exists s rs s' r, run xxh ord (empty u b) os = Some (s, rs) /\ store xxh ord s k klen d = Some (s', r) /\
    (r = 0 <-> In (bytes u' k klen) (map fst m)) /\ (r = 0 \/ r = 1) /\
    forall k' klen', readable u' k' klen' -> bytes u' k' klen' <> bytes u' k klen \/ r = 0 ->
      option_map snd (get xxh s' k' klen') = option_map snd (get xxh s k' klen').
Proof.
  intros u b os k klen d K. pose proof (run_ok os (empty u b) [] (inv_empty u b) K) as H. cbn [empty um] in H.
  destruct (srun u [] os) as [[u' m] rs']. destruct H as (s & rs & E & I & U & A). subst u'. intros R.
  destruct (store_ok s m k klen d I R) as (s' & Es & I' & U' & _).
  exists s, rs, s'. eexists. split; [exact E|]. split; [exact Es|].
  assert (L : lookup (bytes (um s) k klen) m = None <-> ~ In (bytes (um s) k klen) (map fst m)) by apply lookup_none.
  destruct (lookup (bytes (um s) k klen) m) as [v|] eqn:Lk.
  - split; [|split; [auto|]].
    + split; [intros _|auto]. destruct (in_dec key_dec (bytes (um s) k klen) (map fst m)) as [i|i]; [exact i|]. apply L in i. discriminate.
    + intros k' klen' R' _. destruct (get_ok s m k' klen' I R') as (s1 & G1 & _).
      rewrite <- U' in R'. destruct (get_ok s' m k' klen' I' R') as (s2 & G2 & _). rewrite G1, G2, U'. reflexivity.
  - split; [|split; [auto|]].
    + split; [discriminate|]. intros F. exfalso. apply L in F; [exact F|reflexivity].
    + intros k' klen' R' [Hne|]; [|discriminate]. destruct (get_ok s m k' klen' I R') as (s1 & G1 & _).
      rewrite <- U' in R'. destruct (get_ok s' _ k' klen' I' R') as (s2 & G2 & _). rewrite G1, G2, U'. cbn [option_map snd].
      f_equal. unfold bind. cbn [lookup]. destruct (key_dec (bytes (um s) k' klen') (bytes (um s) k klen)); [congruence|].
      rewrite remove_none by (apply L; reflexivity). reflexivity.
Qed.

(** merging *)
Lemma step_brk : forall s o s' r ev, step xxh ord s o = Some (s', r, ev) -> brk s' = brk s.
Proof.
  assert (NA : forall s k klen d s1 a l lb, new_attr s k klen d = Some (s1, a, l, lb) -> brk s1 = brk s).
  { intros s k klen d s1 a l lb H. unfold new_attr in H. destruct (copy s k klen); [|discriminate]. injection H as <- _ _ _. reflexivity. }
  assert (FA : forall l s kf df s1 ev, free_all l s kf df = Some (s1, ev) -> brk s1 = brk s).
  { induction l as [|[h p] l IH]; intros s kf df s1 ev H; cbn [free_all] in H; [congruence|]. destruct (attrs s p); [|discriminate].
    destruct (free_all l (free_attr s p) kf df) as [[s2 e2]|] eqn:E; [|discriminate]. apply IH in E. injection H as <- _. exact E. }
  assert (SE : forall s k klen d s1 r o, set_ xxh ord s k klen d = Some (s1, r, o) -> brk s1 = brk s).
  { intros s k klen d s1 r o H. unfold set_ in H. destruct (new_attr (touch s) k klen d) as [[[[s2 a] l] lb]|] eqn:E; [|discriminate].
    apply NA in E. cbv zeta in H. destruct (all_live s2); [|discriminate]. destruct (ck_find s2 (hs_hash xxh l lb) l lb) as [p|].
    - destruct (attrs s2 p); [|discriminate]. injection H as <- _ _. exact E.
    - injection H as <- _ _. exact E. }
  intros s o s' r ev H. destruct o; cbn [step] in H.
  - injection H as <- _ _. reflexivity.
  - unfold store in H. destruct (new_attr (touch s) k klen d) as [[[[s2 a] l] lb]|] eqn:E; [|discriminate].
    apply NA in E. cbv zeta in H. destruct (all_live s2); [|discriminate]. destruct (ck_find s2 (hs_hash xxh l lb) l lb) as [p|]; injection H as <- _ _; exact E.
  - destruct (set_ xxh ord s k klen d) as [[[s2 r2] o2]|] eqn:E; [|discriminate]. apply SE in E. injection H as <- _ _. exact E.
  - unfold replace in H. destruct (set_ xxh ord s k klen d) as [[[s2 r2] o2]|] eqn:E; [|discriminate]. apply SE in E.
    destruct (N.eqb r2 2), o2 as [[x y]|]; injection H as <- _ _; exact E.
  - unfold retrieve in H. destruct (search xxh (touch s) k klen) as [[p|]|]; [| |discriminate].
    + destruct (attrs (touch s) p); [|discriminate]. injection H as <- _ _. reflexivity.
    + injection H as <- _ _. reflexivity.
  - unfold get, retrieve in H. destruct (search xxh (touch s) k klen) as [[p|]|]; [| |discriminate].
    + destruct (attrs (touch s) p); [|discriminate]. injection H as <- _ _. reflexivity.
    + injection H as <- _ _. reflexivity.
  - unfold delete in H. cbv zeta in H. destruct (search xxh (touch s) k klen) as [[p|]|]; [| |discriminate].
    + destruct (attrs (touch s) p); [|discriminate]. injection H as <- _ _. reflexivity.
    + injection H as <- _ _. reflexivity.
  - unfold delete_all in H. cbv zeta in H. destruct (free_all (hs (touch s)) (touch s) kf df) as [[s2 e2]|] eqn:E; [|discriminate].
    apply FA in E. injection H as <- _ _. exact E.
  - injection H as <- _ _. reflexivity.
  - destruct (iterate s); [|discriminate]. injection H as <- _ _. reflexivity.
Qed.
Lemma run_brk : forall os s, match run xxh ord s os with Some (s', _) => brk s' = brk s | None => True end.
Proof.
  induction os as [|o os IH]; intros s; cbn [run]; [reflexivity|]. destruct (step xxh ord s o) as [[[s1 r] ev]|] eqn:E; [|exact I].
  specialize (IH s1). destruct (run xxh ord s1 os) as [[s2 l]|]; [|exact I]. apply step_brk in E. congruence.
Qed.
Lemma cstr_ok : forall b r, ~ In 0 b -> cstr (b ++ 0 :: r) = Some b.
Proof.
  induction b as [|x b IH]; intros r H; cbn [cstr app]; [reflexivity|]. destruct (N.eqb x 0) eqn:E.
  - apply N.eqb_eq in E. exfalso. apply H. left. exact E.
  - rewrite IH; [reflexivity|]. intros F. apply H. right. exact F.
Qed.
Lemma strdup_ok : forall s m p b, Inv s m -> string_at (um s) p b ->
  exists s', strdup s p = Some (s', brk s) /\ Inv s' m /\ um s' = updN (um s) (brk s) (b ++ [0]) /\ brk s' = brk s + 1.
Proof.
  intros s m p b I (Hb & r & E). unfold strdup. rewrite E, cstr_ok by exact Hb. eexists. split; [reflexivity|].
  split; [|auto]. destruct I. constructor; cbn [hs attrs next ready]; auto.
Qed.

Lemma lookup_remove : forall m k k', lookup k (remove k' m) = if key_dec k k' then None else lookup k m.
Proof.
  induction m as [|[k0 v] m IH]; intros k k'; cbn [remove lookup]; [destruct (key_dec k k'); reflexivity|].
  destruct (key_dec k' k0) as [->|H].
  - rewrite IH. destruct (key_dec k k0); reflexivity.
  - cbn [lookup]. rewrite IH. destruct (key_dec k k0) as [->|]; [destruct (key_dec k0 k'); congruence|reflexivity].
Qed.
Lemma lookup_bind : forall m k k' v, lookup k (bind k' v m) = if key_dec k k' then Some v else lookup k m.
Proof. intros. unfold bind. cbn [lookup]. rewrite lookup_remove. destruct (key_dec k k'); reflexivity. Qed.

Lemma string_upd : forall u p b q v, string_at u p b -> p <> q -> string_at (updN u q v) p b.
Proof.
  intros u p b q v (H & r & E) Hne. split; [exact H|]. exists r. unfold updN. destruct (N.eqb p q) eqn:F; [apply N.eqb_eq in F; congruence|exact E].
Qed.
Lemma updN_same : forall A (f : N -> A) p v, updN f p v p = v.
Proof. intros. unfold updN. rewrite N.eqb_refl. reflexivity. Qed.
Lemma updN_other : forall A (f : N -> A) p v x, x <> p -> updN f p v x = f x.
Proof. intros A f p v x H. unfold updN. destruct (N.eqb x p) eqn:E; [apply N.eqb_eq in E; congruence|reflexivity]. Qed.

Lemma merge_step : forall s m kp klen d kb, Inv s m -> brk s <> 0 ->
  string_at (um s) kp kb -> klen <= N.of_nat (length kb) + 1 -> klen < 2 ^ 31 -> kp < brk s ->
  (d = 0 \/ exists vb, string_at (um s) d vb) -> d < brk s ->
  exists s1 k' d' s2 ev, strdup s kp = Some (s1, k') /\ (if N.eqb d 0 then Some (s1, 0) else strdup s1 d) = Some (s2, d') /\
  exists s3 r, replace xxh ord s2 k' klen d' true true = Some (s3, r, ev) /\
    ev = match lookup (bytes (um s) kp klen) m with Some v => frees true true v | None => [] end /\
    Inv s3 (bind (bytes (um s) kp klen) (k', d') m) /\ brk s <= k' < brk s3 /\ d' < brk s3 /\ brk s <= brk s3 /\
    (forall p, p < brk s -> um s3 p = um s p) /\ um s3 k' = kb ++ [0] /\
    (d = 0 -> d' = 0) /\ (forall vb, d <> 0 -> string_at (um s) d vb -> um s3 d' = vb ++ [0] /\ brk s <= d').
Proof.
  intros s m kp klen d kb I B0 SK KL K31 HP VD DP.
  destruct (strdup_ok s m kp kb I SK) as (s1 & E1 & I1 & U1 & B1).
  assert (BY : bytes (updN (um s) (brk s) (kb ++ [0])) (brk s) klen = bytes (um s) kp klen).
  { unfold bytes. rewrite updN_same. destruct SK as (_ & r & ->). change (0 :: r) with ([0] ++ r). rewrite app_assoc.
    rewrite (firstn_app _ (kb ++ [0])). replace (N.to_nat klen - length (kb ++ [0%N]))%nat with 0%nat by (rewrite app_length; cbn [length]; lia).
    cbn [firstn]. rewrite app_nil_r. reflexivity. }
  destruct (N.eqb d 0) eqn:D0.
  - apply N.eqb_eq in D0. subst d. destruct (replace_ok s1 m (brk s) klen 0 true true I1) as (s3 & E3 & I3 & U3 & B3).
    + rewrite U1. unfold readable. rewrite updN_same, app_length. cbn [length]. split; [lia|exact K31].
    + rewrite U1, BY in E3, I3. exists s1, (brk s), 0, s1. eexists. split; [exact E1|]. split; [reflexivity|].
      exists s3. eexists. split; [exact E3|]. split; [reflexivity|]. split; [exact I3|]. rewrite B3, B1. repeat split; try lia.
      * intros p Hp. rewrite U3, U1. apply updN_other. lia.
      * rewrite U3, U1. apply updN_same.
  - apply N.eqb_neq in D0. destruct VD as [VD|(vb & SV)]; [congruence|].
    assert (SV1 : string_at (um s1) d vb) by (rewrite U1; apply string_upd; [exact SV|lia]).
    destruct (strdup_ok s1 m d vb I1 SV1) as (s2 & E2 & I2 & U2 & B2). rewrite B1 in E2, U2, B2.
    assert (BY2 : bytes (um s2) (brk s) klen = bytes (um s) kp klen).
    { rewrite U2, U1. unfold bytes at 1. rewrite updN_other by lia. exact BY. }
    destruct (replace_ok s2 m (brk s) klen (brk s + 1) true true I2) as (s3 & E3 & I3 & U3 & B3).
    + rewrite U2, U1. unfold readable. rewrite updN_other by lia. rewrite updN_same, app_length. cbn [length]. split; [lia|exact K31].
    + rewrite BY2 in E3, I3. exists s1, (brk s), (brk s + 1), s2. eexists. split; [exact E1|]. split; [exact E2|].
      exists s3. eexists. split; [exact E3|]. split; [reflexivity|]. split; [exact I3|]. rewrite B3, B2. repeat split; try lia.
      * intros p Hp. rewrite U3, U2, U1, !updN_other by lia. reflexivity.
      * rewrite U3, U2, U1. rewrite updN_other by lia. apply updN_same.
      * rewrite U3, U2, updN_same. f_equal. destruct SV as (N1 & r1 & X1), H0 as (N2 & r2 & X2). rewrite X1 in X2.
        pose proof (cstr_ok vb r1 N1) as C1. rewrite X2, (cstr_ok _ r2 N2) in C1. congruence.
Qed.

Lemma dict_ext : forall u u' b b' e, (forall p, p < b -> u' p = u p) -> b <= b' -> dict_entry u b e -> dict_entry u' b' e /\ ekey u' e = ekey u e.
Proof.
  intros u u' b b' [[kp klen] d] H Hb ((kb & (N1 & r & E) & L) & K & P & D & V). split.
  - repeat split; try lia.
    + exists kb. split; [split; [exact N1|exists r; rewrite H by exact P; exact E]|exact L].
    + destruct V as [V|(vb & N2 & r2 & E2)]; [auto|right]. exists vb. split; [exact N2|]. exists r2. rewrite H by exact D. exact E2.
  - unfold ekey, bytes. rewrite H by exact P. reflexivity.
Qed.
Lemma merge_ok : forall src s m, Inv s m -> brk s <> 0 -> Forall (dict_entry (um s) (brk s)) src -> NoDup (map (ekey (um s)) src) ->
  exists s' m', merge xxh ord s src = Some (s', flat_map (fun e => match lookup (ekey (um s) e) m with Some v => frees true true v | None => [] end) src) /\
    Inv s' m' /\ brk s <= brk s' /\ (forall p, p < brk s -> um s' p = um s p) /\
    (forall k, ~ In k (map (ekey (um s)) src) -> lookup k m' = lookup k m) /\
    (forall kp klen d kb, In (kp, klen, d) src -> string_at (um s) kp kb ->
      exists k' d', lookup (bytes (um s) kp klen) m' = Some (k', d') /\ um s' k' = kb ++ [0] /\ brk s <= k' /\
        (d = 0 -> d' = 0) /\ (forall vb, d <> 0 -> string_at (um s) d vb -> um s' d' = vb ++ [0] /\ brk s <= d')).
Proof.
  induction src as [|[[kp klen] d] src IH]; intros s m I B0 F ND.
  - exists s, m. cbn [merge flat_map]. split; [reflexivity|]. split; [exact I|]. split; [lia|]. split; [auto|]. split; [auto|]. intros kp klen d kb [].
  - inversion F as [|? ? F1 F2]; subst. destruct F1 as ((kb & SK & KL) & K31 & HP & DP & VD). cbn [map] in ND. inversion ND as [|? ? ND1 ND2]; subst.
    destruct (merge_step s m kp klen d kb I B0 SK KL K31 HP VD DP)
      as (s1 & k' & d' & s2 & ev & E1 & E2 & s3 & r & E3 & Eev & I3 & Bk & Bd & Bb & Um & Uk & D0 & D1).
    assert (FX : Forall (dict_entry (um s3) (brk s3)) src /\ map (ekey (um s3)) src = map (ekey (um s)) src).
    { split.
      - apply Forall_forall. intros e He. rewrite Forall_forall in F2. apply (dict_ext (um s) (um s3) (brk s) (brk s3) e Um Bb). apply F2. exact He.
      - apply map_ext_in. intros e He. rewrite Forall_forall in F2. apply (dict_ext (um s) (um s3) (brk s) (brk s3) e Um Bb). apply F2. exact He. }
    destruct FX as (FX & KX).
    destruct (IH s3 (bind (bytes (um s) kp klen) (k', d') m) I3) as (s' & m' & E & I' & Bs & Us & L1 & L2).
    + lia.
    + exact FX.
    + rewrite KX. exact ND2.
    + exists s', m'. cbn [merge]. rewrite E1, E2, E3, E. split.
      * f_equal. f_equal. cbn [flat_map ekey]. rewrite Eev. f_equal. rewrite !flat_map_concat_map. f_equal.
        apply map_ext_in. intros e He. rewrite Forall_forall in F2. rewrite (proj2 (dict_ext (um s) (um s3) (brk s) (brk s3) e Um Bb (F2 e He))).
        rewrite lookup_bind. destruct (key_dec (ekey (um s) e) (bytes (um s) kp klen)) as [G|G]; [|reflexivity].
        exfalso. apply ND1. cbn [ekey]. rewrite <- G. apply in_map. exact He.
      * split; [exact I'|]. split; [lia|]. split; [intros p Hp; rewrite Us by lia; apply Um; exact Hp|]. split.
        -- intros k Hk. cbn [map In ekey] in Hk. rewrite L1 by (rewrite KX; tauto). rewrite lookup_bind.
           destruct (key_dec k (bytes (um s) kp klen)) as [G|G]; [exfalso; apply Hk; left; congruence|reflexivity].
        -- intros kp0 klen0 d0 kb0 [X|X] SK0.
           ++ injection X as <- <- <-. exists k', d'.
              assert (kb0 = kb) as ->.
              { destruct SK as (N1 & r1 & X1), SK0 as (N2 & r2 & X2). pose proof (cstr_ok kb r1 N1) as C1.
                rewrite <- X1, X2, (cstr_ok _ r2 N2) in C1. congruence. }
              split; [|split; [|split; [lia|split; [exact D0|]]]].
              ** rewrite L1 by (rewrite KX; exact ND1). rewrite lookup_bind. destruct (key_dec (bytes (um s) kp klen) (bytes (um s) kp klen)); congruence.
              ** rewrite Us by lia. exact Uk.
              ** intros vb Hd SV. destruct (D1 vb Hd SV) as (D2 & D3). split; [rewrite Us by lia; exact D2|exact D3].
           ++ rewrite Forall_forall in F2. pose proof (F2 _ X) as G. pose proof G as ((kb1 & _) & _ & P0 & Q0 & _).
              destruct (L2 kp0 klen0 d0 kb0 X) as (k1 & d1 & M1 & M2 & M3 & M4 & M5).
              ** destruct SK0 as (N2 & r2 & X2). split; [exact N2|]. exists r2. rewrite Um by exact P0. exact X2.
              ** exists k1, d1. split; [|split; [exact M2|split; [lia|split; [exact M4|]]]].
                 --- rewrite <- M1. f_equal. unfold bytes. rewrite Um by exact P0. reflexivity.
                 --- intros vb Hd (N3 & r3 & X3). destruct (M5 vb Hd) as (M6 & M7).
                     +++ split; [exact N3|]. exists r3. rewrite Um by exact Q0. exact X3.
                     +++ split; [exact M6|lia].
Qed.
(** a key counted longer than its string and NUL is read past the copy *)
Lemma merge_over : forall s src kp klen d kb, string_at (um s) kp kb -> (d = 0 \/ exists vb, string_at (um s) d vb) ->
  kp < brk s -> d < brk s -> N.of_nat (length kb) + 1 < klen -> merge xxh ord s ((kp, klen, d) :: src) = None.
Proof.
  intros s src kp klen d kb (N1 & r & E) V HP HD L. cbn [merge]. unfold strdup at 1. rewrite E, cstr_ok by exact N1.
  assert (C : forall s1, um s1 (brk s) = kb ++ [0] -> forall d', replace xxh ord s1 (brk s) klen d' true true = None).
  { intros s1 U d'. unfold replace, set_, new_attr, copy. cbn [touch um]. rewrite U, app_length. cbn [length].
    destruct (N.of_nat (length kb + 1) <? klen) eqn:X; [reflexivity|lia]. }
  destruct (N.eqb d 0) eqn:D0.
  - rewrite C by (cbn [um]; apply updN_same). reflexivity.
  - apply N.eqb_neq in D0. destruct V as [V|(vb & N2 & r2 & E2)]; [congruence|]. unfold strdup. cbn [um brk].
    rewrite updN_other by lia. rewrite E2, cstr_ok by exact N2.
    rewrite C; [reflexivity|]. cbn [um]. rewrite updN_other by lia. apply updN_same.
Qed.
Lemma merge_all : forall u b os src, oks u [] os ->
  let '(u', m, _) := srun u [] os in
  b <> 0 -> Forall (dict_entry u' b) src -> NoDup (map (ekey u') src) ->
  exists s rs s' m', run xxh ord (empty u b) os = Some (s, rs) /\
    merge xxh ord s src = Some (s', flat_map (fun e => match lookup (ekey u' e) m with Some v => frees true true v | None => [] end) src) /\
    (forall os', oks (um s') m' os' ->
      let '(_, _, rs') := srun (um s') m' os' in exists s2 rs2, run xxh ord s' os' = Some (s2, rs2) /\ Forall2 agree rs2 rs') /\
    merged u' b src m (um s') m'.
Proof.
  intros u b os src K. pose proof (run_ok os (empty u b) [] (inv_empty u b) K) as H. cbn [empty um] in H.
  pose proof (run_brk os (empty u b)) as RB. fold (empty u b) in H.
  destruct (srun u [] os) as [[u' m] rs']. intros B0 F ND. destruct H as (s & rs & E & I & U & _). subst u'.
  rewrite E in RB. cbn [empty brk] in RB. rewrite <- RB in B0, F |- *.
  destruct (merge_ok src s m I B0 F ND) as (s' & m' & Em & I' & Bs & Us & L1 & L2).
  exists s, rs, s', m'. split; [rewrite RB; exact E|]. split; [exact Em|]. split.
  - intros os' K'. pose proof (run_ok os' s' m' I' K') as R. destruct (srun (um s') m' os') as [[u2 m2] rs2].
    destruct R as (s2 & rs3 & R1 & _ & _ & R2). eauto.
  - split; [exact Us|]. split; [exact L1|]. exact L2.
Qed.
End P.
