From Coq Require Import Arith NArith ZArith List Bool Lia ZifyBool ZifyNat ZifyN Permutation.
From Verif.Intern Require Import Model Spec.
Import ListNotations.

Lemma nth_split_set {A} i : forall (l : list A) c, nth_error l i = Some c ->
  exists a b, l = a ++ c :: b /\ (forall y, set_nth i y l = a ++ y :: b) /\ remove_nth i l = a ++ b.
Proof.
  induction i as [|i IH]; intros [|x l] c; cbn; try discriminate.
  - intros [= ->]. exists [], l. repeat split.
  - intros H. destruct (IH l c H) as (a & b & -> & S1 & S2). exists (x :: a), b.
    split; [reflexivity|]. split; [intros y; rewrite S1; reflexivity|rewrite S2; reflexivity].
Qed.
Lemma eqb_bytes_spec a : forall b, eqb_bytes a b = true <-> a = b.
Proof.
  induction a as [|x a IH]; intros [|y b]; cbn [eqb_bytes]; split; try congruence; intros H.
  - apply andb_prop in H. destruct H as [H1 H2]. apply N.eqb_eq in H1. apply IH in H2. congruence.
  - injection H as -> ->. rewrite N.eqb_refl. apply IH. reflexivity.
Qed.

(** ** Weights *)
Definition own (c : call) : list nat :=
  match c with
  | ITakeR _ _ t | ILook _ _ t | IGot _ _ t _ | IAlloc _ _ t | IGet2 _ _ t | IRef2 _ _ t _ | IDone _ _ t _ => t
  | ITakeW _ _ t q | IPut _ _ t q => q :: t
  | _ => []
  end.
Definition pub (c : call) : list nat := match c with IDone _ _ _ p | RDec p => [p] | _ => [] end.
Definition rel (c : call) : list nat := match c with RTakeS p | RRem p => [p] | _ => [] end.
Definition finW (c : call) : list nat := match c with RTakeW p => [p] | _ => [] end.
Definition finS (c : call) : list nat := match c with RStage p => [p] | _ => [] end.
Definition seeR (c : call) : list nat := match c with IGot _ _ _ p => [p] | _ => [] end.
Definition occ (p : nat) (l : list nat) : nat := count_occ Nat.eq_dec l p.
Definition T (f : call -> list nat) (p : nat) (cs : list call) : nat := occ p (flat_map f cs).
Lemma T_split f p a c b : T f p (a ++ c :: b) = T f p a + occ p (f c) + T f p b.
Proof. unfold T, occ. rewrite flat_map_app, count_occ_app. cbn [flat_map]. rewrite count_occ_app. lia. Qed.
Lemma T_app f p a b : T f p (a ++ b) = T f p a + T f p b.
Proof. unfold T, occ. rewrite flat_map_app, count_occ_app. lia. Qed.
Lemma T_one f p c : T f p [c] = occ p (f c).
Proof. unfold T, occ. cbn [flat_map]. rewrite app_nil_r. reflexivity. Qed.
Lemma occ_nil p : occ p [] = 0. Proof. reflexivity. Qed.
Lemma occ_cons p x l : occ p (x :: l) = (if Nat.eqb x p then 1 else 0) + occ p l.
Proof.
  unfold occ. cbn [count_occ]. destruct (Nat.eq_dec x p) as [E|E], (Nat.eqb x p) eqn:F; lia.
Qed.
Lemma T_pub_len p cs : T pub p cs <= length cs.
Proof.
  induction cs as [|c cs IH]; [reflexivity|]. change (c :: cs) with ([c] ++ cs). rewrite T_app, T_one, app_length.
  cbn [length]. assert (occ p (pub c) <= 1); [|lia].
  destruct c; cbn [pub]; rewrite ?occ_cons, ?occ_nil; try lia; destruct (Nat.eqb _ _); lia.
Qed.

Definition G (s : sys) (p : nat) : Prop :=
  match mem s p with
  | None => ~ In p (tbl s) /\ held s p = 0 /\ T own p (calls s) = 0 /\ T pub p (calls s) = 0 /\ T rel p (calls s) = 0 /\
            T finW p (calls s) = 0 /\ T finS p (calls s) = 0 /\ T seeR p (calls s) = 0
  | Some o =>
      refcnt o = N.of_nat (held s p + T pub p (calls s) + T own p (calls s)) /\
      (In p (tbl s) -> T own p (calls s) = 0 /\ T finW p (calls s) = 0 /\ T finS p (calls s) = 0 /\
                       T rel p (calls s) = if (refcnt o =? 0)%N then 1 else 0) /\
      (~ In p (tbl s) -> held s p = 0 /\ T pub p (calls s) = 0 /\ T rel p (calls s) = 0 /\
                         T own p (calls s) + T finW p (calls s) + T finS p (calls s) = 1 /\
                         (T seeR p (calls s) > 0 -> T finW p (calls s) = 1))
  end.
Definition has (s : sys) (p : nat) (k : list N) : Prop := exists o, mem s p = Some o /\ bytes o = k.
Definition L (s : sys) (c : call) : Prop :=
  match c with
  | IGot b _ _ p | ITakeW b _ _ p | IPut b _ _ p | IDone b _ _ p => has s p (trunc b)
  | IGet2 b _ _ => exists p, In p (tbl s) /\ has s p (trunc b)
  | IRef2 b _ _ p => In p (tbl s) /\ has s p (trunc b)
  | _ => True
  end.
Definition nb (f : call -> bool) (cs : list call) : nat := length (filter f cs).
Definition sw (c : call) : bool := has_s c || has_w c.
Record Inv (s : sys) : Prop := INV {
  i_nd : NoDup (tbl s);
  i_uniq : forall p q k, In p (tbl s) -> In q (tbl s) -> has s p k -> has s q k -> p = q;
  i_g : forall p, G s p;
  i_l : Forall (L s) (calls s);
  i_sw : nb sw (calls s) <= 1;
  i_wr : nb has_w (calls s) > 0 -> nb has_r (calls s) = 0;
  i_ic : item_count s = N.of_nat (length (tbl s)) }.
Lemma nb_split f a c b : nb f (a ++ c :: b) = nb f a + (if f c then 1 else 0) + nb f b.
Proof. unfold nb. rewrite filter_app. cbn [filter]. rewrite app_length. destruct (f c); cbn [length]; lia. Qed.
Lemma nb_app f a b : nb f (a ++ b) = nb f a + nb f b.
Proof. unfold nb. rewrite filter_app, app_length. reflexivity. Qed.
Lemma no_nb f cs : forallb (fun c => negb (f c)) cs = true -> nb f cs = 0.
Proof.
  induction cs as [|c cs IH]; [reflexivity|]. cbn [forallb]. intros H. apply andb_prop in H. destruct H as [A B].
  change (c :: cs) with ([] ++ c :: cs). rewrite nb_split, (IH B). destruct (f c); [discriminate|reflexivity].
Qed.
Lemma nb_sw cs : nb sw cs = nb has_s cs + nb has_w cs.
Proof.
  induction cs as [|c cs IH]; [reflexivity|]. change (c :: cs) with ([] ++ c :: cs). rewrite !nb_split, IH. unfold sw.
  destruct c; cbn [has_s has_w orb]; cbn; lia.
Qed.

Lemma lookup_some s k p : lookup s k = Some p -> In p (tbl s) /\ has s p k.
Proof.
  unfold lookup. intros H. apply find_some in H. destruct H as [A B]. split; [exact A|].
  unfold mi_compare in B. destruct (mem s p) as [o|] eqn:E; [|discriminate]. exists o. split; [exact E|].
  apply eqb_bytes_spec. exact B.
Qed.
Lemma lookup_none s k : lookup s k = None -> forall p, In p (tbl s) -> ~ has s p k.
Proof.
  unfold lookup. intros H p Hp (o & A & B). pose proof (find_none _ _ H p Hp) as F. unfold mi_compare in F.
  rewrite A in F. assert (eqb_bytes (bytes o) k = true) by (apply eqb_bytes_spec; exact B). congruence.
Qed.
Lemma upd_same {A} (f : nat -> A) p v : upd f p v p = v.
Proof. unfold upd. rewrite Nat.eqb_refl. reflexivity. Qed.
Lemma upd_other {A} (f : nat -> A) p v x : x <> p -> upd f p v x = f x.
Proof. intros H. unfold upd. destruct (Nat.eqb x p) eqn:E; [apply Nat.eqb_eq in E; contradiction|reflexivity]. Qed.

Lemma init_inv : Inv init.
Proof.
  constructor; cbn.
  - constructor.
  - intros p q k [].
  - intros p. unfold G. cbn. tauto.
  - constructor.
  - apply Nat.le_0_l.
  - reflexivity.
  - reflexivity.
Qed.

(** the reference count fits *)
Lemma G_bound s p o : few s -> G s p -> mem s p = Some o -> (refcnt o + 1 < 2 ^ 32)%N.
Proof.
  intros F H E. unfold G in H. rewrite E in H. destruct H as (A & B & C).
  pose proof (T_pub_len p (calls s)) as P. specialize (F p).
  assert (T own p (calls s) <= 1) as O.
  { destruct (in_dec Nat.eq_dec p (tbl s)) as [I|I]; [destruct (B I) as (O & _)|destruct (C I) as (_ & _ & _ & O & _)]; lia. }
  rewrite A. lia.
Qed.
Lemma plus1_small x : (x + 1 < 2 ^ 32)%N -> plus1 x = (x + 1)%N.
Proof. intros H. apply N.mod_small. exact H. Qed.
Lemma minus1_small x : (0 < x < 2 ^ 32)%N -> minus1 x = (x - 1)%N.
Proof.
  intros H. unfold minus1. replace (x + (2 ^ 32 - 1))%N with (x - 1 + 1 * 2 ^ 32)%N by lia.
  rewrite N.mod_add by lia. apply N.mod_small. lia.
Qed.

(** [L] under changes of the memory and the table *)
Lemma L_impl s s' c : (forall p k, has s p k -> has s' p k) -> (forall p, In p (tbl s) -> In p (tbl s')) -> L s c -> L s' c.
Proof.
  intros H1 H2. destruct c; cbn [L]; auto.
  - intros (p & A & B). exists p. auto.
  - intros (A & B). auto.
Qed.
Lemma has_setref s p o r : mem s p = Some o -> forall x k, has s x k -> has (set_ref s p o r) x k.
Proof.
  intros E x k (o' & A & B). unfold has, set_ref, with_mem. cbn [mem].
  destruct (Nat.eq_dec x p) as [->|N].
  - rewrite upd_same. eexists. split; [reflexivity|]. cbn [bytes]. congruence.
  - rewrite upd_other by exact N. eauto.
Qed.
Lemma has_setref_inv s p o r : mem s p = Some o -> forall x k, has (set_ref s p o r) x k -> has s x k.
Proof.
  intros E x k (o' & A & B). unfold set_ref, with_mem in A. cbn [mem] in A.
  destruct (Nat.eq_dec x p) as [->|N].
  - rewrite upd_same in A. injection A as <-. exists o. auto.
  - rewrite upd_other in A by exact N. exists o'. auto.
Qed.
Lemma has_fun s p k k' : has s p k -> has s p k' -> k = k'.
Proof. intros (o & A & B) (o' & A' & B'). congruence. Qed.

Ltac occs := rewrite ?T_split, ?T_app, ?T_one in *; cbn [own pub rel finW finS seeR] in *; rewrite ?occ_cons, ?occ_nil in *.
Ltac nbs := rewrite ?nb_split, ?nb_app in *; cbn [has_s has_r has_w sw orb] in *.

(** ** Moves that change only where one call is *)
Lemma move_inv s a c b c' : Inv s -> calls s = a ++ c :: b ->
  (forall f, In f [own; pub; rel; finW; finS] -> forall p, occ p (f c') = occ p (f c)) ->
  (forall p, occ p (seeR c') <= occ p (seeR c) \/ In p (tbl s)) ->
  L s c' ->
  (sw c' = false \/ sw c = true \/ nb sw (calls s) = 0) ->
  (has_w c' = true -> nb has_r (calls s) = 0 /\ has_r c' = false) ->
  (has_r c' = true -> has_r c = true \/ nb has_w (a ++ b) = 0) ->
  Inv (with_calls s (a ++ c' :: b)).
Proof.
  intros [ND UQ HG HL SW WR IC] E Hf Hs HL' H1 H2 H3.
  constructor; cbn [with_calls mem tbl item_count held calls ret]; auto.
  - intros p. specialize (HG p). unfold G in *. cbn [with_calls mem tbl held calls].
    rewrite E in HG. rewrite !T_split in *. rewrite !Hf by (cbn; tauto).
    specialize (Hs p).
    destruct (mem s p) as [o|]; [|destruct Hs as [Hs|Hs]; [|tauto]; intuition lia].
    destruct HG as (A & B & C). split; [exact A|]. split; [exact B|]. intros I.
    destruct Hs as [Hs|Hs]; [|contradiction]. destruct (C I) as (C1 & C2 & C3 & C4 & C5). repeat split; auto.
    intros X. apply C5. lia.
  - rewrite E in HL. apply Forall_app in HL. destruct HL as [L1 L2]. inversion L2; subst.
    apply Forall_app. split; [exact L1|]. constructor; assumption.
  - rewrite E in *. rewrite nb_split in *. destruct H1 as [H1|[H1|H1]]; rewrite ?H1 in *; [|destruct (sw c')|rewrite ?nb_split in H1; destruct (sw c')]; lia.
  - rewrite E in *. rewrite nb_split in *. rewrite nb_split in *. intros X.
    destruct (has_w c') eqn:Ew.
    + destruct (H2 eq_refl) as [H2a ->]. lia.
    + destruct (has_r c') eqn:Er; [|lia]. destruct (H3 eq_refl) as [H3a|H3a].
      * rewrite H3a in WR. lia.
      * rewrite nb_app in H3a. lia.
Qed.

(** ** Moves that change the memory, the table or the references; the call ends up without a lock *)
Definition lockless (c : call) : bool := negb (has_r c || has_s c || has_w c).
Lemma nb_lockless f cs : (forall c, lockless c = true -> f c = false) -> forallb lockless cs = true -> nb f cs = 0.
Proof.
  intros H. induction cs as [|c cs IH]; [reflexivity|]. cbn [forallb]. intros F. apply andb_prop in F. destruct F as [A B].
  change (c :: cs) with ([] ++ c :: cs). rewrite nb_split, (IH B), (H c A). reflexivity.
Qed.
Lemma build s s' a cs b cs' : Inv s -> calls s = a ++ cs ++ b -> calls s' = a ++ cs' ++ b ->
  forallb lockless cs' = true ->
  NoDup (tbl s') -> item_count s' = N.of_nat (length (tbl s')) ->
  (forall p q k, In p (tbl s') -> In q (tbl s') -> has s' p k -> has s' q k -> p = q) ->
  (forall p, G s' p) ->
  (forall c, In c (a ++ b) -> L s c -> L s' c) -> Forall (L s') cs' ->
  Inv s'.
Proof.
  intros [ND UQ HG HL SW WR IC] E E' HN H1 H2 H3 H4 H5 H6.
  constructor; auto.
  - rewrite E'. rewrite E in HL. rewrite !Forall_app in *. destruct HL as (L1 & _ & L2).
    pose proof (proj1 (Forall_forall _ _) L1) as M1. pose proof (proj1 (Forall_forall _ _) L2) as M2.
    split; [|split; [exact H6|]]; apply Forall_forall; intros x X; apply H5; auto; apply in_app_iff; auto.
  - rewrite E, !nb_app in *. rewrite E', !nb_app. rewrite (nb_lockless sw cs').
    + lia.
    + intros c. unfold lockless, sw. destruct (has_r c), (has_s c), (has_w c); cbn; congruence.
    + exact HN.
  - rewrite E, !nb_app in *. rewrite E', !nb_app.
    rewrite (nb_lockless has_w cs'), (nb_lockless has_r cs'); auto; [lia| |];
      intros c; unfold lockless; destruct (has_r c), (has_s c), (has_w c); cbn; congruence.
Qed.

Ltac Gsplit HG := unfold G in *; cbn [with_calls with_mem with_tbl with_held with_ret set_ref mem tbl item_count held calls ret] in *.

(** taking one more reference *)
Lemma ref_inv s a c b bb n t p o : Inv s -> few s -> calls s = a ++ c :: b ->
  own c = t -> pub c = [] -> rel c = [] -> finW c = [] -> finS c = [] ->
  mem s p = Some o -> refcnt o <> 0%N -> has s p (trunc bb) ->
  (In p (tbl s) \/ occ p (seeR c) > 0) ->
  Inv (with_calls (set_ref s p o (plus1 (refcnt o))) (a ++ IDone bb n t p :: b)).
Proof.
  intros I F E Eo Ep Er Ew Es Em Hr Hh Hv. pose proof I as [ND UQ HG HL SW WR IC].
  assert (In p (tbl s)) as Hin.
  { destruct (in_dec Nat.eq_dec p (tbl s)) as [Hin|Hin]; [exact Hin|exfalso]. destruct Hv as [Hv|Hv]; [contradiction|].
    specialize (HG p). unfold G in HG. rewrite Em in HG. destruct HG as (A & _ & C).
    destruct (C Hin) as (C1 & C2 & C3 & C4 & C5).
    assert (T finW p (calls s) = 1) as X by (apply C5; rewrite E, T_split; lia). lia. }
  rewrite plus1_small by (eapply G_bound; eauto).
  apply build with (s := s) (a := a) (cs := [c]) (b := b) (cs' := [IDone bb n t p]); auto.
  - intros x y k X Y HX HY. apply (UQ x y k X Y);
      [exact (has_setref_inv s p o (refcnt o + 1) Em x k HX)|exact (has_setref_inv s p o (refcnt o + 1) Em y k HY)].
  - intros x. pose proof (HG x) as Hx. Gsplit Hx. rewrite E in Hx. rewrite !T_split in *.
    rewrite Eo, Ep, Er, Ew, Es in Hx. cbn [own pub rel finW finS seeR]. rewrite ?occ_cons, ?occ_nil in *.
    destruct (Nat.eq_dec x p) as [->|N].
    + rewrite upd_same, Nat.eqb_refl. rewrite Em in Hx. cbn [refcnt]. destruct Hx as (A & B & C).
      destruct (B Hin) as (B1 & B2 & B3 & B4).
      destruct (refcnt o =? 0)%N eqn:Z; [lia|].
      split; [lia|]. split; [|intros Y; contradiction]. intros _. rewrite B1, B2, B3, B4.
      destruct (refcnt o + 1 =? 0)%N eqn:Z2; [lia|auto].
    + rewrite upd_other by exact N. destruct (Nat.eqb p x) eqn:Z; [lia|].
      destruct (mem s x) as [ox|].
      * destruct Hx as (A & B & C). split; [lia|]. split; [intros Y; specialize (B Y); intuition lia|].
        intros Y; specialize (C Y). intuition lia.
      * intuition lia.
  - intros c0 _. apply L_impl; [intros x k; apply (has_setref s p o _ Em)|auto].
  - constructor; [|constructor]. cbn [L]. apply (has_setref s p o _ Em). exact Hh.
Qed.

Lemma trash_free_G s a c b t x o : Inv s -> calls s = a ++ c :: b -> own c = x :: t -> mem s x = Some o ->
  ~ In x (tbl s) /\ refcnt o = 1%N /\ held s x = 0 /\ T pub x (calls s) = 0 /\ T rel x (calls s) = 0 /\ T own x (calls s) = 1 /\
  T finW x (calls s) = 0 /\ T finS x (calls s) = 0 /\ T seeR x (calls s) = 0.
Proof.
  intros [ND UQ HG HL SW WR IC] E Eo Em. specialize (HG x). unfold G in HG. rewrite Em in HG.
  destruct HG as (A & B & C).
  assert (T own x (calls s) >= 1) as O by (rewrite E, T_split, Eo, occ_cons, Nat.eqb_refl; lia).
  destruct (in_dec Nat.eq_dec x (tbl s)) as [Hin|Hin]; [destruct (B Hin); lia|].
  destruct (C Hin) as (C1 & C2 & C3 & C4 & C5).
  assert (T seeR x (calls s) = 0) by (destruct (T seeR x (calls s)); [reflexivity|assert (T finW x (calls s) = 1) by (apply C5; lia); lia]).
  repeat split; auto; lia.
Qed.
(** a call that needs memory [x] keeps a weight on it *)
Lemma L_without s x c : L s c -> occ x (own c) = 0 -> occ x (pub c) = 0 -> occ x (seeR c) = 0 -> ~ In x (tbl s) ->
  forall s', tbl s' = tbl s -> mem s' = upd (mem s) x None -> L s' c.
Proof.
  intros HL O P Q NI s' Et Em.
  assert (forall p k, p <> x -> has s p k -> has s' p k) as H.
  { intros p k N (o & A & B). exists o. rewrite Em, upd_other by exact N. auto. }
  destruct c; cbn [L own pub seeR] in *; rewrite ?occ_cons in *; auto.
  - apply H; [|exact HL]. intros ->. rewrite Nat.eqb_refl in Q. lia.
  - apply H; [|exact HL]. intros ->. rewrite Nat.eqb_refl in O. lia.
  - apply H; [|exact HL]. intros ->. rewrite Nat.eqb_refl in O. lia.
  - destruct HL as (p & A & B). exists p. rewrite Et. split; [exact A|]. apply H; [|exact B]. intros ->. contradiction.
  - destruct HL as (A & B). rewrite Et. split; [exact A|]. apply H; [|exact B]. intros ->. contradiction.
  - apply H; [|exact HL]. intros ->. rewrite Nat.eqb_refl in P. lia.
Qed.
Lemma T_in f x l c : In c l -> occ x (f c) <= T f x l.
Proof.
  intros H. apply in_split in H. destruct H as (a & b & ->). rewrite T_split. lia.
Qed.

(** giving back the memory of [x]: nobody can see it *)
Lemma drop_inv s s' a c b cs' x : Inv s -> calls s = a ++ c :: b -> calls s' = a ++ cs' ++ b ->
  forallb lockless cs' = true -> tbl s' = tbl s -> item_count s' = item_count s -> held s' = held s ->
  mem s' = upd (mem s) x None -> ~ In x (tbl s) -> held s x = 0 ->
  (forall f, In f [own; pub; rel; finW; finS; seeR] -> T f x (a ++ cs' ++ b) = 0) ->
  (forall f, In f [own; pub; rel; finW; finS; seeR] -> forall p, p <> x -> T f p cs' = occ p (f c)) ->
  Forall (L s') cs' ->
  Inv s'.
Proof.
  intros I E E' HN Et Ei Eh Em NI H0 Hz Ho HL'. pose proof I as [ND UQ HG HL SW WR IC].
  apply build with (s := s) (a := a) (cs := [c]) (b := b) (cs' := cs'); auto; rewrite ?Et, ?Ei; auto.
  - intros p q k P Q (o1 & A1 & B1) (o2 & A2 & B2). rewrite Em in A1, A2. unfold upd in A1, A2.
    destruct (Nat.eqb p x); [discriminate|]. destruct (Nat.eqb q x); [discriminate|].
    apply (UQ p q k P Q); [exists o1|exists o2]; auto.
  - intros p. specialize (HG p). unfold G in *. rewrite Et, Eh, Em, E'. destruct (Nat.eq_dec p x) as [->|N].
    + rewrite upd_same. repeat split; auto; apply Hz; cbn; tauto.
    + rewrite upd_other by exact N. rewrite E in HG.
      assert (forall f, In f [own; pub; rel; finW; finS; seeR] -> T f p (a ++ cs' ++ b) = T f p (a ++ c :: b)) as Q.
      { intros f Hf. rewrite T_split, !T_app, (Ho f Hf p N). lia. }
      rewrite (Q own), (Q pub), (Q rel), (Q finW), (Q finS), (Q seeR) by (cbn; tauto). exact HG.
  - intros c0 Hc0 L0. apply L_without with (x := x) (s := s); auto.
    1: pose proof (Hz own ltac:(cbn; tauto)) as Z; pose proof (T_in own x (a ++ b) c0 Hc0).
    2: pose proof (Hz pub ltac:(cbn; tauto)) as Z; pose proof (T_in pub x (a ++ b) c0 Hc0).
    3: pose proof (Hz seeR ltac:(cbn; tauto)) as Z; pose proof (T_in seeR x (a ++ b) c0 Hc0).
    all: rewrite !T_app in *; lia.
Qed.

Lemma filter_neq_notin x l : ~ In x l -> filter (fun y => negb (Nat.eqb y x)) l = l.
Proof.
  induction l as [|y l IH]; [reflexivity|]. intros H. cbn [filter].
  destruct (Nat.eqb y x) eqn:E; [exfalso; apply H; left; apply Nat.eqb_eq; exact E|]. cbn [negb].
  rewrite IH; [reflexivity|]. intros X. apply H. right. exact X.
Qed.
Lemma filter_neq_len x l : NoDup l -> In x l -> S (length (filter (fun y => negb (Nat.eqb y x)) l)) = length l.
Proof.
  induction l as [|y l IH]; [intros _ []|]. intros ND [->|H]; inversion ND; subst; cbn [filter].
  - rewrite Nat.eqb_refl. cbn [negb]. rewrite filter_neq_notin by assumption. reflexivity.
  - destruct (Nat.eqb y x) eqn:E; [apply Nat.eqb_eq in E; subst; contradiction|]. cbn [negb length]. f_equal. auto.
Qed.
Lemma NoDup_filter' {A} (f : A -> bool) l : NoDup l -> NoDup (filter f l).
Proof.
  induction 1; cbn [filter]; [constructor|]. destruct (f x); [constructor|]; auto. rewrite filter_In. tauto.
Qed.
Lemma L_call s c : Inv s -> In c (calls s) -> L s c.
Proof. intros I H. exact (proj1 (Forall_forall _ _) (i_l s I) c H). Qed.

(** ** What each step does *)
Inductive did : Prop := Did.
Lemma go_inv s i c q : Inv s -> few s -> nth_error (calls s) i = Some c ->
  match go s i c q with Next s' => Inv s' | Blocked => True | Abort => False end.
Proof.
  intros I F Hi. destruct (nth_split_set i _ _ Hi) as (a & b & E & S1 & S2).
  assert (L s c) as HLc by (apply L_call; [exact I|rewrite E, in_app_iff; cbn; tauto]).
  pose proof I as [ND UQ HG HL SW WR IC].
  destruct c as [bb n t|bb n t|bb n t p|bb n t|bb n t p|bb n t p|bb n t|bb n t p|bb n t p|p|p|p|p|p]; cbn [go]; cbn [L] in HLc.
  - (* ITakeR *)
    destruct (forallb _ _) eqn:W; [|exact Logic.I]. apply no_nb in W. rewrite S1.
    apply move_inv with (c := ITakeR bb n t); auto; try (cbn; tauto); try (cbn; intros; discriminate).
    + intros f Hf p. cbn [In] in Hf. destruct Hf as [<-|[<-|[<-|[<-|[<-|[]]]]]]; reflexivity.
    + intros _. right. rewrite E in W. rewrite nb_split in W. rewrite nb_app. lia.
  - (* ILook *)
    destruct (lookup s (trunc bb)) as [p|] eqn:LK; rewrite S1.
    + destruct (lookup_some _ _ _ LK) as [A B].
      apply move_inv with (c := ILook bb n t); auto; try (cbn; tauto); try (cbn; intros; discriminate).
      * intros f Hf x. cbn [In] in Hf. destruct Hf as [<-|[<-|[<-|[<-|[<-|[]]]]]]; reflexivity.
      * intros x. cbn [seeR]. rewrite occ_cons, !occ_nil. destruct (Nat.eqb p x) eqn:Z; [right|left; lia].
        apply Nat.eqb_eq in Z. subst. exact A.
    + apply move_inv with (c := ILook bb n t); auto; try (cbn; tauto); try (cbn; intros; discriminate).
      intros f Hf x. cbn [In] in Hf. destruct Hf as [<-|[<-|[<-|[<-|[<-|[]]]]]]; reflexivity.
  - (* IGot *)
    unfold try_ref. destruct HLc as (o & A & B). rewrite A. destruct (N.eqb_spec (refcnt o) 0) as [Z|Z]; rewrite S1.
    + apply move_inv with (c := IGot bb n t p); auto; try (cbn; tauto); try (cbn; intros; discriminate).
      * intros f Hf x. cbn [In] in Hf. destruct Hf as [<-|[<-|[<-|[<-|[<-|[]]]]]]; reflexivity.
      * intros x. left. cbn [seeR]. rewrite occ_nil. lia.
    + apply ref_inv with (c := IGot bb n t p); auto; [exists o; auto|]. right. cbn [seeR]. rewrite occ_cons, Nat.eqb_refl. lia.
  - (* IAlloc *)
    destruct (mem s q) as [o|] eqn:Em; [exact Logic.I|]. rewrite S1.
    pose proof (HG q) as Gq. unfold G in Gq. rewrite Em in Gq. destruct Gq as (Q1 & Q2 & Q3 & Q4 & Q5 & Q6 & Q7 & Q8).
    assert (forall x k, has s x k -> has (with_mem s (upd (mem s) q (Some (Obj (trunc bb) n 1)))) x k) as HH.
    { intros x k (o & A & B). exists o. cbn [with_mem mem]. rewrite upd_other; [auto|]. intros ->. congruence. }
    apply build with (s := s) (a := a) (cs := [IAlloc bb n t]) (b := b) (cs' := [ITakeW bb n t q]); auto.
    + cbn [with_calls with_mem tbl]. intros x y k X Y (o1 & A1 & B1) (o2 & A2 & B2). cbn [with_calls with_mem mem] in A1, A2.
      rewrite upd_other in A1 by (intros ->; contradiction). rewrite upd_other in A2 by (intros ->; contradiction).
      apply (UQ x y k X Y); [exists o1|exists o2]; auto.
    + intros x. pose proof (HG x) as Hx. Gsplit Hx. rewrite E in *. rewrite !T_split in *.
      cbn [own pub rel finW finS seeR] in *. rewrite ?occ_cons, ?occ_nil in *.
      destruct (Nat.eq_dec x q) as [->|N].
      * rewrite upd_same, Nat.eqb_refl. rewrite Em in Hx. cbn [refcnt]. split; [lia|]. split; [tauto|]. intros _. lia.
      * rewrite upd_other by exact N. destruct (Nat.eqb q x) eqn:Z; [lia|]. exact Hx.
    + intros c0 _. apply L_impl; [exact HH|auto].
    + constructor; [|constructor]. cbn [L]. exists (Obj (trunc bb) n 1). cbn [with_calls with_mem mem]. rewrite upd_same. auto.
  - (* ITakeW *)
    destruct (forallb (fun c => negb (has_r c)) (calls s)) eqn:W1; [|exact Logic.I].
    destruct (forallb (fun c => negb (has_s c)) (calls s)) eqn:W2; [|exact Logic.I].
    destruct (forallb (fun c => negb (has_w c)) (calls s)) eqn:W3; [|exact Logic.I]. cbn [andb].
    apply no_nb in W1, W2, W3. rewrite S1.
    apply move_inv with (c := ITakeW bb n t p); auto; try (cbn; tauto); try (cbn; intros; discriminate).
    + intros f Hf x. cbn [In] in Hf. destruct Hf as [<-|[<-|[<-|[<-|[<-|[]]]]]]; reflexivity.
    + right. right. rewrite nb_sw. lia.
  - (* IPut *)
    destruct HLc as (o & A & B). rewrite A. destruct (lookup s (bytes o)) as [r|] eqn:LK; rewrite S1.
    + destruct (lookup_some _ _ _ LK) as [A1 B1].
      apply move_inv with (c := IPut bb n t p); auto; try (cbn; tauto); try (cbn; intros; discriminate).
      * intros f Hf x. cbn [In] in Hf. destruct Hf as [<-|[<-|[<-|[<-|[<-|[]]]]]]; reflexivity.
      * cbn [L]. exists r. rewrite <- B. auto.
    + pose proof (lookup_none _ _ LK) as LN.
      assert (~ In p (tbl s)) as NI by (intros X; apply (LN p X); exists o; auto).
      pose proof (trash_free_G s a (IPut bb n t p) b t p o I E eq_refl A) as (_ & R1 & R2 & R3 & R4 & R5 & R6 & R7 & R8).
      apply build with (s := s) (a := a) (cs := [IPut bb n t p]) (b := b) (cs' := [IDone bb n t p]); auto;
        cbn [with_calls with_tbl tbl item_count].
      * constructor; assumption.
      * rewrite IC. cbn [length]. lia.
      * intros x y k [<-|X] [<-|Y] HX HY.
        -- reflexivity.
        -- exfalso. apply (LN y Y). assert (k = bytes o) as <-; [|exact HY]. destruct HX as (o1 & A1 & B1). cbn in A1. congruence.
        -- exfalso. apply (LN x X). assert (k = bytes o) as <-; [|exact HX]. destruct HY as (o1 & A1 & B1). cbn in A1. congruence.
        -- apply (UQ x y k X Y HX HY).
      * intros x. pose proof (HG x) as Hx. Gsplit Hx. rewrite E in *. rewrite !T_split in *.
        cbn [own pub rel finW finS seeR] in *. rewrite ?occ_cons, ?occ_nil in *.
        destruct (Nat.eq_dec x p) as [->|N].
        -- rewrite A in *. rewrite Nat.eqb_refl in *. rewrite R1. split; [lia|]. cbn [In]. split; [|tauto]. intros _.
           change (1 =? 0)%N with false. cbv iota. lia.
        -- destruct (Nat.eqb p x) eqn:Z; [lia|].
           assert (In x (p :: tbl s) <-> In x (tbl s)) as IFF by (cbn; intuition congruence).
           rewrite ?Nat.add_0_l, ?Nat.add_0_r in *. destruct (mem s x); rewrite IFF; exact Hx.
      * intros c0 _. apply L_impl; [auto|]. cbn. auto.
      * constructor; [|constructor]. cbn [L]. exists o. auto.
  - (* IGet2 *)
    destruct HLc as (p & A & B). destruct (lookup s (trunc bb)) as [r|] eqn:LK.
    2: { exact (lookup_none _ _ LK p A B). }
    destruct (lookup_some _ _ _ LK) as [A1 B1].
    assert (match t with x :: _ => Nat.eqb x r | [] => false end = false) as ->.
    { destruct t as [|x t]; [reflexivity|]. destruct (Nat.eqb_spec x r) as [->|N]; [|reflexivity]. exfalso.
      destruct B1 as (o & A2 & B2).
      pose proof (trash_free_G s a (IGet2 bb n (r :: t)) b t r o I E eq_refl A2) as (X & _). contradiction. }
    rewrite S1.
    apply move_inv with (c := IGet2 bb n t); auto; try (cbn; tauto); try (cbn; intros; discriminate).
    intros f Hf x. cbn [In] in Hf. destruct Hf as [<-|[<-|[<-|[<-|[<-|[]]]]]]; reflexivity.
  - (* IRef2 *)
    unfold try_ref. destruct HLc as (HT & o & A & B). rewrite A. destruct (N.eqb_spec (refcnt o) 0) as [Z|Z]; rewrite S1.
    + apply move_inv with (c := IRef2 bb n t p); auto; try (cbn; tauto); try (cbn; intros; discriminate).
      intros f Hf x. cbn [In] in Hf. destruct Hf as [<-|[<-|[<-|[<-|[<-|[]]]]]]; reflexivity.
    + apply ref_inv with (c := IRef2 bb n t p); auto. exists o; auto.
  - (* IDone *)
    destruct t as [|x t].
    + destruct HLc as (o & A & B). rewrite S2.
      pose proof (HG p) as Gp. unfold G in Gp. rewrite A in Gp.
      apply build with (s := s) (a := a) (cs := [IDone bb n [] p]) (b := b) (cs' := []); auto.
      intros x. pose proof (HG x) as Hx. Gsplit Hx. rewrite E in *. rewrite !T_split in *. rewrite !T_app.
      cbn [own pub rel finW finS seeR] in *. rewrite ?occ_cons, ?occ_nil in *.
      destruct (Nat.eq_dec x p) as [->|N].
      * rewrite A in *. rewrite upd_same, Nat.eqb_refl in *. destruct Hx as (H1 & H2 & H3). split; [lia|].
        split; [intros X; specialize (H2 X); intuition lia|]. intros X. specialize (H3 X). lia.
      * rewrite upd_other by exact N. destruct (Nat.eqb p x) eqn:Z; [lia|].
        rewrite ?Nat.add_0_l, ?Nat.add_0_r in *. exact Hx.
    + pose proof (HG x) as Gx. unfold G in Gx. destruct (mem s x) as [o|] eqn:Em.
      2: { destruct Gx as (_ & _ & X & _). rewrite E, T_split in X. cbn [own] in X. rewrite occ_cons, Nat.eqb_refl in X. lia. }
      clear Gx.
      pose proof (trash_free_G s a (IDone bb n (x :: t) p) b t x o I E eq_refl Em) as (R0 & R1 & R2 & R3 & R4 & R5 & R6 & R7 & R8).
      rewrite R1. change (1 =? 0)%N with false. change (1 =? 1)%N with true. cbv iota. rewrite S1.
      assert (p <> x) as NX.
      { intros ->. rewrite E, T_split in R3. cbn [pub] in R3. rewrite occ_cons, Nat.eqb_refl in R3. lia. }
      apply drop_inv with (s := s) (a := a) (b := b) (c := IDone bb n (x :: t) p) (cs' := [IDone bb n t p]) (x := x); auto.
      * intros f Hf. rewrite E, T_split in *. rewrite !T_app, T_one. cbn [own pub rel finW finS seeR] in *.
        rewrite ?occ_cons, ?occ_nil, ?Nat.eqb_refl in *.
        cbn [In] in Hf. destruct Hf as [<-|[<-|[<-|[<-|[<-|[<-|[]]]]]]]; cbn [own pub rel finW finS seeR];
          rewrite ?occ_cons, ?occ_nil; lia.
      * intros f Hf y N. rewrite T_one. cbn [In] in Hf. destruct Hf as [<-|[<-|[<-|[<-|[<-|[<-|[]]]]]]];
          cbn [own pub rel finW finS seeR]; try reflexivity. rewrite occ_cons. destruct (Nat.eqb_spec x y); [congruence|reflexivity].
      * constructor; [|constructor]. cbn [L]. destruct HLc as (o' & A' & B'). exists o'. cbn [with_calls with_mem mem].
        rewrite upd_other by exact NX. auto.
  - (* RDec *)
    pose proof (HG p) as Gp. unfold G in Gp. destruct (mem s p) as [o|] eqn:Em.
    2: { destruct Gp as (_ & _ & _ & X & _). rewrite E, T_split in X. cbn [pub] in X. rewrite occ_cons, Nat.eqb_refl in X. lia. }
    destruct Gp as (G1 & G2 & G3).
    assert (T pub p (calls s) > 0) as TP by (rewrite E, T_split; cbn [pub]; rewrite occ_cons, Nat.eqb_refl; lia).
    assert (In p (tbl s)) as HT.
    { destruct (in_dec Nat.eq_dec p (tbl s)) as [X|X]; [exact X|]. specialize (G3 X). lia. }
    destruct (N.eqb_spec (refcnt o) 0) as [Z|Z]; [lia|].
    rewrite minus1_small by (pose proof (G_bound s p o F (HG p) Em); lia).
    assert (forall c0, In c0 (a ++ b) -> L s c0 -> forall X, L (with_calls (set_ref s p o (refcnt o - 1)) X) c0) as HLL.
    { intros c0 _ H0 X. revert H0. apply L_impl; [intros x k; apply (has_setref s p o _ Em)|auto]. }
    destruct (N.eqb_spec (refcnt o) 1) as [Y|Y]; [rewrite S1|rewrite S2].
    + apply build with (s := s) (a := a) (cs := [RDec p]) (b := b) (cs' := [RTakeS p]); auto.
      * intros x y k X Y' HX HY. apply (UQ x y k X Y');
          [exact (has_setref_inv s p o (refcnt o - 1) Em x k HX)|exact (has_setref_inv s p o (refcnt o - 1) Em y k HY)].
      * intros x. pose proof (HG x) as Hx. Gsplit Hx. rewrite E in *. rewrite !T_split in *.
        cbn [own pub rel finW finS seeR] in *. rewrite ?occ_cons, ?occ_nil in *.
        destruct (Nat.eq_dec x p) as [->|N].
        -- rewrite upd_same. rewrite Nat.eqb_refl in *. cbn [refcnt]. split; [lia|]. split; [|tauto]. intros _. specialize (G2 HT).
           rewrite Y. change (1 - 1 =? 0)%N with true. cbv iota. lia.
        -- rewrite upd_other by exact N. destruct (Nat.eqb p x) eqn:Z'; [lia|]. exact Hx.
    + apply build with (s := s) (a := a) (cs := [RDec p]) (b := b) (cs' := []); auto.
      * intros x y k X Y' HX HY. apply (UQ x y k X Y');
          [exact (has_setref_inv s p o (refcnt o - 1) Em x k HX)|exact (has_setref_inv s p o (refcnt o - 1) Em y k HY)].
      * intros x. pose proof (HG x) as Hx. Gsplit Hx. rewrite E in *. rewrite !T_split in *. rewrite !T_app.
        cbn [own pub rel finW finS seeR] in *. rewrite ?occ_cons, ?occ_nil in *.
        destruct (Nat.eq_dec x p) as [->|N].
        -- rewrite upd_same. rewrite Nat.eqb_refl in *. cbn [refcnt]. split; [lia|]. split; [|tauto]. intros _. specialize (G2 HT).
           destruct (N.eqb_spec (refcnt o - 1) 0); lia.
        -- rewrite upd_other by exact N. destruct (Nat.eqb p x) eqn:Z'; [lia|].
           rewrite ?Nat.add_0_l, ?Nat.add_0_r in *. exact Hx.
  - (* RTakeS *)
    destruct (forallb (fun c => negb (has_s c)) (calls s)) eqn:W2; [|exact Logic.I].
    destruct (forallb (fun c => negb (has_w c)) (calls s)) eqn:W3; [|exact Logic.I]. cbn [andb].
    apply no_nb in W2, W3. rewrite S1.
    apply move_inv with (c := RTakeS p); auto; try (cbn; tauto); try (cbn; intros; discriminate).
    + intros f Hf x. cbn [In] in Hf. destruct Hf as [<-|[<-|[<-|[<-|[<-|[]]]]]]; reflexivity.
    + right. right. rewrite nb_sw. lia.
  - (* RRem *)
    pose proof (HG p) as Gp. unfold G in Gp. destruct (mem s p) as [o|] eqn:Em.
    2: { destruct Gp as (_ & _ & _ & _ & X & _). rewrite E, T_split in X. cbn [rel] in X. rewrite occ_cons, Nat.eqb_refl in X. lia. }
    destruct Gp as (G1 & G2 & G3).
    assert (T rel p (calls s) > 0) as TP by (rewrite E, T_split; cbn [rel]; rewrite occ_cons, Nat.eqb_refl; lia).
    assert (In p (tbl s)) as HT.
    { destruct (in_dec Nat.eq_dec p (tbl s)) as [X|X]; [exact X|]. specialize (G3 X). lia. }
    specialize (G2 HT). clear G3. destruct (N.eqb_spec (refcnt o) 0) as [Z|Z]; [|lia]. cbn [negb].
    destruct (lookup s (bytes o)) as [r|] eqn:LK.
    2: { apply (lookup_none _ _ LK p HT). exists o. auto. }
    destruct (lookup_some _ _ _ LK) as [A1 B1].
    assert (r = p) as -> by (apply (UQ r p (bytes o)); auto; exists o; auto).
    assert (forall x, In x (filter (fun y => negb (Nat.eqb y p)) (tbl s)) <-> In x (tbl s) /\ x <> p) as FI.
    { intros x. rewrite filter_In. destruct (Nat.eqb_spec x p); cbn; intuition congruence. }
    rewrite S1.
    apply build with (s := s) (a := a) (cs := [RRem p]) (b := b) (cs' := [RTakeW p]); auto; cbn [with_calls with_tbl tbl item_count].
    + apply NoDup_filter'. exact ND.
    + rewrite IC. pose proof (filter_neq_len p (tbl s) ND HT). lia.
    + intros x y k X Y HX HY. apply FI in X, Y. apply (UQ x y k); tauto.
    + intros x. pose proof (HG x) as Hx. Gsplit Hx. rewrite E in *. rewrite !T_split in *.
      cbn [own pub rel finW finS seeR] in *. rewrite ?occ_cons, ?occ_nil in *.
      destruct (Nat.eq_dec x p) as [->|N].
      * rewrite Em in *. rewrite Nat.eqb_refl in *. rewrite Z in *. split; [lia|]. split; [rewrite (FI p); tauto|]. intros _. lia.
      * destruct (Nat.eqb p x) eqn:Z'; [lia|].
        assert (In x (filter (fun y => negb (Nat.eqb y p)) (tbl s)) <-> In x (tbl s)) as IFF by (rewrite (FI x); tauto).
        destruct (mem s x); rewrite IFF; exact Hx.
    + intros c0 Hc0 L0. destruct c0; cbn [L] in *; auto.
      * exfalso. rewrite E in SW. apply in_app_iff in Hc0. 
        destruct Hc0 as [Hc0|Hc0]; apply in_split in Hc0; destruct Hc0 as (l1 & l2 & ->);
          rewrite !nb_split in SW; cbn [sw has_s has_w orb] in SW; lia.
      * exfalso. rewrite E in SW. apply in_app_iff in Hc0. 
        destruct Hc0 as [Hc0|Hc0]; apply in_split in Hc0; destruct Hc0 as (l1 & l2 & ->);
          rewrite !nb_split in SW; cbn [sw has_s has_w orb] in SW; lia.
  - (* RTakeW *)
    destruct (forallb (fun c => negb (has_r c)) (calls s)) eqn:W1; [|exact Logic.I].
    destruct (forallb (fun c => negb (has_s c)) (calls s)) eqn:W2; [|exact Logic.I].
    destruct (forallb (fun c => negb (has_w c)) (calls s)) eqn:W3; [|exact Logic.I]. cbn [andb].
    apply no_nb in W1, W2, W3. rewrite S1.
    pose proof (HG p) as Gp. unfold G in Gp. destruct (mem s p) as [o|] eqn:Em.
    2: { destruct Gp as (_ & _ & _ & _ & _ & X & _). rewrite E, T_split in X. cbn [finW] in X. rewrite occ_cons, Nat.eqb_refl in X. lia. }
    destruct Gp as (G1 & G2 & G3).
    assert (T finW p (calls s) > 0) as TP by (rewrite E, T_split; cbn [finW]; rewrite occ_cons, Nat.eqb_refl; lia).
    assert (~ In p (tbl s)) as HT by (intros X; specialize (G2 X); lia).
    assert (T seeR p (calls s) = 0) as NS.
    { clear - W1. revert W1. generalize (calls s). induction l as [|c l IH]; [reflexivity|].
      change (c :: l) with ([] ++ c :: l). rewrite nb_split, T_split. intros H. change (nb has_r []) with 0 in H.
      rewrite IH by lia. destruct c; cbn [has_r seeR] in *; try reflexivity; lia. }
    apply build with (s := s) (a := a) (cs := [RTakeW p]) (b := b) (cs' := [RStage p]); auto.
    + intros x. pose proof (HG x) as Hx. Gsplit Hx. rewrite E in *. rewrite !T_split in *.
      cbn [own pub rel finW finS seeR] in *. rewrite ?occ_cons, ?occ_nil in *.
      destruct (Nat.eq_dec x p) as [->|N].
      * rewrite Em in *. rewrite Nat.eqb_refl in *. split; [lia|]. split; [tauto|]. intros _. specialize (G3 HT). lia.
      * destruct (Nat.eqb p x) eqn:Z'; [lia|]. exact Hx.
  - (* RStage *)
    rewrite S2.
    pose proof (HG p) as Gp. unfold G in Gp. destruct (mem s p) as [o|] eqn:Em.
    2: { destruct Gp as (_ & _ & _ & _ & _ & _ & X & _). rewrite E, T_split in X. cbn [finS] in X. rewrite occ_cons, Nat.eqb_refl in X. lia. }
    destruct Gp as (G1 & G2 & G3).
    assert (T finS p (calls s) > 0) as TP by (rewrite E, T_split; cbn [finS]; rewrite occ_cons, Nat.eqb_refl; lia).
    assert (~ In p (tbl s)) as HT by (intros X; specialize (G2 X); lia).
    destruct (G3 HT) as (C1 & C2 & C3 & C4 & C5).
    assert (T seeR p (calls s) = 0) as NS.
    { destruct (T seeR p (calls s)); [reflexivity|]. assert (T finW p (calls s) = 1) by (apply C5; lia). lia. }
    apply drop_inv with (s := s) (a := a) (b := b) (c := RStage p) (cs' := []) (x := p); auto.
    + intros f Hf. rewrite E in *. rewrite !T_split in *. rewrite !T_app. cbn [own pub rel finW finS seeR] in *.
      rewrite ?occ_cons, ?occ_nil, ?Nat.eqb_refl in *. change (T f p []) with 0.
      cbn [In] in Hf. destruct Hf as [<-|[<-|[<-|[<-|[<-|[<-|[]]]]]]]; lia.
    + intros f Hf y N. change (T f y []) with 0. cbn [In] in Hf. destruct Hf as [<-|[<-|[<-|[<-|[<-|[<-|[]]]]]]];
        cbn [own pub rel finW finS seeR]; try reflexivity. rewrite occ_cons. destruct (Nat.eqb_spec p y); [congruence|reflexivity].
Qed.

Lemma step_inv s c : Inv s -> few s -> match step s c with Next s' => Inv s' | Blocked => True | Abort => False end.
Proof.
  intros I F. pose proof I as [ND UQ HG HL SW WR IC]. destruct c as [bb n|p|p|i q]; cbn [step].
  - apply build with (s := s) (a := calls s) (cs := []) (b := []) (cs' := [ITakeR bb n []]); auto.
    + rewrite app_nil_r. reflexivity.
    + intros p. specialize (HG p). Gsplit HG. rewrite !T_app, !T_one. cbn [own pub rel finW finS seeR]. rewrite occ_nil, !Nat.add_0_r.
      exact HG.
    + constructor; [exact Logic.I|constructor].
  - destruct (Nat.eqb_spec (held s p) 0) as [Z|Z]; [exact Logic.I|].
    apply build with (s := s) (a := calls s) (cs := []) (b := []) (cs' := [RDec p]); auto.
    + rewrite app_nil_r. reflexivity.
    + intros x. pose proof (HG x) as Hx. Gsplit Hx. rewrite !T_app, !T_one. cbn [own pub rel finW finS seeR].
      rewrite ?occ_cons, ?occ_nil, ?Nat.add_0_r. destruct (Nat.eq_dec x p) as [->|N].
      * rewrite upd_same, Nat.eqb_refl. destruct (mem s p) as [o|]; [|lia]. destruct Hx as (A & B & C).
        split; [lia|]. split; [exact B|]. intros X. specialize (C X). lia.
      * rewrite upd_other by exact N. destruct (Nat.eqb_spec p x); [congruence|]. rewrite !Nat.add_0_r. exact Hx.
    + constructor; [exact Logic.I|constructor].
  - destruct (Nat.eqb_spec (held s p) 0) as [Z|Z]; [exact Logic.I|].
    pose proof (HG p) as Gp. unfold G in Gp. destruct (mem s p) as [o|] eqn:Em; [|lia]. destruct Gp as (G1 & G2 & G3).
    destruct (N.eqb_spec (refcnt o) 0) as [Y|Y]; [lia|].
    assert (In p (tbl s)) as HT.
    { destruct (in_dec Nat.eq_dec p (tbl s)) as [X|X]; [exact X|]. specialize (G3 X). lia. }
    rewrite plus1_small by (eapply G_bound; eauto).
    apply build with (s := s) (a := calls s) (cs := []) (b := []) (cs' := []); auto; try (cbn; rewrite app_nil_r; reflexivity).
    + intros x y k X Y' HX HY. apply (UQ x y k X Y');
        [exact (has_setref_inv s p o (refcnt o + 1) Em x k HX)|exact (has_setref_inv s p o (refcnt o + 1) Em y k HY)].
    + intros x. pose proof (HG x) as Hx. Gsplit Hx. destruct (Nat.eq_dec x p) as [->|N].
      * rewrite !upd_same. cbn [refcnt]. split; [lia|]. split; [|tauto]. intros _. specialize (G2 HT).
        destruct (N.eqb_spec (refcnt o + 1) 0); lia.
      * rewrite !upd_other by exact N. exact Hx.
    + intros c0 _. apply L_impl; [intros x k; apply (has_setref s p o _ Em)|auto].
  - destruct (nth_error (calls s) i) as [c|] eqn:E; [|exact Logic.I]. apply go_inv; assumption.
Qed.
Lemma reach_inv P s : reach P s -> Inv s.
Proof.
  induction 1; [exact init_inv|]. pose proof (step_inv s c IHreach H0) as X. rewrite H2 in X. exact X.
Qed.

Lemma never_aborts P s c : reach P s -> few s -> step s c <> Abort.
Proof. intros R F X. pose proof (step_inv s c (reach_inv P s R) F) as Y. rewrite X in Y. exact Y. Qed.

Lemma held_mem s p : Inv s -> held s p > 0 -> exists o, mem s p = Some o /\ In p (tbl s) /\ (N.of_nat (held s p) <= refcnt o)%N.
Proof.
  intros I H. pose proof (i_g s I p) as X. unfold G in X. destruct (mem s p) as [o|]; [|lia]. exists o.
  destruct X as (A & B & C). split; [reflexivity|]. split; [|lia].
  destruct (in_dec Nat.eq_dec p (tbl s)) as [Y|Y]; [exact Y|]. specialize (C Y). lia.
Qed.
Lemma same_handle P s p q : reach P s -> held s p > 0 -> held s q > 0 ->
  stored s p <> None /\ (p = q <-> stored s p = stored s q).
Proof.
  intros R Hp Hq. pose proof (reach_inv P s R) as I.
  destruct (held_mem s p I Hp) as (o & A & B & _). destruct (held_mem s q I Hq) as (o' & A' & B' & _).
  unfold stored. rewrite A, A'. cbn [option_map]. split; [discriminate|]. split; [intros ->; congruence|]. intros [= X].
  apply (i_uniq s I p q (bytes o)); auto; [exists o|exists o']; auto.
Qed.

(** what a step does to the memory of one item *)
Lemma step_mem s c s' p : Inv s -> step s c = Next s' ->
  (exists o o', mem s p = Some o /\ mem s' p = Some o' /\ bytes o' = bytes o /\ nt o' = nt o) \/
  mem s p = None \/ (mem s' p = None /\ held s p = 0 /\ held s' p = 0).
Proof.
  intros I. pose proof (i_g s I p) as X. unfold G in X.
  destruct (mem s p) as [o|] eqn:Em; [|auto]. intros H. 
  assert (forall x ox r, mem s x = Some ox -> exists o', upd (mem s) x (Some (Obj (bytes ox) (nt ox) r)) p = Some o' /\
            bytes o' = bytes o /\ nt o' = nt o) as U.
  { intros x ox r Ex. destruct (Nat.eq_dec p x) as [->|N].
    - rewrite upd_same. exists (Obj (bytes ox) (nt ox) r). rewrite Em in Ex. injection Ex as <-. auto.
    - rewrite upd_other by exact N. exists o. auto. }
  assert (forall m, (exists o', m = Some o' /\ bytes o' = bytes o /\ nt o' = nt o) ->
    (exists o0 o', Some o = Some o0 /\ m = Some o' /\ bytes o' = bytes o0 /\ nt o' = nt o0)) as V.
  { intros m (o' & A & B & C). exists o, o'. auto. }
  assert (exists o', Some o = Some o' /\ bytes o' = bytes o /\ nt o' = nt o) as V0 by eauto.
  destruct c as [bb n|x|x|i q]; cbn [step] in H.
  - injection H as <-. left. apply V. cbn. rewrite Em. exact V0.
  - destruct (Nat.eqb _ _); [discriminate|]. injection H as <-. left. apply V. cbn. rewrite Em. exact V0.
  - destruct (Nat.eqb _ _); [discriminate|]. destruct (mem s x) as [ox|] eqn:Ex; [|discriminate].
    destruct (N.eqb (refcnt ox) 0); [discriminate|]. injection H as <-. left. apply V. cbn [with_held set_ref with_mem mem]. apply U. exact Ex.
  - destruct (nth_error (calls s) i) as [c|] eqn:E; [|discriminate].
    destruct (nth_split_set i _ _ E) as (a & b & E' & _ & _).
    destruct c as [bb n t|bb n t|bb n t x|bb n t|bb n t x|bb n t x|bb n t|bb n t x|bb n t x|x|x|x|x|x]; cbn [go] in H; unfold try_ref in H.
    all: try (repeat match type of H with context [match ?z with _ => _ end] => destruct z eqn:?; try discriminate end;
              injection H as <-; left; apply V; cbn [with_calls with_tbl with_held with_ret set_ref with_mem mem];
              first [rewrite Em; exact V0|apply U; assumption]).
    + destruct (mem s q) as [oq|] eqn:Eq; [discriminate|]. injection H as <-. left. apply V. cbn [with_calls with_mem mem].
      rewrite upd_other by congruence. rewrite Em. exact V0.
    + destruct t as [|y t].
      * injection H as <-. left. apply V. cbn. rewrite Em. exact V0.
      * destruct (mem s y) as [oy|] eqn:Ey; [|discriminate]. destruct (N.eqb (refcnt oy) 0); [discriminate|].
        pose proof (trash_free_G s a (IDone bb n (y :: t) x) b t y oy I E' eq_refl Ey) as (_ & R1 & R2 & _).
        rewrite R1 in H. change (1 =? 1)%N with true in H. cbv iota in H. injection H as <-.
        destruct (Nat.eq_dec p y) as [->|N].
        -- right. right. cbn [with_calls with_mem mem held]. rewrite upd_same. auto.
        -- left. apply V. cbn [with_calls with_mem mem]. rewrite upd_other by exact N. rewrite Em. exact V0.
    + injection H as <-. destruct (Nat.eq_dec p x) as [->|N].
      * right. right. cbn [with_calls with_mem mem held]. rewrite upd_same.
        assert (T finS x (calls s) > 0) as TP by (rewrite E', T_split; cbn [finS]; rewrite occ_cons, Nat.eqb_refl; lia).
        destruct X as (A & B & C). destruct (in_dec Nat.eq_dec x (tbl s)) as [Y|Y]; [specialize (B Y); lia|].
        specialize (C Y). intuition.
      * left. apply V. cbn [with_calls with_mem mem]. rewrite upd_other by exact N. rewrite Em. exact V0.
Qed.
Lemma stays P s c s' p : reach P s -> step s c = Next s' -> held s p > 0 ->
  stored s' p = stored s p /\ get_str s' p = get_str s p /\ stored s' p <> None.
Proof.
  intros R H Hp. pose proof (reach_inv P s R) as I. destruct (held_mem s p I Hp) as (o0 & A0 & _).
  destruct (step_mem s c s' p I H) as [(o & o' & A & B & C & D)|[X|(_ & X & _)]]; [|congruence|lia].
  unfold stored, get_str. rewrite A, B. cbn [option_map]. rewrite C, D. repeat split. discriminate.
Qed.
(** the only step that gives the memory of an item back happens when nobody holds it *)
Lemma reclaimed P s c s' p : reach P s -> step s c = Next s' -> mem s p <> None -> mem s' p = None -> held s p = 0 /\ held s' p = 0.
Proof.
  intros R H A B. destruct (step_mem s c s' p (reach_inv P s R) H) as [(o & o' & A1 & B1 & _)|[X|(_ & X)]]; [congruence|congruence|exact X].
Qed.
Lemma counts P s p : reach P s -> held s p > 0 ->
  exists r, get_refcnt s p = Some r /\ (N.of_nat (held s p) <= r)%N /\ (calls s = [] -> r = N.of_nat (held s p)).
Proof.
  intros R H. pose proof (reach_inv P s R) as I. destruct (held_mem s p I H) as (o & A & B & C). exists (refcnt o).
  unfold get_refcnt. rewrite A. repeat split; auto. intros E. pose proof (i_g s I p) as X. unfold G in X. rewrite A, E in X.
  destruct X as (X & _). rewrite X. change (T pub p []) with 0. change (T own p []) with 0. lia.
Qed.
Lemma no_leak P s : reach P s -> calls s = [] ->
  (forall p, mem s p <> None <-> held s p > 0) /\
  exists l, NoDup l /\ (forall p, In p l <-> held s p > 0) /\ item_count s = N.of_nat (length l).
Proof.
  intros R E. pose proof (reach_inv P s R) as I.
  assert (forall p, (mem s p <> None -> In p (tbl s)) /\ (In p (tbl s) -> held s p > 0) /\ (held s p > 0 -> mem s p <> None)) as X.
  { intros p. pose proof (i_g s I p) as X. unfold G in X. rewrite E in X.
    change (T own p []) with 0 in X. change (T pub p []) with 0 in X. change (T rel p []) with 0 in X.
    change (T finW p []) with 0 in X. change (T finS p []) with 0 in X.
    destruct (mem s p) as [o|].
    - destruct X as (A & B & C). split; [|split].
      + intros _. destruct (in_dec Nat.eq_dec p (tbl s)) as [Y|Y]; [exact Y|]. specialize (C Y). lia.
      + intros Y. specialize (B Y). destruct (N.eqb_spec (refcnt o) 0); lia.
      + discriminate.
    - destruct X as (A & B & _). split; [congruence|]. split; [tauto|lia]. }
  split.
  - intros p. specialize (X p). tauto.
  - exists (tbl s). split; [apply (i_nd s I)|]. split; [|apply (i_ic s I)]. intros p. specialize (X p). tauto.
Qed.
Lemma returns s c s' b n p : Inv s -> step s c = Next s' -> ret s' = (b, n, p) :: ret s ->
  stored s' p = Some (trunc b) /\ held s' p = S (held s p).
Proof.
  intros I H R.
  assert (forall (l : list (list N * bool * nat)) x, l = x :: l -> False) as NE.
  { intros l x X. apply (f_equal (@length _)) in X. cbn in X. lia. }
  destruct c as [bb m|x|x|i q]; cbn [step] in H.
  - injection H as <-. exfalso. exact (NE _ _ R).
  - destruct (Nat.eqb _ _); [discriminate|]. injection H as <-. exfalso. exact (NE _ _ R).
  - destruct (Nat.eqb _ _); [discriminate|]. destruct (mem s x); [|discriminate].
    destruct (N.eqb _ _); [discriminate|]. injection H as <-. exfalso. exact (NE _ _ R).
  - destruct (nth_error (calls s) i) as [c|] eqn:E; [|discriminate].
    pose proof (L_call s c I (nth_error_In _ _ E)) as HL.
    destruct c as [bb m t|bb m t|bb m t x|bb m t|bb m t x|bb m t x|bb m t|bb m t x|bb m t x|x|x|x|x|x]; cbn [go] in H; unfold try_ref in H.
    all: try (repeat match type of H with context [match ?z with _ => _ end] => destruct z eqn:?; try discriminate end;
              injection H as <-; exfalso; exact (NE _ _ R)).
    + destruct t as [|y t].
      * injection H as <-. cbn in R. injection R as -> -> ->. cbn [L] in HL. destruct HL as (o & A & B).
        unfold stored. cbn [with_ret with_calls with_held mem held]. rewrite A, upd_same. cbn. split; [congruence|lia].
      * destruct (mem s y); [|discriminate]. destruct (N.eqb _ _); [discriminate|]. injection H as <-.
        exfalso. destruct (N.eqb _ _); exact (NE _ _ R).
Qed.

(** ** No deadlock *)
Lemma moves s : Inv s -> few s -> calls s <> [] -> (exists q, mem s q = None) -> exists i q s', step s (Go i q) = Next s'.
Proof.
  intros I F NE [q Hq].
  assert (forall f, (exists i c, nth_error (calls s) i = Some c /\ f c = true) \/ forallb (fun c => negb (f c)) (calls s) = true) as D.
  { intros f. generalize (calls s). induction l as [|c l IH]; [auto|]. destruct (f c) eqn:E.
    - left. exists 0, c. auto.
    - destruct IH as [(i & c' & A & B)|IH]; [left; exists (S i), c'; auto|]. right. cbn [forallb]. rewrite E. exact IH. }
  assert (forall i c, nth_error (calls s) i = Some c -> go s i c q <> Blocked -> exists i q s', step s (Go i q) = Next s') as K.
  { intros i c E H. exists i, q. pose proof (go_inv s i c q I F E) as X. cbn [step]. rewrite E.
    destruct (go s i c q) as [s'| |]; [eauto|congruence|contradiction]. }
  destruct (D (fun c => has_r c || has_s c || has_w c)) as [(i & c & A & B)|W].
  - apply (K i c A). destruct c as [bb m t|bb m t|bb m t x|bb m t|bb m t x|bb m t x|bb m t|bb m t x|bb m t x|x|x|x|x|x]; cbn in B; try discriminate B; cbn [go]; unfold try_ref;
      repeat match goal with |- context [match ?z with _ => _ end] => destruct z end; discriminate.
  - assert (forall f, (forall c, f c = true -> has_r c || has_s c || has_w c = true) -> forallb (fun c => negb (f c)) (calls s) = true) as Z.
    { intros f Hf. rewrite forallb_forall in *. intros c Hc. specialize (W c Hc). specialize (Hf c). destruct (f c); [|reflexivity].
      rewrite Hf in W by reflexivity. discriminate. }
    assert (forallb (fun c => negb (has_r c)) (calls s) = true) as Zr by (apply Z; intros c ->; reflexivity).
    assert (forallb (fun c => negb (has_s c)) (calls s) = true) as Zs by (apply Z; intros c ->; destruct (has_r c); reflexivity).
    assert (forallb (fun c => negb (has_w c)) (calls s) = true) as Zw by (apply Z; intros c ->; destruct (has_r c), (has_s c); reflexivity).
    destruct (calls s) as [|c l] eqn:Ec; [congruence|]. rewrite <- Ec in *.
    apply (K 0 c); [rewrite Ec; reflexivity|].
    destruct c as [bb m t|bb m t|bb m t x|bb m t|bb m t x|bb m t x|bb m t|bb m t x|bb m t x|x|x|x|x|x]; cbn [go]; unfold try_ref; rewrite ?Zr, ?Zs, ?Zw; cbn [andb].
    all: rewrite ?Hq; try discriminate; repeat match goal with |- context [match ?z with _ => _ end] => destruct z end; discriminate.
Qed.

(** ** Where contents come from *)
Definition args (c : call) : option (list N * bool) :=
  match c with
  | ITakeR b n _ | ILook b n _ | IGot b n _ _ | IAlloc b n _ | ITakeW b n _ _ | IPut b n _ _
  | IGet2 b n _ | IRef2 b n _ _ | IDone b n _ _ => Some (b, n)
  | _ => None
  end.
Definition from (P : choice -> Prop) (s : sys) : Prop :=
  (forall p o, mem s p = Some o -> exists b, P (Begin b (nt o)) /\ bytes o = trunc b) /\
  (forall c b n, In c (calls s) -> args c = Some (b, n) -> P (Begin b n)) /\
  (forall b n p, In (b, n, p) (ret s) -> P (Begin b n)).
Lemma reach_from P s : reach P s -> from P s.
Proof.
  induction 1 as [|s c s' R (F1 & F2 & F3) F Pc H].
  - repeat split; cbn; try discriminate; tauto.
  - assert (forall x ox r, mem s x = Some ox -> forall p o, upd (mem s) x (Some (Obj (bytes ox) (nt ox) r)) p = Some o ->
              exists b, P (Begin b (nt o)) /\ bytes o = trunc b) as U.
    { intros x ox r Ex p o Hp. destruct (Nat.eq_dec p x) as [->|N].
      - rewrite upd_same in Hp. injection Hp as <-. cbn. eauto.
      - rewrite upd_other in Hp by exact N. eauto. }
    assert (forall x p o, upd (mem s) x None p = Some o -> exists b, P (Begin b (nt o)) /\ bytes o = trunc b) as U0.
    { intros x p o Hp. unfold upd in Hp. destruct (Nat.eqb p x); [discriminate|]. eauto. }
    assert (forall a b, (forall c, In c (a ++ b) -> In c (calls s)) ->
              (forall c b0 n, In c (a ++ b) -> args c = Some (b0, n) -> P (Begin b0 n))) as V0 by (intros; eauto).
    assert (forall a c b, (forall c, In c (a ++ b) -> In c (calls s)) ->
              (forall b0 n, args c = Some (b0, n) -> P (Begin b0 n)) ->
              (forall c0 b0 n, In c0 (a ++ c :: b) -> args c0 = Some (b0, n) -> P (Begin b0 n))) as V.
    { intros a c1 b A B c0 b0 n I0 E0. apply in_app_iff in I0. cbn in I0. destruct I0 as [I0|[<-|I0]]; eauto.
      - apply (F2 c0 b0 n); [apply A, in_app_iff|]; auto.
      - apply (F2 c0 b0 n); [apply A, in_app_iff|]; auto. }
    destruct c as [bb m|x|x|i q]; cbn [step] in H.
    + injection H as <-. cbn. repeat split; auto. apply V; [rewrite app_nil_r; auto|]. intros b0 n [= <- <-]. exact Pc.
    + destruct (Nat.eqb _ _); [discriminate|]. injection H as <-. cbn. repeat split; auto.
      apply V; [rewrite app_nil_r; auto|]. discriminate.
    + destruct (Nat.eqb _ _); [discriminate|]. destruct (mem s x) as [ox|] eqn:Ex; [|discriminate].
      destruct (N.eqb _ _); [discriminate|]. injection H as <-. cbn. repeat split; auto. eapply U. exact Ex.
    + destruct (nth_error (calls s) i) as [c|] eqn:E; [|discriminate].
      destruct (nth_split_set i _ _ E) as (a & b & E' & S1 & S2).
      assert (forall c, In c (a ++ b) -> In c (calls s)) as HI.
      { intros c0. rewrite E', !in_app_iff. cbn. tauto. }
      assert (forall b0 n, args c = Some (b0, n) -> P (Begin b0 n)) as HA.
      { intros b0 n. apply F2. rewrite E', in_app_iff. cbn. auto. }
      destruct c as [bb m t|bb m t|bb m t x|bb m t|bb m t x|bb m t x|bb m t|bb m t x|bb m t x|x|x|x|x|x]; cbn [go] in H; unfold try_ref in H.
      all: cbn [args] in HA.
      4: { destruct (mem s q) as [oq|] eqn:Eq; [discriminate|]. injection H as <-. rewrite S1.
           unfold from. cbn [with_calls with_mem mem calls ret]. split; [|split; [apply V; [exact HI|exact HA]|exact F3]].
           intros p o Hp. destruct (Nat.eq_dec p q) as [->|N].
           - rewrite upd_same in Hp. injection Hp as <-. cbn. exists bb. auto.
           - rewrite upd_other in Hp by exact N. eauto. }
      8: { destruct t as [|y t].
           - injection H as <-. rewrite S2. unfold from. cbn [with_calls with_held with_ret mem calls ret]. repeat split; eauto.
             intros b0 n p [[= <- <- <-]|X]; eauto.
           - destruct (mem s y) as [oy|] eqn:Ey; [|discriminate]. destruct (N.eqb (refcnt oy) 0); [discriminate|].
             assert (forall b0 n, args (IDone bb m t x) = Some (b0, n) -> P (Begin b0 n)) as HA' by exact HA.
             injection H as <-. rewrite S1. unfold from. cbn [with_calls calls].
             destruct (N.eqb _ _); cbn [with_mem set_ref mem ret];
               (split; [first [eapply U; eassumption|apply U0]|split; [exact (V a _ b HI HA')|exact F3]]). }
      all: repeat match type of H with context [match ?z with _ => _ end] => destruct z eqn:?; try discriminate end;
        injection H as <-; rewrite ?S1, ?S2; unfold from; cbn [with_calls with_tbl set_ref with_mem mem calls ret];
        (split; [first [exact F1|eapply U; eassumption|apply U0]|split; [|exact F3]]);
        first [exact (V0 a b HI)|apply V; [exact HI|cbn [args]; try discriminate; try (intros b0 n0 [= <- <-]); apply HA; reflexivity]|apply V; [exact HI|cbn [args]; discriminate]].
Qed.

Lemma trunc_small b : (N.of_nat (length b) < 2 ^ 23)%N -> trunc b = b.
Proof. intros H. unfold trunc. rewrite N.mod_small by exact H. rewrite Nnat.Nat2N.id. apply firstn_all. Qed.
Lemma firstn_pre {A} (l : list A) x : firstn (length (l ++ [x]) - 1) (l ++ [x]) = l.
Proof. rewrite app_length. cbn [length]. replace (length l + 1 - 1) with (length l) by lia.
  rewrite firstn_app, Nat.sub_diag, firstn_O, app_nil_r, firstn_all. reflexivity. Qed.

Lemma str_get s p o : reach strings s -> mem s p = Some o -> exists str, bytes o = str ++ [0%N] /\ get_str s p = Some str.
Proof.
  intros R A. destruct (proj1 (reach_from _ _ R) p o A) as (b & (str & -> & En & Hl) & B).
  rewrite trunc_small in B by (rewrite app_length; cbn [length]; lia). exists str. split; [exact B|].
  unfold get_str. rewrite A, En, B, firstn_pre. reflexivity.
Qed.
Lemma str_handles s p q : reach strings s -> held s p > 0 -> held s q > 0 ->
  get_str s p <> None /\ (p = q <-> get_str s p = get_str s q).
Proof.
  intros R Hp Hq. pose proof (reach_inv _ s R) as I.
  destruct (held_mem s p I Hp) as (o & A & _). destruct (held_mem s q I Hq) as (o' & A' & _).
  destruct (str_get s p o R A) as (x & X1 & X2). destruct (str_get s q o' R A') as (y & Y1 & Y2).
  rewrite X2, Y2. split; [discriminate|]. split; [intros ->; congruence|]. intros [= ->].
  apply (same_handle _ s p q R Hp Hq). unfold stored. rewrite A, A'. cbn. congruence.
Qed.
Lemma str_returns s c s' b n p : reach strings s -> few s -> strings c -> step s c = Next s' -> ret s' = (b, n, p) :: ret s ->
  get_str s' p = Some (asked b n) /\ held s' p = S (held s p).
Proof.
  intros R F Pc H E. destruct (returns s c s' b n p (reach_inv _ s R) H E) as (A & B). split; [|exact B].
  assert (reach strings s') as R' by (econstructor; eauto).
  unfold stored in A. destruct (mem s' p) as [o|] eqn:Em; [|discriminate]. injection A as A.
  destruct (str_get s' p o R' Em) as (x & X1 & ->). f_equal.
  pose proof (proj2 (proj2 (reach_from _ _ R')) b n p) as X. rewrite E in X. destruct (X (or_introl eq_refl)) as (str & -> & -> & Hl).
  unfold asked. rewrite firstn_pre. rewrite A, trunc_small in X1 by (rewrite app_length; cbn [length]; lia).
  apply app_inj_tail in X1. symmetry. apply X1.
Qed.
Lemma blob_get s p o : reach blobs s -> mem s p = Some o -> get_str s p = Some (bytes o).
Proof.
  intros R A. destruct (proj1 (reach_from _ _ R) p o A) as (b & (En & Hl) & B).
  unfold get_str. rewrite A, En, Nat.sub_0_r, firstn_all. reflexivity.
Qed.
Lemma blob_handles s p q : reach blobs s -> held s p > 0 -> held s q > 0 ->
  get_str s p <> None /\ (p = q <-> get_str s p = get_str s q).
Proof.
  intros R Hp Hq. pose proof (reach_inv _ s R) as I.
  destruct (held_mem s p I Hp) as (o & A & _). destruct (held_mem s q I Hq) as (o' & A' & _).
  rewrite (blob_get s p o R A), (blob_get s q o' R A'). split; [discriminate|]. split; [intros ->; congruence|]. intros [= X].
  apply (same_handle _ s p q R Hp Hq). unfold stored. rewrite A, A'. cbn. congruence.
Qed.
Lemma blob_returns s c s' b n p : reach blobs s -> few s -> blobs c -> step s c = Next s' -> ret s' = (b, n, p) :: ret s ->
  get_str s' p = Some (asked b n) /\ held s' p = S (held s p).
Proof.
  intros R F Pc H E. destruct (returns s c s' b n p (reach_inv _ s R) H E) as (A & B). split; [|exact B].
  assert (reach blobs s') as R' by (econstructor; eauto).
  unfold stored in A. destruct (mem s' p) as [o|] eqn:Em; [|discriminate]. injection A as A.
  rewrite (blob_get s' p o R' Em). f_equal.
  pose proof (proj2 (proj2 (reach_from _ _ R')) b n p) as X. rewrite E in X. destruct (X (or_introl eq_refl)) as (-> & Hl).
  unfold asked. rewrite Nat.sub_0_r, firstn_all, A. apply trunc_small. exact Hl.
Qed.
(** with documented lengths, whatever the kinds: the stored bytes are the bytes taken *)
Lemma bytes_handles P s : reach P s ->
  (forall p q, held s p > 0 -> held s q > 0 -> stored s p <> None /\ (p = q <-> stored s p = stored s q)) /\
  ((forall c, P c -> documented c) -> forall c s' b n p, few s -> P c -> step s c = Next s' -> ret s' = (b, n, p) :: ret s ->
     stored s' p = Some b /\ held s' p = S (held s p)).
Proof.
  intros R. split; [intros p q; apply (same_handle P s p q R)|]. intros PD c s' b n p F Pc H E.
  destruct (returns s c s' b n p (reach_inv _ s R) H E) as (A & B). split; [|exact B].
  assert (reach P s') as R' by (econstructor; eauto).
  pose proof (proj2 (proj2 (reach_from _ _ R')) b n p) as X. rewrite E in X. specialize (X (or_introl eq_refl)).
  apply PD in X. cbn in X. rewrite A, trunc_small by exact X. reflexivity.
Qed.

(** the user's calls *)
Lemma strlen_nth m : In 0%N m -> nth_error m (strlen m) = Some 0%N.
Proof.
  induction m as [|x m IH]; [intros []|]. cbn [strlen]. intros H. destruct (N.eqb_spec x 0) as [->|N]; [reflexivity|].
  cbn. apply IH. destruct H; [congruence|assumption].
Qed.
Lemma firstn_nth {A} (m : list A) n x : nth_error m n = Some x -> firstn (n + 1) m = firstn n m ++ [x].
Proof.
  revert m. induction n as [|n IH]; intros [|y m]; cbn; try discriminate; [intros [= ->]; reflexivity|].
  intros H. rewrite (IH m H). reflexivity.
Qed.
Lemma str_call m len : let l := if Nat.eqb len 0 then strlen m else len in
  nth_error m l = Some 0%N -> (N.of_nat l < 2 ^ 23 - 1)%N ->
  exists b, intern_str m len = Begin b true /\ strings (intern_str m len) /\ asked b true = firstn l m.
Proof.
  intros l H Hl. exists (taken m len true). split; [reflexivity|]. unfold intern_str, taken. fold l.
  rewrite (firstn_nth m l _ H). split.
  - exists (firstn l m). repeat split. rewrite firstn_length. lia.
  - unfold asked. apply firstn_pre.
Qed.

(** ** Schedules *)
Lemma step_small s c s' p : step s c = Next s' -> held s' p + length (calls s') <= S (held s p + length (calls s)).
Proof.
  assert (forall i c, length (set_nth i c (calls s)) = length (calls s)) as A.
  { intros i. generalize (calls s). induction i as [|i IH]; intros [|x l] c0; cbn; auto. }
  assert (forall i, length (remove_nth i (calls s)) <= length (calls s)) as B.
  { intros i. generalize (calls s). induction i as [|i IH]; intros [|x l]; cbn; auto. specialize (IH l). lia. }
  assert (forall x v, v <= S (held s x) -> upd (held s) x v p <= S (held s p)) as C.
  { intros x v Hv. unfold upd. destruct (Nat.eqb_spec p x) as [->|]; [exact Hv|lia]. }
  destruct c as [bb m|x|x|i q]; cbn [step]; intros H.
  - injection H as <-. cbn. rewrite app_length. cbn. lia.
  - destruct (Nat.eqb_spec (held s x) 0); [discriminate|]. injection H as <-. cbn. rewrite app_length. cbn.
    unfold upd. destruct (Nat.eqb_spec p x) as [->|]; lia.
  - destruct (Nat.eqb _ _); [discriminate|]. destruct (mem s x); [|discriminate].
    destruct (N.eqb _ _); [discriminate|]. injection H as <-. cbn. specialize (C x (held s x + 1)). lia.
  - destruct (nth_error (calls s) i) as [c|] eqn:E; [|discriminate]. specialize (B i).
    destruct c as [bb m t|bb m t|bb m t x|bb m t|bb m t x|bb m t x|bb m t|bb m t x|bb m t x|x|x|x|x|x]; cbn [go] in H; unfold try_ref in H.
    all: repeat match type of H with context [match ?z with _ => _ end] => destruct z eqn:?; try discriminate end;
      injection H as <-; cbn; rewrite ?A; try lia.
    specialize (C x (held s x + 1)). lia.
Qed.
Lemma run_reach P cs : forall s s', reach P s -> Forall P cs ->
  (forall p, (N.of_nat (held s p + length (calls s) + length cs) + 2 < 2 ^ 32)%N) -> run s cs = Next s' -> reach P s'.
Proof.
  induction cs as [|c cs IH]; intros s s' R F B H; cbn [run] in H; [injection H as <-; exact R|].
  inversion F; subst. cbn [length] in B. destruct (step s c) as [s1| |] eqn:E; [| |discriminate].
  - apply (IH s1 s'); auto.
    + econstructor; eauto. intros p. specialize (B p). lia.
    + intros p. specialize (B p). pose proof (step_small s c s1 p E). lia.
  - apply (IH s s'); auto. intros p. specialize (B p). lia.
Qed.
Lemma run_small cs : forall s s' p, run s cs = Next s' -> held s' p + length (calls s') <= held s p + length (calls s) + length cs.
Proof.
  induction cs as [|c cs IH]; intros s s' p H; cbn [run] in H; [injection H as <-; lia|]. cbn [length].
  destruct (step s c) as [s1| |] eqn:E; [|specialize (IH s s' p H); lia|discriminate].
  specialize (IH s1 s' p H). pose proof (step_small s c s1 p E). lia.
Qed.
Lemma run_few cs s : run init cs = Next s -> (N.of_nat (length cs) + 2 < 2 ^ 32)%N -> few s.
Proof. intros H B p. pose proof (run_small cs init s p H) as X. cbn in X. lia. Qed.

(** ** Two ways to be surprised *)
Definition mixed1 : list choice := whole (intern_str [97; 98; 99; 0]%N 2) 1 ++ whole (intern_str [97; 98; 100; 0]%N 2) 2.
Definition end1 : sys := match run init mixed1 with Next s => s | _ => init end.
Lemma end1_reach : reach documented end1.
Proof.
  apply (run_reach documented mixed1 init end1); [constructor| | |vm_compute; reflexivity].
  - repeat (constructor; [cbn; lia || exact I|]). constructor.
  - intros p. vm_compute. reflexivity.
Qed.
Lemma handles_refuted : ~ (forall s p q, reach documented s -> held s p > 0 -> held s q > 0 -> (p = q <-> get_str s p = get_str s q)).
Proof.
  intros H. assert (1 = 2) as X; [|discriminate X].
  apply (H end1 1 2 end1_reach); vm_compute; first [reflexivity|lia].
Qed.
Definition mixed2 : list choice := whole (intern_blob [97; 0]%N 2) 1 ++ [intern_str [97; 0]%N 1; Go 0 9; Go 0 9; Go 0 9].
Definition end2 : sys := match run init mixed2 with Next s => s | _ => init end.
Lemma end2_reach : reach documented end2.
Proof.
  apply (run_reach documented mixed2 init end2); [constructor| | |vm_compute; reflexivity].
  - repeat (constructor; [cbn; lia || exact I|]). constructor.
  - intros p. vm_compute. reflexivity.
Qed.
Lemma returned_refuted : ~ (forall s c s' b n p, reach documented s -> few s -> documented c -> step s c = Next s' ->
  ret s' = (b, n, p) :: ret s -> get_str s' p = Some (asked b n)).
Proof.
  intros H. set (s' := match step end2 (Go 0 9) with Next s => s | _ => init end).
  assert (get_str s' 1 = Some [97; 0]%N) as Y by (vm_compute; reflexivity).
  assert (get_str s' 1 = Some [97]%N) as X; [|rewrite Y in X; discriminate X].
  clear Y. apply (H end2 (Go 0 9) s' [97; 0]%N true 1 end2_reach).
  - apply (run_few mixed2); [vm_compute; reflexivity|cbn; lia].
  - exact I.
  - vm_compute. reflexivity.
  - vm_compute. reflexivity.
Qed.
