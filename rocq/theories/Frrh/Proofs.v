From Coq Require Import Arith NArith ZArith List Bool Lia ZifyBool ZifyNat ZifyN.
From Verif.Frrh Require Import Model Spec.
Import ListNotations.

Lemma nth_set {A} i : forall (l : list A) c v, nth_error l i = Some c ->
  exists a b, l = a ++ c :: b /\ set_nth i v l = a ++ v :: b /\ length a = i.
Proof.
  induction i as [|i IH]; intros [|x l] c v; cbn; try discriminate.
  - intros [= ->]. exists [], l. repeat split.
  - intros H. destruct (IH l c v H) as (a & b & -> & S1 & S2). exists (x :: a), b.
    rewrite S1. cbn. rewrite S2. repeat split.
Qed.
Lemma nth_set_same {A} i (l : list A) c v : nth_error l i = Some c -> nth_error (set_nth i v l) i = Some v.
Proof.
  intros H. destruct (nth_set i l c v H) as (a & b & _ & -> & <-). rewrite nth_error_app2 by lia.
  rewrite Nat.sub_diag. reflexivity.
Qed.
Lemma nth_set_other {A} i : forall (l : list A) v j, j <> i -> nth_error (set_nth i v l) j = nth_error l j.
Proof. induction i as [|i IH]; intros [|x l] v [|j] H; cbn; try congruence. apply IH. congruence. Qed.
Lemma length_set_nth {A} i : forall (l : list A) v, length (set_nth i v l) = length l.
Proof. induction i as [|i IH]; intros [|x l] v; cbn; congruence. Qed.
Lemma memeq_spec a : forall b, memeq a b = true <-> a = b.
Proof.
  induction a as [|x a IH]; intros [|y b]; cbn [memeq]; split; try congruence; intros H.
  - apply andb_prop in H. destruct H as [H1 H2]. apply N.eqb_eq in H1. apply IH in H2. congruence.
  - injection H as -> ->. rewrite N.eqb_refl. apply IH. reflexivity.
Qed.
Lemma key_matches_spec e k : key_matches e k = true <-> ekey e = k.
Proof.
  unfold key_matches. split; intros H.
  - apply andb_prop in H. apply memeq_spec. apply H.
  - rewrite H, Nat.eqb_refl. apply memeq_spec. reflexivity.
Qed.
Lemma opt_eqb_spec a b : opt_eqb a b = true <-> a = b.
Proof.
  destruct a as [a|], b as [b|]; cbn; split; try congruence; intros H.
  - apply Nat.eqb_eq in H. congruence.
  - injection H as ->. apply Nat.eqb_refl.
Qed.
Lemma upd_same {A} (f : nat -> A) p v : upd f p v p = v.
Proof. unfold upd. rewrite Nat.eqb_refl. reflexivity. Qed.
Lemma upd_other {A} (f : nat -> A) p v x : x <> p -> upd f p v x = f x.
Proof. unfold upd. intros H. destruct (Nat.eqb_spec x p); congruence. Qed.

Definition occ (p : nat) (l : list nat) : nat := count_occ Nat.eq_dec l p.
Definition T (f : call -> list nat) (p : nat) (cs : list call) : nat := occ p (flat_map f cs).
Lemma T_split f p a c b : T f p (a ++ c :: b) = T f p a + occ p (f c) + T f p b.
Proof. unfold T, occ. rewrite flat_map_app, count_occ_app. cbn [flat_map]. rewrite count_occ_app. lia. Qed.
Lemma occ_cons p x l : occ p (x :: l) = (if Nat.eqb x p then 1 else 0) + occ p l.
Proof. unfold occ. cbn [count_occ]. destruct (Nat.eq_dec x p) as [E|E], (Nat.eqb x p) eqn:F; lia. Qed.
Lemma occ_nil p : occ p [] = 0. Proof. reflexivity. Qed.
Lemma occ_in p l : In p l <-> occ p l > 0.
Proof. unfold occ. apply count_occ_In. Qed.
Lemma T_set f p i cs c v : nth_error cs i = Some c ->
  T f p (set_nth i v cs) + occ p (f c) = T f p cs + occ p (f v).
Proof. intros H. destruct (nth_set i cs c v H) as (a & b & -> & -> & _). rewrite !T_split. lia. Qed.
Lemma T_in f p i cs c : nth_error cs i = Some c -> occ p (f c) <= T f p cs.
Proof. intros H. destruct (nth_set i cs c c H) as (a & b & -> & _ & _). rewrite T_split. lia. Qed.
Lemma T_snoc f p cs c : T f p (cs ++ [c]) = T f p cs + occ p (f c).
Proof. rewrite T_split. change (T f p []) with 0. lia. Qed.
Lemma T_two f p i j cs c c' : f Over = [] -> nth_error cs i = Some c -> nth_error cs j = Some c' -> i <> j ->
  occ p (f c) + occ p (f c') <= T f p cs.
Proof.
  intros F Hi Hj D. pose proof (T_set f p i cs c Over Hi) as A. rewrite F, occ_nil in A.
  rewrite <- (nth_set_other i cs Over j) in Hj by congruence. pose proof (T_in f p j _ _ Hj). lia.
Qed.

(** ** Ownership of memory *)
Definition inmap (s : sys) (p : nat) : Prop := exists o, map s o = Some p.
Definition cret (s : sys) (p : nat) : nat := occ p (List.map fst (retired s)).
Definition G (s : sys) (p : nat) : Prop :=
  match mem s p with
  | None => ~ inmap s p /\ T in_hand p (calls s) = 0 /\ cret s p = 0
  | Some _ => (inmap s p /\ T in_hand p (calls s) = 0 /\ cret s p = 0) \/
              (~ inmap s p /\ T in_hand p (calls s) + cret s p = 1)
  end.

Section H.
Variable hashf : list N -> N.
Variable n : N.
Definition slot (k : list N) : nat := N.to_nat ((hashf k mod 2 ^ 64) mod n mod 2 ^ 32).
Lemma slot_rivals k k' : slot k = slot k' <-> rivals hashf n k k'.
Proof. unfold slot, rivals. split; intros H; [apply N2Nat.inj; exact H|rewrite H; reflexivity]. Qed.

Fixpoint newest (l : list event) (o : nat) : option (list N * list N) :=
  match l with
  | [] => None
  | EStore _ k d :: l => if Nat.eqb (slot k) o then Some (k, d) else newest l o
  | _ :: l => newest l o
  end.
Lemma newest_visible l k d : newest l (slot k) = Some (k, d) <-> visible hashf n l k d.
Proof.
  unfold visible. induction l as [|e l IH]; cbn [newest].
  - split; [discriminate|]. intros (i & [|x l2] & l1 & H & _); discriminate.
  - assert (skip : (forall j k' d', e = EStore j k' d' -> slot k' <> slot k) -> (newest l (slot k) = Some (k, d) <->
      exists i l2 l1, e :: l = l2 ++ EStore i k d :: l1 /\ (forall j k' d', In (EStore j k' d') l2 -> ~ rivals hashf n k' k))).
    { intros E. rewrite IH. split.
      - intros (i & l2 & l1 & -> & F). exists i, (e :: l2), l1. split; [reflexivity|].
        intros j k' d' [H|H]; [|apply (F j k' d' H)]. rewrite <- slot_rivals. apply (E j k' d' H).
      - intros (i & [|x l2] & l1 & H & F); injection H as -> ->.
        + exfalso. apply (E i k d); reflexivity.
        + exists i, l2, l1. split; [reflexivity|]. intros j k' d' H. apply (F j k' d'). right. exact H. }
    destruct e as [j|j k'|j k' d'|j k' r|j k' d' ok]; try (apply skip; intros; discriminate).
    destruct (Nat.eqb_spec (slot k') (slot k)) as [E|E].
    + split.
      * intros [= -> ->]. exists j, [], l. split; [reflexivity|]. intros ? ? ? [].
      * intros (i & [|x l2] & l1 & H & F); [injection H as _ -> -> _; reflexivity|]. injection H as <- _.
        exfalso. apply (F j k' d' (or_introl eq_refl)). apply slot_rivals. exact E.
    + apply skip. intros a b c [= -> -> ->]. exact E.
Qed.

(** the table agrees with the history *)
Definition M (s : sys) : Prop :=
  forall o, match map s o with
            | None => newest (log s) o = None
            | Some p => exists e, mem s p = Some e /\ newest (log s) o = Some (ekey e, edata e) /\ slot (ekey e) = o
            end.
Definition crossed (l : list event) (j : nat) (k : list N) : Prop :=
  exists x k' d' l2 l1, l = l2 ++ EStore x k' d' :: l1 /\ In (EBegin j) l1 /\ slot k' = slot k.
Definition nostore (l : list event) (j : nat) : Prop := forall k d, ~ In (EStore j k d) l.
Definition noset (l : list event) (j : nat) : Prop := forall k d ok, ~ In (ESet j k d ok) l.
Definition stored (l : list event) (j : nat) (k d : list N) : Prop :=
  exists l2 l1, l = l2 ++ EStore j k d :: l1 /\ In (EBegin j) l1 /\ nostore l2 j /\ nostore l1 j.
Definition K (s : sys) (j : nat) (c : call) : Prop :=
  In (EBegin j) (log s) /\
  match c with
  | SLoad k d => nostore (log s) j /\ noset (log s) j
  | STry k d prev | SNew k d prev =>
      nostore (log s) j /\ noset (log s) j /\ (map s (slot k) = prev \/ crossed (log s) j k)
  | SCas k d prev e =>
      nostore (log s) j /\ noset (log s) j /\ (map s (slot k) = prev \/ crossed (log s) j k) /\ mem s e = Some (Entry k d)
  | SDrop k d prev e => nostore (log s) j /\ noset (log s) j /\ crossed (log s) j k /\ map s (slot k) <> None
  | SFree k d prev => noset (log s) j /\ stored (log s) j k d
  | _ => True
  end.
(** finished sets *)
Definition E (l : list event) : Prop :=
  forall j k d ok, In (ESet j k d ok) l ->
    exists l3 l2, l = l3 ++ ESet j k d ok :: l2 /\ In (EBegin j) l2 /\ noset l3 j /\ noset l2 j /\ nostore l3 j /\
    if ok then stored l2 j k d else nostore l2 j.
Record Inv (s : sys) : Prop := INV {
  i_size : size s = n;
  i_g : forall p, G s p;
  i_inj : forall o o' p, map s o = Some p -> map s o' = Some p -> o = o';
  i_m : M s;
  i_k : forall j c, nth_error (calls s) j = Some c -> K s j c;
  i_new : forall j, length (calls s) <= j -> nostore (log s) j /\ noset (log s) j;
  i_e : E (log s);
  i_acc : access s = N.of_nat (looks (log s));
  i_hit : hit s = N.of_nat (finds (log s));
  i_ret : bad_free s = false }.

Definition who (e : event) : nat :=
  match e with EBegin i | ELoad i _ | EStore i _ _ | EGot i _ _ | ESet i _ _ _ => i end.
Lemma nostore_app es l j : (forall e, In e es -> who e <> j) -> nostore l j -> nostore (es ++ l) j.
Proof. intros H N k d I. apply in_app_or in I. destruct I as [I|I]; [apply (H _ I); reflexivity|apply (N k d I)]. Qed.
Lemma noset_app es l j : (forall e, In e es -> who e <> j) -> noset l j -> noset (es ++ l) j.
Proof. intros H N k d ok I. apply in_app_or in I. destruct I as [I|I]; [apply (H _ I); reflexivity|apply (N k d ok I)]. Qed.
Lemma crossed_app es l j k : crossed l j k -> crossed (es ++ l) j k.
Proof.
  intros (x & k' & d' & l2 & l1 & -> & B & S). exists x, k', d', (es ++ l2), l1. rewrite app_assoc. auto.
Qed.
Lemma crossed_in es l j k x k' d' : In (EStore x k' d') es -> slot k' = slot k -> In (EBegin j) l -> crossed (es ++ l) j k.
Proof.
  intros I S B. apply in_split in I. destruct I as (u & v & ->). exists x, k', d', u, (v ++ l).
  rewrite <- app_assoc. split; [reflexivity|]. split; [|exact S]. apply in_or_app. right. exact B.
Qed.
Lemma stored_app es l j k d : (forall e, In e es -> who e <> j) -> stored l j k d -> stored (es ++ l) j k d.
Proof.
  intros H (l2 & l1 & -> & B & N2 & N1). exists (es ++ l2), l1. rewrite app_assoc. split; [reflexivity|].
  split; [exact B|]. split; [|exact N1]. apply nostore_app; assumption.
Qed.
Lemma K_other s s' i j c es : K s j c -> j <> i -> log s' = es ++ log s -> (forall e, In e es -> who e = i) ->
  (forall k, map s' (slot k) = map s (slot k) \/
     (map s' (slot k) <> None /\ exists k' d', In (EStore i k' d') es /\ slot k' = slot k)) ->
  (forall k d pr e, c = SCas k d pr e -> mem s' e = mem s e) -> K s' j c.
Proof.
  intros [B KC] D L W Mp Me. assert (W' : forall e, In e es -> who e <> j) by (intros e I; rewrite (W e I); congruence).
  unfold K. rewrite L. split; [apply in_or_app; right; exact B|].
  assert (CR : forall k pr, map s (slot k) = pr \/ crossed (log s) j k -> map s' (slot k) = pr \/ crossed (es ++ log s) j k).
  { intros k pr [H|H]; [|right; apply crossed_app; exact H]. destruct (Mp k) as [E|[_ (k' & d' & I & S)]]; [left; congruence|].
    right. apply (crossed_in es _ j k i k' d' I S B). }
  pose proof (nostore_app es (log s) j W') as N1. pose proof (noset_app es (log s) j W') as N2.
  destruct c; auto.
  - destruct KC as (K1 & K2). auto.
  - destruct KC as (K1 & K2 & K3). auto.
  - destruct KC as (K1 & K2 & K3). auto.
  - destruct KC as (K1 & K2 & K3 & K4). rewrite (Me k d prev e eq_refl). auto.
  - destruct KC as (K1 & K2). split; [auto|]. apply stored_app; assumption.
  - destruct KC as (K1 & K2 & K3 & K4). split; [auto|]. split; [auto|]. split; [apply crossed_app; exact K3|].
    destruct (Mp k) as [E|[E _]]; [rewrite E; exact K4|exact E].
Qed.
Lemma E_cons l e : E l -> (forall j k d ok, e <> ESet j k d ok) -> (forall j k d, e = EStore j k d -> noset l j) -> E (e :: l).
Proof.
  intros HE NS ST j k d ok [->|I]; [exfalso; apply (NS j k d ok); reflexivity|].
  destruct (HE j k d ok I) as (l3 & l2 & -> & B & A1 & A2 & A3 & A4). exists (e :: l3), l2. split; [reflexivity|].
  split; [exact B|]. split; [intros k' d' ok' [->|H]; [apply (NS j k' d' ok'); reflexivity|apply (A1 k' d' ok' H)]|].
  split; [exact A2|]. split; [|exact A4]. intros k' d' [->|H]; [|apply (A3 k' d' H)].
  apply (ST j k' d' eq_refl k d ok). apply in_or_app. right. left. reflexivity.
Qed.
Lemma E_set l j k d (ok : bool) : E l -> noset l j -> In (EBegin j) l -> (if ok then stored l j k d else nostore l j) -> E (ESet j k d ok :: l).
Proof.
  intros HE NS B ST j' k' d' ok' [[= <- <- <- <-]|I].
  - exists [], l. repeat split; auto; intros ? ? ; intros; intros [].
  - destruct (HE j' k' d' ok' I) as (l3 & l2 & -> & B' & A1 & A2 & A3 & A4).
    assert (j <> j') by (intros ->; apply (NS k' d' ok' I)).
    exists (ESet j k d ok :: l3), l2. split; [reflexivity|]. split; [exact B'|].
    split; [intros x y z [[= -> _ _ _]|X]; [congruence|apply (A1 x y z X)]|]. split; [exact A2|]. split; [|exact A4].
    intros x y [X|X]; [discriminate|apply (A3 x y X)].
Qed.

(** what a step of call [i] has to satisfy *)
Lemma keep s s' i c c' es : Inv s -> nth_error (calls s) i = Some c ->
  calls s' = set_nth i c' (calls s) -> log s' = es ++ log s -> (forall e, In e es -> who e = i) -> size s' = size s ->
  (forall k, map s' (slot k) = map s (slot k) \/
     (map s' (slot k) <> None /\ exists k' d', In (EStore i k' d') es /\ slot k' = slot k)) ->
  (forall j k d pr e, j <> i -> nth_error (calls s) j = Some (SCas k d pr e) -> mem s' e = mem s e) ->
  (forall p, G s' p) -> (forall o o' p, map s' o = Some p -> map s' o' = Some p -> o = o') -> M s' -> K s' i c' ->
  E (log s') -> access s' = N.of_nat (looks (log s')) -> hit s' = N.of_nat (finds (log s')) -> bad_free s' = false -> Inv s'.
Proof.
  intros I C C' L W Sz Mp Me Gs Ij Ms Ki Es A H B. constructor; auto.
  - rewrite Sz. apply I.
  - intros j x Hx. rewrite C' in Hx. destruct (Nat.eq_dec j i) as [->|D].
    + rewrite (nth_set_same i _ c c' C) in Hx. injection Hx as <-. exact Ki.
    + rewrite nth_set_other in Hx by exact D. apply (K_other s s' i j x es); auto; [apply (i_k s I j x Hx)|].
      intros k d pr e ->. apply (Me j k d pr e D Hx).
  - intros j Hj. rewrite C', length_set_nth in Hj. destruct (i_new s I j Hj) as [A1 A2].
    assert (j <> i). { intros ->. apply nth_error_None in Hj. congruence. }
    rewrite L. split; [apply nostore_app|apply noset_app]; auto; intros e He; rewrite (W e He); congruence.
Qed.

Lemma G_ext s s' p : mem s' p = mem s p -> (inmap s' p <-> inmap s p) -> T in_hand p (calls s') = T in_hand p (calls s) ->
  cret s' p = cret s p -> G s p -> G s' p.
Proof. unfold G. intros -> M -> ->. destruct (mem s p); rewrite M; tauto. Qed.
Lemma hand_facts s i c p : G s p -> nth_error (calls s) i = Some c -> occ p (in_hand c) > 0 ->
  (exists e, mem s p = Some e) /\ ~ inmap s p /\ T in_hand p (calls s) = 1 /\ cret s p = 0 /\ occ p (in_hand c) = 1.
Proof.
  unfold G. intros g H O. pose proof (T_in in_hand p i _ _ H). destruct (mem s p) as [e|]; [|lia].
  destruct g as [g|g]; [lia|]. split; [eauto|]. destruct g as [g1 g2]. repeat split; auto; lia.
Qed.
Lemma M_same s s' : M s -> (forall o, map s' o = map s o) -> (forall p, inmap s p -> mem s' p = mem s p) ->
  (forall o, newest (log s') o = newest (log s) o) -> M s'.
Proof.
  intros m H1 H2 H3 o. specialize (m o). rewrite H1, H3. destruct (map s o) as [p|] eqn:E; [|exact m].
  rewrite H2 by (exists o; exact E). exact m.
Qed.
Ltac who1 := let e := fresh in let H := fresh in intros e H; cbn in H; repeat match type of H with _ \/ _ => destruct H as [H|H]; [rewrite <- H; reflexivity|] end; contradiction.

(** a step that leaves the table, the memory and what is in hand alone *)
Lemma keep_plain s s' i c c' es : Inv s -> nth_error (calls s) i = Some c ->
  calls s' = set_nth i c' (calls s) -> log s' = es ++ log s -> (forall e, In e es -> who e = i) -> size s' = size s ->
  map s' = map s -> mem s' = mem s -> retired s' = retired s -> in_hand c' = in_hand c ->
  (forall o, newest (log s') o = newest (log s) o) -> K s' i c' -> E (log s') ->
  access s' = N.of_nat (looks (log s')) -> hit s' = N.of_nat (finds (log s')) -> bad_free s' = bad_free s -> Inv s'.
Proof.
  intros I C C' L W Sz Mp Me Rt Hh Nw Ki Es A H B.
  apply (keep s s' i c c' es I C C' L W Sz); auto.
  - intros k. left. rewrite Mp. reflexivity.
  - intros. rewrite Me. reflexivity.
  - intros p. apply (G_ext s s' p); [rewrite Me; reflexivity|unfold inmap; rewrite Mp; tauto| |unfold cret; rewrite Rt; reflexivity|apply I].
    rewrite C'. pose proof (T_set in_hand p i _ c c' C) as X. rewrite Hh in X. lia.
  - rewrite Mp. apply I.
  - apply (M_same s s'); [apply I|intros; rewrite Mp; reflexivity|intros; rewrite Me; reflexivity|exact Nw].
  - rewrite B. apply I.
Qed.

Lemma freef_inv deferred s p i c : Inv s -> nth_error (calls s) i = Some c -> in_hand c = match p with Some p => [p] | None => [] end ->
  forall c' es, in_hand c' = [] -> (forall e, In e es -> who e = i) -> (forall o, newest (es ++ log s) o = newest (log s) o) ->
  E (es ++ log s) -> looks (es ++ log s) = looks (log s) -> finds (es ++ log s) = finds (log s) ->
  let s1 := freef deferred s p in
  let s' := Sys (size s1) (prob s1) (map s1) (access s1) (hit s1) (mem s1) (retired s1) (set_nth i c' (calls s1)) (es ++ log s1)
                (late_read s1) (bad_free s1) in
  K s' i c' -> Inv s'.
Proof.
  intros I C Hh c' es Hc W Nw He Lk Fd s1 s' Ki. destruct p as [p|].
  - destruct (hand_facts s i c p (i_g s I p) C) as ((e & He1) & F1 & F2 & F3 & F4).
    { rewrite Hh, occ_cons, Nat.eqb_refl. lia. }
    assert (X1 : calls s1 = calls s /\ log s1 = log s /\ map s1 = map s /\ size s1 = size s /\ access s1 = access s /\ hit s1 = hit s /\
                 bad_free s1 = bad_free s /\ (forall x, x <> p -> mem s1 x = mem s x /\ cret s1 x = cret s x) /\
                 match mem s1 p with None => cret s1 p = 0 | Some _ => cret s1 p = 1 end).
    { unfold s1, freef. rewrite He1. destruct deferred; cbn [calls log map size access hit bad_free set_retired set_mem mem retired].
      - repeat split; auto; unfold cret in *; cbn [retired set_retired set_mem List.map fst]; rewrite ?occ_cons.
        + destruct (Nat.eqb_spec p x); [congruence|reflexivity].
        + rewrite He1, Nat.eqb_refl, F3. reflexivity.
      - repeat split; auto; [apply upd_other; assumption|]. rewrite upd_same. exact F3. }
    destruct X1 as (X1 & X2 & X3 & X4 & X5 & X6 & X7 & X8 & X9). cbn zeta in Ki.
    assert (Y : forall x, T in_hand x (set_nth i c' (calls s)) + occ x [p] = T in_hand x (calls s)).
    { intros x. pose proof (T_set in_hand x i _ c c' C) as X. rewrite Hh, Hc, occ_nil in X. lia. }
    apply (keep s s' i c c' es I C); unfold s'; cbn [calls log size map mem access hit bad_free]; auto.
    + rewrite X1. reflexivity.
    + rewrite X2. reflexivity.
    + intros k. left. rewrite X3. reflexivity.
    + intros j k d pr e' D Hj. apply X8. intros ->. pose proof (T_two in_hand p i j _ c _ eq_refl C Hj) as Q.
      cbn [in_hand] in Q. rewrite occ_cons, Nat.eqb_refl in Q. rewrite F4, F2 in Q. lia.
    + intros x. destruct (Nat.eq_dec x p) as [->|D].
      * unfold G, inmap. cbn [mem map calls]. rewrite X1, X3. unfold cret. cbn [retired]. fold (cret s1 p).
        specialize (Y p). rewrite occ_cons, Nat.eqb_refl, occ_nil in Y. fold (inmap s p).
        destruct (mem s1 p); [right|]; repeat split; auto; lia.
      * destruct (X8 x D) as [X8a X8b]. apply (G_ext s); [exact X8a|unfold inmap; cbn [map]; rewrite X3; tauto| |exact X8b|apply I].
        cbn [calls]. rewrite X1. specialize (Y x). rewrite occ_cons, occ_nil in Y. destruct (Nat.eqb_spec p x); [congruence|lia].
    + rewrite X3. apply I.
    + apply (M_same s); cbn [map mem log]; [apply I|intros; rewrite X3; reflexivity| |rewrite X2; exact Nw].
      intros x Hx. apply X8. intros ->. contradiction.
    + rewrite X2. exact He.
    + rewrite X2, X5, Lk. apply I.
    + rewrite X2, X6, Fd. apply I.
    + rewrite X7. apply I.
  - cbn [freef] in s1. subst s1. apply (keep_plain s s' i c c' es I C); unfold s'; cbn [calls log size map mem retired access hit bad_free]; auto.
    + congruence.
    + rewrite Lk. apply I.
    + rewrite Fd. apply I.
Qed.

Lemma offset_slot s k : Inv s -> offset hashf s k = slot k.
Proof. intros I. unfold offset, slot. rewrite (i_size s I). reflexivity. Qed.
Lemma E_here l e : E l -> match e with EBegin _ | ELoad _ _ | EGot _ _ _ => True | _ => False end -> E (e :: l).
Proof. intros H X. apply E_cons; [exact H| |]; destruct e; try contradiction; intros; discriminate. Qed.
Lemma looks_cons e l : looks (e :: l) = (match e with ELoad _ _ => 1 | _ => 0 end) + looks l.
Proof. unfold looks. cbn [filter]. destruct e; reflexivity. Qed.
Lemma finds_cons e l : finds (e :: l) = (match e with EGot _ _ (Some _) => 1 | _ => 0 end) + finds l.
Proof. unfold finds. cbn [filter]. destruct e as [| | |? ? [|]|]; reflexivity. Qed.
Ltac fields := cbn [calls log size map mem retired access hit bad_free late_read prob to note count_access count_hit set_map set_mem set_retired
                    read_late free_bad].
Ltac plain es := eapply (keep_plain _ _ _ _ _ es); [eassumption|eassumption|..]; fields; try reflexivity; try who1.

Lemma go_inv deferred s i ok q c s' : Inv s -> nth_error (calls s) i = Some c -> go hashf deferred s i ok q c = Some s' -> Inv s'.
Proof.
  intros I C H. pose proof (i_k s I i c C) as [B KC]. pose proof (i_acc s I) as Acc. pose proof (i_hit s I) as Hit.
  assert (OF : forall s k, size s = n -> offset hashf s k = slot k) by (intros s0 k X; unfold offset, slot; rewrite X; reflexivity).
  destruct c as [k|k p|k p|k d|k d prev|k d prev|k d prev e|k d prev|k d prev e|]; cbn [go] in H.
  - revert H. rewrite OF by (fields; apply I). fields. intros H.
    destruct (map s (slot k)) as [p|] eqn:Em; injection H as <-.
    + plain [ELoad i k].
      * split; [fields; right; exact B|exact Logic.I].
      * apply E_here; [apply I|exact Logic.I].
      * rewrite looks_cons, Acc. lia.
      * exact Hit.
    + plain [EGot i k None; ELoad i k].
      * split; [fields; right; right; exact B|exact Logic.I].
      * apply E_here; [apply E_here; [apply I|exact Logic.I]|exact Logic.I].
      * rewrite !looks_cons, Acc. lia.
      * exact Hit.
  - destruct (mem s p) as [e|] eqn:Em.
    + destruct (key_matches e k) eqn:Ek; injection H as <-.
      * plain [EGot i k (Some (edata e))].
        -- split; [fields; right; exact B|exact Logic.I].
        -- apply E_here; [apply I|exact Logic.I].
        -- exact Acc.
        -- rewrite finds_cons, Hit. lia.
      * plain [EGot i k None].
        -- split; [fields; right; exact B|exact Logic.I].
        -- apply E_here; [apply I|exact Logic.I].
        -- exact Acc.
        -- exact Hit.
    + injection H as <-. plain (@nil event); try (first [apply (i_e s I)|apply (i_acc s I)|apply (i_hit s I)]). split; [exact B|exact Logic.I].
  - assert (HH : Inv (to s i Over) /\ Inv (read_late (to s i Over))).
    { split; plain (@nil event); try (first [apply (i_e s I)|apply (i_acc s I)|apply (i_hit s I)]); split; try exact B; exact Logic.I. }
    destruct p as [p|]; [destruct (mem s p)|]; injection H as <-; apply HH.
  - rewrite OF in H by apply I. injection H as <-. plain (@nil event); try (first [apply (i_e s I)|apply (i_acc s I)|apply (i_hit s I)]). split; [exact B|]. fields.
    destruct KC as [K1 K2]. auto.
  - assert (HH : Inv (to s i (SNew k d prev))).
    { plain (@nil event); try (first [apply (i_e s I)|apply (i_acc s I)|apply (i_hit s I)]). split; [exact B|]. fields. exact KC. }
    destruct KC as (K1 & K2 & K3).
    destruct prev as [p|]; [|injection H as <-; exact HH].
    destruct (N.eqb (prob s) 0); [injection H as <-; exact HH|]. destruct (mem s p).
    + destruct ok; injection H as <-; [exact HH|]. clear HH. plain [ESet i k d false]; try exact Acc; try exact Hit.
      * split; [fields; right; exact B|exact Logic.I].
      * apply (E_set _ _ _ _ false); auto. apply I.
    + clear HH. injection H as <-. plain (@nil event); try (first [apply (i_e s I)|apply (i_acc s I)|apply (i_hit s I)]). split; [exact B|exact Logic.I].
  - destruct (mem s q) eqn:Eq; [discriminate|]. injection H as <-. pose proof (i_g s I q) as Gq. unfold G in Gq. rewrite Eq in Gq.
    destruct Gq as (G1 & G2 & G3). destruct KC as (K1 & K2 & K3).
    eapply (keep s _ i _ _ (@nil event) I C); fields; try reflexivity; try who1; try (first [apply (i_e s I)|apply (i_inj s I)|apply (i_acc s I)|apply (i_hit s I)|apply (i_ret s I)]).
    + intros k0. left. reflexivity.
    + intros j k' d' pr e D Hj. apply upd_other. intros ->. destruct (i_k s I j _ Hj) as [_ (_ & _ & _ & X)]. congruence.
    + intros x. pose proof (T_set in_hand x i _ _ (SCas k d prev q) C) as X. cbn [in_hand] in X. rewrite occ_nil, occ_cons, occ_nil in X.
      destruct (Nat.eq_dec x q) as [->|D].
      * unfold G. fields. rewrite upd_same. right. split; [exact G1|]. rewrite Nat.eqb_refl in X. unfold cret in *. fields. lia.
      * apply (G_ext s); [fields; apply upd_other; exact D|reflexivity| |reflexivity|apply I]. fields.
        destruct (Nat.eqb_spec q x); [congruence|lia].
    + apply (M_same s); fields; try reflexivity; [apply I|]. intros x Hx. apply upd_other. intros ->. contradiction.
    + split; [exact B|]. fields. rewrite upd_same. auto.
  - rewrite OF in H by apply I. destruct KC as (K1 & K2 & K3 & K4).
    destruct (opt_eqb (map s (slot k)) prev) eqn:Eo; injection H as <-.
    + apply opt_eqb_spec in Eo.
      destruct (hand_facts s i _ e (i_g s I e) C) as (F0 & F1 & F2 & F3 & _).
      { cbn [in_hand]. rewrite occ_cons, Nat.eqb_refl. lia. }
      assert (NE : forall o, o <> slot k -> upd (map s) (slot k) (Some e) o = map s o) by (intros; apply upd_other; assumption).
      assert (IM : forall x, x <> e -> prev <> Some x -> (inmap (note (to (set_map s (slot k) e) i (SFree k d prev)) (EStore i k d)) x <-> inmap s x)).
      { intros x D1 D2. unfold inmap. fields. split; intros (o & Ho); exists o.
        - destruct (Nat.eq_dec o (slot k)) as [->|D]; [rewrite upd_same in Ho; congruence|rewrite NE in Ho by exact D; exact Ho].
        - rewrite NE; [exact Ho|]. intros ->. congruence. }
      eapply (keep s _ i _ _ [EStore i k d] I C); fields; try reflexivity; try who1; try assumption.
      * intros k0. destruct (Nat.eq_dec (slot k0) (slot k)) as [D|D].
        -- right. rewrite D, upd_same. split; [discriminate|]. exists k, d. split; [left; reflexivity|reflexivity].
        -- left. apply NE. exact D.
      * intros x. pose proof (T_set in_hand x i _ _ (SFree k d prev) C) as X. cbn [in_hand] in X. rewrite occ_cons, occ_nil in X.
        destruct (Nat.eq_dec x e) as [->|D].
        -- unfold G. fields. rewrite K4. left. split; [exists (slot k); fields; apply upd_same|].
           rewrite Nat.eqb_refl in X. destruct prev as [p|].
           ++ rewrite occ_cons, occ_nil in X. destruct (Nat.eqb_spec p e) as [->|]; [exfalso; apply F1; exists (slot k); exact Eo|].
              unfold cret in *. fields. lia.
           ++ rewrite occ_nil in X. unfold cret in *. fields. lia.
        -- destruct (Nat.eqb_spec e x) as [->|_]; [congruence|].
           assert (DD : prev = Some x \/ prev <> Some x) by (destruct prev as [p|]; [destruct (Nat.eq_dec p x); [left; congruence|right; congruence]|right; discriminate]).
           destruct DD as [->|DD].
           ++ assert (IX : inmap s x) by (exists (slot k); exact Eo).
              pose proof (i_g s I x) as Gx. unfold G in Gx. unfold G. fields.
              destruct (mem s x) as [ex|]; [|destruct Gx as [Gx _]; contradiction].
              destruct Gx as [(_ & g1 & g2)|[Gx _]]; [|contradiction].
              right. split.
              ** intros (o & Ho). revert Ho. fields. intros Ho. destruct (Nat.eq_dec o (slot k)) as [->|D']; [rewrite upd_same in Ho; congruence|].
                 rewrite NE in Ho by exact D'. apply D'. apply (i_inj s I o (slot k) x Ho Eo).
              ** rewrite occ_cons, Nat.eqb_refl, occ_nil in X. unfold cret in *. fields. lia.
           ++ apply (G_ext s); [reflexivity|apply IM; assumption| |reflexivity|apply I]. fields.
              destruct prev as [p|]; [|rewrite occ_nil in X; lia]. rewrite occ_cons, occ_nil in X.
              destruct (Nat.eqb_spec p x) as [->|]; [congruence|lia].
      * intros o o' p Ho Ho'. destruct (Nat.eq_dec o (slot k)) as [->|D]; [rewrite upd_same in Ho|rewrite NE in Ho by exact D];
          (destruct (Nat.eq_dec o' (slot k)) as [->|D']; [rewrite upd_same in Ho'|rewrite NE in Ho' by exact D']); try reflexivity.
        -- injection Ho as <-. exfalso. apply F1. exists o'. exact Ho'.
        -- injection Ho' as <-. exfalso. apply F1. exists o. exact Ho.
        -- apply (i_inj s I o o' p Ho Ho').
      * intros o. fields. cbn [newest]. destruct (Nat.eqb_spec (slot k) o) as [<-|D].
        -- rewrite upd_same. exists (Entry k d). auto.
        -- rewrite NE by congruence. apply (i_m s I o).
      * split; [fields; right; exact B|]. fields. split.
        -- intros x y z [X|X]; [discriminate|apply (K2 x y z X)].
        -- exists [], (log s). repeat split; auto. intros x y [].
      * apply E_cons; [apply I|intros; discriminate|]. intros j x y [= <- <- <-]. exact K2.
      * apply I.
    + plain (@nil event); try (first [apply (i_e s I)|apply (i_acc s I)|apply (i_hit s I)]). split; [exact B|]. fields. split; [exact K1|]. split; [exact K2|].
      assert (X : map s (slot k) <> prev) by (intros X; apply opt_eqb_spec in X; congruence).
      destruct K3 as [K3|K3]; [contradiction|]. split; [exact K3|].
      intros Y. pose proof (i_m s I (slot k)) as Z. rewrite Y in Z. destruct K3 as (x & k' & d' & l2 & l1 & L & _ & S).
      assert (Q : forall l, In (EStore x k' d') l -> newest l (slot k) <> None).
      { induction l as [|ev l IH]; [intros []|intros [->|Q]; cbn [newest]].
        - rewrite S, Nat.eqb_refl. discriminate.
        - specialize (IH Q). destruct ev; auto. destruct (Nat.eqb _ _); [discriminate|exact IH]. }
      apply (Q (log s)); [|exact Z]. rewrite L. apply in_or_app. right. left. reflexivity.
  - injection H as <-. destruct KC as [K1 K2].
    assert (X : log (freef deferred s prev) = log s) by (destruct prev as [p|]; [cbn [freef]; destruct (mem s p); [destruct deferred|]|]; reflexivity).
    apply (freef_inv deferred s prev i _ I C eq_refl Over [ESet i k d true]); try reflexivity; try who1.
    + apply (E_set _ _ _ _ true); auto. apply I.
    + split; [fields; cbn [app]; right; rewrite X; exact B|exact Logic.I].
  - destruct KC as (K1 & K2 & K3 & K4).
    destruct (hand_facts s i _ e (i_g s I e) C) as (F0 & F1 & F2 & F3 & _).
    { cbn [in_hand]. rewrite occ_cons, Nat.eqb_refl. lia. }
    assert (X : log (freef deferred s (Some e)) = log s /\ map (freef deferred s (Some e)) = map s)
      by (cbn [freef]; destruct (mem s e); [destruct deferred|]; auto). destruct X as [X X'].
    destruct prev as [p|]; injection H as <-.
    + apply (freef_inv deferred s (Some e) i _ I C eq_refl Over [ESet i k d false]); try reflexivity; try who1.
      * apply (E_set _ _ _ _ false); auto. apply I.
      * split; [fields; cbn [app]; right; rewrite X; exact B|exact Logic.I].
    + apply (freef_inv deferred s (Some e) i _ I C eq_refl (SLoad k d) []); try reflexivity; try who1.
      * apply I.
      * split; [fields; cbn [app]; rewrite X; exact B|]. fields. cbn [app]. rewrite X. auto.
  - discriminate.
Qed.

Lemma begin_inv s c : Inv s -> match c with GLoad _ | SLoad _ _ => True | _ => False end -> Inv (begin s c).
Proof.
  intros I Hc. assert (Hh : in_hand c = []) by (destruct c; try contradiction; reflexivity).
  destruct (i_new s I (length (calls s)) (le_n _)) as [N1 N2].
  constructor; unfold begin; fields.
  - apply I.
  - intros p. apply (G_ext s); try reflexivity; [|apply I]. fields. rewrite T_snoc, Hh, occ_nil. lia.
  - apply I.
  - apply (M_same s); fields; try reflexivity. apply I.
  - intros j x Hx. destruct (Nat.eq_dec j (length (calls s))) as [->|D].
    + rewrite nth_error_app2, Nat.sub_diag in Hx by lia. injection Hx as <-. split; [left; reflexivity|]. fields.
      destruct c; try contradiction; [exact Logic.I|].
      split; [intros a b [X|X]; [discriminate|apply (N1 a b X)]|intros a b e [X|X]; [discriminate|apply (N2 a b e X)]].
    + assert (j < length (calls s)). { assert (nth_error (calls s ++ [c]) j <> None) by congruence.
        apply nth_error_Some in H. rewrite app_length in H. cbn in H. lia. }
      rewrite nth_error_app1 in Hx by lia.
      apply (K_other s _ (length (calls s)) j x [EBegin (length (calls s))]); fields; auto; [apply (i_k s I j x Hx)|who1].
  - intros j Hj. rewrite app_length in Hj. cbn [length] in Hj. destruct (i_new s I j ltac:(lia)) as [M1 M2].
    split; [intros a b [X|X]; [discriminate|apply (M1 a b X)]|intros a b e [X|X]; [discriminate|apply (M2 a b e X)]].
  - apply E_here; [apply I|exact Logic.I].
  - apply I.
  - apply I.
  - apply I.
Qed.
Lemma occ_filter p l : occ p (List.map fst (filter (fun r : nat * list nat => negb (Nat.eqb (fst r) p)) l)) = 0.
Proof.
  induction l as [|[x y] l IH]; [reflexivity|]. cbn [filter fst]. destruct (Nat.eqb_spec x p); cbn [negb]; [exact IH|].
  cbn [List.map fst]. rewrite occ_cons, IH. destruct (Nat.eqb_spec x p); [congruence|reflexivity].
Qed.
Lemma occ_filter_other p q l : q <> p -> occ q (List.map fst (filter (fun r : nat * list nat => negb (Nat.eqb (fst r) p)) l)) = occ q (List.map fst l).
Proof.
  intros D. induction l as [|[x y] l IH]; [reflexivity|]. cbn [filter fst]. destruct (Nat.eqb_spec x p); cbn [negb].
  - rewrite IH. cbn [List.map fst]. rewrite occ_cons. destruct (Nat.eqb_spec x q); [congruence|reflexivity].
  - cbn [List.map fst]. rewrite !occ_cons, IH. reflexivity.
Qed.
Lemma cret_in s p l : In (p, l) (retired s) -> cret s p > 0.
Proof. intros H. apply occ_in. apply (in_map fst) in H. exact H. Qed.
Lemma retired_facts s p : Inv s -> cret s p > 0 -> ~ inmap s p /\ T in_hand p (calls s) = 0 /\ cret s p = 1 /\ mem s p <> None.
Proof.
  intros I H. pose proof (i_g s I p) as g. unfold G in g. destruct (mem s p); [|lia]. destruct g as [g|[g1 g2]]; [lia|].
  repeat split; auto; try lia. discriminate.
Qed.
Lemma reclaim_facts s p s' : reclaim s p = Some s' ->
  exists l, In (p, l) (retired s) /\ forallb (ended s) l = true /\
    s' = set_mem (set_retired s (filter (fun r => negb (Nat.eqb (fst r) p)) (retired s))) p None.
Proof.
  unfold reclaim. destruct (find _ _) as [[x l]|] eqn:F; [|discriminate]. apply find_some in F. destruct F as [F1 F2].
  cbn in F2. apply Nat.eqb_eq in F2. subst x. destruct (forallb (ended s) l) eqn:En; [|discriminate]. intros [= <-]. eauto.
Qed.
Lemma reclaim_inv s p s' : Inv s -> reclaim s p = Some s' -> Inv s'.
Proof.
  intros I H. destruct (reclaim_facts s p s' H) as (l & L & _ & ->). destruct (retired_facts s p I (cret_in s p l L)) as (F1 & F2 & F3 & F4).
  constructor; fields.
  - apply I.
  - intros x. destruct (Nat.eq_dec x p) as [->|D].
    + unfold G, cret. fields. rewrite upd_same. rewrite occ_filter. auto.
    + apply (G_ext s); [fields; apply upd_other; exact D|reflexivity|reflexivity| |apply I]. unfold cret. fields. apply occ_filter_other. exact D.
  - apply I.
  - apply (M_same s); fields; try reflexivity; [apply I|]. intros x Hx. apply upd_other. intros ->. contradiction.
  - intros j c Hc. apply (K_other s _ (S j) j c []); fields; auto; [apply (i_k s I j c Hc)|intros e []|].
    intros k d pr e ->. apply upd_other. intros ->. pose proof (T_in in_hand p j _ _ Hc) as X. cbn [in_hand] in X.
    rewrite occ_cons, Nat.eqb_refl in X. lia.
  - apply I.
  - apply I.
  - apply I.
  - apply I.
  - apply I.
Qed.
Lemma step_inv deferred s c s' : Inv s -> step hashf deferred s c = Some s' -> Inv s'.
Proof.
  intros I. destruct c as [k|k d|i ok q|p|p]; cbn [step].
  - intros [= <-]. apply begin_inv; [exact I|exact Logic.I].
  - intros [= <-]. apply begin_inv; [exact I|exact Logic.I].
  - destruct (nth_error (calls s) i) as [c|] eqn:C; [|discriminate]. apply (go_inv deferred s i ok q c s' I C).
  - apply reclaim_inv. exact I.
  - intros [= <-]. destruct I. constructor; assumption.
Qed.
Lemma reach_inv deferred P pr s : reach hashf deferred P n pr s -> Inv s.
Proof.
  induction 1 as [|s c s' R IH HP Hs]; [|apply (step_inv deferred s c s' IH Hs)].
  constructor; cbn; try reflexivity; try (intros; discriminate).
  - intros p. repeat split. intros (o & Ho). discriminate.
  - intros o. reflexivity.
  - intros [|j] c H; discriminate.
  - intros j _. split; [intros k d []|intros k d ok []].
  - intros j k d ok [].
Qed.

(** ** Readers, when releases are deferred or calls do not overlap *)
Definition holding (c : call) : option nat :=
  match c with
  | GCmp _ p => Some p
  | GHold _ p | STry _ _ p | SNew _ _ p | SCas _ _ p _ => p
  | _ => None
  end.
Definition safe (s : sys) (i p : nat) : Prop :=
  inmap s p \/ (exists j k d, j <> i /\ nth_error (calls s) j = Some (SFree k d (Some p))) \/
  (exists l, In (p, l) (retired s) /\ In i l).
Definition content (s : sys) (i : nat) (c : call) : Prop :=
  match c with
  | GCmp k p => exists l2 l1 e, log s = l2 ++ ELoad i k :: l1 /\ In (EBegin i) l1 /\ mem s p = Some e /\
                  newest l1 (slot k) = Some (ekey e, edata e)
  | GHold k (Some p) => exists e, mem s p = Some e /\ ekey e = k /\ In (EGot i k (Some (edata e))) (log s)
  | _ => True
  end.
Definition Got (l : list event) : Prop :=
  forall i k r, In (EGot i k r) l -> exists l3 l2 l1, l = l3 ++ EGot i k r :: l2 ++ ELoad i k :: l1 /\ In (EBegin i) l1 /\
    forall d, r = Some d <-> newest l1 (slot k) = Some (k, d).
Record Hold (deferred : bool) (s : sys) : Prop := HOLD {
  h_safe : forall i c p, nth_error (calls s) i = Some c -> holding c = Some p -> safe s i p;
  h_content : forall i c, nth_error (calls s) i = Some c -> content s i c;
  h_got : Got (log s);
  h_read : late_read s = false;
  h_solo : deferred = false -> forall i j c c', nth_error (calls s) i = Some c -> nth_error (calls s) j = Some c' ->
             c <> Over -> c' <> Over -> i = j }.
Lemma safe_live s i p : Inv s -> safe s i p -> mem s p <> None.
Proof.
  intros I [H|[(j & k & d & _ & H)|(l & H & _)]].
  - pose proof (i_g s I p) as g. unfold G in g. destruct (mem s p); [discriminate|tauto].
  - destruct (hand_facts s j _ p (i_g s I p) H) as ((e & ->) & _); [|discriminate].
    cbn [in_hand]. rewrite occ_cons, Nat.eqb_refl. lia.
  - apply (retired_facts s p I (cret_in s p l H)).
Qed.
Lemma active_in s i c : nth_error (calls s) i = Some c -> c <> Over -> In i (active s).
Proof.
  intros H D. unfold active. apply filter_In. split.
  - apply in_seq. assert (nth_error (calls s) i <> None) by congruence. apply nth_error_Some in H0. lia.
  - rewrite H. destruct c; try reflexivity. congruence.
Qed.
Lemma some_inj {A} (x y : A) : Some x = Some y -> x = y.
Proof. congruence. Qed.
Lemma go_frame deferred s i ok q c s' : nth_error (calls s) i = Some c -> go hashf deferred s i ok q c = Some s' ->
  exists c' es, calls s' = set_nth i c' (calls s) /\ log s' = es ++ log s /\
  (forall p, mem s' p = mem s p \/ mem s p = None \/ (deferred = false /\ occ p (in_hand c) > 0)) /\
  (forall x, In x (retired s) -> In x (retired s')) /\
  (forall p, inmap s p -> inmap s' p \/ exists k d, c' = SFree k d (Some p)) /\
  (forall k d p, c = SFree k d (Some p) -> deferred = true -> mem s p <> None -> In (p, active s) (retired s')).
Proof.
  intros C H.
  assert (FR : forall p, occ p (in_hand c) > 0 -> (forall k d p', c = SFree k d (Some p') -> p' = p) ->
     let s1 := freef deferred s (Some p) in calls s1 = calls s /\ log s1 = log s /\
     (forall x, mem s1 x = mem s x \/ mem s x = None \/ (deferred = false /\ occ x (in_hand c) > 0)) /\
     (forall x, In x (retired s) -> In x (retired s1)) /\ map s1 = map s /\
     (forall k d p', c = SFree k d (Some p') -> deferred = true -> mem s p' <> None -> In (p', active s) (retired s1))).
  { intros p O X. cbn [freef]. destruct (mem s p) eqn:Em; [destruct deferred|]; fields; repeat split; auto.
    - intros x Hx. right. exact Hx.
    - intros k d p' E1 _ _. rewrite (X k d p' E1). left. reflexivity.
    - intros x. destruct (Nat.eq_dec x p) as [->|D]; [right; right; auto|left; apply upd_other; exact D].
    - intros; discriminate.
    - intros k d p' E1 _ E2. rewrite (X k d p' E1) in E2. congruence. }
  destruct c as [k|k p|k p|k d|k d prev|k d prev|k d prev e|k d prev|k d prev e|]; cbv beta iota zeta delta [go] in H.
  all: repeat match type of H with
       | match ?x with Some _ => _ | None => _ end = _ => destruct x eqn:?
       | (if ?x then _ else _) = _ => destruct x eqn:?
       end; try discriminate; try (apply some_inj in H; subst s').
  all: try (do 2 eexists; fields; split; [reflexivity|]; split; [match goal with
        | |- ?a :: ?b :: log ?x = _ => exact (eq_refl : a :: b :: log x = [a; b] ++ log x)
        | |- ?a :: log ?x = _ => exact (eq_refl : a :: log x = [a] ++ log x)
        | |- log ?x = _ => exact (eq_refl : log x = [] ++ log x)
        end|];
        split; [intros; left; reflexivity|]; split; [auto|]; split; [intros; left; assumption|intros; discriminate]).
  - exists (SCas k d prev q), []. fields. repeat split; auto; [|intros; discriminate].
    intros p. destruct (Nat.eq_dec p q) as [->|D]; [auto|left; apply upd_other; exact D].
  - exists (SFree k d prev), [EStore i k d]. fields. repeat split; auto; [|intros; discriminate].
    intros p (o & Ho). apply opt_eqb_spec in Heqb. destruct (Nat.eq_dec o (offset hashf s k)) as [->|D].
    + right. exists k, d. congruence.
    + left. exists o. fields. rewrite upd_other by exact D. exact Ho.
  - destruct prev as [p|].
    + destruct (FR p) as (F1 & F2 & F3 & F4 & F5 & F6).
      { cbn [in_hand]. rewrite occ_cons, Nat.eqb_refl. lia. }
      { intros ? ? ? [= _ _ ->]. reflexivity. }
      exists Over, [ESet i k d true]. fields. rewrite F1, F2. repeat split; auto. intros x (o & Hx). left. exists o. fields. rewrite F5. exact Hx.
    + exists Over, [ESet i k d true]. cbn [freef]. fields. repeat split; auto. intros; discriminate.
  - destruct (FR e) as (F1 & F2 & F3 & F4 & F5 & F6).
    { cbn [in_hand]. rewrite occ_cons, Nat.eqb_refl. lia. }
    { intros; discriminate. }
    exists Over, [ESet i k d false]. fields. rewrite F1, F2. repeat split; auto. intros x (o & Hx). left. exists o. fields. rewrite F5. exact Hx.
  - destruct (FR e) as (F1 & F2 & F3 & F4 & F5 & F6).
    { cbn [in_hand]. rewrite occ_cons, Nat.eqb_refl. lia. }
    { intros; discriminate. }
    exists (SLoad k d), []. fields. rewrite F1, F2. repeat split; auto. intros x (o & Hx). left. exists o. fields. rewrite F5. exact Hx.
Qed.

Lemma go_frame2 deferred s i ok q c s' : nth_error (calls s) i = Some c -> go hashf deferred s i ok q c = Some s' ->
  exists c', nth_error (calls s') i = Some c' /\ (forall p, holding c' = Some p -> holding c = Some p \/ inmap s p) /\
  (late_read s' = late_read s \/ exists p, holding c = Some p /\ mem s p = None) /\ c <> Over.
Proof.
  intros C H.
  assert (FR : forall p, calls (freef deferred s p) = calls s /\ late_read (freef deferred s p) = late_read s).
  { intros [p|]; cbn [freef]; [|auto]. destruct (mem s p); [destruct deferred|]; auto. }
  destruct c as [k|k p|k p|k d|k d prev|k d prev|k d prev e|k d prev|k d prev e|]; cbv beta iota zeta delta [go] in H.
  all: repeat match type of H with
       | match ?x with Some _ => _ | None => _ end = _ => destruct x eqn:?
       | (if ?x then _ else _) = _ => destruct x eqn:?
       end; try discriminate; try (apply some_inj in H; subst s').
  all: eexists; fields; rewrite ?(fun p => proj1 (FR p)), ?(fun p => proj2 (FR p));
       (split; [eapply nth_set_same; exact C|]); (split; [|split; [first [left; reflexivity|right; cbn [holding]; eauto]|discriminate]]);
       cbn [holding]; intros p' Hp; subst; auto; try discriminate.
  - right. eexists. cbn in Heqo. injection Hp as <-. exact Heqo.
  - right. eexists. exact Hp.
Qed.
Lemma mem_keep deferred s i ok q c s' j cj p : Inv s -> Hold deferred s -> nth_error (calls s) i = Some c ->
  go hashf deferred s i ok q c = Some s' -> nth_error (calls s) j = Some cj -> cj <> Over -> safe s j p -> mem s' p = mem s p.
Proof.
  intros I HI C Hg J JO Sf. destruct (go_frame2 deferred s i ok q c s' C Hg) as (_ & _ & _ & _ & CO).
  destruct (go_frame deferred s i ok q c s' C Hg) as (c' & es & _ & _ & F3 & _).
  destruct (F3 p) as [F|[F|[D O]]]; [exact F|exfalso; apply (safe_live s j p I Sf F)|exfalso].
  destruct (hand_facts s i c p (i_g s I p) C O) as (_ & F1 & F2 & F4 & F5).
  destruct Sf as [Sf|[(x & k & d & X & Sf)|(l & Sf & _)]]; [contradiction| |pose proof (cret_in s p l Sf); lia].
  destruct (Nat.eq_dec x i) as [->|Xi].
  - apply X. apply (h_solo _ s HI D i j c cj C J CO JO).
  - pose proof (T_two in_hand p i x _ c _ eq_refl C Sf ltac:(congruence)) as Q. cbn [in_hand] in Q.
    rewrite occ_cons, Nat.eqb_refl in Q. lia.
Qed.
Lemma content_other s s' i c es : content s i c -> log s' = es ++ log s ->
  (forall p, holding c = Some p -> mem s' p = mem s p) -> content s' i c.
Proof.
  intros H L Me. destruct c as [ |k p|k [p|]| | | | | | |]; try exact Logic.I.
  - destruct H as (l2 & l1 & e & L1 & B & H1 & H2). exists (es ++ l2), l1, e. rewrite L, L1, app_assoc. rewrite (Me p eq_refl). auto.
  - destruct H as (e & H1 & H2 & H3). exists e. rewrite L, (Me p eq_refl). repeat split; auto. apply in_or_app. right. exact H3.
Qed.
Lemma Got_cons l e : Got l -> (forall i k r, e <> EGot i k r) -> Got (e :: l).
Proof.
  intros H D i k r [->|X]; [exfalso; apply (D i k r); reflexivity|]. destruct (H i k r X) as (l3 & l2 & l1 & -> & A).
  exists (e :: l3), l2, l1. auto.
Qed.
Lemma Got_got l i k r : Got l -> (exists l2 l1, l = l2 ++ ELoad i k :: l1 /\ In (EBegin i) l1 /\
  forall d, r = Some d <-> newest l1 (slot k) = Some (k, d)) -> Got (EGot i k r :: l).
Proof.
  intros H (l2 & l1 & L & B & Q) i' k' r' [[= <- <- <-]|X].
  - exists [], l2, l1. rewrite L. auto.
  - destruct (H i' k' r' X) as (l3 & l2' & l1' & L' & A). exists (EGot i k r :: l3), l2', l1'. rewrite L'. auto.
Qed.
Lemma hold_self deferred s i ok q c s' : Inv s -> Hold deferred s -> nth_error (calls s) i = Some c ->
  go hashf deferred s i ok q c = Some s' -> (exists c', nth_error (calls s') i = Some c' /\ content s' i c') /\ Got (log s').
Proof.
  intros I HI C H. pose proof (h_content _ s HI i c C) as Cc. pose proof (h_got _ s HI) as Gt.
  pose proof (i_k s I i c C) as [B _].
  assert (OF : forall s k, size s = n -> offset hashf s k = slot k) by (intros s0 k X; unfold offset, slot; rewrite X; reflexivity).
  assert (FR : forall p, calls (freef deferred s p) = calls s /\ log (freef deferred s p) = log s).
  { intros [p|]; cbn [freef]; [|auto]. destruct (mem s p); [destruct deferred|]; auto. }
  assert (TR : forall c', match c' with GCmp _ _ | GHold _ (Some _) => False | _ => True end -> forall s', content s' i c').
  { intros c' X s0. destruct c' as [ | |? [|]| | | | | | |]; try contradiction; exact Logic.I. }
  destruct c as [k|k p|k p|k d|k d prev|k d prev|k d prev e|k d prev|k d prev e|]; cbv beta iota zeta delta [go] in H.
  1: { rewrite OF in H by (fields; apply I). revert H. fields. pose proof (i_m s I (slot k)) as m.
       destruct (map s (slot k)) as [p|]; intros H; apply some_inj in H; subst s'; fields.
       - split; [|apply Got_cons; [exact Gt|intros; discriminate]]. eexists. split; [eapply nth_set_same; exact C|].
         destruct m as (e & m1 & m2 & m3). exists [], (log s), e. auto.
       - split; [eexists; split; [eapply nth_set_same; exact C|exact Logic.I]|].
         apply Got_got; [apply Got_cons; [exact Gt|intros; discriminate]|]. exists [], (log s). split; [reflexivity|]. split; [exact B|].
         intros d. rewrite m. split; discriminate. }
  1: { destruct Cc as (l2 & l1 & e & L1 & B1 & H1 & H2). rewrite H1 in H.
       destruct (key_matches e k) eqn:Ek; apply some_inj in H; subst s'; fields.
       - apply key_matches_spec in Ek. split.
         + eexists. split; [eapply nth_set_same; exact C|]. exists e. split; [exact H1|]. split; [exact Ek|left; reflexivity].
         + apply Got_got; [exact Gt|]. exists l2, l1. split; [exact L1|]. split; [exact B1|]. intros d. rewrite H2, Ek.
           split; congruence.
       - split; [eexists; split; [eapply nth_set_same; exact C|exact Logic.I]|].
         apply Got_got; [exact Gt|]. exists l2, l1. split; [exact L1|]. split; [exact B1|]. intros d. rewrite H2. split; [discriminate|].
         intros [= X Y]. apply key_matches_spec in X. congruence. }
  all: repeat match type of H with
       | match ?x with Some _ => _ | None => _ end = _ => destruct x eqn:?
       | (if ?x then _ else _) = _ => destruct x eqn:?
       end; try discriminate; apply some_inj in H; subst s'.
  all: fields; rewrite ?(fun p => proj1 (FR p)), ?(fun p => proj2 (FR p));
       (split; [eexists; split; [eapply nth_set_same; exact C|apply TR; exact Logic.I]|]);
       first [exact Gt|apply Got_cons; [exact Gt|intros; discriminate]].
Qed.
Lemma hold_go deferred s i ok q c s' : Inv s -> Hold deferred s -> nth_error (calls s) i = Some c ->
  go hashf deferred s i ok q c = Some s' -> Hold deferred s'.
Proof.
  intros I HI C H.
  destruct (go_frame2 deferred s i ok q c s' C H) as (c' & C2 & FH & FL & CO).
  destruct (go_frame deferred s i ok q c s' C H) as (c'' & es & C' & L & F3 & F4 & F5 & F6).
  assert (c'' = c'). { rewrite C', (nth_set_same i _ c c'' C) in C2. congruence. } subst c''.
  pose proof (fun j cj p => mem_keep deferred s i ok q c s' j cj p I HI C H) as MK.
  assert (SK : forall j cj p, nth_error (calls s) j = Some cj -> cj <> Over -> safe s j p -> (j = i -> forall k d, c' <> SFree k d (Some p)) -> safe s' j p).
  { intros j cj p J JO [S1|[(x & k & d & X & S1)|(l & S1 & S2)]] NF.
    - destruct (F5 p S1) as [S2|(k & d & ->)]; [left; exact S2|]. destruct (Nat.eq_dec j i) as [->|D]; [exfalso; apply (NF eq_refl k d); reflexivity|].
      right. left. exists i, k, d. auto.
    - destruct (Nat.eq_dec x i) as [->|D].
      + rewrite C in S1. injection S1 as ->. destruct deferred.
        * right. right. exists (active s). split; [|apply (active_in s j cj J JO)]. apply (F6 k d p eq_refl eq_refl).
          destruct (hand_facts s i _ p (i_g s I p) C) as ((e & ->) & _); [|discriminate]. cbn [in_hand]. rewrite occ_cons, Nat.eqb_refl. lia.
        * exfalso. apply X. apply (h_solo _ s HI eq_refl i j _ cj C J CO JO).
      + right. left. exists x, k, d. split; [exact X|]. rewrite C', nth_set_other by exact D. exact S1.
    - right. right. exists l. auto. }
  assert (HO : forall j cj p, nth_error (calls s) j = Some cj -> holding cj = Some p -> cj <> Over) by (intros j cj p _ X ->; discriminate).
  assert (SELF : forall p, holding c' = Some p -> safe s i p).
  { intros p Hp. destruct (FH p Hp) as [X|X]; [apply (h_safe _ s HI i c p C X)|left; exact X]. }
  constructor.
  - intros j x p Jx Hp. destruct (Nat.eq_dec j i) as [->|D].
    + rewrite C2 in Jx. injection Jx as <-. apply (SK i c p C CO (SELF p Hp)). intros _ k d ->. discriminate.
    + rewrite C', nth_set_other in Jx by exact D. apply (SK j x p Jx (HO j x p Jx Hp) (h_safe _ s HI j x p Jx Hp)). intros; contradiction.
  - intros j x Jx. destruct (Nat.eq_dec j i) as [->|D].
    + rewrite C2 in Jx. injection Jx as <-.
      destruct (hold_self deferred s i ok q c s' I HI C H) as [(y & Y1 & Y2) _]. rewrite C2 in Y1. injection Y1 as <-. exact Y2.
    + rewrite C', nth_set_other in Jx by exact D. apply (content_other s s' j x es (h_content _ s HI j x Jx) L).
      intros p Hp. apply (MK j x p Jx (HO j x p Jx Hp) (h_safe _ s HI j x p Jx Hp)).
  - apply (hold_self deferred s i ok q c s' I HI C H).
  - destruct FL as [->|(p & X & Y)]; [apply HI|]. exfalso. apply (safe_live s i p I (h_safe _ s HI i c p C X) Y).
  - intros D a b x y A B AO BO. rewrite C' in A, B.
    assert (Q : forall a x, nth_error (set_nth i c' (calls s)) a = Some x -> x <> Over -> exists x', nth_error (calls s) a = Some x' /\ x' <> Over).
    { intros a0 x0 A0 X0. destruct (Nat.eq_dec a0 i) as [->|D0]; [eauto|]. rewrite nth_set_other in A0 by exact D0. eauto. }
    destruct (Q a x A AO) as (x' & A' & AO'). destruct (Q b y B BO) as (y' & B' & BO').
    apply (h_solo _ s HI D a b x' y' A' B' AO' BO').
Qed.

Lemma hold_begin deferred s c : Inv s -> Hold deferred s -> match c with GLoad _ | SLoad _ _ => True | _ => False end ->
  (deferred = false -> Forall (fun c => c = Over) (calls s)) -> Hold deferred (begin s c).
Proof.
  intros I HI Hc Al.
  assert (NT : forall i x, nth_error (calls s ++ [c]) i = Some x -> (nth_error (calls s) i = Some x) \/ (i = length (calls s) /\ x = c)).
  { intros i x H. destruct (Nat.lt_ge_cases i (length (calls s))) as [A|A].
    - rewrite nth_error_app1 in H by exact A. auto.
    - rewrite nth_error_app2 in H by exact A. destruct (i - length (calls s)) as [|z] eqn:Z; [|destruct z; discriminate].
      injection H as <-. right. split; [lia|reflexivity]. }
  constructor; unfold begin; fields.
  - intros i x p H Hp. destruct (NT i x H) as [A|[-> ->]]; [|destruct c; try contradiction; discriminate].
    destruct (h_safe _ s HI i x p A Hp) as [S1|[(j & k & d & X & S1)|S1]]; [left; exact S1| |right; right; exact S1].
    right. left. exists j, k, d. split; [exact X|]. fields. rewrite nth_error_app1; [exact S1|]. apply nth_error_Some. congruence.
  - intros i x H. destruct (NT i x H) as [A|[-> ->]]; [|destruct c; try contradiction; exact Logic.I].
    apply (content_other s _ i x [EBegin (length (calls s))] (h_content _ s HI i x A)); [reflexivity|]. intros; reflexivity.
  - apply Got_cons; [apply HI|intros; discriminate].
  - apply HI.
  - intros D a b x y A B AO BO. specialize (Al D). rewrite Forall_forall in Al.
    destruct (NT a x A) as [A'|[-> ->]]; [exfalso; apply AO; apply Al; apply (nth_error_In _ _ A')|].
    destruct (NT b y B) as [B'|[-> ->]]; [exfalso; apply BO; apply Al; apply (nth_error_In _ _ B')|]. reflexivity.
Qed.
Lemma ret_uniq s p l l' : cret s p = 1 -> In (p, l) (retired s) -> In (p, l') (retired s) -> l = l'.
Proof.
  unfold cret. induction (retired s) as [|[x y] r IH]; cbn [List.map fst]; [intros _ []|]. rewrite occ_cons.
  assert (Z : forall z, In (p, z) r -> occ p (List.map fst r) > 0) by (intros z Hz; apply occ_in; apply (in_map fst) in Hz; exact Hz).
  intros O [[= -> ->]|A] [[= ->]|B]; subst.
  - reflexivity.
  - rewrite Nat.eqb_refl in O. specialize (Z l' B). lia.
  - rewrite Nat.eqb_refl in O. specialize (Z l A). lia.
  - apply IH; auto. specialize (Z l A). destruct (Nat.eqb x p); lia.
Qed.
Lemma hold_reclaim deferred s p s' : Inv s -> Hold deferred s -> reclaim s p = Some s' -> Hold deferred s'.
Proof.
  intros I HI H. destruct (reclaim_facts s p s' H) as (l & L & En & ->).
  destruct (retired_facts s p I (cret_in s p l L)) as (F1 & F2 & F3 & F4).
  assert (NP : forall i c p', nth_error (calls s) i = Some c -> holding c = Some p' -> p' <> p).
  { intros i c p' C Hp ->. destruct (h_safe _ s HI i c p C Hp) as [S1|[(j & k & d & X & S1)|(l' & S1 & S2)]]; [contradiction| |].
    - pose proof (T_in in_hand p j _ _ S1) as Q. cbn [in_hand] in Q. rewrite occ_cons, Nat.eqb_refl in Q. lia.
    - rewrite (ret_uniq s p l' l F3 S1 L) in S2. rewrite forallb_forall in En. specialize (En i S2). unfold ended in En. rewrite C in En.
      destruct c; discriminate. }
  constructor; fields.
  - intros i c p' C Hp. pose proof (NP i c p' C Hp) as D. destruct (h_safe _ s HI i c p' C Hp) as [S1|[S1|(l' & S1 & S2)]]; [left; exact S1|right; left; exact S1|].
    right. right. exists l'. split; [|exact S2]. fields. apply filter_In. split; [exact S1|]. cbn. destruct (Nat.eqb_spec p' p); [congruence|reflexivity].
  - intros i c C. apply (content_other s _ i c [] (h_content _ s HI i c C)); [reflexivity|]. intros p' Hp. fields. apply upd_other. apply (NP i c p' C Hp).
  - apply HI.
  - apply HI.
  - apply HI.
Qed.
Lemma reach_hold deferred (P : sys -> choice -> Prop) pr s : (deferred = true \/ forall s c, P s c -> alone s c) ->
  reach hashf deferred P n pr s -> Hold deferred s.
Proof.
  intros Md. induction 1 as [|s c s' R IH HP Hs].
  - constructor; cbn; try reflexivity; try (intros [|i]; intros; discriminate).
    + intros i k r [].
    + intros _ [|i] j c c' H; discriminate.
  - pose proof (reach_inv deferred P pr s R) as I.
    destruct c as [k|k d|i ok q|p|p]; cbn [step] in Hs.
    + injection Hs as <-. apply hold_begin; auto. intros D. destruct Md as [Md|Md]; [congruence|apply (Md s (Get k) HP)].
    + injection Hs as <-. apply hold_begin; auto. intros D. destruct Md as [Md|Md]; [congruence|apply (Md s (Set_ k d) HP)].
    + destruct (nth_error (calls s) i) as [c|] eqn:C; [|discriminate]. apply (hold_go deferred s i ok q c s' I IH C Hs).
    + apply (hold_reclaim deferred s p s' I IH Hs).
    + injection Hs as <-. destruct IH. constructor; assumption.
Qed.

(** ** Results *)
Lemma get_right deferred (P : sys -> choice -> Prop) pr s : (deferred = true \/ forall s c, P s c -> alone s c) ->
  reach hashf deferred P n pr s -> forall i k r, In (EGot i k r) (log s) ->
  exists l3 l2 l1, log s = l3 ++ EGot i k r :: l2 ++ ELoad i k :: l1 /\ In (EBegin i) l1 /\
    forall d, r = Some d <-> visible hashf n l1 k d.
Proof.
  intros Md R i k r H. destruct (h_got _ s (reach_hold deferred P pr s Md R) i k r H) as (l3 & l2 & l1 & L & B & X).
  exists l3, l2, l1. split; [exact L|]. split; [exact B|]. intros d. rewrite X. apply newest_visible.
Qed.
Lemma get_lasts deferred (P : sys -> choice -> Prop) pr s : (deferred = true \/ forall s c, P s c -> alone s c) ->
  reach hashf deferred P n pr s -> late_read s = false /\
  forall i k p, nth_error (calls s) i = Some (GHold k (Some p)) ->
  exists d, mem s p = Some (Entry k d) /\ In (EGot i k (Some d)) (log s).
Proof.
  intros Md R. pose proof (reach_hold deferred P pr s Md R) as HI. split; [apply HI|]. intros i k p H.
  destruct (h_content _ s HI i _ H) as ([ek ed] & A & B & C). cbn in B, C. subst ek. eauto.
Qed.
Lemma set_right deferred P pr s : reach hashf deferred P n pr s -> forall i k d ok, In (ESet i k d ok) (log s) ->
  if ok then exists l3 l2 l1, log s = l3 ++ ESet i k d true :: l2 ++ EStore i k d :: l1 /\ In (EBegin i) l1 /\
               forall k' d', ~ In (EStore i k' d') (l3 ++ l2 ++ l1)
  else forall k' d', ~ In (EStore i k' d') (log s).
Proof.
  intros R i k d ok H. destruct (i_e s (reach_inv deferred P pr s R) i k d ok H) as (l3 & l2 & L & B & A1 & A2 & A3 & A4).
  destruct ok.
  - destruct A4 as (m2 & m1 & -> & B' & N2 & N1). exists l3, m2, m1. split; [exact L|]. split; [exact B'|].
    intros k' d' X. rewrite !in_app_iff in X. destruct X as [X|[X|X]]; [apply (A3 k' d' X)|apply (N2 k' d' X)|apply (N1 k' d' X)].
  - intros k' d' X. rewrite L in X. apply in_app_or in X. destruct X as [X|[X|X]]; [apply (A3 k' d' X)|discriminate|apply (A4 k' d' X)].
Qed.
Lemma memory_right deferred P pr s : reach hashf deferred P n pr s -> bad_free s = false /\
  forall p, mem s p <> None <->
    ((exists o, map s o = Some p) \/ (exists i c, nth_error (calls s) i = Some c /\ In p (in_hand c)) \/ In p (List.map fst (retired s))).
Proof.
  intros R. pose proof (reach_inv deferred P pr s R) as I. split; [apply I|]. intros p. pose proof (i_g s I p) as g. unfold G in g.
  assert (TX : T in_hand p (calls s) > 0 <-> exists i c, nth_error (calls s) i = Some c /\ In p (in_hand c)).
  { unfold T. rewrite <- occ_in, in_flat_map. split.
    - intros (c & A & B). apply In_nth_error in A. destruct A as [i A]. eauto.
    - intros (i & c & A & B). exists c. split; [apply (nth_error_In _ _ A)|exact B]. }
  rewrite <- TX, occ_in. fold (cret s p). fold (inmap s p). destruct (mem s p).
  - split; [intros _|discriminate]. destruct g as [g|[_ g]]; [left; apply g|]. right. lia.
  - split; [congruence|]. intros [A|[A|A]]; [tauto|lia|lia].
Qed.
Lemma stats_right deferred P pr s : reach hashf deferred P n pr s ->
  access s = N.of_nat (looks (log s)) /\ hit s = N.of_nat (finds (log s)).
Proof. intros R. pose proof (reach_inv deferred P pr s R) as I. split; apply I. Qed.

(** a set refused although replacement is certain lost a race *)
Lemma refused deferred s : reach hashf deferred always n (2 ^ 32 - 1) s -> prob s = 0%N /\
  forall i k d, In (ESet i k d false) (log s) ->
  exists l3 l2 l1 j k' d', log s = l3 ++ ESet i k d false :: l2 ++ EStore j k' d' :: l1 /\ j <> i /\ In (EBegin i) l1 /\
    rivals hashf n k' k.
Proof.
  intros R. pose proof (set_right deferred always _ s R) as SR.
  assert (Q : prob s = 0%N /\ forall i k d, In (ESet i k d false) (log s) -> exists l3 l2, log s = l3 ++ ESet i k d false :: l2 /\ crossed l2 i k).
  { clear SR. induction R as [|s c s' R [Pz IH] HP Hs]; [split; [reflexivity|intros ? ? ? []]|].
    pose proof (reach_inv deferred always _ s R) as I.
    assert (QC : forall es, (forall i k d, In (ESet i k d false) es -> False) -> forall i k d, In (ESet i k d false) (es ++ log s) ->
             exists l3 l2, es ++ log s = l3 ++ ESet i k d false :: l2 /\ crossed l2 i k).
    { intros es X i k d Y. apply in_app_or in Y. destruct Y as [Y|Y]; [exfalso; apply (X i k d Y)|].
      destruct (IH i k d Y) as (l3 & l2 & L & Cr). exists (es ++ l3), l2. rewrite L, app_assoc. auto. }
    destruct c as [k|k d|i ok q|p|p]; cbn [step] in Hs.
    - injection Hs as <-. split; [exact Pz|]. apply (QC [EBegin (length (calls s))]). intros ? ? ? [X|[]]. discriminate.
    - injection Hs as <-. split; [exact Pz|]. apply (QC [EBegin (length (calls s))]). intros ? ? ? [X|[]]. discriminate.
    - destruct (nth_error (calls s) i) as [c|] eqn:C; [|discriminate].
      assert (FR : forall p, prob (freef deferred s p) = prob s /\ log (freef deferred s p) = log s).
      { intros [p|]; cbn [freef]; [|auto]. destruct (mem s p); [destruct deferred|]; auto. }
      pose proof (i_k s I i c C) as [B KC].
      destruct c as [k|k p|k p|k d|k d prev|k d prev|k d prev e|k d prev|k d prev e|]; cbv beta iota zeta delta [go] in Hs.
      all: repeat match type of Hs with
       | match ?x with Some _ => _ | None => _ end = _ => destruct x eqn:?
       | (if ?x then _ else _) = _ => destruct x eqn:?
       end; try discriminate; apply some_inj in Hs; subst s'; fields; rewrite ?(fun p => proj1 (FR p)), ?(fun p => proj2 (FR p)).
      all: try (exfalso; rewrite Pz in *; discriminate).
      all: split; [exact Pz|].
      all: try (match goal with
        | |- context [In _ (?a :: ?b :: log ?x)] => apply (QC [a; b])
        | |- context [In _ (?a :: log ?x)] => apply (QC [a])
        | |- context [In _ (log ?x)] => exact IH
        end; intros ? ? ? X; cbn in X; repeat destruct X as [X|X]; first [discriminate|contradiction]).
      destruct KC as (_ & _ & Cr & _). intros i' k' d' [[= <- <- <-]|Y].
      + exists [], (log s). auto.
      + destruct (IH i' k' d' Y) as (l3 & l2 & L & Cr'). exists (ESet i k d false :: l3), l2. rewrite L. auto.
    - destruct (reclaim_facts s p s' Hs) as (l & _ & _ & ->). auto.
    - injection Hs as <-. cbn in HP. subst p. cbn. auto. }
  destruct Q as [Pz Q]. split; [exact Pz|]. intros i k d H. destruct (Q i k d H) as (l3 & l2 & L & (x & k' & d' & m2 & m1 & -> & B & Sl)).
  exists l3, m2, m1, x, k', d'. split; [exact L|]. split; [|split; [exact B|apply slot_rivals; exact Sl]].
  intros ->. apply (SR i k d false H k' d'). rewrite L, !in_app_iff. right. right. rewrite in_app_iff. right. left. reflexivity.
Qed.

(** ** Wait-freedom *)
Definition rank (s : sys) (c : call) : nat :=
  match c with
  | GLoad _ => 3 | GCmp _ _ => 2 | GHold _ _ => 1
  | SLoad k _ => match map s (slot k) with None => 10 | Some _ => 5 end
  | STry _ _ (Some _) => 4 | SNew _ _ (Some _) => 3 | SCas _ _ (Some _) _ => 2
  | STry _ _ None => 9 | SNew _ _ None => 8 | SCas _ _ None _ => 7
  | SDrop _ _ None _ => 6 | SDrop _ _ (Some _) _ => 1 | SFree _ _ _ => 1
  | Over => 0
  end.

Lemma go_rank deferred s i ok q c s' : Inv s -> nth_error (calls s) i = Some c -> go hashf deferred s i ok q c = Some s' ->
  exists c', nth_error (calls s') i = Some c' /\ rank s' c' < rank s c /\
    (forall j x, j <> i -> nth_error (calls s) j = Some x -> nth_error (calls s') j = Some x /\ rank s' x <= rank s x).
Proof.
  intros I C H. destruct (go_frame deferred s i ok q c s' C H) as (c' & es & C' & _).
  assert (MM : forall o, map s o <> None -> map s' o <> None).
  { intros o X. assert (FR : forall p, map (freef deferred s p) = map s).
    { intros [p|]; cbn [freef]; [|auto]. destruct (mem s p); [destruct deferred|]; auto. }
    destruct c as [k|k p|k p|k d|k d prev|k d prev|k d prev e|k d prev|k d prev e|]; cbv beta iota zeta delta [go] in H.
    all: repeat match type of H with
       | match ?x with Some _ => _ | None => _ end = _ => destruct x eqn:?
       | (if ?x then _ else _) = _ => destruct x eqn:?
       end; try discriminate; apply some_inj in H; subst s'; fields; rewrite ?FR; try exact X.
    destruct (Nat.eq_dec o (offset hashf s k)) as [->|D]; [rewrite upd_same; discriminate|rewrite upd_other by exact D; exact X]. }
  exists c'. split; [rewrite C'; eapply nth_set_same; exact C|]. split.
  - pose proof (i_k s I i c C) as [B KC].
    assert (OF : forall s k, size s = n -> offset hashf s k = slot k) by (intros s0 k X; unfold offset, slot; rewrite X; reflexivity).
    assert (C2 : nth_error (calls s') i = Some c') by (rewrite C'; eapply nth_set_same; exact C).
    assert (FR : forall p, calls (freef deferred s p) = calls s).
    { intros [p|]; cbn [freef]; [|auto]. destruct (mem s p); [destruct deferred|]; auto. }
    clear C'.
    destruct c as [k|k p|k p|k d|k d prev|k d prev|k d prev e|k d prev|k d prev e|]; cbv beta iota zeta delta [go] in H.
    4: { rewrite OF in H by apply I. apply some_inj in H. subst s'. revert C2. fields. rewrite (nth_set_same i _ _ _ C). intros [= <-].
         cbn [rank]. destruct (map s (slot k)); lia. }
    8: { destruct KC as (_ & _ & _ & Mn). specialize (MM (slot k) Mn).
         destruct prev; apply some_inj in H; subst s'; revert C2; fields; rewrite FR, (nth_set_same i _ _ _ C); intros C2; apply some_inj in C2; subst c'; cbn [rank]; [lia|].
         revert MM. fields. intros MM. destruct (map (freef deferred s (Some e)) (slot k)); [lia|congruence]. }
    all: repeat match type of H with
       | match ?x with Some _ => _ | None => _ end = _ => destruct x eqn:?
       | (if ?x then _ else _) = _ => destruct x eqn:?
       end; try discriminate; apply some_inj in H; subst s'; revert C2; fields; rewrite ?FR, (nth_set_same i _ _ _ C); intros C2; apply some_inj in C2;
       subst c'; cbn [rank]; try destruct prev; try discriminate; lia.
  - intros j x D J. rewrite C', nth_set_other by exact D. split; [exact J|].
    destruct x; cbn [rank]; try lia. specialize (MM (slot k)). destruct (map s (slot k)), (map s' (slot k)); try lia. exfalso. apply MM; [discriminate|reflexivity].
Qed.
Lemma run_steps deferred cs : forall s s' i c, Inv s -> nth_error (calls s) i = Some c -> run hashf deferred s cs = Some s' -> steps_of i cs <= rank s c.
Proof.
  induction cs as [|ch cs IH]; intros s s' i c I C H; [unfold steps_of; cbn; lia|]. cbn [run] in H.
  destruct (step hashf deferred s ch) as [s1|] eqn:St; [|discriminate]. pose proof (step_inv deferred s ch s1 I St) as I1.
  assert (EQ : steps_of i (ch :: cs) = (match ch with Go j _ _ => if Nat.eqb i j then 1 else 0 | _ => 0 end) + steps_of i cs).
  { unfold steps_of. cbn [filter]. destruct ch; try reflexivity. destruct (Nat.eqb _ _); reflexivity. }
  rewrite EQ. destruct ch as [k|k d|j ok q|p|p]; cbn [step] in St.
  - injection St as <-. apply (IH (begin s (GLoad k)) s' i c I1); [|exact H]. unfold begin. fields. rewrite nth_error_app1; [exact C|]. apply nth_error_Some. congruence.
  - injection St as <-. apply (IH (begin s (SLoad k d)) s' i c I1); [|exact H]. unfold begin. fields. rewrite nth_error_app1; [exact C|]. apply nth_error_Some. congruence.
  - destruct (nth_error (calls s) j) as [cj|] eqn:J; [|discriminate].
    destruct (go_rank deferred s j ok q cj s1 I J St) as (c' & A1 & A2 & A3). destruct (Nat.eqb_spec i j) as [->|D].
    + rewrite J in C. injection C as ->. pose proof (IH s1 s' j c' I1 A1 H). lia.
    + destruct (A3 i c D C) as [B1 B2]. pose proof (IH s1 s' i c I1 B1 H). lia.
  - destruct (reclaim_facts s p s1 St) as (l & _ & _ & ->). apply (IH _ s' i c I1 C H).
  - injection St as <-. apply (IH _ s' i c I1 C H).
Qed.
Lemma wait_free deferred P pr s cs s' i c : reach hashf deferred P n pr s -> nth_error (calls s) i = Some c ->
  run hashf deferred s cs = Some s' -> steps_of i cs <= 10.
Proof.
  intros R C H. pose proof (run_steps deferred cs s s' i c (reach_inv deferred P pr s R) C H).
  assert (rank s c <= 10); [|lia]. destruct c as [k|k p|k p|k d|k d [p|]|k d [p|]|k d [p|] e|k d prev|k d [p|] e|]; cbn [rank]; try lia.
  destruct (map s (slot k)); lia.
Qed.
(** an unfinished call can always move, if the allocator has memory *)
Lemma can_move deferred s i ok q c : nth_error (calls s) i = Some c -> c <> Over -> mem s q = None ->
  exists s', step hashf deferred s (Go i ok q) = Some s'.
Proof.
  intros C D Q. cbn [step]. rewrite C. destruct c; cbv beta iota zeta delta [go]; rewrite ?Q;
    repeat match goal with |- context [match ?x with _ => _ end] => destruct x end; eauto; congruence.
Qed.
End H.

Lemma run_reach hashf deferred n pr cs : forall s s', reach hashf deferred any n pr s -> run hashf deferred s cs = Some s' ->
  reach hashf deferred any n pr s'.
Proof.
  induction cs as [|c cs IH]; intros s s' R; cbn [run]; [intros [= <-]; exact R|].
  destruct (step hashf deferred s c) as [s1|] eqn:St; [|discriminate]. apply IH. apply (R1 _ _ _ _ _ s c s1 R Logic.I St).
Qed.
Lemma run_reach_P hashf deferred (P : sys -> choice -> Prop) n pr cs : (forall s c, In c cs -> P s c) -> forall s s', reach hashf deferred P n pr s ->
  run hashf deferred s cs = Some s' -> reach hashf deferred P n pr s'.
Proof.
  induction cs as [|c cs IH]; intros HP s s' R; cbn [run]; [intros [= <-]; exact R|].
  destruct (step hashf deferred s c) as [s1|] eqn:St; [|discriminate]. apply IH; [intros; apply HP; right; assumption|].
  apply (R1 _ _ _ _ _ s c s1 R); [apply HP; left; reflexivity|exact St].
Qed.
Definition go_n (i m : nat) (ok : bool) (q : nat) : list choice := repeat (Go i ok q) m.
(** a get loads the entry, a set displaces and frees it, the get looks at it *)
Definition late : list choice :=
  Set_ [1%N] [7%N] :: go_n 0 5 true 1 ++ [Get [1%N]; Go 1 true 0; Set_ [1%N] [8%N]] ++ go_n 2 5 true 2 ++ [Go 1 true 0].
Definition late_end : sys := match run (fun _ => 0%N) false (alloc 1 (2 ^ 32 - 1)) late with Some s => s | None => alloc 1 0 end.
Lemma late_reach : reach (fun _ => 0%N) false any 1 (2 ^ 32 - 1) late_end.
Proof. apply (run_reach _ _ _ _ late (alloc 1 (2 ^ 32 - 1))); [constructor|vm_compute; reflexivity]. Qed.
Lemma late_refuted : ~ (forall hashf n pr s, reach hashf false any n pr s -> late_read s = false).
Proof. intros H. specialize (H _ _ _ _ late_reach). vm_compute in H. discriminate. Qed.

(** ** Layout *)
Lemma mask8 x : (x < 2 ^ 64)%N -> N.land x (2 ^ 64 - 1 - 7) = (8 * (x / 8))%N.
Proof.
  intros H. replace (2 ^ 64 - 1 - 7)%N with (N.ldiff (N.ones 64) (N.ones 3)) by reflexivity.
  replace (N.land x (N.ldiff (N.ones 64) (N.ones 3))) with (N.ldiff (N.land x (N.ones 64)) (N.ones 3)).
  - rewrite N.land_ones, N.mod_small by exact H. rewrite N.ldiff_ones_r, N.shiftl_mul_pow2, N.shiftr_div_pow2.
    change (2 ^ 3)%N with 8%N. lia.
  - apply N.bits_inj. intros m. rewrite !N.ldiff_spec, !N.land_spec, N.ldiff_spec. destruct (N.testbit x m), (N.testbit (N.ones 64) m); reflexivity.
Qed.
Local Open Scope N_scope.
Ltac Zify.zify_post_hook ::= Z.div_mod_to_equations.
Lemma data_place a keylen : a + 4 + keylen + 7 < 2 ^ 64 -> frrh_data a keylen = 8 * ((a + 4 + keylen + 7) / 8).
Proof. intros H. unfold frrh_data. apply mask8. exact H. Qed.
Lemma layout a keylen datasize : keylen < 2 ^ 32 -> a + 2 ^ 33 + datasize < 2 ^ 64 -> a mod 8 = 0 ->
  a + 4 + keylen <= frrh_data a keylen /\ frrh_data a keylen mod 8 = 0 /\
  frrh_data a keylen + datasize = a + entry_bytes keylen datasize.
Proof.
  intros H1 H2 H3. unfold entry_bytes. rewrite !data_place by lia. lia.
Qed.
Lemma layout_iff a : a < 2 ^ 62 -> ((forall keylen datasize, keylen < 2 ^ 32 -> datasize < 2 ^ 32 ->
  frrh_data a keylen + datasize <= a + entry_bytes keylen datasize) <-> a mod 8 = 0).
Proof.
  intros Ha. split.
  - intros H. specialize (H 4 0 ltac:(lia) ltac:(lia)). unfold entry_bytes in H.
    rewrite !data_place in H by lia. lia.
  - intros H k d Hk Hd. destruct (layout a k d) as (_ & _ & E); lia.
Qed.
