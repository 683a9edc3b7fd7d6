From Coq Require Import Arith NArith ZArith List Bool Lia ZifyBool ZifyNat ZifyN Permutation.
From Verif.Jobq Require Import Model Spec.
Import ListNotations.

Lemma nth_split_set {A} i : forall (l : list A) c, nth_error l i = Some c ->
  exists a b, l = a ++ c :: b /\ length a = i /\ (forall y, set_nth i y l = a ++ y :: b) /\ remove_nth i l = a ++ b.
Proof.
  induction i as [|i IH]; intros [|x l] c; cbn; try discriminate.
  - intros [= ->]. exists [], l. auto.
  - intros H. destruct (IH l c H) as (a & b & -> & L & E1 & E2). exists (x :: a), b. cbn. rewrite E2, L. repeat split. intros. rewrite E1. reflexivity.
Qed.

(** ** The scan *)
Definition fits (r : list sq) (t : N) (i : nat) : bool :=
  match nth_error r i with Some x => match chain x with [] => false | _ => true end && (infl x <? t)%N | None => false end.
Definition round (n start : nat) (k : nat) : list nat := map (fun k => (start + k) mod n) (seq k (n - k)).
Fixpoint choose (r : list sq) (ts : list N) (l : list nat) : option nat :=
  match ts with [] => None | t :: ts' => match find (fits r t) l with Some i => Some i | None => choose r ts' l end end.
Definition targets (c n : N) : list N := if (c / n =? 0)%N then [1%N; (M32 - 1)%N] else [(c / n - 1)%N; (c / n)%N; (M32 - 1)%N].

Lemma next_idx n start k : n <> 0 -> S ((start + k) mod n) mod n = (start + S k) mod n.
Proof. intros H. rewrite <- Nat.add_1_r, Nat.add_mod_idemp_l by exact H. f_equal. lia. Qed.

Lemma mod_neq n start k : start < n -> 0 < k < n -> (start + k) mod n <> start.
Proof.
  intros H K E. destruct (Nat.ltb_spec (start + k) n).
  - rewrite Nat.mod_small in E by lia. lia.
  - assert ((start + k) mod n = start + k - n) by (symmetry; apply Nat.mod_unique with 1; lia). lia.
Qed.

(** the rest of a round *)
Lemma scan_round r c cn start cy t n : n = length r -> start < n ->
  forall m k fuel, m = n - k -> 0 < k <= n -> m <= fuel ->
  scan fuel r c cn start ((start + k) mod n) cy t =
  match find (fits r t) (round n start k) with
  | Some i => (Some i, S i mod n)
  | None => scan (fuel - m) r c cn start start cy t
  end.
Proof.
  intros Hn Hs. induction m as [|m IH]; intros k fuel E K F.
  - assert (k = n) by lia. subst k. unfold round. rewrite Nat.sub_diag. cbn [seq map find].
    rewrite Nat.sub_0_r. f_equal. rewrite <- (Nat.mul_1_l n) at 1. rewrite Nat.mod_add by lia. apply Nat.mod_small. lia.
  - destruct fuel as [|fuel]; [lia|]. assert (Hk : (start + k) mod n <> start) by (apply mod_neq; lia).
    assert (Hb : (start + k) mod n < length r) by (rewrite <- Hn; apply Nat.mod_upper_bound; lia).
    unfold round. rewrite <- E. cbn [seq map find scan].
    rewrite (proj2 (Nat.eqb_neq _ _) Hk). unfold fits at 1.
    destruct (nth_error r ((start + k) mod n)) as [x|] eqn:Ex; [|apply nth_error_None in Ex; lia].
    destruct (_ && _); [rewrite Hn; reflexivity|].
    rewrite <- Hn, next_idx by lia. rewrite (IH (S k) fuel) by lia. unfold round. replace (n - S k) with m by lia. reflexivity.
Qed.

(** one whole round, entered at the starting point with target [t] *)
Lemma scan_enter r c cn start cy t0 cy' t n fuel : n = length r -> start < n -> n <= fuel ->
  enter cy (c / cn)%N = (cy', t, false) ->
  scan fuel r c cn start start cy t0 =
  match find (fits r t) (round n start 0) with
  | Some i => (Some i, S i mod n)
  | None => scan (fuel - n) r c cn start start cy' t
  end.
Proof.
  intros Hn Hs F E. destruct fuel as [|fuel]; [lia|]. cbn [scan]. rewrite Nat.eqb_refl, E.
  unfold round. rewrite Nat.sub_0_r. destruct n as [|n]; [lia|]. cbn [seq map find].
  assert (E0 : (start + 0) mod S n = start) by (rewrite Nat.add_0_r; apply Nat.mod_small; lia). rewrite E0. unfold fits at 1.
  destruct (nth_error r start) as [x|] eqn:Ex; [|apply nth_error_None in Ex; lia].
  destruct (_ && _); [rewrite Hn; reflexivity|].
  rewrite <- Hn. rewrite <- E0 at 2. rewrite next_idx by lia.
  rewrite (scan_round r c cn start cy' t (S n) Hn Hs (S n - 1) 1) by lia.
  unfold round. replace (S n - 1) with n by lia. replace (S fuel - S n) with (fuel - n) by lia. reflexivity.
Qed.

Lemma scan_choose r c cn start : start < length r ->
  scan (3 * length r + 1) r c cn start start 0 0 =
  match choose r (targets c cn) (round (length r) start 0) with
  | Some i => (Some i, S i mod length r)
  | None => (None, start)
  end.
Proof.
  intros Hs. unfold targets. set (t := (c / cn)%N). set (n := length r) in *.
  assert (L3 : forall fuel t', n < fuel -> scan fuel r c cn start start 2 t' =
     match find (fits r (M32 - 1)) (round n start 0) with Some i => (Some i, S i mod n) | None => (None, start) end).
  { intros fuel t' F. rewrite (scan_enter r c cn start 2 t' 3 (M32 - 1)%N n fuel) by (reflexivity || lia).
    destruct (find _ _); [reflexivity|]. destruct (fuel - n) as [|f] eqn:Ef; [lia|]. cbn [scan]. rewrite Nat.eqb_refl. reflexivity. }
  destruct (N.eqb_spec t 0) as [Z|Z]; cbn [choose].
  - rewrite (scan_enter r c cn start 0 0 2 1%N n) by (try reflexivity; try lia; unfold enter; fold t; rewrite Z; reflexivity).
    destruct (find (fits r 1%N) _); [reflexivity|]. rewrite L3 by lia. destruct (find _ _); reflexivity.
  - rewrite (scan_enter r c cn start 0 0 1 (t - 1)%N n)
      by (try reflexivity; try lia; unfold enter; fold t; rewrite (proj2 (N.eqb_neq _ _) Z); reflexivity).
    destruct (find (fits r (t - 1)%N) _); [reflexivity|].
    rewrite (scan_enter r c cn start 1 _ 2 t n) by (try reflexivity; lia).
    destruct (find (fits r t) _); [reflexivity|]. rewrite L3 by lia. destruct (find _ _); reflexivity.
Qed.

Lemma round_all n start i : start < n -> i < n -> In i (round n start 0).
Proof.
  intros H I. unfold round. rewrite Nat.sub_0_r. apply in_map_iff.
  destruct (Nat.ltb_spec i start).
  - exists (i + n - start). split; [|apply in_seq; lia]. replace (start + (i + n - start)) with (i + 1 * n) by lia.
    rewrite Nat.mod_add by lia. apply Nat.mod_small. exact I.
  - exists (i - start). split; [|apply in_seq; lia]. replace (start + (i - start)) with i by lia. apply Nat.mod_small. exact I.
Qed.

Lemma choose_some r ts l i : choose r ts l = Some i -> exists t, In t ts /\ fits r t i = true.
Proof.
  induction ts as [|t ts IH]; cbn; [discriminate|]. destruct (find _ _) eqn:F.
  - intros [= ->]. apply find_some in F. exists t. tauto.
  - intros H. destruct (IH H) as (t' & I & E). exists t'. auto.
Qed.

(** if something fits target [t] then what is chosen fits some target up to [t] in the list *)
Lemma choose_upto r ts1 t ts2 l k : In k l -> fits r t k = true ->
  exists i t', choose r (ts1 ++ t :: ts2) l = Some i /\ In t' (ts1 ++ [t]) /\ fits r t' i = true.
Proof.
  intros I F. induction ts1 as [|t1 ts1 IH]; cbn [app choose].
  - destruct (find (fits r t) l) as [i|] eqn:E.
    + exists i, t. split; [reflexivity|]. split; [left; reflexivity|]. apply find_some in E. tauto.
    + exfalso. pose proof (find_none _ _ E k I). congruence.
  - destruct (find (fits r t1) l) as [i|] eqn:E.
    + exists i, t1. split; [reflexivity|]. split; [left; reflexivity|]. apply find_some in E. tauto.
    + destruct IH as (i & t' & H1 & H2 & H3). exists i, t'. repeat split; auto. right. exact H2.
Qed.

(** ** Shape of the ring *)
Record shape (q : jq) : Prop := {
  sh_head : exists d r, ring q = d :: r /\ sid d = 0%N;
  sh_nodup : NoDup (map sid (ring q));
  sh_count : count q = N.of_nat (length (ring q));
  sh_cur : cur q < length (ring q) }.

Definition same_rest (q q' : jq) : Prop :=
  conc q' = conc q /\ backlog q' = backlog q /\ maxbl q' = maxbl q /\ lifo q' = lifo q /\ tickets q' = tickets q.

Lemma find_idx_some s : forall r i, find_idx s r = Some i -> exists x, nth_error r i = Some x /\ sid x = s.
Proof.
  induction r as [|x r IH]; intros i; cbn; [discriminate|]. destruct (N.eqb_spec (sid x) s) as [E|E].
  - intros [= <-]. exists x. auto.
  - destruct (find_idx s r) as [k|]; [|discriminate]. intros [= <-]. cbn. apply IH. reflexivity.
Qed.
Lemma find_idx_none s : forall r, find_idx s r = None -> ~ In s (map sid r).
Proof.
  induction r as [|x r IH]; cbn; [auto|]. destruct (N.eqb_spec (sid x) s) as [E|E]; [discriminate|].
  destruct (find_idx s r) as [k|]; [discriminate|]. intros _ [H|H]; [auto|]. exact (IH eq_refl H).
Qed.

Lemma sid_enq lf j x : sid (sq_enq lf j x) = sid x.
Proof. unfold sq_enq. destruct lf; [reflexivity|]. destruct (tail x); reflexivity. Qed.
Lemma infl_enq lf j x : infl (sq_enq lf j x) = infl x.
Proof. unfold sq_enq. destruct lf; [reflexivity|]. destruct (tail x); reflexivity. Qed.

Definition empty_sq (s : N) : sq := {| sid := s; infl := 0; chain := []; tail := None |}.

Lemma sids_mid {a b} (x y : sq) : sid x = sid y -> map sid (a ++ x :: b) = map sid (a ++ y :: b).
Proof. intros E. rewrite !map_app. cbn. rewrite E. reflexivity. Qed.
Lemma len_mid {A} (a b : list A) x y : length (a ++ x :: b) = length (a ++ y :: b).
Proof. rewrite !app_length. reflexivity. Qed.

Lemma head_mid a b (x y : sq) : sid x = sid y -> (exists d r, a ++ x :: b = d :: r /\ sid d = 0%N) -> exists d r, a ++ y :: b = d :: r /\ sid d = 0%N.
Proof.
  intros E (d & r & H & Z). destruct a as [|u a]; cbn in *; injection H as <- _; [exists y, b; rewrite <- E|exists u, (a ++ y :: b)]; auto.
Qed.

Lemma push_spec q j : shape q -> exists a x b q',
  push q j = Some q' /\ ring q' = a ++ sq_enq (lifo q) j x :: b /\ sid x = sub j /\ shape q' /\ same_rest q q' /\
  (ring q = a ++ x :: b \/ (exists d, a = [d] /\ ring q = d :: b /\ x = empty_sq (sub j) /\ ~ In (sub j) (map sid (ring q)))).
Proof.
  intros [Hh Hn Hc Hu]. unfold push, get_sq.
  assert (OLD : forall i x, nth_error (ring q) i = Some x -> sid x = sub j ->
    exists a x b q', (match nth_error (ring q) i with
          | Some x => Some (with_ring q (set_nth i (sq_enq (lifo q) j x) (ring q))) | None => None end) = Some q' /\
      ring q' = a ++ sq_enq (lifo q) j x :: b /\ sid x = sub j /\ shape q' /\ same_rest q q' /\
      (ring q = a ++ x :: b \/ (exists d, a = [d] /\ ring q = d :: b /\ x = empty_sq (sub j) /\ ~ In (sub j) (map sid (ring q))))).
  { intros i x Ex Es. destruct (nth_split_set i _ _ Ex) as (a & b & E & _ & S1 & _).
    exists a, x, b. rewrite Ex. eexists. split; [reflexivity|]. cbn [ring with_ring]. rewrite S1. split; [reflexivity|]. split; [exact Es|].
    assert (SE : sid x = sid (sq_enq (lifo q) j x)) by (rewrite sid_enq; reflexivity).
    split.
    - split; cbn [ring with_ring count cur].
      + rewrite ?S1. apply (head_mid a b x); [exact SE|]. rewrite <- E. exact Hh.
      + rewrite ?S1. rewrite <- (@sids_mid a b x _ SE), <- E. exact Hn.
      + rewrite ?S1, <- (len_mid a b x), <- E. exact Hc.
      + rewrite ?S1, <- (len_mid a b x), <- E. exact Hu.
    - split; [repeat split|left; exact E]. }
  destruct (N.eqb_spec (sub j) 0) as [Z|Z].
  - destruct Hh as (d & r & E & D). apply (OLD 0 d); [rewrite E; reflexivity|congruence].
  - destruct (find_idx (sub j) (ring q)) as [i|] eqn:F.
    + destruct (find_idx_some _ _ _ F) as (x & Ex & Es). apply (OLD i x Ex Es).
    + pose proof (find_idx_none _ _ F) as NI. destruct Hh as (d & r & E & D). rewrite E. cbn [ring nth_error lifo set_nth with_ring].
      exists [d], (empty_sq (sub j)), r. eexists. split; [reflexivity|]. cbn [ring with_ring app]. split; [reflexivity|]. split; [reflexivity|].
      split; [|split; [repeat split|right; exists d; repeat split; auto; rewrite <- E; exact NI]].
      rewrite E in *. split; cbn [ring with_ring count cur].
      * exists d. eexists. split; [reflexivity|exact D].
      * cbn [map]. rewrite sid_enq. cbn [sid]. cbn [map] in Hn, NI. inversion_clear Hn as [|? ? N1 N2]. cbn [In] in NI.
        constructor; [cbn [In]; intros [H|H]; auto|]. constructor; auto.
      * cbn [length] in *. lia.
      * cbn [length] in *. destruct (Nat.eqb_spec (cur q) 0); lia.
Qed.

Lemma fits_mid r t i : fits r t i = true -> exists x j l, nth_error r i = Some x /\ chain x = j :: l /\ (infl x < t)%N.
Proof.
  unfold fits. destruct (nth_error r i) as [x|]; [|discriminate]. destruct (chain x) as [|j l] eqn:C; cbn; [discriminate|].
  intros H. exists x, j, l. repeat split; auto. lia.
Qed.

Lemma targets_max c n : exists ts, targets c n = ts ++ [(M32 - 1)%N].
Proof. unfold targets. destruct (_ =? _)%N; [exists [1%N]|exists [(c / n - 1)%N; (c / n)%N]]; reflexivity. Qed.

Lemma pop_spec q : shape q ->
  (exists a x b j l q', ring q = a ++ x :: b /\ chain x = j :: l /\ pop q = (Some j, q') /\ ring q' = a ++ sq_deq x :: b /\
     shape q' /\ same_rest q q' /\ choose (ring q) (targets (conc q) (count q)) (round (length (ring q)) (cur q) 0) = Some (length a)) \/
  (exists q', pop q = (None, q') /\ ring q' = ring q /\ shape q' /\ same_rest q q' /\
     (Forall (fun x => infl x < M32 - 1)%N (ring q) -> flat_map chain (ring q) = [])).
Proof.
  intros [Hh Hn Hc Hu]. unfold pop. rewrite scan_choose by exact Hu.
  destruct (choose _ _ _) as [i|] eqn:C.
  - left. destruct (choose_some _ _ _ _ C) as (t & _ & F). destruct (fits_mid _ _ _ F) as (x & j & l & Ex & Ec & _).
    rewrite Ex, Ec. destruct (nth_split_set i _ _ Ex) as (a & b & E & La & S1 & _).
    exists a, x, b, j, l. eexists. split; [exact E|]. split; [exact Ec|]. split; [reflexivity|]. cbn [ring]. rewrite S1. split; [reflexivity|].
    split.
    + split; cbn [ring count cur]; rewrite ?S1.
      * eapply (head_mid a b x); [reflexivity|]. rewrite <- E. exact Hh.
      * rewrite <- (@sids_mid a b x (sq_deq x) eq_refl), <- E. exact Hn.
      * rewrite <- (len_mid a b x), <- E. exact Hc.
      * rewrite <- (len_mid a b x), <- E. apply Nat.mod_upper_bound. lia.
    + split; [repeat split|]. rewrite La. reflexivity.
  - right. eexists. split; [reflexivity|]. cbn [ring]. split; [reflexivity|]. split; [split; cbn [ring count cur]; auto|].
    split; [repeat split|]. intros F. destruct (flat_map chain (ring q)) as [|j0 l0] eqn:Q; [reflexivity|exfalso].
    assert (I0 : In j0 (flat_map chain (ring q))) by (rewrite Q; left; reflexivity).
    apply in_flat_map in I0. destruct I0 as (x & Ix & Ij). destruct (In_nth_error _ _ Ix) as (k & Ek).
    destruct (targets_max (conc q) (count q)) as (ts & Et). rewrite Et in C.
    assert (Kb : k < length (ring q)) by (apply nth_error_Some; congruence).
    destruct (choose_upto (ring q) ts (M32 - 1)%N [] (round (length (ring q)) (cur q) 0) k) as (i & t' & E & _).
    + apply round_all; assumption.
    + unfold fits. rewrite Ek. destruct (chain x); [destruct Ij|]. rewrite Forall_forall in F. specialize (F x Ix). cbn [andb]. lia.
    + congruence.
Qed.

Lemma complete_spec q j : shape q -> In (sub j) (map sid (ring q)) -> exists a x b q',
  complete q j = Some q' /\ ring q = a ++ x :: b /\ sid x = sub j /\ shape q' /\ same_rest q q' /\
  (ring q' = a ++ sq_dec x :: b \/ (ring q' = a ++ b /\ sub j <> 0%N /\ infl (sq_dec x) = 0%N /\ chain x = [])).
Proof.
  intros [Hh Hn Hc Hu] I. unfold complete. destruct (find_idx (sub j) (ring q)) as [i|] eqn:F; [|destruct (find_idx_none _ _ F I)].
  destruct (find_idx_some _ _ _ F) as (x & Ex & Es). rewrite Ex. destruct (nth_split_set i _ _ Ex) as (a & b & E & La & S1 & S2).
  assert (KEEP : shape (with_ring q (a ++ sq_dec x :: b))).
  { split; cbn [ring with_ring count cur].
    - eapply (head_mid a b x); [reflexivity|]. rewrite <- E. exact Hh.
    - rewrite <- (@sids_mid a b x (sq_dec x) eq_refl), <- E. exact Hn.
    - rewrite <- (len_mid a b x), <- E. exact Hc.
    - rewrite <- (len_mid a b x), <- E. exact Hu. }
  exists a, x, b. destruct (N.eqb_spec (sub j) 0) as [Z|Z].
  - eexists. split; [reflexivity|]. split; [exact E|]. split; [exact Es|]. rewrite S1. split; [exact KEEP|]. split; [repeat split|]. left. reflexivity.
  - destruct ((infl (sq_dec x) =? 0)%N && _) eqn:D.
    + eexists. split; [reflexivity|]. split; [exact E|]. split; [exact Es|]. cbn [ring]. rewrite S2. split.
      * assert (A : a <> []). { intros ->. destruct Hh as (d & r & E' & D0). rewrite E in E'. cbn in E'. injection E' as -> ->. congruence. }
        assert (Len : length (ring q) = S (length (a ++ b))) by (rewrite E, !app_length; cbn; lia).
        assert (Pos : 0 < length a) by (destruct a; [congruence|cbn; lia]).
        split; cbn [ring count cur]; rewrite ?S2.
        -- destruct a as [|u a]; [congruence|]. destruct Hh as (d & r & E' & D0). rewrite E in E'. cbn in E'. injection E' as -> _. exists d, (a ++ b). auto.
        -- rewrite E in Hn. rewrite map_app in *. cbn [map] in Hn. apply NoDup_remove_1 in Hn. exact Hn.
        -- lia.
        -- rewrite app_length in *. destruct (Nat.eqb_spec (cur q) i).
           ++ rewrite Len. replace (S (length a + length b) - 1) with (length a + length b) by lia. apply Nat.mod_upper_bound. lia.
           ++ destruct (Nat.ltb_spec i (cur q)); lia.
      * split; [repeat split|]. right. rewrite andb_true_iff in D. destruct D as [D1 D2]. split; [reflexivity|]. split; [exact Z|]. split; [lia|].
        cbn [chain sq_dec] in D2. destruct (chain x); [reflexivity|discriminate].
    + eexists. split; [reflexivity|]. split; [exact E|]. split; [exact Es|]. rewrite S1. split; [exact KEEP|]. split; [repeat split|]. left. reflexivity.
Qed.

(** ** Jobs of one subqueue *)
Lemma of_sub_app n a b : of_sub n (a ++ b) = of_sub n a ++ of_sub n b.
Proof. apply filter_app. Qed.
Lemma of_sub_all n l : Forall (fun j => sub j = n) l -> of_sub n l = l.
Proof. induction 1 as [|j l E F IH]; [reflexivity|]. cbn. rewrite (proj2 (N.eqb_eq _ _) E). f_equal. exact IH. Qed.
Lemma of_sub_none n m l : n <> m -> Forall (fun j => sub j = m) l -> of_sub n l = [].
Proof. intros D. induction 1 as [|j l E F IH]; [reflexivity|]. cbn. rewrite (proj2 (N.eqb_neq _ _)) by congruence. exact IH. Qed.

Definition memb (x : sq) : Prop := Forall (fun j => sub j = sid x) (chain x).
Definition wl (n : N) (r : list sq) : list job := of_sub n (flat_map chain r).

Lemma wl_app n a b : wl n (a ++ b) = wl n a ++ wl n b.
Proof. unfold wl. rewrite flat_map_app. apply of_sub_app. Qed.
Lemma wl_absent n r : Forall memb r -> ~ In n (map sid r) -> wl n r = [].
Proof.
  induction 1 as [|x r Mx Mr IH]; intros N; [reflexivity|]. unfold wl. cbn [flat_map]. rewrite of_sub_app.
  cbn in N. rewrite (of_sub_none n (sid x)); [|intuition congruence|exact Mx]. apply IH. tauto.
Qed.
Lemma wl_mid a x b : Forall memb (a ++ x :: b) -> NoDup (map sid (a ++ x :: b)) -> wl (sid x) (a ++ x :: b) = chain x.
Proof.
  intros M N. apply Forall_app in M. destruct M as [Ma Mb]. inversion_clear Mb as [|? ? Mx Mb'].
  rewrite map_app in N. cbn [map] in N. pose proof (NoDup_remove_2 _ _ _ N) as NI. rewrite in_app_iff in NI.
  rewrite wl_app, (wl_absent _ a) by tauto. change (x :: b) with ([x] ++ b). rewrite wl_app, (wl_absent _ b) by tauto.
  unfold wl. cbn [flat_map app]. rewrite !app_nil_r. apply of_sub_all. exact Mx.
Qed.
Lemma wl_other n a x y b : n <> sid x -> sid x = sid y -> memb x -> memb y -> wl n (a ++ x :: b) = wl n (a ++ y :: b).
Proof.
  intros D E Mx My. rewrite !wl_app. f_equal. unfold wl. cbn [flat_map]. rewrite !of_sub_app.
  rewrite (of_sub_none n (sid x) _ D Mx). rewrite E in D. rewrite (of_sub_none n (sid y) _ D My). reflexivity.
Qed.

(** ** First invariant: structure, holds in every schedule *)
Definition hands (p : pc) : list job := match p with DDec j | Working j => [j] | _ => [] end.
Definition nh (n : N) (cs : list pc) : nat := length (of_sub n (flat_map hands cs)).
Lemma nh_app n a b : nh n (a ++ b) = nh n a + nh n b.
Proof. unfold nh. rewrite flat_map_app, of_sub_app, app_length. reflexivity. Qed.
Lemma nh_cons n p b : nh n (p :: b) = length (of_sub n (hands p)) + nh n b.
Proof. unfold nh. cbn [flat_map]. rewrite of_sub_app, app_length. reflexivity. Qed.
Definition nc (cs : list pc) : nat := length (filter consumer cs).
Lemma nc_app a b : nc (a ++ b) = nc a + nc b.
Proof. unfold nc. rewrite filter_app, app_length. reflexivity. Qed.
Lemma nc_cons p b : nc (p :: b) = (if consumer p then 1 else 0) + nc b.
Proof. unfold nc. cbn [filter]. destruct (consumer p); reflexivity. Qed.
Lemma nh_nc n cs : nh n cs <= nc cs.
Proof.
  induction cs as [|p cs IH]; [reflexivity|]. rewrite nh_cons, nc_cons.
  assert (length (of_sub n (hands p)) <= if consumer p then 1 else 0) by (destruct p; cbn; try lia; destruct (_ =? _)%N; cbn; lia). lia.
Qed.

Record InvA (s : sys) : Prop := {
  a_shape : shape (q s);
  a_mem : Forall memb (ring (q s));
  a_infl : Forall (fun x => infl x = N.of_nat (nh (sid x) (calls s))) (ring (q s));
  a_pres : Forall (fun j => In (sub j) (map sid (ring (q s)))) (flat_map hands (calls s));
  a_thr : (N.of_nat (nc (calls s)) <= workers s)%N;
  a_w : (workers s < M32 - 1)%N }.

Lemma InvA_init c mb lf w : few_workers w -> InvA (init c mb lf w).
Proof.
  intros W. split; cbn.
  - split; cbn; try lia; [eexists; eexists; split; reflexivity|repeat constructor; auto].
  - repeat constructor.
  - repeat constructor.
  - constructor.
  - lia.
  - exact W.
Qed.

Definition same_ring (q q' : jq) : Prop := ring q' = ring q /\ count q' = count q /\ cur q' = cur q.

Lemma InvA_frame s s' : InvA s -> same_ring (q s) (q s') -> workers s' = workers s ->
  flat_map hands (calls s') = flat_map hands (calls s) -> (N.of_nat (nc (calls s')) <= workers s)%N -> InvA s'.
Proof.
  intros [[Hh Hn Hc Hu] M F P T W] (R1 & R2 & R3) E H C.
  split; rewrite ?R1, ?H, ?E; auto.
  - split; rewrite ?R1, ?R2, ?R3; auto.
  - revert F. apply Forall_impl. intros x ->. unfold nh. rewrite H. reflexivity.
Qed.

Lemma infl_other n j a p p' b : (forall i, hands p = [] /\ hands p' = [i] -> i = j) -> sub j <> n -> hands p = [] -> hands p' = [j] ->
  nh n (a ++ p' :: b) = nh n (a ++ p :: b).
Proof. intros _ D E1 E2. rewrite !nh_app, !nh_cons, E1, E2. cbn. rewrite (proj2 (N.eqb_neq _ _) D). reflexivity. Qed.

Lemma stepA s c : InvA s -> exists s', step s c = Some s' /\ InvA s'.
Proof.
  intros A. destruct c as [f sb|f sb|bl|b|n|i|i]; cbn [step].
  - eexists. split; [reflexivity|]. destruct (_ && _); [exact A|]. apply (InvA_frame s); [exact A|repeat split|reflexivity| |].
    + destruct f; reflexivity.
    + cbn [calls start]. rewrite nc_cons. destruct f; apply (a_thr _ A).
  - eexists. split; [reflexivity|]. destruct (_ && _); [exact A|]. apply (InvA_frame s); [exact A|repeat split|reflexivity| |].
    + destruct f; [destruct (_ =? _)%N|]; reflexivity.
    + cbn [calls start]. rewrite nc_cons. destruct f; [destruct (_ =? _)%N|]; apply (a_thr _ A).
  - eexists. split; [reflexivity|]. fold (nc (calls s)). destruct (N.ltb_spec (N.of_nat (nc (calls s))) (workers s)) as [L|L]; [|exact A].
    apply (InvA_frame s); [exact A|repeat split|reflexivity|reflexivity|]. cbn [calls start]. rewrite nc_cons. cbn [consumer]. lia.
  - eexists. split; [reflexivity|]. apply (InvA_frame s); [exact A|repeat split|reflexivity|reflexivity|apply (a_thr _ A)].
  - eexists. split; [reflexivity|]. apply (InvA_frame s); [exact A|repeat split|reflexivity|reflexivity|apply (a_thr _ A)].
  - destruct (nth_error (calls s) i) as [p|] eqn:Ep; [|exists s; auto].
    destruct (nth_split_set i _ _ Ep) as (a & b & E & _ & S1 & S2).
    assert (T : (N.of_nat (nc (a ++ p :: b)) <= workers s)%N) by (rewrite <- E; apply (a_thr _ A)). rewrite nc_app, nc_cons in T.
    assert (FR : forall q' p' h, same_ring (q s) q' -> hands p' = hands p -> (consumer p' = true -> consumer p = true) -> InvA (goto s i q' p' h)).
    { intros q' p' h R H C. apply (InvA_frame s); [exact A|exact R|reflexivity| |].
      - cbn [calls goto]. rewrite S1, E, !flat_map_app. cbn [flat_map]. rewrite H. reflexivity.
      - cbn [calls goto]. rewrite S1, nc_app, nc_cons. destruct (consumer p'); [rewrite C in T by reflexivity|]; lia. }
    assert (FN : forall q' rf n, same_ring (q s) q' -> hands p = [] -> InvA (finish s i q' rf n)).
    { intros q' rf n R H. apply (InvA_frame s); [exact A|exact R|reflexivity| |].
      - cbn [calls finish]. rewrite S2, E, !flat_map_app. cbn [flat_map]. rewrite H. reflexivity.
      - cbn [calls finish]. rewrite S2, nc_app. lia. }
    destruct p as [j|j|j bl|j| |bk| |j|j].
    + eexists. split; [reflexivity|]. apply FR; [repeat split|reflexivity|auto].
    + destruct (_ <=? _)%N; eexists; (split; [reflexivity|]); [apply FN|apply FR]; auto; repeat split.
    + destruct (_ =? _)%N; eexists; (split; [reflexivity|]); apply FR; auto; repeat split.
    + (* EPush *)
      destruct (push_spec (q s) j (a_shape _ A)) as (ra & x & rb & q' & -> & R & Sx & Sh & Rest & Old).
      eexists. split; [reflexivity|].
      assert (Hh : flat_map hands (a ++ ENotify :: b) = flat_map hands (calls s)) by (rewrite E, !flat_map_app; reflexivity).
      assert (MX : memb x /\ Forall memb ra /\ Forall memb rb /\ infl x = N.of_nat (nh (sid x) (calls s)) /\
                   Forall (fun x => infl x = N.of_nat (nh (sid x) (calls s))) (ra ++ rb) /\ incl (map sid (ring (q s))) (map sid (ring q'))).
      { pose proof (a_mem _ A) as M. pose proof (a_infl _ A) as F. destruct Old as [O|(d & -> & O & -> & NI)]; rewrite O in *.
        - apply Forall_app in M. destruct M as [M1 M2]. inversion_clear M2 as [|? ? M3 M4].
          apply Forall_app in F. destruct F as [F1 F2]. inversion_clear F2 as [|? ? F3 F4].
          repeat split; auto; [apply Forall_app; auto|]. rewrite R. rewrite (@sids_mid ra rb x (sq_enq (lifo (q s)) j x)) by (rewrite sid_enq; reflexivity). apply incl_refl.
        - inversion_clear M as [|? ? M1 M2]. inversion_clear F as [|? ? F1 F2]. split; [constructor|]. split; [auto|]. split; [auto|].
          split; [|split].
          + cbn [infl sid empty_sq]. enough (nh (sub j) (calls s) = 0) by lia. pose proof (a_pres _ A) as P. unfold nh.
            destruct (of_sub (sub j) (flat_map hands (calls s))) as [|y l] eqn:Q; [reflexivity|exfalso].
            assert (Iy : In y (of_sub (sub j) (flat_map hands (calls s)))) by (rewrite Q; left; reflexivity).
            apply filter_In in Iy. destruct Iy as [I1 I2]. rewrite Forall_forall in P. specialize (P y I1). apply N.eqb_eq in I2. rewrite I2, O in P. exact (NI P).
          + constructor; auto.
          + rewrite R. cbn [app map]. intros y [Y|Y]; [left; exact Y|right; right; exact Y]. }
      destruct MX as (M1 & M2 & M3 & F1 & F2 & INC). apply Forall_app in F2. destruct F2 as [F2 F3].
      assert (NHE : forall n, nh n (a ++ ENotify :: b) = nh n (calls s)) by (intros; unfold nh; rewrite Hh; reflexivity).
      split; cbn [q calls goto workers]; rewrite ?S1, ?R.
      * exact Sh.
      * apply Forall_app. split; [exact M2|]. constructor; [|exact M3]. unfold memb. rewrite sid_enq. unfold sq_enq.
        assert (AA : forall t l, Forall (fun y => sub y = sid x) l -> Forall (fun y => sub y = sid x) (append_after t l j)).
        { intros t l. induction 1 as [|y l Y1 Y2 IH]; cbn; [constructor|]. destruct (_ =? _); repeat constructor; auto. }
        destruct (lifo (q s)); [|destruct (tail x)]; cbn [chain]; [constructor; auto| |constructor; auto]. apply AA, M1.
      * apply Forall_app. split; [revert F2; apply Forall_impl; intros y ->; rewrite NHE; reflexivity|]. constructor.
        -- rewrite infl_enq, sid_enq, NHE. exact F1.
        -- revert F3. apply Forall_impl. intros y ->. rewrite NHE. reflexivity.
      * rewrite Hh. rewrite R in INC. pose proof (a_pres _ A) as P. revert P. apply Forall_impl. intros y. apply INC.
      * rewrite nc_app, nc_cons. cbn [consumer] in *. lia.
      * apply (a_w _ A).
    + eexists. split; [reflexivity|]. apply FN; [repeat split|reflexivity].
    + destruct (tickets (q s)); [destruct bk|]; eexists; (split; [reflexivity|]); [exact A|apply FN|apply FR]; auto; repeat split.
    + (* DPop *)
      destruct (pop_spec (q s) (a_shape _ A)) as [(ra & x & rb & j & l & q' & R & Cx & -> & R' & Sh & Rest & _)|(q' & -> & R & Sh & Rest & _)].
      * eexists. split; [reflexivity|]. set (p' := if fd j then DDec j else Working j).
        assert (Hp : hands p' = [j]) by (unfold p'; destruct (fd j); reflexivity).
        assert (Cp : consumer p' = true) by (unfold p'; destruct (fd j); reflexivity).
        pose proof (a_mem _ A) as M. pose proof (a_infl _ A) as F. rewrite R in M, F.
        apply Forall_app in M. destruct M as [M1 M2]. inversion_clear M2 as [|? ? M3 M4].
        apply Forall_app in F. destruct F as [F1 F2]. inversion_clear F2 as [|? ? F3 F4].
        assert (Sj : sub j = sid x) by (unfold memb in M3; rewrite Cx in M3; inversion_clear M3; assumption).
        pose proof (sh_nodup _ (a_shape _ A)) as ND. rewrite R, map_app in ND. cbn [map] in ND. apply NoDup_remove_2 in ND. rewrite in_app_iff in ND.
        assert (OTH : forall n, n <> sid x -> nh n (a ++ p' :: b) = nh n (calls s)).
        { intros n D. rewrite E, !nh_app, !nh_cons, Hp. cbn. rewrite (proj2 (N.eqb_neq _ _)) by congruence. reflexivity. }
        assert (OTHs : forall r, ~ In (sid x) (map sid r) -> Forall (fun x => infl x = N.of_nat (nh (sid x) (calls s))) r ->
                   Forall (fun x => infl x = N.of_nat (nh (sid x) (a ++ p' :: b))) r).
        { intros r NI F. rewrite Forall_forall in *. intros y Y. rewrite OTH; [auto|]. intros D. apply NI. rewrite <- D. apply in_map, Y. }
        split; cbn [q calls goto workers]; rewrite ?S1, ?R'.
        -- exact Sh.
        -- apply Forall_app. split; [exact M1|]. constructor; [|exact M4]. unfold memb in *. cbn [sid chain sq_deq]. rewrite Cx in *. inversion_clear M3; assumption.
        -- apply Forall_app. split; [apply OTHs; tauto|]. constructor; [|apply OTHs; tauto]. cbn [sid infl sq_deq].
           pose proof (nh_nc (sid x) (calls s)). rewrite F3. rewrite E in *. rewrite !nh_app, !nh_cons, Hp in *. cbn [hands of_sub filter length] in *.
           rewrite Sj, N.eqb_refl. cbn [length]. pose proof (a_w _ A). rewrite nc_app, nc_cons in *. cbn [consumer] in *.
           unfold inc32. rewrite N.mod_small; lia.
        -- rewrite (@sids_mid ra rb (sq_deq x) x) by reflexivity. rewrite <- R. pose proof (a_pres _ A) as P. rewrite E, flat_map_app in P. cbn [flat_map hands app] in P.
           rewrite flat_map_app. cbn [flat_map]. rewrite Hp. apply Forall_app in P. destruct P as [P1 P2].
           apply Forall_app. split; [exact P1|]. cbn [app]. constructor; [|exact P2]. rewrite R, map_app, in_app_iff. cbn [map In]. auto.
        -- rewrite nc_app, nc_cons, Cp. cbn [consumer] in T. exact T.
        -- apply (a_w _ A).
      * eexists. split; [reflexivity|].
        assert (Hh : flat_map hands (a ++ b) = flat_map hands (calls s)) by (rewrite E, !flat_map_app; reflexivity).
        split; cbn [q calls finish workers]; rewrite ?S2, ?R, ?Hh; try apply A.
        -- exact Sh.
        -- pose proof (a_infl _ A) as F. revert F. apply Forall_impl. intros y ->. unfold nh. rewrite Hh. reflexivity.
        -- rewrite nc_app. lia.
    + eexists. split; [reflexivity|]. apply FR; [repeat split|reflexivity|auto].
    + (* Working *)
      pose proof (a_pres _ A) as P. rewrite E, flat_map_app in P. apply Forall_app in P. destruct P as [P1 P2]. cbn [flat_map hands app] in P2. inversion_clear P2 as [|? ? Pj P3].
      destruct (complete_spec (q s) j (a_shape _ A) Pj) as (ra & x & rb & q' & -> & R & Sx & Sh & Rest & New).
      eexists. split; [reflexivity|].
      pose proof (a_mem _ A) as M. pose proof (a_infl _ A) as F. rewrite R in M, F.
      apply Forall_app in M. destruct M as [M1 M2]. inversion_clear M2 as [|? ? M3 M4].
      apply Forall_app in F. destruct F as [F1 F2]. inversion_clear F2 as [|? ? F3 F4].
      pose proof (sh_nodup _ (a_shape _ A)) as ND. rewrite R, map_app in ND. cbn [map] in ND. apply NoDup_remove_2 in ND. rewrite in_app_iff in ND.
      assert (OTHs : forall r, ~ In (sid x) (map sid r) -> Forall (fun x => infl x = N.of_nat (nh (sid x) (calls s))) r ->
                 Forall (fun x => infl x = N.of_nat (nh (sid x) (a ++ b))) r).
      { intros r NI F. rewrite Forall_forall in *. intros y Y. rewrite F by exact Y. rewrite E, !nh_app, nh_cons. cbn [hands of_sub filter].
        rewrite (proj2 (N.eqb_neq _ _)); [cbn [length]; lia|]. intros D. apply NI. rewrite Sx, D. apply in_map, Y. }
      assert (IX : infl (sq_dec x) = N.of_nat (nh (sid x) (a ++ b))).
      { cbn [infl sq_dec]. rewrite F3, E, !nh_app, nh_cons. cbn [hands of_sub filter]. rewrite Sx, N.eqb_refl. cbn [length].
        unfold dec32. destruct (N.eqb_spec (N.of_nat (nh (sub j) a + (1 + nh (sub j) b))) 0); lia. }
      destruct New as [R'|(R' & NZ & IZ & CE)].
      * split; cbn [q calls finish workers]; rewrite ?S2, ?R'.
        -- exact Sh.
        -- apply Forall_app. split; [exact M1|]. constructor; [exact M3|exact M4].
        -- apply Forall_app. split; [apply OTHs; tauto|]. constructor; [exact IX|apply OTHs; tauto].
        -- rewrite (@sids_mid ra rb (sq_dec x) x) by reflexivity. rewrite <- R, flat_map_app. apply Forall_app. auto.
        -- rewrite nc_app. lia.
        -- apply (a_w _ A).
      * split; cbn [q calls finish workers]; rewrite ?S2, ?R'.
        -- exact Sh.
        -- apply Forall_app. auto.
        -- apply Forall_app. split; apply OTHs; tauto.
        -- rewrite IX in IZ. assert (Z : nh (sid x) (a ++ b) = 0) by lia. rewrite flat_map_app.
           assert (P : Forall (fun j0 => In (sub j0) (map sid (ring (q s)))) (flat_map hands a ++ flat_map hands b)) by (apply Forall_app; auto).
           unfold nh in Z. rewrite flat_map_app in Z. rewrite Forall_forall in *. intros y Y. specialize (P y Y). rewrite R, map_app, in_app_iff in P. cbn [map In] in P.
           rewrite map_app, in_app_iff. destruct P as [P|[P|P]]; auto. exfalso.
           assert (I : In y (of_sub (sid x) (flat_map hands a ++ flat_map hands b))) by (apply filter_In; split; [exact Y|apply N.eqb_eq; auto]).
           destruct (of_sub _ _); [destruct I|discriminate].
        -- rewrite nc_app. lia.
        -- apply (a_w _ A).
  - destruct (nth_error (calls s) i) as [p|] eqn:Ep; [|exists s; auto].
    destruct p as [j|j|j bl|j| |[|]| |j|j]; try (exists s; split; [reflexivity|exact A]).
    destruct (nth_split_set i _ _ Ep) as (a & b & E & _ & S1 & S2). eexists. split; [reflexivity|].
    pose proof (a_thr _ A) as T. rewrite E, nc_app, nc_cons in T.
    apply (InvA_frame s); [exact A|repeat split|reflexivity| |]; cbn [calls finish]; rewrite S2; [rewrite E, !flat_map_app; reflexivity|rewrite nc_app; lia].
Qed.

Lemma runA cs : forall s, InvA s -> exists s', run s cs = Some s' /\ InvA s'.
Proof.
  induction cs as [|c cs IH]; intros s A; cbn [run]; [exists s; auto|].
  destruct (stepA s c A) as (s1 & -> & A1). apply IH, A1.
Qed.

(** ** Second invariant: nothing is lost, while LIFO stays set once set *)
Definition entering (p : pc) : list job := match p with EInc j | ELoad j | ECas j _ | EPush j => [j] | _ => [] end.
Definition tail_ok (lf : bool) (x : sq) : Prop :=
  match tail x with None => chain x = [] \/ lf = true | Some t => exists l y, chain x = l ++ [y] /\ jid y = t end.
Definition isPop (p : pc) : nat := match p with DPop => 1 | _ => 0 end.
Definition isNot (p : pc) : nat := match p with ENotify => 1 | _ => 0 end.
Fixpoint sum {A} (f : A -> nat) (l : list A) : nat := match l with [] => 0 | x :: r => f x + sum f r end.
Lemma sum_app {A} (f : A -> nat) a b : sum f (a ++ b) = sum f a + sum f b.
Proof. induction a as [|x a IH]; cbn [sum app]; [reflexivity|]. rewrite IH. lia. Qed.
Definition nf (l : list job) : nat := length (filter fd l).
Lemma nf_app a b : nf (a ++ b) = nf a + nf b.
Proof. unfold nf. rewrite filter_app, app_length. reflexivity. Qed.
Lemma nf_one j : nf [j] = if fd j then 1 else 0.
Proof. unfold nf. cbn. destruct (fd j); reflexivity. Qed.
Lemma nf_cons j l : nf (j :: l) = (if fd j then 1 else 0) + nf l.
Proof. unfold nf. cbn. destruct (fd j); reflexivity. Qed.
Definition unstarted (p : pc) : nat := nf (accepted p) + nf (leaving p).
Lemma unstarted_sum cs : nf (flat_map accepted cs) + nf (flat_map leaving cs) = sum unstarted cs.
Proof. induction cs as [|p cs IH]; [reflexivity|]. cbn [flat_map sum]. rewrite !nf_app. unfold unstarted at 1. lia. Qed.
Lemma not_started_sum s : not_started s = sum unstarted (calls s) + nf (waiting s).
Proof. unfold not_started. fold (nf (flat_map accepted (calls s) ++ waiting s ++ flat_map leaving (calls s))). rewrite !nf_app. pose proof (unstarted_sum (calls s)). lia. Qed.

Lemma inc32_mod n : inc32 (N.of_nat n mod M32) = (N.of_nat (S n) mod M32)%N.
Proof. unfold inc32. rewrite N.add_mod_idemp_l by discriminate. f_equal. lia. Qed.
Lemma dec32_mod n : dec32 (N.of_nat (S n) mod M32) = (N.of_nat n mod M32)%N.
Proof.
  replace (N.of_nat (S n)) with (N.of_nat n + 1)%N by lia. unfold dec32.
  pose proof (N.mod_lt (N.of_nat n) M32 ltac:(discriminate)) as L. set (m := (N.of_nat n mod M32)%N) in *.
  rewrite <- (N.add_mod_idemp_l (N.of_nat n)) by discriminate. fold m.
  destruct (N.eq_dec m (M32 - 1)) as [->|D].
  - reflexivity.
  - rewrite N.mod_small by lia. destruct (N.eqb_spec (m + 1) 0); lia.
Qed.

Definition okfd (p : pc) : Prop := match p with EInc j | ELoad j | ECas j _ | DDec j => fd j = true | _ => True end.

Record InvB (s : sys) : Prop := {
  b_fd : Forall okfd (calls s);
  b_line : forall n, line n (hist s) = Some (waiting_in n s);
  b_tail : Forall (tail_ok (lifo (q s))) (ring (q s));
  b_ids : NoDup (map jid (flat_map entering (calls s) ++ put_in (hist s)));
  b_fresh : Forall (fun j => jid j < fresh s) (flat_map entering (calls s) ++ put_in (hist s));
  b_tick : length (waiting s) = tickets (q s) + sum isPop (calls s) + sum isNot (calls s);
  b_back : backlog (q s) = (N.of_nat (sum unstarted (calls s) + nf (waiting s)) mod M32)%N;
  b_nulls : nulls s = 0 }.

Lemma InvB_init c mb lf w : InvB (init c mb lf w).
Proof. split; cbn; auto; repeat constructor. Qed.

Lemma line_perm n : forall h l, line n h = Some l -> Permutation (of_sub n (put_in h)) (of_sub n (handed_out h) ++ l).
Proof.
  induction h as [|e h IH]; intros l; cbn [line put_in handed_out]; [intros [= <-]; constructor|].
  destruct (line n h) as [l0|]; [|discriminate]. specialize (IH l0 eq_refl). destruct e as [j lf|j]; rewrite of_sub_app; cbn [of_sub filter].
  - destruct (N.eqb_spec (sub j) n) as [E|E]; [|intros [= <-]; rewrite app_nil_r; exact IH].
    intros [= <-]. rewrite IH. destruct lf.
    + rewrite <- app_assoc. apply Permutation_app_head. apply Permutation_sym, Permutation_cons_append.
    + rewrite app_assoc. reflexivity.
  - destruct (N.eqb_spec (sub j) n) as [E|E]; [|intros [= <-]; rewrite app_nil_r; exact IH].
    destruct l0 as [|x l0]; [discriminate|]. destruct (job_eq_dec x j) as [->|]; [|discriminate]. intros [= <-].
    rewrite IH, <- app_assoc. reflexivity.
Qed.

Lemma NoDup_app_r {A} (a b : list A) : NoDup (a ++ b) -> NoDup b.
Proof. induction a as [|x a IH]; cbn; [auto|]. inversion_clear 1. auto. Qed.
Lemma NoDup_map_filter {A B} (f : A -> B) p l : NoDup (map f l) -> NoDup (map f (filter p l)).
Proof.
  induction l as [|x l IH]; cbn; [auto|]. inversion_clear 1 as [|? ? N1 N2]. destruct (p x); [|auto]. cbn. constructor; [|auto].
  intros I. apply N1. apply in_map_iff in I. destruct I as (y & E & I). apply filter_In in I. rewrite <- E. apply in_map. tauto.
Qed.

Lemma chain_nodup s : InvB s -> forall n, NoDup (map jid (waiting_in n s)).
Proof.
  intros B n. pose proof (line_perm _ _ _ (b_line _ B n)) as P. apply (Permutation_map jid) in P. rewrite map_app in P.
  eapply NoDup_app_r. eapply Permutation_NoDup; [exact P|]. apply NoDup_map_filter. pose proof (b_ids _ B) as N. rewrite map_app in N. eapply NoDup_app_r, N.
Qed.

Lemma append_last t l y j : NoDup (map jid (l ++ [y])) -> jid y = t -> append_after t (l ++ [y]) j = (l ++ [y]) ++ [j].
Proof.
  intros N E. induction l as [|x l IH]; cbn [app append_after].
  - rewrite E, Nat.eqb_refl. reflexivity.
  - cbn [app map] in N. inversion_clear N as [|? ? N1 N2]. destruct (Nat.eqb_spec (jid x) t) as [Q|Q].
    + exfalso. apply N1. rewrite map_app, in_app_iff. right. left. cbn. congruence.
    + rewrite IH by exact N2. reflexivity.
Qed.

Lemma InvB_move s s' a p b l : InvB s -> calls s = a ++ p :: b -> calls s' = a ++ l ++ b ->
  ring (q s') = ring (q s) -> lifo (q s') = lifo (q s) -> hist s' = hist s -> nulls s' = nulls s -> fresh s' = fresh s ->
  flat_map entering l = entering p \/ flat_map entering l = [] ->
  tickets (q s') + sum isPop l + sum isNot l = tickets (q s) + isPop p + isNot p -> Forall okfd l ->
  backlog (q s') = (N.of_nat (sum unstarted (a ++ l ++ b) + nf (waiting s)) mod M32)%N ->
  InvB s'.
Proof.
  intros B E E' R L H N F I T OK K.
  assert (W : waiting s' = waiting s) by (unfold waiting; rewrite R; reflexivity).
  assert (EX : exists pre, Permutation (flat_map entering (calls s) ++ put_in (hist s)) (pre ++ flat_map entering (calls s') ++ put_in (hist s'))).
  { rewrite E, E', H, !flat_map_app. cbn [flat_map]. destruct I as [I|I]; rewrite I.
    - exists []. reflexivity.
    - exists (entering p). cbn [app]. rewrite !app_assoc. do 2 apply Permutation_app_tail. apply Permutation_app_comm. }
  destruct EX as (pre & P).
  split.
  - pose proof (b_fd _ B) as Q. rewrite E in Q. rewrite E'. apply Forall_app in Q. destruct Q as [Q1 Q2]. inversion_clear Q2. repeat (apply Forall_app; split); auto.
  - intros n. rewrite H, (b_line _ B n). unfold waiting_in. rewrite W. reflexivity.
  - rewrite R, L. apply B.
  - apply (NoDup_app_r (map jid pre)). rewrite <- map_app. eapply Permutation_NoDup; [apply Permutation_map, P|apply B].
  - rewrite F. pose proof (b_fresh _ B) as Q. rewrite P in Q. apply Forall_app in Q. tauto.
  - rewrite W, (b_tick _ B), E, E', !sum_app. cbn [sum]. lia.
  - rewrite E', W. exact K.
  - rewrite N. apply B.
Qed.

Lemma InvB_start s p fr : InvB s -> okfd p -> isPop p = 0 -> isNot p = 0 -> unstarted p = 0 ->
  (entering p = [] /\ fr = fresh s) \/ (exists j, entering p = [j] /\ jid j = fresh s /\ fr = S (fresh s)) -> InvB (start s p fr).
Proof.
  intros B OK P N U0 H.
  assert (K : Forall (fun j => jid j < fr) (entering p ++ flat_map entering (calls s) ++ put_in (hist s)) /\
     NoDup (map jid (entering p ++ flat_map entering (calls s) ++ put_in (hist s)))).
  { pose proof (b_fresh _ B) as F. destruct H as [[-> ->]|(j & -> & J & ->)]; [split; apply B|]. cbn [app map]. split.
    - constructor; [lia|]. revert F. apply Forall_impl. intros; lia.
    - constructor; [|apply B]. intros I. apply in_map_iff in I. destruct I as (y & E & I).
      rewrite Forall_forall in F. specialize (F y I). lia. }
  destruct K as [F D]. split; cbn [start q calls fresh hist nulls]; try apply B.
  - constructor; [exact OK|apply B].
  - cbn [flat_map]. rewrite <- app_assoc. exact D.
  - cbn [flat_map]. rewrite <- app_assoc. exact F.
  - cbn [sum]. rewrite P, N. apply B.
  - cbn [sum]. rewrite U0. apply B.
Qed.

Lemma waiting_mid s a x b : ring (q s) = a ++ x :: b -> length (waiting s) = length (flat_map chain a) + length (chain x) + length (flat_map chain b) /\
  nf (waiting s) = nf (flat_map chain a) + nf (chain x) + nf (flat_map chain b).
Proof. intros E. unfold waiting. rewrite E, flat_map_app. cbn [flat_map]. rewrite !app_length, !nf_app. lia. Qed.

Lemma stepB s c s' : InvA s -> InvB s -> (c = SetLifo false -> lifo (q s) = true -> waiting s = []) -> step s c = Some s' -> InvB s'.
Proof.
  intros A B C St.
  assert (A' : InvA s') by (destruct (stepA s c A) as (s1 & E1 & A1); congruence).
  destruct c as [f sb|f sb|bl|b|n|i|i]; cbn [step] in St.
  - injection St as <-. destruct (_ && _); [exact B|].
    apply InvB_start; [exact B|destruct f; cbn; auto..|]. right. eexists. split; [destruct f; reflexivity|]. split; reflexivity.
  - injection St as <-. destruct (_ && _); [exact B|].
    apply InvB_start; [exact B|destruct f; [destruct (_ =? _)%N|]; cbn; auto..|]. right. eexists.
    split; [destruct f; [destruct (_ =? _)%N|]; reflexivity|]. split; reflexivity.
  - injection St as <-. destruct (_ <? _)%N; [|exact B]. apply InvB_start; [exact B|cbn; auto..|]. left. split; reflexivity.
  - injection St as <-. split; cbn [set_q q calls fresh hist nulls with_lifo ring lifo tickets backlog]; try apply B.
    pose proof (b_tail _ B) as T. rewrite Forall_forall in *. intros x Ix. specialize (T x Ix). unfold tail_ok in *. destruct (tail x); [exact T|].
    destruct b; [auto|]. destruct T as [T|T]; [auto|]. left. specialize (C eq_refl T). unfold waiting in C.
    destruct (chain x) as [|y l] eqn:Ec; [reflexivity|exfalso]. assert (In y (flat_map chain (ring (q s)))) as I by (apply in_flat_map; exists x; rewrite Ec; split; [exact Ix|left; reflexivity]).
    rewrite C in I. destruct I.
  - injection St as <-. split; cbn [set_q q calls fresh hist nulls with_conc ring lifo tickets backlog]; apply B.
  - destruct (nth_error (calls s) i) as [p|] eqn:Ep; [|injection St as <-; exact B].
    destruct (nth_split_set i _ _ Ep) as (a & b & E & _ & S1 & S2).
    pose proof (b_back _ B) as K. rewrite E, sum_app in K. cbn [sum] in K.
    assert (OKp : okfd p /\ Forall okfd a /\ Forall okfd b).
    { pose proof (b_fd _ B) as Q. rewrite E in Q. apply Forall_app in Q. destruct Q as [Q1 Q2]. inversion_clear Q2. auto. }
    destruct OKp as (OKp & OKa & OKb).
    assert (GO : forall q' p', ring q' = ring (q s) -> lifo q' = lifo (q s) -> entering p' = entering p -> okfd p' ->
       tickets q' + isPop p' + isNot p' = tickets (q s) + isPop p + isNot p ->
       backlog q' = (N.of_nat (sum unstarted a + (unstarted p' + sum unstarted b) + nf (waiting s)) mod M32)%N -> InvB (goto s i q' p' (hist s))).
    { intros q' p' R L I OK T K'. apply (InvB_move s _ a p b [p']); auto.
      - cbn [calls goto]. apply S1.
      - left. cbn [flat_map]. rewrite I. apply app_nil_r.
      - cbn [q goto sum]. lia.
      - cbn [q goto]. rewrite K'. do 2 f_equal. cbn [app]. rewrite sum_app. reflexivity. }
    assert (FI : forall q' rf, ring q' = ring (q s) -> lifo q' = lifo (q s) -> tickets q' = tickets (q s) + isPop p + isNot p ->
       backlog q' = (N.of_nat (sum unstarted a + sum unstarted b + nf (waiting s)) mod M32)%N -> InvB (finish s i q' rf (nulls s))).
    { intros q' rf R L T K'. apply (InvB_move s _ a p b []); auto.
      - cbn [q finish sum]. lia.
      - cbn [q finish]. rewrite K'. do 2 f_equal. cbn [app]. rewrite sum_app. reflexivity. }
    assert (UP : forall j, fd j = true -> unstarted (EPush j) = 1) by (intros y Y; unfold unstarted; cbn [accepted leaving]; rewrite nf_one, Y; reflexivity).
    destruct p as [j|j|j bl|j| |bk| |j|j]; cbn [okfd] in OKp.
    + injection St as <-. apply GO; auto; try exact I. cbn [backlog with_backlog]. rewrite K, inc32_mod, UP by exact OKp. do 2 f_equal. cbn. lia.
    + destruct (_ <=? _)%N; injection St as <-; [apply FI|apply GO]; auto; try (cbn; lia).
    + destruct (N.eqb_spec (backlog (q s)) bl) as [Eb|Eb]; injection St as <-; apply GO; auto; try exact I.
      cbn [backlog with_backlog]. rewrite <- Eb, K, inc32_mod, UP by exact OKp. do 2 f_equal. cbn. lia.
    + (* EPush *)
      destruct (push_spec (q s) j (a_shape _ A)) as (ra & x & rb & q' & Pq & R & Sx & Sh & (R1 & R2 & R3 & R4 & R5) & Old). rewrite Pq in St. injection St as <-.
      assert (TX : tail_ok (lifo (q s)) x /\ Forall (tail_ok (lifo (q s))) ra /\ Forall (tail_ok (lifo (q s))) rb /\
                   waiting_in (sub j) s = chain x /\ memb x /\
                   (forall n, n <> sub j -> waiting_in n s = wl n (ra ++ x :: rb)) /\
                   length (waiting s) = length (flat_map chain ra) + length (chain x) + length (flat_map chain rb) /\
                   nf (waiting s) = nf (flat_map chain ra) + nf (chain x) + nf (flat_map chain rb)).
      { pose proof (b_tail _ B) as M. pose proof (a_mem _ A) as Mm. pose proof (sh_nodup _ (a_shape _ A)) as Nd. unfold waiting_in, waiting.
        destruct Old as [O|(d & -> & O & -> & NI)].
        - pose proof (waiting_mid s ra x rb O) as [W1 W2]. rewrite O in *.
          apply Forall_app in M. destruct M as [M1 M2]. inversion_clear M2 as [|? ? M3 M4].
          split; [exact M3|]. split; [exact M1|]. split; [exact M4|]. split; [rewrite <- Sx; apply wl_mid; assumption|].
          split; [apply Forall_app in Mm; destruct Mm as [_ Mm]; inversion_clear Mm; assumption|].
          split; [intros; reflexivity|]. unfold waiting in W1, W2. rewrite O in W1, W2. auto.
        - rewrite O in *. inversion_clear M as [|? ? M1 M2].
          split; [left; reflexivity|]. split; [auto|]. split; [auto|].
          split; [apply wl_absent; [exact Mm|exact NI]|]. split; [constructor|].
          split; [intros n D; unfold wl; cbn [flat_map app]; rewrite ?O; reflexivity|].
          cbn [flat_map chain empty_sq app length]. rewrite !app_length, !nf_app. cbn. lia. }
      destruct TX as (T1 & T2 & T3 & W1 & Mx & W2 & L1 & L2).
      (* what sq_enq does *)
      assert (CE : chain (sq_enq (lifo (q s)) j x) = (if lifo (q s) then j :: chain x else chain x ++ [j]) /\ tail_ok (lifo (q s)) (sq_enq (lifo (q s)) j x)).
      { unfold sq_enq. destruct (lifo (q s)) eqn:Lf.
        - split; [reflexivity|]. unfold tail_ok in *. cbn [tail chain]. destruct (tail x) as [t|]; [|auto]. destruct T1 as (l & y & -> & Y). exists (j :: l), y. auto.
        - unfold tail_ok in T1. destruct (tail x) as [t|].
          + destruct T1 as (l & y & Cx & Y). cbn [chain]. rewrite Cx, append_last; [|rewrite <- Cx, <- W1; apply chain_nodup, B|exact Y].
            split; [reflexivity|]. exists (l ++ [y]), j. auto.
          + destruct T1 as [T1|T1]; [|discriminate]. rewrite T1. split; [reflexivity|]. exists [], j. auto. }
      destruct CE as [CE TE].
      assert (SE : sid (sq_enq (lifo (q s)) j x) = sub j) by (rewrite sid_enq; exact Sx).
      pose proof (a_mem _ A') as M'. cbn [q goto] in M'. rewrite R in M'.
      pose proof (sh_nodup _ Sh) as ND'. rewrite R in ND'.
      assert (LW : length (waiting (goto s i q' ENotify (Pushed j (lifo (q s)) :: hist s))) = S (length (waiting s)) /\
                   nf (waiting (goto s i q' ENotify (Pushed j (lifo (q s)) :: hist s))) = nf [j] + nf (waiting s)).
      { pose proof (waiting_mid (goto s i q' ENotify (Pushed j (lifo (q s)) :: hist s)) ra _ rb R) as [V1 V2]. rewrite V1, V2, L1, L2, CE.
        destruct (lifo (q s)); [rewrite nf_cons, nf_one; cbn [length]|rewrite nf_app, app_length; cbn [length]]; lia. }
      destruct LW as [LW1 LW2].
      split; cbn [q calls goto hist nulls fresh].
      * rewrite S1. apply Forall_app. split; [exact OKa|]. constructor; [exact I|exact OKb].
      * intros n. cbn [line]. rewrite (b_line _ B n). assert (WG : waiting_in n (goto s i q' ENotify (Pushed j (lifo (q s)) :: hist s)) = wl n (ra ++ sq_enq (lifo (q s)) j x :: rb)) by (unfold waiting_in, waiting, wl; cbn [q goto]; rewrite R; reflexivity).
        rewrite WG.
        destruct (N.eqb_spec (sub j) n) as [En|En].
        -- subst n. rewrite W1. rewrite <- SE. rewrite wl_mid by assumption. rewrite CE. reflexivity.
        -- rewrite W2 by congruence. f_equal. apply wl_other; [congruence|rewrite sid_enq; reflexivity|exact Mx|].
           apply Forall_app in M'. destruct M' as [_ M']. inversion_clear M'. assumption.
      * rewrite R, R4. apply Forall_app. split; [exact T2|]. constructor; [exact TE|exact T3].
      * rewrite S1. pose proof (b_ids _ B) as D. rewrite E in D. rewrite !flat_map_app in *. cbn [flat_map entering put_in app] in *.
        eapply Permutation_NoDup; [|exact D]. apply Permutation_map. rewrite <- !app_assoc. apply Permutation_app_head. cbn [app].
        rewrite app_assoc. apply Permutation_cons_append.
      * rewrite S1. pose proof (b_fresh _ B) as D. rewrite E in D. rewrite !flat_map_app in *. cbn [flat_map entering put_in app] in *.
        eapply Permutation_Forall; [|exact D]. rewrite <- !app_assoc. apply Permutation_app_head. cbn [app].
        rewrite app_assoc. apply Permutation_cons_append.
      * rewrite LW1, S1, R5, (b_tick _ B), E, !sum_app. cbn [sum isPop isNot]. lia.
      * rewrite LW2, S1, R2, K, !sum_app. cbn [sum]. do 2 f_equal. unfold unstarted at 2 5. cbn [accepted leaving]. change (nf []) with 0. lia.
      * apply B.
    + injection St as <-. apply FI; auto; cbn [with_tickets tickets isPop isNot backlog]; lia.
    + destruct (tickets (q s)) eqn:Et; [destruct bk|]; injection St as <-; [exact B|apply FI|apply GO]; auto; cbn [with_tickets tickets isPop isNot okfd]; auto; lia.
    + (* DPop *)
      pose proof (b_tick _ B) as TK. rewrite E, !sum_app in TK. cbn [sum isPop isNot] in TK.
      destruct (pop_spec (q s) (a_shape _ A)) as [(ra & x & rb & j & l & q' & R & Cx & Pq & R' & Sh & (R1 & R2 & R3 & R4 & R5) & _)|(q' & Pq & R & Sh & Rest & Em)]; rewrite Pq in St; injection St as <-.
      * set (p' := if fd j then DDec j else Working j) in *.
        pose proof (waiting_mid s ra x rb R) as [L1 L2].
        pose proof (waiting_mid (goto s i q' p' (Popped j :: hist s)) ra _ rb R') as [L1' L2']. cbn [chain sq_deq] in L1', L2'. rewrite Cx in L1, L2, L1', L2'. cbn [List.tl length] in L1, L1', L2, L2'.
        rewrite nf_cons in L2.
        assert (Ent : entering p' = []) by (unfold p'; destruct (fd j); reflexivity).
        assert (Un : unstarted p' = if fd j then 1 else 0) by (unfold p', unstarted; destruct (fd j) eqn:Fj; cbn [accepted leaving]; rewrite ?nf_one, ?Fj; reflexivity).
        pose proof (a_mem _ A) as M. rewrite R in M. pose proof (sh_nodup _ (a_shape _ A)) as ND. rewrite R in ND.
        pose proof (a_mem _ A') as M'. cbn [q goto] in M'. rewrite R' in M'. pose proof (sh_nodup _ Sh) as ND'. rewrite R' in ND'.
        assert (Mx : memb x) by (apply Forall_app in M; destruct M as [_ M]; inversion_clear M; assumption).
        assert (Mx' : memb (sq_deq x)) by (apply Forall_app in M'; destruct M' as [_ M']; inversion_clear M'; assumption).
        assert (Sj : sub j = sid x) by (unfold memb in Mx; rewrite Cx in Mx; inversion_clear Mx; assumption).
        split; cbn [q calls goto hist nulls fresh].
        -- rewrite S1. apply Forall_app. split; [exact OKa|]. constructor; [|exact OKb]. unfold p'. destruct (fd j) eqn:Fj; cbn; auto.
        -- intros n. cbn [line]. rewrite (b_line _ B n). unfold waiting_in, waiting. cbn [q goto]. rewrite R, R'.
           fold (wl n (ra ++ x :: rb)). fold (wl n (ra ++ sq_deq x :: rb)). destruct (N.eqb_spec (sub j) n) as [En|En].
           ++ subst n. rewrite Sj. rewrite wl_mid by assumption. change (sid x) with (sid (sq_deq x)). rewrite wl_mid by assumption. rewrite Cx.
              destruct (job_eq_dec j j) as [_|N]; [|congruence]. cbn [chain sq_deq]. rewrite Cx. reflexivity.
           ++ f_equal. apply wl_other; [congruence|reflexivity|exact Mx|exact Mx'].
        -- rewrite R', R4. pose proof (b_tail _ B) as T. rewrite R in T. apply Forall_app in T. destruct T as [T1 T2]. inversion_clear T2 as [|? ? T3 T4].
           apply Forall_app. split; [exact T1|]. constructor; [|exact T4]. unfold tail_ok in *. cbn [tail chain sq_deq]. rewrite Cx in *. cbn [List.tl].
           destruct l as [|j2 l]; [left; reflexivity|]. destruct (tail x) as [t|].
           ++ destruct T3 as (l' & y & El & Y). destruct l' as [|z l']; [discriminate|]. cbn [app] in El. injection El as _ El. exists l', y. auto.
           ++ destruct T3 as [T3|T3]; [discriminate|right; exact T3].
        -- rewrite S1. pose proof (b_ids _ B) as D. rewrite E in D. rewrite !flat_map_app in *. cbn [flat_map put_in]. rewrite Ent. exact D.
        -- rewrite S1. pose proof (b_fresh _ B) as D. rewrite E in D. rewrite !flat_map_app in *. cbn [flat_map put_in]. rewrite Ent. exact D.
        -- rewrite S1, R5, !sum_app. cbn [sum]. assert (isPop p' = 0 /\ isNot p' = 0) as [Z1 Z2] by (unfold p'; destruct (fd j); auto). lia.
        -- rewrite S1, R2, K, !sum_app. cbn [sum]. do 2 f_equal. rewrite Un. change (unstarted DPop) with 0. lia.
        -- apply B.
      * exfalso. assert (Z : length (waiting s) = 0).
        { unfold waiting. rewrite Em; [reflexivity|]. pose proof (a_infl _ A) as F. revert F. apply Forall_impl. intros y ->.
          pose proof (nh_nc (sid y) (calls s)). pose proof (a_thr _ A). pose proof (a_w _ A). lia. }
        lia.
    + injection St as <-. apply GO; auto; try exact I. cbn [backlog with_backlog].
      assert (U1 : unstarted (DDec j) = 1) by (unfold unstarted; cbn [accepted leaving]; rewrite nf_one, OKp; reflexivity). rewrite U1 in K. rewrite K.
      replace (sum unstarted a + (1 + sum unstarted b) + nf (waiting s)) with (S (sum unstarted a + sum unstarted b + nf (waiting s))) by lia.
      rewrite dec32_mod. reflexivity.
    + (* Working *)
      pose proof (a_pres _ A) as P. rewrite E, flat_map_app in P. apply Forall_app in P. destruct P as [P1 P2]. cbn [flat_map hands app] in P2. inversion_clear P2 as [|? ? Pj P3].
      destruct (complete_spec (q s) j (a_shape _ A) Pj) as (ra & x & rb & q' & Pq & R & Sx & Sh & (R1 & R2 & R3 & R4 & R5) & New). rewrite Pq in St. injection St as <-.
      assert (W : flat_map chain (ring q') = flat_map chain (ring (q s))).
      { destruct New as [R'|(R' & _ & _ & CE)]; rewrite R', R, !flat_map_app; cbn [flat_map]; [reflexivity|rewrite CE; reflexivity]. }
      assert (TO : Forall (tail_ok (lifo (q s))) (ring q')).
      { pose proof (b_tail _ B) as T. rewrite R in T. apply Forall_app in T. destruct T as [T1 T2]. inversion_clear T2 as [|? ? T3 T4].
        destruct New as [R'|(R' & _)]; rewrite R'; apply Forall_app; split; auto. }
      split; cbn [q calls finish hist nulls fresh]; rewrite ?S2, ?R2, ?R4, ?R5.
      * apply Forall_app. auto.
      * intros n. rewrite (b_line _ B n). unfold waiting_in, waiting. cbn [q finish]. rewrite W. reflexivity.
      * exact TO.
      * pose proof (b_ids _ B) as D. rewrite E in D. rewrite !flat_map_app in *. exact D.
      * pose proof (b_fresh _ B) as D. rewrite E in D. rewrite !flat_map_app in *. exact D.
      * unfold waiting. cbn [q finish]. rewrite W. fold (waiting s). rewrite (b_tick _ B), E, !sum_app. reflexivity.
      * unfold waiting. cbn [q finish]. rewrite W. fold (waiting s). rewrite K, !sum_app. reflexivity.
      * apply B.
  - destruct (nth_error (calls s) i) as [p|] eqn:Ep; [|injection St as <-; exact B].
    destruct p as [j|j|j bl|j| |[|]| |j|j]; try (injection St as <-; exact B).
    destruct (nth_split_set i _ _ Ep) as (a & b & E & _ & S1 & S2). injection St as <-.
    apply (InvB_move s _ a (DWait false) b []); auto; cbn [q finish].
    + rewrite (b_back _ B), E, !sum_app. cbn [sum app]. do 2 f_equal.
Qed.

Lemma runB cs : forall s s', InvA s -> InvB s -> switches_when_drained s cs -> run s cs = Some s' -> InvA s' /\ InvB s'.
Proof.
  induction cs as [|c cs IH]; intros s s' A B D; cbn [run switches_when_drained] in *; [intros [= <-]; auto|]. destruct D as [D1 D2].
  destruct (stepA s c A) as (s1 & E1 & A1). rewrite E1 in *. apply IH; [exact A1|apply (stepB s c); assumption|exact D2].
Qed.

(** ** The claims *)
Lemma safe c mb lf w cs : few_workers w -> exists s, run (init c mb lf w) cs = Some s.
Proof. intros W. destruct (runA cs _ (InvA_init c mb lf w W)) as (s & E & _). exists s. exact E. Qed.

Lemma order c mb lf w cs s n : few_workers w -> switches_when_drained (init c mb lf w) cs -> run (init c mb lf w) cs = Some s ->
  line n (hist s) = Some (waiting_in n s).
Proof. intros W D R. destruct (runB _ _ _ (InvA_init c mb lf w W) (InvB_init c mb lf w) D R) as [_ B]. apply B. Qed.

Lemma count_of_sub x l : count_occ job_eq_dec (of_sub (sub x) l) x = count_occ job_eq_dec l x.
Proof.
  induction l as [|y l IH]; [reflexivity|]. cbn [of_sub filter]. destruct (N.eqb_spec (sub y) (sub x)) as [E|E].
  - cbn [count_occ]. fold (of_sub (sub x) l). rewrite IH. reflexivity.
  - fold (of_sub (sub x) l). rewrite IH. cbn [count_occ]. destruct (job_eq_dec y x) as [->|]; [congruence|reflexivity].
Qed.
Lemma perm_by_sub a b : (forall n, Permutation (of_sub n a) (of_sub n b)) -> Permutation a b.
Proof.
  intros H. apply (Permutation_count_occ job_eq_dec). intros x. rewrite <- (count_of_sub x a), <- (count_of_sub x b).
  apply Permutation_count_occ, H.
Qed.
Lemma InvB_perm s : InvB s -> Permutation (put_in (hist s)) (handed_out (hist s) ++ waiting s).
Proof. intros B. apply perm_by_sub. intros n. rewrite of_sub_app. apply line_perm, B. Qed.

Lemma each_once c mb lf w cs s : few_workers w -> switches_when_drained (init c mb lf w) cs -> run (init c mb lf w) cs = Some s ->
  NoDup (map jid (put_in (hist s))) /\ Permutation (put_in (hist s)) (handed_out (hist s) ++ waiting s).
Proof.
  intros W D R. destruct (runB _ _ _ (InvA_init c mb lf w W) (InvB_init c mb lf w) D R) as [_ B]. split; [|apply InvB_perm, B].
  pose proof (b_ids _ B) as N. rewrite map_app in N. eapply NoDup_app_r, N.
Qed.

(** FIFO *)
Definition ev_fifo (e : ev) : Prop := match e with Pushed _ lf => lf = false | _ => True end.
Lemma line_fifo n : forall h l, Forall ev_fifo h -> line n h = Some l -> of_sub n (put_in h) = of_sub n (handed_out h) ++ l.
Proof.
  induction h as [|e h IH]; intros l F; cbn [line put_in handed_out]; [intros [= <-]; reflexivity|]. inversion_clear F as [|? ? F1 F2].
  destruct (line n h) as [l0|]; [|discriminate]. specialize (IH l0 F2 eq_refl). destruct e as [j lf|j]; rewrite of_sub_app; cbn [of_sub filter].
  - cbn in F1. subst lf. destruct (N.eqb_spec (sub j) n) as [E|E]; intros [= <-]; [rewrite app_assoc, IH; reflexivity|rewrite app_nil_r; exact IH].
  - destruct (N.eqb_spec (sub j) n) as [E|E]; [|intros [= <-]; rewrite app_nil_r; exact IH].
    destruct l0 as [|x l0]; [discriminate|]. destruct (job_eq_dec x j) as [->|]; [|discriminate]. intros [= <-]. rewrite IH, <- app_assoc. reflexivity.
Qed.

(** what a step does to the settings and the history *)
Lemma step_hist s c s' : InvA s -> step s c = Some s' ->
  maxbl (q s') = maxbl (q s) /\ workers s' = workers s /\
  ((c = SetLifo (lifo (q s')) /\ hist s' = hist s) \/
   (lifo (q s') = lifo (q s) /\ (hist s' = hist s \/ (exists j, hist s' = Pushed j (lifo (q s)) :: hist s) \/ (exists j, hist s' = Popped j :: hist s)))).
Proof.
  intros A St. destruct c as [f sb|f sb|bl|b|n|i|i]; cbn [step] in St.
  - injection St as <-. destruct (_ && _); cbn; auto 6.
  - injection St as <-. destruct (_ && _); cbn; auto 6.
  - injection St as <-. destruct (_ <? _)%N; cbn; auto 6.
  - injection St as <-. cbn. auto 6.
  - injection St as <-. cbn. auto 6.
  - destruct (nth_error (calls s) i) as [p|] eqn:Ep; [|injection St as <-; auto 6].
    destruct p as [j|j|j bl|j| |bk| |j|j].
    + injection St as <-. cbn. auto 6.
    + destruct (_ <=? _)%N; injection St as <-; cbn; auto 6.
    + destruct (_ =? _)%N; injection St as <-; cbn; auto 6.
    + destruct (push_spec (q s) j (a_shape _ A)) as (ra & x & rb & q' & Pq & _ & _ & _ & (R1 & R2 & R3 & R4 & R5) & _). rewrite Pq in St. injection St as <-.
      cbn. split; [exact R3|]. split; [reflexivity|]. right. split; [exact R4|]. right. left. exists j. reflexivity.
    + injection St as <-. cbn. auto 6.
    + destruct (tickets (q s)); [destruct bk|]; injection St as <-; cbn; auto 6.
    + destruct (pop_spec (q s) (a_shape _ A)) as [(ra & x & rb & j & l & q' & R & Cx & Pq & R' & Sh & (R1 & R2 & R3 & R4 & R5) & _)|(q' & Pq & R & Sh & (R1 & R2 & R3 & R4 & R5) & Em)]; rewrite Pq in St; injection St as <-; cbn.
      * split; [exact R3|]. split; [reflexivity|]. right. split; [exact R4|]. right. right. exists j. reflexivity.
      * auto 6.
    + injection St as <-. cbn. auto 6.
    + pose proof (a_pres _ A) as P. destruct (nth_split_set i _ _ Ep) as (a & b & E & _). rewrite E, flat_map_app in P. apply Forall_app in P. destruct P as [P1 P2]. cbn [flat_map hands app] in P2. inversion_clear P2 as [|? ? Pj P3].
      destruct (complete_spec (q s) j (a_shape _ A) Pj) as (ra & x & rb & q' & Pq & R & Sx & Sh & (R1 & R2 & R3 & R4 & R5) & New). rewrite Pq in St. injection St as <-.
      cbn. auto 6.
  - destruct (nth_error (calls s) i) as [p|] eqn:Ep; [|injection St as <-; auto 6].
    destruct p as [j|j|j bl|j| |[|]| |j|j]; injection St as <-; cbn; auto 6.
Qed.

Lemma run_fifo cs : forall s s', InvA s -> lifo (q s) = false -> Forall ev_fifo (hist s) -> fifo_only cs -> run s cs = Some s' ->
  Forall ev_fifo (hist s') /\ switches_when_drained s cs.
Proof.
  induction cs as [|c cs IH]; intros s s' A L H F; cbn [run switches_when_drained]; [intros [= <-]; auto|]. inversion_clear F as [|? ? F1 F2].
  destruct (stepA s c A) as (s1 & E1 & A1). rewrite E1. intros R.
  destruct (step_hist s c s1 A E1) as (_ & _ & K).
  assert (LH : lifo (q s1) = false /\ Forall ev_fifo (hist s1)).
  { destruct K as [[K1 K2]|[K1 [K2|[(j & K2)|(j & K2)]]]]; rewrite K2.
    - split; [|exact H]. destruct (lifo (q s1)); [congruence|reflexivity].
    - split; [congruence|exact H].
    - split; [congruence|]. constructor; [exact L|exact H].
    - split; [congruence|]. constructor; [exact I|exact H]. }
  destruct LH as [L1 H1]. destruct (IH s1 s' A1 L1 H1 F2 R) as [X Y]. split; [exact X|]. split; [congruence|exact Y].
Qed.

Lemma fifo_order c mb w cs s n : few_workers w -> fifo_only cs -> run (init c mb false w) cs = Some s ->
  of_sub n (put_in (hist s)) = of_sub n (handed_out (hist s)) ++ waiting_in n s.
Proof.
  intros W F R. destruct (run_fifo cs _ _ (InvA_init c mb false w W) eq_refl (Forall_nil _) F R) as [H D].
  apply line_fifo; [exact H|]. exact (order _ _ _ _ _ _ _ W D R).
Qed.

Lemma yields c mb lf w cs s : few_workers w -> switches_when_drained (init c mb lf w) cs -> run (init c mb lf w) cs = Some s ->
  nulls s = 0 /\
  (waiting s <> [] -> ~ In ENotify (calls s) -> ~ In DPop (calls s) -> (N.of_nat (length (filter consumer (calls s))) < w)%N ->
   forall b, exists s' j, run s [Deq b; Run 0; Run 0] = Some s' /\ hist s' = Popped j :: hist s /\ In j (waiting s)).
Proof.
  intros W D R. destruct (runB _ _ _ (InvA_init c mb lf w W) (InvB_init c mb lf w) D R) as [A B]. split; [apply B|].
  intros NW NN NP L b.
  assert (Ew : workers s = w).
  { clear - R W. revert R. generalize (InvA_init c mb lf w W). change w with (workers (init c mb lf w)) at 3. generalize (init c mb lf w). clear.
    induction cs as [|x cs IH]; intros s0 A; cbn [run]; [intros [= <-]; reflexivity|]. destruct (stepA s0 x A) as (s1 & E1 & A1). rewrite E1.
    intros R. rewrite (IH s1 A1 R). apply (step_hist _ _ _ A E1). }
  assert (Z : forall f : pc -> nat, forall p, (forall x, f x <> 0 -> x = p) -> ~ In p (calls s) -> sum f (calls s) = 0).
  { intros f p Hf. generalize (calls s). intros cl Ni. induction cl as [|x l IH]; [reflexivity|]. cbn [sum]. cbn [In] in Ni.
    assert (f x = 0) by (destruct (Nat.eq_dec (f x) 0) as [|Q]; [assumption|exfalso; apply Ni; left; apply Hf, Q]). rewrite IH; [lia|tauto]. }
  assert (Tk : tickets (q s) = length (waiting s)).
  { rewrite (b_tick _ B), (Z isPop DPop), (Z isNot ENotify); auto; [lia|intros x; destruct x; cbn; congruence..]. }
  assert (T0 : exists t, tickets (q s) = S t) by (rewrite Tk; destruct (waiting s); [congruence|cbn; eauto]). destruct T0 as (t & T0).
  cbn [run step]. rewrite Ew. rewrite (proj2 (N.ltb_lt _ _) L). cbn [calls start nth_error q]. rewrite T0. cbn [calls goto nth_error start set_nth q with_tickets].
  set (q1 := with_tickets (q s) t).
  assert (Sh : shape q1) by (destruct (a_shape _ A); split; assumption).
  destruct (pop_spec q1 Sh) as [(ra & x & rb & j & l & q' & Rr & Cx & -> & _)|(q' & -> & _ & _ & _ & Em)].
  - eexists. exists j. split; [reflexivity|]. split; [reflexivity|]. unfold waiting. cbn [q1 with_tickets ring] in Rr. rewrite Rr.
    apply in_flat_map. exists x. split; [apply in_or_app; right; left; reflexivity|rewrite Cx; left; reflexivity].
  - exfalso. apply NW. unfold waiting. apply Em. pose proof (a_infl _ A) as F. cbn [q1 with_tickets ring]. revert F. apply Forall_impl. intros y ->.
    pose proof (nh_nc (sid y) (calls s)). pose proof (a_thr _ A). pose proof (a_w _ A). lia.
Qed.

(** ** Fair shares *)
Lemma with_workers_nh n s : length (with_workers n s) = nh n (calls s).
Proof. unfold with_workers, nh. f_equal. Qed.

Lemma fair c mb lf w cs s i s' j : few_workers w -> run (init c mb lf w) cs = Some s -> nth_error (calls s) i = Some DPop ->
  step s (Run i) = Some s' -> hist s' = Popped j :: hist s ->
  (N.of_nat (length (with_workers (sub j) s)) < share s)%N \/
  (forall n, waiting_in n s <> [] -> (share s <= N.of_nat (length (with_workers n s)))%N).
Proof.
  intros W R Ei St H. destruct (runA cs _ (InvA_init c mb lf w W)) as (s0 & R0 & A). assert (s0 = s) by congruence. subst s0.
  cbn [step] in St. rewrite Ei in St.
  destruct (pop_spec (q s) (a_shape _ A)) as [(ra & x & rb & j' & l & q' & Rr & Cx & Pq & R' & Sh & _ & Ch)|(q' & Pq & _)]; rewrite Pq in St; injection St as <-.
  2:{ cbn in H. apply (f_equal (@length _)) in H. cbn in H. lia. }
  cbn in H. injection H as ->.
  assert (Mx : memb x) by (pose proof (a_mem _ A) as M; rewrite Rr in M; apply Forall_app in M; destruct M as [_ M]; inversion_clear M; assumption).
  assert (Sj : sub j = sid x) by (unfold memb in Mx; rewrite Cx in Mx; inversion_clear Mx; assumption).
  assert (Fx : infl x = N.of_nat (nh (sid x) (calls s))) by (pose proof (a_infl _ A) as F; rewrite Rr in F; apply Forall_app in F; destruct F as [_ F]; inversion_clear F; assumption).
  rewrite with_workers_nh, Sj, <- Fx.
  destruct (N.ltb_spec (infl x) (share s)) as [L|L]; [left; exact L|right]. intros n Wn. rewrite with_workers_nh.
  apply N.nlt_ge. intros Lt.
  (* a waiting subqueue below its share *)
  assert (Hy : exists k y, nth_error (ring (q s)) k = Some y /\ sid y = n /\ chain y <> []).
  { destruct (waiting_in n s) as [|z lz] eqn:Ez; [congruence|]. assert (Iz : In z (waiting_in n s)) by (rewrite Ez; left; reflexivity).
    apply filter_In in Iz. destruct Iz as [Iz Sz]. apply in_flat_map in Iz. destruct Iz as (y & Iy & Iz). destruct (In_nth_error _ _ Iy) as (k & Ek).
    exists k, y. split; [exact Ek|]. pose proof (a_mem _ A) as M. rewrite Forall_forall in M. specialize (M y Iy). unfold memb in M. rewrite Forall_forall in M. specialize (M z Iz).
    split; [apply N.eqb_eq in Sz; congruence|]. intros Cz. rewrite Cz in Iz. destruct Iz. }
  destruct Hy as (k & y & Ek & Sy & Cy).
  assert (Fy : infl y = N.of_nat (nh n (calls s))) by (pose proof (a_infl _ A) as F; rewrite Forall_forall in F; rewrite <- Sy; apply F; eapply nth_error_In, Ek).
  assert (Fit : fits (ring (q s)) (share s) k = true) by (unfold fits; rewrite Ek; destruct (chain y); [congruence|]; cbn [andb]; lia).
  assert (Kb : k < length (ring (q s))) by (apply nth_error_Some; congruence).
  assert (Tg : exists ts1 ts2, targets (conc (q s)) (count (q s)) = ts1 ++ share s :: ts2 /\ forall t, In t (ts1 ++ [share s]) -> (t <= share s)%N).
  { unfold share, targets. rewrite (sh_count _ (a_shape _ A)). set (d := (conc (q s) / N.of_nat (length (ring (q s))))%N). destruct (N.eqb_spec d 0) as [Z|Z].
    - exists [], [(M32 - 1)%N]. rewrite Z. split; [reflexivity|]. cbn. intros t [<-|[]]. lia.
    - exists [(d - 1)%N], [(M32 - 1)%N]. replace (N.max 1 d) with d by lia. split; [reflexivity|]. cbn. intros t [<-|[<-|[]]]; lia. }
  destruct Tg as (ts1 & ts2 & Et & Le).
  destruct (choose_upto (ring (q s)) ts1 (share s) ts2 (round (length (ring (q s))) (cur (q s)) 0) k) as (i' & t' & E & It & Ft).
  - apply round_all; [apply (sh_cur _ (a_shape _ A))|exact Kb].
  - exact Fit.
  - rewrite Et in Ch. assert (i' = length ra) by congruence. subst i'. unfold fits in Ft. rewrite Rr, nth_error_app2, Nat.sub_diag in Ft by lia. cbn [nth_error] in Ft.
    specialize (Le t' It). destruct (chain x); cbn [andb] in Ft; [discriminate|]. lia.
Qed.

(** ** Backlog *)
Lemma ns_hist s : InvB s -> not_started s + nf (handed_out (hist s)) = sum unstarted (calls s) + nf (put_in (hist s)).
Proof.
  intros B. rewrite not_started_sum. pose proof (InvB_perm _ B) as P.
  assert (nf (put_in (hist s)) = nf (handed_out (hist s) ++ waiting s)).
  { unfold nf. clear - P. induction P; cbn [filter]; [reflexivity|destruct (fd x); cbn [length]; congruence|destruct (fd x), (fd y); reflexivity|congruence]. }
  rewrite nf_app in H. lia.
Qed.

Definition limited (m : N) (p : pc) : Prop := match p with EInc _ => False | ECas _ bl => (bl < m)%N | _ => True end.
Record InvC (s : sys) : Prop := {
  c_calls : Forall (limited (maxbl (q s))) (calls s);
  c_max : (0 < maxbl (q s) < M32)%N;
  c_ns : (N.of_nat (not_started s) <= maxbl (q s))%N }.

Lemma stepC s c s' : InvA s -> InvB s -> InvB s' -> InvC s -> (match c with Enq _ _ => False | _ => True end) -> step s c = Some s' -> InvC s'.
Proof.
  intros A B B' [C1 C2 C3] T St. destruct (step_hist s c s' A St) as (Mx & _ & _).
  pose proof (ns_hist _ B) as N1. pose proof (ns_hist _ B') as N2.
  assert (BK : backlog (q s) = N.of_nat (not_started s)).
  { rewrite (b_back _ B), <- not_started_sum. apply N.mod_small. lia. }
  destruct c as [f sb|f sb|bl|b|n|i|i]; [destruct T|..]; cbn [step] in St.
  - injection St as <-. destruct (_ && _); [split; assumption|]. cbn [start q] in *. rewrite (proj2 (N.eqb_neq _ 0)) in * by lia.
    split; cbn [start q calls]; auto.
    + constructor; [destruct f; exact I|exact C1].
    + cbn [start calls hist sum] in N2. assert (unstarted (if f then ELoad {| jid := fresh s; fd := f; sub := sb |} else EPush {| jid := fresh s; fd := f; sub := sb |}) = 0) by (destruct f; reflexivity). lia.
  - injection St as <-. destruct (_ <? _)%N; [|split; assumption]. split; cbn [start q calls]; [constructor; [exact I|exact C1]|exact C2|].
    cbn [start calls hist sum] in N2. change (unstarted (DWait bl)) with 0 in N2. lia.
  - injection St as <-. split; cbn [set_q q calls with_lifo maxbl]; auto.
  - injection St as <-. split; cbn [set_q q calls with_conc maxbl]; auto.
  - destruct (nth_error (calls s) i) as [p|] eqn:Ep; [|injection St as <-; split; assumption].
    destruct (nth_split_set i _ _ Ep) as (a & b & E & _ & S1 & S2).
    rewrite E, sum_app in N1. cbn [sum] in N1.
    pose proof C1 as C1'. rewrite E in C1'. apply Forall_app in C1'. destruct C1' as [Ca Cb]. inversion_clear Cb as [|? ? Cp Cb'].
    assert (Fp : okfd p) by (pose proof (b_fd _ B) as Q; rewrite E in Q; apply Forall_app in Q; destruct Q as [_ Q]; inversion_clear Q; assumption).
    assert (GO : forall q' p' h, s' = goto s i q' p' h -> limited (maxbl (q s)) p' ->
        (N.of_nat (sum unstarted a + (unstarted p' + sum unstarted b) + nf (put_in h)) <= maxbl (q s) + N.of_nat (nf (handed_out h)))%N -> InvC s').
    { intros q' p' h -> Lp Ls. cbn [goto calls hist q] in *. rewrite S1, sum_app in N2. cbn [sum] in N2. split; cbn [goto calls q]; rewrite ?Mx; auto; [|lia].
      rewrite S1. apply Forall_app. split; [exact Ca|]. constructor; assumption. }
    assert (FI : forall q' rf n, s' = finish s i q' rf n -> InvC s').
    { intros q' rf n ->. cbn [finish calls hist q] in *. rewrite S2, sum_app in N2. split; cbn [finish calls q]; rewrite ?Mx; auto; [|lia]. rewrite S2. apply Forall_app. auto. }
    destruct p as [j|j|j bl|j| |bk| |j|j].
    + destruct Cp.
    + destruct (N.leb_spec (maxbl (q s)) (backlog (q s))); injection St as <-; [eapply FI; reflexivity|]. eapply GO; [reflexivity|exact H|].
      change (unstarted (ELoad j)) with 0 in N1. change (unstarted (ECas j (backlog (q s)))) with 0. lia.
    + cbn [limited] in Cp. assert (U1 : unstarted (EPush j) = 1) by (unfold unstarted; cbn [accepted leaving]; rewrite nf_one; cbn in Fp; rewrite Fp; reflexivity).
      change (unstarted (ECas j bl)) with 0 in N1.
      destruct (N.eqb_spec (backlog (q s)) bl) as [Eb|Eb]; injection St as <-; (eapply GO; [reflexivity|exact I|]); [rewrite U1|change (unstarted (ELoad j)) with 0]; lia.
    + destruct (push_spec (q s) j (a_shape _ A)) as (ra & x & rb & q' & Pq & _). rewrite Pq in St. injection St as <-. eapply GO; [reflexivity|exact I|].
      cbn [put_in handed_out]. rewrite nf_app, nf_one. unfold unstarted in N1 at 2. cbn [accepted leaving] in N1. rewrite nf_one in N1. change (nf []) with 0 in N1. change (unstarted ENotify) with 0. lia.
    + injection St as <-. eapply FI; reflexivity.
    + destruct (tickets (q s)); [destruct bk|]; injection St as <-; [split; assumption|eapply FI; reflexivity|]. eapply GO; [reflexivity|exact I|].
      change (unstarted (DWait bk)) with 0 in N1. change (unstarted DPop) with 0. lia.
    + destruct (pop_spec (q s) (a_shape _ A)) as [(ra & x & rb & j & l & q' & R & Cx & Pq & _)|(q' & Pq & _)]; rewrite Pq in St; injection St as <-; [|eapply FI; reflexivity].
      eapply GO; [reflexivity|destruct (fd j); exact I|]. cbn [put_in handed_out]. rewrite nf_app, nf_one.
      assert (Un : unstarted (if fd j then DDec j else Working j) = if fd j then 1 else 0) by (unfold unstarted; destruct (fd j) eqn:Fj; cbn [accepted leaving]; rewrite ?nf_one, ?Fj; reflexivity).
      rewrite Un. change (unstarted DPop) with 0 in N1. lia.
    + injection St as <-. eapply GO; [reflexivity|exact I|]. change (unstarted (Working j)) with 0. lia.
    + destruct (complete (q s) j) as [q'|]; [|discriminate]. injection St as <-. eapply FI; reflexivity.
  - destruct (nth_error (calls s) i) as [p|] eqn:Ep; [|injection St as <-; split; assumption].
    destruct p as [j|j|j bl|j| |[|]| |j|j]; try (injection St as <-; split; assumption).
    destruct (nth_split_set i _ _ Ep) as (a & b & E & _ & S1 & S2). injection St as <-. cbn [finish calls hist q] in *.
    rewrite S2, sum_app in N2. rewrite E, sum_app in N1. cbn [sum] in N1. rewrite E in C1. apply Forall_app in C1. destruct C1 as [Ca Cb]. inversion_clear Cb.
    split; cbn [finish calls q]; [rewrite S2; apply Forall_app; auto|exact C2|lia].
Qed.

Lemma runC cs : forall s s', InvA s -> InvB s -> InvC s -> try_only cs -> switches_when_drained s cs -> run s cs = Some s' -> InvC s'.
Proof.
  induction cs as [|c cs IH]; intros s s' A B C T D; cbn [run switches_when_drained] in *; [intros [= <-]; auto|]. destruct D as [D1 D2].
  inversion_clear T as [|? ? T1 T2]. destruct (stepA s c A) as (s1 & E1 & A1). rewrite E1 in *. assert (B1 : InvB s1) by (apply (stepB s c); assumption).
  intros R. apply (IH s1 s'); auto. apply (stepC s c s1); assumption.
Qed.

Lemma run_maxbl cs : forall s s', InvA s -> run s cs = Some s' -> maxbl (q s') = maxbl (q s).
Proof.
  induction cs as [|x cs IH]; intros s0 s' A; cbn [run]; [intros [= <-]; reflexivity|]. destruct (stepA s0 x A) as (s1 & E1 & A1). rewrite E1.
  intros R. rewrite (IH s1 _ A1 R). apply (step_hist _ _ _ A E1).
Qed.

Lemma limit c mb lf w cs s : few_workers w -> (0 < mb < 2 ^ 32)%N -> try_only cs -> switches_when_drained (init c mb lf w) cs ->
  run (init c mb lf w) cs = Some s -> (N.of_nat (not_started s) <= mb)%N.
Proof.
  intros W M T D R. assert (C0 : InvC (init c mb lf w)) by (split; [constructor|exact M|cbn; lia]).
  pose proof (runC _ _ _ (InvA_init c mb lf w W) (InvB_init c mb lf w) C0 T D R) as C. pose proof (c_ns _ C) as H.
  rewrite (run_maxbl _ _ _ (InvA_init c mb lf w W) R) in H. exact H.
Qed.

Lemma refused_iff c mb lf w cs s i j : few_workers w -> switches_when_drained (init c mb lf w) cs ->
  run (init c mb lf w) cs = Some s -> (N.of_nat (not_started s) < 2 ^ 32)%N -> nth_error (calls s) i = Some (ELoad j) ->
  exists s', step s (Run i) = Some s' /\
    ((mb <= N.of_nat (not_started s))%N -> refused s' = j :: refused s /\ ~ In (ELoad j) (calls s') /\ hist s' = hist s) /\
    ((N.of_nat (not_started s) < mb)%N -> refused s' = refused s /\
       exists s'', step s' (Run i) = Some s'' /\ nth_error (calls s'') i = Some (EPush j) /\ refused s'' = refused s).
Proof.
  intros W D R L Ei. destruct (runB _ _ _ (InvA_init c mb lf w W) (InvB_init c mb lf w) D R) as [A B].
  assert (BK : backlog (q s) = N.of_nat (not_started s)).
  { rewrite (b_back _ B), <- not_started_sum. apply N.mod_small. exact L. }
  pose proof (run_maxbl _ _ _ (InvA_init c mb lf w W) R) as M. cbn [init q maxbl] in M.
  destruct (nth_split_set i _ _ Ei) as (a & b & E & La & S1 & S2).
  cbn [step]. rewrite Ei, M, BK. destruct (N.leb_spec mb (N.of_nat (not_started s))) as [H|H].
  - eexists. split; [reflexivity|]. split; [|lia]. intros _. split; [reflexivity|]. split; [|reflexivity]. cbn [finish calls]. rewrite S2.
    pose proof (b_ids _ B) as N. rewrite E, flat_map_app in N. cbn [flat_map entering app] in N. rewrite <- app_assoc, map_app in N. cbn [app map] in N.
    apply NoDup_remove_2 in N. rewrite map_app in N. intros I. apply N. apply in_app_or in I. rewrite !in_app_iff.
    destruct I as [I|I]; [left|right; left]; apply in_map, in_flat_map; exists (ELoad j); (split; [exact I|left; reflexivity]).
  - eexists. split; [reflexivity|]. split; [lia|]. intros _. split; [reflexivity|].
    cbn [goto calls q]. rewrite S1, nth_error_app2, La, Nat.sub_diag by lia. cbn [nth_error]. rewrite BK, N.eqb_refl.
    eexists. split; [reflexivity|]. cbn [goto calls refused]. rewrite S1.
    destruct (nth_split_set i (a ++ ECas j (N.of_nat (not_started s)) :: b) (ECas j (N.of_nat (not_started s)))) as (a2 & b2 & E2 & La2 & S3 & _).
    { rewrite nth_error_app2, La, Nat.sub_diag by lia. reflexivity. }
    rewrite S3. split; [|reflexivity]. rewrite nth_error_app2, La2, Nat.sub_diag by lia. reflexivity.
Qed.

(** ** What switching LIFO off loses *)
Definition untailed (s : sys) : Prop := lifo (q s) = true /\ Forall (fun x => tail x = None) (ring (q s)).

Lemma stepD s c s' : InvA s -> untailed s -> (match c with SetLifo _ => False | _ => True end) -> step s c = Some s' -> untailed s'.
Proof.
  intros A [L T] NS St. split.
  { destruct (step_hist s c s' A St) as (_ & _ & [[-> _]|[-> _]]); [destruct NS|exact L]. }
  destruct c as [f sb|f sb|bl|b|n|i|i]; [| | |destruct NS| | |]; cbn [step] in St.
  - injection St as <-. destruct (_ && _); exact T.
  - injection St as <-. destruct (_ && _); exact T.
  - injection St as <-. destruct (_ <? _)%N; exact T.
  - injection St as <-. exact T.
  - destruct (nth_error (calls s) i) as [p|] eqn:Ep; [|injection St as <-; exact T].
    destruct p as [j|j|j bl|j| |bk| |j|j].
    + injection St as <-. exact T.
    + destruct (_ <=? _)%N; injection St as <-; exact T.
    + destruct (_ =? _)%N; injection St as <-; exact T.
    + destruct (push_spec (q s) j (a_shape _ A)) as (ra & x & rb & q' & Pq & R & _ & _ & _ & Old). rewrite Pq in St. injection St as <-. cbn [goto q].
      rewrite R, L. assert (Forall (fun x => tail x = None) ra /\ tail x = None /\ Forall (fun x => tail x = None) rb) as (T1 & T2 & T3).
      { destruct Old as [O|(d & -> & O & -> & _)]; rewrite O in T.
        - apply Forall_app in T. destruct T as [T1 T2]. inversion_clear T2. auto.
        - inversion_clear T. split; [auto|]. split; [reflexivity|assumption]. }
      apply Forall_app. split; [exact T1|]. constructor; [exact T2|exact T3].
    + injection St as <-. exact T.
    + destruct (tickets (q s)); [destruct bk|]; injection St as <-; exact T.
    + destruct (pop_spec (q s) (a_shape _ A)) as [(ra & x & rb & j & l & q' & R & Cx & Pq & R' & _)|(q' & Pq & R & _)]; rewrite Pq in St; injection St as <-; cbn [goto finish q].
      * rewrite R'. rewrite R in T. apply Forall_app in T. destruct T as [T1 T2]. inversion_clear T2 as [|? ? T3 T4]. apply Forall_app. split; [exact T1|].
        constructor; [|exact T4]. cbn [tail sq_deq]. destruct (List.tl (chain x)); [reflexivity|exact T3].
      * rewrite R. exact T.
    + injection St as <-. exact T.
    + pose proof (a_pres _ A) as P. destruct (nth_split_set i _ _ Ep) as (a & b & E & _). rewrite E, flat_map_app in P. apply Forall_app in P. destruct P as [P1 P2]. cbn [flat_map hands app] in P2. inversion_clear P2 as [|? ? Pj P3].
      destruct (complete_spec (q s) j (a_shape _ A) Pj) as (ra & x & rb & q' & Pq & R & Sx & Sh & _ & New). rewrite Pq in St. injection St as <-. cbn [finish q].
      rewrite R in T. apply Forall_app in T. destruct T as [T1 T2]. inversion_clear T2 as [|? ? T3 T4].
      destruct New as [->|[-> _]]; apply Forall_app; split; auto.
  - destruct (nth_error (calls s) i) as [p|] eqn:Ep; [|injection St as <-; exact T].
    destruct p as [j|j|j bl|j| |[|]| |j|j]; injection St as <-; exact T.
Qed.

Lemma runD cs : forall s s', InvA s -> untailed s -> no_switch cs -> run s cs = Some s' -> InvA s' /\ untailed s'.
Proof.
  induction cs as [|c cs IH]; intros s s' A U N; cbn [run]; [intros [= <-]; auto|]. inversion_clear N as [|? ? N1 N2].
  destruct (stepA s c A) as (s1 & E1 & A1). rewrite E1. intros R. apply (IH s1 s'); auto. apply (stepD s c); assumption.
Qed.

Lemma lost c mb w cs s i j : few_workers w -> no_switch cs -> run (init c mb true w) cs = Some s -> nth_error (calls s) i = Some (EPush j) ->
  exists s', run s [SetLifo false; Run i] = Some s' /\ waiting_in (sub j) s' = [j] /\ put_in (hist s') = put_in (hist s) ++ [j] /\ handed_out (hist s') = handed_out (hist s).
Proof.
  intros W N R Ei. assert (U0 : untailed (init c mb true w)) by (split; [reflexivity|repeat constructor]).
  destruct (runD _ _ _ (InvA_init c mb true w W) U0 N R) as [A [L T]].
  destruct (stepA s (SetLifo false) A) as (s1 & E1 & A1). cbn [run]. rewrite E1. cbn [step] in E1. injection E1 as <-.
  destruct (stepA (set_q s (with_lifo (q s) false)) (Run i) A1) as (s2 & E2 & A2). cbn [step] in *. cbn [set_q calls q] in *. rewrite Ei in *.
  destruct (push_spec (with_lifo (q s) false) j (a_shape _ A1)) as (ra & x & rb & q' & Pq & Rq & Sx & Sh & _ & Old). rewrite Pq in *. cbn [with_lifo lifo] in *.
  injection E2 as <-. eexists. split; [reflexivity|]. cbn [goto hist set_q put_in handed_out]. split; [|split; reflexivity].
  assert (Tx : tail x = None).
  { destruct Old as [O|(d & -> & O & -> & _)]; [|reflexivity]. cbn [ring with_lifo] in O. rewrite O in T. apply Forall_app in T. destruct T as [_ T]. inversion_clear T. assumption. }
  unfold waiting_in, waiting. cbn [q goto]. fold (wl (sub j) (ring q')). pose proof (a_mem _ A2) as M. cbn [q goto] in M. pose proof (sh_nodup _ Sh) as ND. rewrite Rq in *.
  assert (SE : sid (sq_enq false j x) = sub j) by (rewrite sid_enq; exact Sx). rewrite <- SE, wl_mid by assumption.
  unfold sq_enq. rewrite Tx. reflexivity.
Qed.
