From Coq Require Import List NArith Arith Bool Lia ZifyBool ZifyNat ZifyN.
From Verif Require Import Mkdir.Model Mkdir.Spec.
Import ListNotations.
Local Open Scope nat_scope.

(** * Names *)

Lemma pieces_some : forall s, exists p r, pieces s = p :: r.
Proof.
  induction s as [|x s (p & r & E)]; cbn; [eauto|].
  destruct (x =? 47)%N; [eauto|]. rewrite E. eauto.
Qed.

Lemma pieces_slash : forall a b, pieces (a ++ 47%N :: b) = pieces a ++ pieces b.
Proof.
  induction a as [|x a IH]; intro b; cbn [app pieces].
  - reflexivity.
  - destruct (x =? 47)%N; rewrite IH; auto.
    destruct (pieces_some a) as (p & r & ->). reflexivity.
Qed.

Lemma names_slash : forall a b, names (a ++ 47%N :: b) = names a ++ names b.
Proof. intros. unfold names. rewrite pieces_slash. apply filter_app. Qed.

Lemma pieces_one : forall s, ~ In 47%N s -> pieces s = [s].
Proof.
  induction s as [|x s IH]; intro H; [reflexivity|]. cbn [pieces].
  destruct (x =? 47)%N eqn:E; [apply N.eqb_eq in E; subst; destruct H; now left|].
  rewrite IH; auto. intro X. apply H. now right.
Qed.

Lemma names_one : forall s, ~ In 47%N s -> length (names s) <= 1.
Proof.
  intros s H. unfold names. rewrite pieces_one by exact H. cbn.
  destruct s; cbn; lia.
Qed.

(** * The last slash *)

Lemma back_spec : forall s n, back s n <= n /\
  (forall j, back s n < j <= n -> nth j s 0%N <> 47%N) /\
  (back s n = 0 \/ nth (back s n) s 0%N = 47%N).
Proof.
  intros s. induction n as [|n IH]; cbn [back].
  - split; [lia|]. split; [intros j Hj; lia|now left].
  - destruct (nth (S n) s 0 =? 47)%N eqn:E.
    + split; [lia|]. split; [intros; lia|]. right. lia.
    + destruct IH as (I1 & I2 & I3). split; [lia|]. split; [|exact I3].
      intros j Hj. destruct (Nat.eq_dec j (S n)) as [->|X]; [lia|].
      apply I2. lia.
Qed.

Lemma no_slash_tail : forall s i,
  (forall j, i < j <= length s - 1 -> nth j s 0%N <> 47%N) -> ~ In 47%N (skipn (S i) s).
Proof.
  intros s i H X. apply (In_nth _ _ 0%N) in X. destruct X as (j & J1 & J2).
  rewrite skipn_length in J1.
  assert (E : nth j (skipn (S i) s) 0%N = nth (S i + j) s 0%N).
  { rewrite <- (firstn_skipn (S i) s) at 2. rewrite app_nth2; rewrite firstn_length_le by lia; [|lia].
    f_equal. lia. }
  rewrite E in J2. apply (H (S i + j)); [lia|exact J2].
Qed.

Lemma split_nth : forall (s : list N) i, i < length s ->
  s = firstn i s ++ nth i s 0%N :: skipn (S i) s.
Proof.
  induction s as [|x s IH]; intros [|i] H; cbn in *; try lia; auto.
  f_equal. apply IH. lia.
Qed.

Lemma back_holds : forall s, back s (length s - 1) <> 0 ->
  holds (firstn (back s (length s - 1)) s) s.
Proof.
  intros s H. destruct (back_spec s (length s - 1)) as (B1 & B2 & [B3|B3]); [lia|].
  set (i := back s (length s - 1)) in *.
  assert (L : i < length s) by lia.
  split.
  - intro X. apply (f_equal (@length N)) in X. rewrite firstn_length_le in X by lia.
    cbn in X. lia.
  - exists (skipn (S i) s). split; [|now apply no_slash_tail].
    rewrite <- B3. now apply split_nth.
Qed.

Lemma back_zero : forall s, back s (length s - 1) = 0 -> length (names s) <= 1.
Proof.
  intros s H. destruct (back_spec s (length s - 1)) as (_ & B2 & _). rewrite H in B2.
  pose proof (no_slash_tail s 0 B2) as X.
  destruct s as [|x s]; [cbn; lia|]. cbn [skipn] in X.
  destruct (N.eq_dec x 47) as [->|Nx].
  - change (47%N :: s) with ([] ++ 47%N :: s). rewrite names_slash. cbn.
    now apply names_one.
  - apply names_one. intros [Y|Y]; [congruence|contradiction].
Qed.

Lemma holds_unique : forall d d' s, holds d s -> holds d' s -> d = d'.
Proof.
  intros d d' s [_ (n & E & H)] [_ (n' & E' & H')]. subst s. revert d' E'.
  induction d as [|x d IH]; intros [|y d'] E; cbn in E; auto.
  - injection E as <- E. exfalso. apply H. rewrite E. apply in_or_app. right. now left.
  - injection E as -> E. exfalso. apply H'. rewrite <- E. apply in_or_app. right. now left.
  - injection E as -> E. f_equal. now apply IH.
Qed.

Lemma back_is : forall d s, holds d s ->
  back s (length s - 1) <> 0 /\ firstn (back s (length s - 1)) s = d.
Proof.
  intros d s H. assert (Z : back s (length s - 1) <> 0).
  { intro Z. destruct H as [Hd (n & E & Hn)].
    destruct (back_spec s (length s - 1)) as (_ & B2 & _). rewrite Z in B2.
    apply (B2 (length d)).
    - rewrite E, app_length. cbn [length]. destruct d; [congruence|]. cbn. lia.
    - rewrite E, app_nth2, Nat.sub_diag by lia. reflexivity. }
  split; auto. eapply holds_unique; eauto. now apply back_holds.
Qed.

Lemma holds_base : forall cwd d s, holds d s -> base cwd s = base cwd d.
Proof. intros cwd d s [H (n & -> & _)]. destruct d; [congruence|reflexivity]. Qed.

Lemma holds_names : forall d s, holds d s ->
  exists t, names s = names d ++ t /\ length t <= 1.
Proof.
  intros d s [_ (n & -> & H)]. exists (names n). split; [apply names_slash|now apply names_one].
Qed.

Lemma holds_shorter : forall d s, holds d s -> length d < length s.
Proof. intros d s [_ (n & -> & _)]. rewrite app_length. cbn. lia. Qed.

(** * mkdir *)

Lemma walk_done : forall f rest pre, walk f pre rest = Done ->
  forall k, 0 < k < length rest -> f (pre ++ firstn k rest) = Some Dir.
Proof.
  intros f. induction rest as [|x r IH]; intros pre H k Hk; [cbn in Hk; lia|].
  cbn [walk] in H. destruct r as [|y r]; [cbn in Hk; lia|].
  destruct (f (pre ++ [x])) as [[|]|] eqn:E; try discriminate.
  destruct k as [|[|k]]; [lia|exact E|].
  change (firstn (S (S k)) (x :: y :: r)) with ([x] ++ firstn (S k) (y :: r)).
  rewrite app_assoc. apply IH; auto. cbn [length] in Hk |- *. lia.
Qed.

Lemma walk_go : forall f rest pre,
  (forall k, 0 < k < length rest -> f (pre ++ firstn k rest) = Some Dir) ->
  walk f pre rest = Done.
Proof.
  intros f. induction rest as [|x r IH]; intros pre H; [reflexivity|]. cbn [walk].
  destruct r as [|y r]; [reflexivity|].
  pose proof (H 1 ltac:(cbn; lia)) as E. cbn [firstn] in E. rewrite E.
  apply IH. intros k Hk. rewrite <- app_assoc.
  exact (H (S k) ltac:(cbn in *; lia)).
Qed.

Lemma walk_short : forall f pre rest, walk f pre rest <> Done -> 2 <= length rest.
Proof. intros f pre [|x [|y r]] H; cbn in *; try congruence; lia. Qed.

Lemma walk_not_exists : forall f rest pre, walk f pre rest <> Exists.
Proof.
  intros f. induction rest as [|x r IH]; intro pre; cbn [walk]; [discriminate|].
  destruct r; [discriminate|]. destruct (f (pre ++ [x])) as [[|]|]; try discriminate. apply IH.
Qed.

Lemma walk_other : forall f rest pre, walk f pre rest = Other ->
  exists k, f (pre ++ firstn k rest) = Some File.
Proof.
  intros f. induction rest as [|x r IH]; intros pre H; cbn [walk] in H; [discriminate|].
  destruct r as [|y r]; [discriminate|].
  destruct (f (pre ++ [x])) as [[|]|] eqn:E; try discriminate.
  - destruct (IH _ H) as [k K]. exists (S k). rewrite <- app_assoc in K. exact K.
  - exists 1. exact E.
Qed.

Lemma path_eqb_eq : forall p q, path_eqb p q = true <-> p = q.
Proof.
  intros. unfold path_eqb. destruct (list_eq_dec _ p q); split; auto; discriminate.
Qed.

(** What is made is a directory on the way; nothing else changes. *)
Definition only (cwd : path) (s : list N) (f f' : fs) : Prop :=
  forall q, f' q = f q \/ (f q = None /\ f' q = Some Dir /\ on_way cwd s q).

Lemma only_refl : forall cwd s f, only cwd s f f.
Proof. intros cwd s f q. now left. Qed.

Lemma only_trans : forall cwd s f g h,
  only cwd s f g -> only cwd s g h -> only cwd s f h.
Proof.
  intros cwd s f g h H1 H2 q.
  destruct (H2 q) as [E|(E1 & E2 & E3)]; destruct (H1 q) as [F|(F1 & F2 & F3)].
  - left. congruence.
  - right. repeat split; auto. congruence.
  - right. repeat split; auto. congruence.
  - congruence.
Qed.

Lemma only_longer : forall cwd d s f g, holds d s -> only cwd d f g -> only cwd s f g.
Proof.
  intros cwd d s f g H O q. destruct (O q) as [E|(E1 & E2 & k & E3)]; [now left|right].
  repeat split; auto. destruct (holds_names _ _ H) as (t & T & _).
  exists (Nat.min k (length (names d))). rewrite (holds_base cwd d s H), T.
  rewrite firstn_app. replace (Nat.min k _ - _) with 0 by lia. cbn. rewrite app_nil_r.
  rewrite E3. f_equal. destruct (Nat.le_gt_cases k (length (names d))) as [L|L].
  - now rewrite Nat.min_l.
  - rewrite Nat.min_r by lia. rewrite firstn_all. now rewrite firstn_all2 by lia.
Qed.

Lemma mkdir_only : forall perm cwd f s, only cwd s f (fst (mkdir perm cwd f s)).
Proof.
  intros perm cwd f s. unfold mkdir. destruct (walk _ _ _); try apply only_refl.
  destruct (f (base cwd s ++ names s)) eqn:E; [apply only_refl|].
  destruct (perm _); [|apply only_refl]. intro q. cbn [fst].
  destruct (path_eqb q (base cwd s ++ names s)) eqn:Q; [|now left].
  apply path_eqb_eq in Q. subst q. right. repeat split; auto.
  exists (length (names s)). now rewrite firstn_all.
Qed.

(** Every directory on the way is there, and something is at the end. *)
Definition there (cwd : path) (s : list N) (f : fs) : Prop :=
  (forall k, 0 < k < length (names s) -> f (base cwd s ++ firstn k (names s)) = Some Dir) /\
  f (base cwd s ++ names s) <> None.

Lemma mkdir_there : forall perm cwd f s e,
  snd (mkdir perm cwd f s) = e -> e = Done \/ e = Exists ->
  there cwd s (fst (mkdir perm cwd f s)).
Proof.
  intros perm cwd f s e E He. pose proof (mkdir_only perm cwd f s) as O.
  assert (W : walk f (base cwd s) (names s) = Done).
  { unfold mkdir in E. pose proof (walk_not_exists f (names s) (base cwd s)).
    destruct (walk f (base cwd s) (names s)); cbn in E; intuition congruence. }
  split.
  - intros k Hk. pose proof (walk_done _ _ _ W k Hk) as D.
    destruct (O (base cwd s ++ firstn k (names s))) as [X|(X & _)]; congruence.
  - unfold mkdir in *. rewrite W in *. destruct (f (base cwd s ++ names s)) eqn:F.
    + cbn. congruence.
    + destruct (perm _); cbn in *; [|intuition congruence].
      assert (P : path_eqb (base cwd s ++ names s) (base cwd s ++ names s) = true)
        by now apply path_eqb_eq.
      rewrite P. discriminate.
Qed.
