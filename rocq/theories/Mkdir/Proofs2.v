From Coq Require Import List NArith Arith Bool Lia ZifyBool ZifyNat ZifyN.
From Verif Require Import Mkdir.Model Mkdir.Spec Mkdir.Proofs.
Import ListNotations.
Local Open Scope nat_scope.

Lemma path_max_big : 100 < PATH_MAX.
Proof. apply Nat.ltb_lt. reflexivity. Qed.

Global Opaque PATH_MAX.

Definition again (perm : path -> bool) (cwd : path) (f1 : fs) (p : list N) : fs * res :=
  match mkdir perm cwd f1 p with
  | (f2, Done) | (f2, Exists) => (f2, Zero)
  | (f2, _) => (f2, Minus)
  end.

Lemma step_holds : forall k perm cwd f d s,
  holds d s -> length s < PATH_MAX ->
  mkdir_for (S k) perm cwd f s =
  match mkdir perm cwd f d with
  | (f1, Done) | (f1, Exists) => (f1, Zero)
  | (f1, NoEnt) =>
      match mkdir_for k perm cwd f1 d with
      | (f2, Zero) => again perm cwd f2 d
      | (f2, Minus) => (f2, Minus)
      | (f2, Outside) => (f2, Outside)
      end
  | (f1, Other) => again perm cwd f1 d
  end.
Proof.
  intros k perm cwd f d s H L. cbn [mkdir_for].
  destruct s as [|x s']; [destruct H as [_ (n & E & _)]; destruct d; discriminate|].
  set (s := x :: s') in *.
  destruct (PATH_MAX <? length s) eqn:E; [lia|].
  rewrite firstn_all2 by lia. destruct (back_is _ _ H) as [B1 B2].
  destruct (back s (length s - 1) =? 0) eqn:Z; [lia|].
  rewrite B2. reflexivity.
Qed.

Lemma step_top : forall k perm cwd f s,
  (forall d, ~ holds d s) -> length s < PATH_MAX ->
  mkdir_for k perm cwd f s = (f, Minus).
Proof.
  intros [|k] perm cwd f s H L; [reflexivity|]. cbn [mkdir_for].
  destruct s as [|x s']; [reflexivity|]. set (s := x :: s') in *.
  destruct (PATH_MAX <? length s) eqn:E; [lia|].
  rewrite firstn_all2 by lia.
  destruct (back s (length s - 1) =? 0) eqn:Z; [reflexivity|].
  exfalso. apply (H (firstn (back s (length s - 1)) s)). apply back_holds. lia.
Qed.

Lemma holds_dec : forall s, (exists d, holds d s) \/ (forall d, ~ holds d s).
Proof.
  intro s. destruct (Nat.eq_dec (back s (length s - 1)) 0) as [E|E].
  - right. intros d H. destruct (back_is _ _ H). lia.
  - left. eexists. now apply back_holds.
Qed.

(** * What is made *)

Lemma again_only : forall perm cwd f d, only cwd d f (fst (again perm cwd f d)).
Proof.
  intros. unfold again. pose proof (mkdir_only perm cwd f d) as O.
  destruct (mkdir perm cwd f d) as [g []]; exact O.
Qed.

Lemma only_step : forall k perm cwd d s,
  (forall f, only cwd d f (fst (mkdir_for k perm cwd f d))) ->
  holds d s -> length s < PATH_MAX ->
  forall f, only cwd d f (fst (mkdir_for (S k) perm cwd f s)).
Proof.
  intros k perm cwd d s IH H L f. rewrite (step_holds k perm cwd f d s H L).
  pose proof (mkdir_only perm cwd f d) as O. destruct (mkdir perm cwd f d) as [f1 e].
  cbn [fst] in O. destruct e; auto.
  - specialize (IH f1). destruct (mkdir_for k perm cwd f1 d) as [f2 r]. cbn [fst] in IH.
    assert (O2 : only cwd d f f2) by (eapply only_trans; eauto).
    destruct r; auto. eapply only_trans; [exact O2|apply again_only].
  - eapply only_trans; [exact O|apply again_only].
Qed.

Lemma for_only_self : forall k perm cwd s, length s < PATH_MAX ->
  forall f, only cwd s f (fst (mkdir_for k perm cwd f s)).
Proof.
  induction k as [|k IH]; intros perm cwd s L f; [apply only_refl|].
  destruct (holds_dec s) as [[d H]|H].
  - pose proof (holds_shorter _ _ H). eapply only_longer; [exact H|].
    apply only_step; auto. apply IH. lia.
  - rewrite step_top by auto. apply only_refl.
Qed.

Lemma for_only : forall k perm cwd d s f, holds d s -> length s < PATH_MAX ->
  only cwd d f (fst (mkdir_for k perm cwd f s)).
Proof.
  intros [|k] perm cwd d s f H L; [apply only_refl|].
  apply only_step; auto. apply for_only_self.
  pose proof (holds_shorter _ _ H). lia.
Qed.

(** * An answer of 0 *)

Lemma again_there : forall perm cwd f d, snd (again perm cwd f d) = Zero ->
  there cwd d (fst (again perm cwd f d)).
Proof.
  intros perm cwd f d H. pose proof (mkdir_there perm cwd f d) as T.
  unfold again in *. destruct (mkdir perm cwd f d) as [g e]. cbn [fst snd] in T.
  destruct e; try discriminate; eapply T; eauto.
Qed.

Lemma zero_there : forall k perm cwd f d s, holds d s -> length s < PATH_MAX ->
  snd (mkdir_for k perm cwd f s) = Zero -> there cwd d (fst (mkdir_for k perm cwd f s)).
Proof.
  intros [|k] perm cwd f d s H L; [discriminate|].
  rewrite (step_holds k perm cwd f d s H L).
  pose proof (mkdir_there perm cwd f d) as T.
  destruct (mkdir perm cwd f d) as [f1 e]. cbn [fst snd] in T.
  destruct e; intro E.
  - eapply T; eauto.
  - destruct (mkdir_for k perm cwd f1 d) as [f2 []]; try discriminate.
    now apply again_there.
  - eapply T; eauto.
  - now apply again_there.
Qed.

(** * When it succeeds *)

Definition free (perm : path -> bool) (cwd : path) (d : list N) (f : fs) : Prop :=
  forall q, on_way cwd d q -> f q <> Some File /\ perm q = true.

Lemma way_longer : forall cwd d s q, holds d s -> on_way cwd d q -> on_way cwd s q.
Proof.
  intros cwd d s q H [k E]. destruct (holds_names _ _ H) as (t & T & _).
  exists (Nat.min k (length (names d))). rewrite (holds_base cwd d s H), T.
  rewrite firstn_app. replace (Nat.min k _ - _) with 0 by lia. cbn. rewrite app_nil_r.
  rewrite E. f_equal. destruct (Nat.le_gt_cases k (length (names d))) as [L|L].
  - now rewrite Nat.min_l.
  - rewrite Nat.min_r by lia. rewrite firstn_all. now rewrite firstn_all2 by lia.
Qed.

Lemma free_only : forall perm cwd d f g, free perm cwd d f -> only cwd d f g ->
  free perm cwd d g.
Proof.
  intros perm cwd d f g F O q W. destruct (F q W) as [F1 F2]. split; auto.
  destruct (O q) as [->|(_ & -> & _)]; [exact F1|discriminate].
Qed.

Lemma mkdir_free : forall perm cwd f d, free perm cwd d f ->
  snd (mkdir perm cwd f d) = Other -> False.
Proof.
  intros perm cwd f d F E. unfold mkdir in E.
  destruct (walk f (base cwd d) (names d)) eqn:W; try discriminate.
  - destruct (f (base cwd d ++ names d)); [discriminate|].
    destruct (perm (base cwd d ++ names d)) eqn:P; [discriminate|].
    destruct (F (base cwd d ++ names d)) as [_ X]; [|congruence].
    exists (length (names d)). now rewrite firstn_all.
  - destruct (walk_other _ _ _ W) as [k K].
    destruct (F (base cwd d ++ firstn k (names d))) as [X _]; [now exists k|congruence].
Qed.

Lemma again_free : forall perm cwd f d d', free perm cwd d f -> holds d' d ->
  there cwd d' f -> snd (again perm cwd f d) = Zero.
Proof.
  intros perm cwd f d d' F H [T1 T2]. destruct (holds_names _ _ H) as (t & Et & Lt).
  assert (W : walk f (base cwd d) (names d) = Done).
  { apply walk_go. intros k Hk. rewrite (holds_base cwd d' d H), Et in *.
    rewrite app_length in Hk. rewrite firstn_app.
    replace (k - length (names d')) with 0 by lia. cbn [firstn]. rewrite app_nil_r.
    destruct (Nat.eq_dec k (length (names d'))) as [->|Nk]; [|apply T1; lia].
    rewrite firstn_all. destruct (F (base cwd d' ++ names d')) as [X _].
    - eapply way_longer; eauto. exists (length (names d')). now rewrite firstn_all.
    - destruct (f (base cwd d' ++ names d')) as [[|]|]; congruence. }
  unfold again, mkdir. rewrite W.
  destruct (f (base cwd d ++ names d)) eqn:E; [reflexivity|].
  destruct (F (base cwd d ++ names d)) as [_ P].
  - exists (length (names d)). now rewrite firstn_all.
  - now rewrite P.
Qed.

Lemma succeeds : forall k perm cwd s d f,
  length s <= k -> holds d s -> length s < PATH_MAX -> free perm cwd d f ->
  snd (mkdir_for k perm cwd f s) = Zero.
Proof.
  induction k as [|k IH]; intros perm cwd s d f Lk H L F.
  - pose proof (holds_shorter _ _ H). lia.
  - rewrite (step_holds k perm cwd f d s H L).
    pose proof (mkdir_free perm cwd f d F) as Nf.
    assert (Hn : snd (mkdir perm cwd f d) = NoEnt -> fst (mkdir perm cwd f d) = f /\
                 2 <= length (names d)).
    { unfold mkdir. destruct (walk f (base cwd d) (names d)) eqn:W; cbn; try discriminate.
      - destruct (f (base cwd d ++ names d)); [discriminate|].
        destruct (perm _); discriminate.
      - intros _. split; auto. apply (walk_short f (base cwd d)). congruence. }
    destruct (mkdir perm cwd f d) as [f1 e]. cbn [fst snd] in Nf, Hn.
    destruct e; auto; [|destruct (Nf eq_refl)].
    destruct (Hn eq_refl) as [-> L2].
    pose proof (holds_shorter _ _ H) as Sh.
    destruct (holds_dec d) as [[d' H']|H'].
    + assert (F' : free perm cwd d' f).
      { intros q W. apply F. eapply way_longer; eauto. }
      pose proof (IH perm cwd d d' f ltac:(lia) H' ltac:(lia) F') as Z.
      pose proof (zero_there k perm cwd f d' d H' ltac:(lia) Z) as T.
      pose proof (for_only_self k perm cwd d ltac:(lia) f) as O.
      destruct (mkdir_for k perm cwd f d) as [f2 r]. cbn [fst snd] in *. subst r.
      eapply again_free; eauto. eapply free_only; eauto.
    + exfalso. destruct (Nat.eq_dec (back d (length d - 1)) 0) as [B|B].
      * apply back_zero in B. lia.
      * apply back_holds in B. apply (H' _ B).
Qed.

(** * The buffer *)

Lemma inside : forall k perm cwd f s, length s <= PATH_MAX ->
  snd (mkdir_for k perm cwd f s) <> Outside.
Proof.
  induction k as [|k IH]; intros perm cwd f s L; [discriminate|]. cbn [mkdir_for].
  destruct s as [|x s']; [discriminate|]. set (s := x :: s') in *.
  destruct (PATH_MAX <? length s) eqn:E; [lia|].
  set (c := firstn (PATH_MAX - 1) s).
  destruct (back c (length s - 1) =? 0); [discriminate|].
  set (p := firstn (back c (length s - 1)) c).
  assert (Lp : length p <= PATH_MAX).
  { unfold p, c. rewrite !firstn_length. lia. }
  assert (A : forall g, snd (again perm cwd g p) <> Outside).
  { intro g. unfold again. destruct (mkdir perm cwd g p) as [h []]; discriminate. }
  unfold again in A.
  destruct (mkdir perm cwd f p) as [f1 []]; try discriminate; auto.
  specialize (IH perm cwd f1 p Lp). destruct (mkdir_for k perm cwd f1 p) as [f2 []];
    try discriminate; auto.
Qed.

Lemma outside : forall perm cwd f s, PATH_MAX < length s ->
  mkdir_for_file perm cwd f s = (f, Outside).
Proof.
  intros perm cwd f [|x s] L; [cbn in L; lia|]. unfold mkdir_for_file.
  cbn [length mkdir_for] in *. destruct (PATH_MAX <? S (length s)) eqn:E; [reflexivity|lia].
Qed.
