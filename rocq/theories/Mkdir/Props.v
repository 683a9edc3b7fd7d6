(** Theorems about mkdir_for_file: C177 to C180. *)
From Coq Require Import List NArith Arith Bool Lia ZifyBool ZifyNat ZifyN.
From Verif Require Import Mkdir.Model Mkdir.Spec Mkdir.Proofs Mkdir.Proofs2.
Import ListNotations.
Local Open Scope nat_scope.

(** The root and /w, which is the current directory. *)
Definition w : path := [[119%N]].
Definition demo : fs :=
  fun q => if path_eqb q [] then Some Dir else if path_eqb q w then Some Dir else None.

(** "a//b/f" and "a//b". *)
Definition file : list N := [97;47;47;98;47;102]%N.
Definition dir : list N := [97;47;47;98]%N.

Lemma dir_holds : holds dir file.
Proof. split; [discriminate|]. exists [102%N]. split; [reflexivity|]. intros [X|[]]. discriminate X. Qed.

Lemma file_short : length file < PATH_MAX.
Proof. pose proof path_max_big. cbn. lia. Qed.

Lemma short : forall n, n <= 100 -> n < PATH_MAX.
Proof. intros n H. pose proof path_max_big. lia. Qed.

(** * C177 *)

(** A file that has the name of the directory is taken for it. *)
Definition in_the_way : fs :=
  fun q => if path_eqb q [[119%N];[97%N]] then Some File else demo q.

Theorem C177_refuted : ~ C177_full.
Proof.
  intro H. assert (Hd : holds [97%N] [97;47;102]%N).
  { split; [discriminate|]. exists [102%N]. split; [reflexivity|].
    intros [X|[]]. discriminate X. }
  assert (L : length [97;47;102]%N < PATH_MAX) by (apply short; cbn; lia).
  specialize (H (fun _ => true) w in_the_way [97%N] [97;47;102]%N
                (conj eq_refl eq_refl) Hd L).
  unfold mkdir_for_file in H. change (length [97;47;102]%N) with 3 in H, L.
  rewrite (step_holds _ _ _ _ _ _ Hd L) in H. specialize (H eq_refl). discriminate H.
Qed.

Theorem C177_there_partial : forall perm cwd f d s,
  rooted cwd f -> holds d s -> length s < PATH_MAX ->
  snd (mkdir_for_file perm cwd f s) = Zero ->
  forall q, on_way cwd d q ->
  fst (mkdir_for_file perm cwd f s) q = Some Dir \/
  (q = place cwd d /\ f q = Some File).
Proof.
  intros perm cwd f d s [R1 R2] H L Z q [k ->]. unfold mkdir_for_file in *.
  destruct (zero_there _ _ _ _ _ _ H L Z) as [T1 T2].
  pose proof (for_only (length s) perm cwd d s f H L) as O.
  set (f' := fst (mkdir_for (length s) perm cwd f s)) in *.
  destruct (Nat.eq_dec k 0) as [->|K0].
  - left. cbn [firstn]. rewrite app_nil_r.
    assert (B : f (base cwd d) = Some Dir).
    { destruct d as [|x d]; [exact R2|]. cbn [base]. destruct (x =? 47)%N; auto. }
    destruct (O (base cwd d)) as [X|(X & _)]; congruence.
  - destruct (Nat.lt_ge_cases k (length (names d))) as [Lt|Ge].
    + left. apply T1. lia.
    + rewrite firstn_all2 by lia. fold (place cwd d) in *.
      destruct (O (place cwd d)) as [X|(_ & X & _)]; [|now left].
      destruct (f' (place cwd d)) as [[|]|]; [now left| |congruence].
      right. auto.
Qed.

Example C177_there_partial_ex :
  rooted w demo /\ holds dir file /\ length file < PATH_MAX /\
  snd (mkdir_for_file (fun _ => true) w demo file) = Zero /\
  place w dir = [[119%N];[97%N];[98%N]] /\ on_way w dir [[119%N];[97%N]].
Proof.
  split; [split; reflexivity|]. split; [exact dir_holds|]. split; [exact file_short|].
  split; [|split; [reflexivity|now exists 1]].
  apply (succeeds _ _ _ _ dir); [lia|exact dir_holds|exact file_short|].
  intros q [k ->]. split; auto. change (names dir) with [[97%N];[98%N]].
  destruct k as [|[|[|k]]]; discriminate.
Qed.

(** * C178 *)

Theorem C178_only : forall perm cwd f d s,
  holds d s -> length s < PATH_MAX ->
  forall q, fst (mkdir_for_file perm cwd f s) q = f q \/
            (f q = None /\ fst (mkdir_for_file perm cwd f s) q = Some Dir /\
             on_way cwd d q).
Proof. intros perm cwd f d s H L. exact (for_only (length s) perm cwd d s f H L). Qed.

Example C178_only_ex : holds dir file /\ length file < PATH_MAX /\
  ~ on_way w dir [[119%N];[99%N]].
Proof.
  split; [exact dir_holds|]. split; [exact file_short|].
  intros [k E]. change (names dir) with [[97%N];[98%N]] in E.
  destruct k as [|[|[|k]]]; discriminate E.
Qed.

Theorem C178_top : forall perm cwd f s,
  (forall d, ~ holds d s) -> length s < PATH_MAX ->
  mkdir_for_file perm cwd f s = (f, Minus).
Proof. intros. unfold mkdir_for_file. now apply step_top. Qed.

Example C178_top_ex :
  (forall d, ~ holds d [47;102]%N) /\ length [47;102]%N < PATH_MAX.
Proof.
  split; [|apply short; cbn; lia]. intros [|x d] [H (n & E & _)]; [congruence|].
  cbn in E. injection E as _ E. destruct d as [|y d]; cbn in E; [discriminate|].
  injection E as _ E. destruct d; discriminate.
Qed.

(** * C179 *)

(** The directory of /f is there, but the answer is -1. *)
Theorem C179_refuted : ~ C179_full.
Proof.
  intro H. assert (L : length [47;102]%N < PATH_MAX) by (apply short; cbn; lia).
  specialize (H (fun _ => true) w demo [47;102]%N [102%N] (conj eq_refl eq_refl) L
                ltac:(discriminate) eq_refl eq_refl).
  rewrite C178_top in H; [discriminate H| |exact L]. apply C178_top_ex.
Qed.

(** For other files it succeeds, if it may make the directories and no file is in
    the way. *)
Theorem C179_succeeds_partial : forall perm cwd f d s,
  holds d s -> length s < PATH_MAX ->
  (forall q, on_way cwd d q -> f q <> Some File /\ perm q = true) ->
  snd (mkdir_for_file perm cwd f s) = Zero.
Proof.
  intros perm cwd f d s H L F. unfold mkdir_for_file.
  apply (succeeds _ _ _ _ d); auto.
Qed.

Example C179_succeeds_partial_ex :
  holds dir file /\ length file < PATH_MAX /\
  (forall q, on_way w dir q -> demo q <> Some File /\ true = true).
Proof.
  split; [exact dir_holds|]. split; [exact file_short|].
  intros q [k ->]. split; auto. change (names dir) with [[97%N];[98%N]].
  destruct k as [|[|[|k]]]; discriminate.
Qed.

(** * C180 *)

Theorem C180_refuted : ~ C180_full.
Proof.
  intro H. apply (H (fun _ => true) w demo (repeat 97%N (S PATH_MAX))).
  rewrite outside; [reflexivity|]. rewrite repeat_length. lia.
Qed.

Theorem C180_exact_partial : forall perm cwd f s,
  snd (mkdir_for_file perm cwd f s) = Outside <-> PATH_MAX < length s.
Proof.
  intros perm cwd f s. split; intro H.
  - destruct (Nat.lt_ge_cases PATH_MAX (length s)) as [L|L]; auto.
    exfalso. exact (inside (length s) perm cwd f s L H).
  - now rewrite outside.
Qed.

Example C180_exact_partial_ex : PATH_MAX < length (repeat 47%N (S PATH_MAX)).
Proof. rewrite repeat_length. lia. Qed.

Print Assumptions C177_refuted.
Print Assumptions C177_there_partial.
Print Assumptions C178_only.
Print Assumptions C178_top.
Print Assumptions C179_refuted.
Print Assumptions C179_succeeds_partial.
Print Assumptions C180_refuted.
Print Assumptions C180_exact_partial.
