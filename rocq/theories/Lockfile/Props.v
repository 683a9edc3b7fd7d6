(** Lock files: C187 to C190.  The specification is in Spec.v *)
From Coq Require Import List Arith Bool Lia.
From Verif.Lockfile Require Import Model Spec Proofs.
Import ListNotations.

(** C187: no two processes own the lock of a file *)
Theorem C187_exclusive : forall l p q f, owns (snd (run start l)) p f -> owns (snd (run start l)) q f -> p = q.
Proof. exact exclusive. Qed.
Print Assumptions C187_exclusive.
Definition ex : list act := [One (Acquire 1 5 true [Intr; Works]); One (Acquire 2 5 true []); Owner 3 5 true [] [Release 0 []] []].
Lemma ex_history : snd (run start ex) = [Got 1 5 0; Gave_up 2 5; Released 1 5 0; Got 3 5 2].
Proof. reflexivity. Qed.
Example C187_exclusive_ex : owns (snd (run start ex)) 3 5.
Proof. rewrite ex_history. exists [Got 1 5 0; Gave_up 2 5; Released 1 5 0], [], 2. split; [reflexivity|]. now repeat split; intros; intros []. Qed.
(** The kernel has the lock for exactly the owner that the history tells of *)
Theorem C187_kernel : forall l p f, lock (fst (run start l)) f = Some p <-> owns (snd (run start l)) p f.
Proof. intros l p f. apply run_inv. Qed.
Print Assumptions C187_kernel.
Example C187_kernel_ex : lock (fst (run start ex)) 5 = Some 3.
Proof. reflexivity. Qed.

(** C188: a lock is kept until its descriptor is released or the process ends.  Does not hold:
    the descriptors of one process share the lock, and closing any of them gives it up *)
Definition C188_full : Prop := forall l p q f fd fd', keeps (snd (run start l)) p f fd -> keeps (snd (run start l)) q f fd' -> p = q.
Theorem C188_refuted : ~ C188_full.
Proof.
  intros H. assert (E : 1 = 2); [|discriminate E].
  apply (H [One (Acquire 1 5 true []); One (Acquire 1 5 true []); One (Release 0 []); One (Acquire 2 5 true [])] 1 2 5 1 2).
  - exists [Got 1 5 0], [Released 1 5 0; Got 2 5 2]. split; [reflexivity|]. split; intros [X|[X|[]]]; discriminate X.
  - exists [Got 1 5 0; Got 1 5 1; Released 1 5 0], []. split; [reflexivity|]. split; intros [].
Qed.
Print Assumptions C188_refuted.
(** A call that fails is enough: it closes its descriptor *)
Theorem C188_failed_call_refuted : exists l p f fd q fd', ~ In (Released p f fd) (snd (run start l)) /\ (forall k, ~ In (Released p f k) (snd (run start l))) /\ p <> q /\
  keeps (snd (run start l)) p f fd /\ keeps (snd (run start l)) q f fd'.
Proof.
  exists [One (Acquire 1 5 true []); One (Acquire 1 5 true [Fails]); One (Acquire 2 5 true [])], 1, 5, 0, 2, 2.
  assert (E : snd (run start [One (Acquire 1 5 true []); One (Acquire 1 5 true [Fails]); One (Acquire 2 5 true [])]) = [Got 1 5 0; Gave_up 1 5; Got 2 5 2]) by reflexivity.
  rewrite E. split; [intros [X|[X|[X|[]]]]; discriminate X|]. split; [intros k [X|[X|[X|[]]]]; discriminate X|]. split; [discriminate|]. split.
  - exists [], [Gave_up 1 5; Got 2 5 2]. split; [reflexivity|]. split; intros [X|[X|[]]]; discriminate X.
  - exists [Got 1 5 0; Gave_up 1 5], []. split; [reflexivity|]. split; intros [].
Qed.
Print Assumptions C188_failed_call_refuted.
(** What is missing from the full statement: processes that close another descriptor of the file *)
Theorem C188_keeps_partial : forall l p q f fd fd', keeps (snd (run start l)) p f fd -> keeps (snd (run start l)) q f fd' ->
  (forall k, In (Released p f k) (snd (run start l)) -> k = fd) -> ~ In (Gave_up p f) (snd (run start l)) ->
  (forall k, In (Released q f k) (snd (run start l)) -> k = fd') -> ~ In (Gave_up q f) (snd (run start l)) -> p = q.
Proof. intros l p q f fd fd' A B C D E F. apply (exclusive l p q f); eapply keeps_owns; eassumption. Qed.
Print Assumptions C188_keeps_partial.
Example C188_keeps_partial_ex : keeps (snd (run start ex)) 3 5 2 /\ (forall k, In (Released 3 5 k) (snd (run start ex)) -> k = 2) /\ ~ In (Gave_up 3 5) (snd (run start ex)).
Proof.
  rewrite ex_history. split; [exists [Got 1 5 0; Gave_up 2 5; Released 1 5 0], []; split; [reflexivity|]; split; intros []|].
  split; [intros k [X|[X|[X|[X|[]]]]]; discriminate X|intros [X|[X|[X|[X|[]]]]]; discriminate X].
Qed.

(** C189: what mtev_lockfile_acquire answers *)
Theorem C189_free : forall l p f r, (forall q, q <> p -> ~ owns (snd (run start l)) q f) -> call r = true ->
  exists fd, snd (acquire p f true r (fst (run start l))) = Some fd /\ snd (fst (acquire p f true r (fst (run start l)))) = [Got p f fd] /\
    owns (snd (run start l) ++ [Got p f fd]) p f.
Proof. exact acquire_free. Qed.
Print Assumptions C189_free.
Example C189_free_ex : (forall q, q <> 7 -> ~ owns (snd (run start [])) q 5) /\ call [Intr; Intr; Works] = true.
Proof. split; [|reflexivity]. intros q _ (h1 & h2 & fd & E & _). now destruct h1. Qed.
Theorem C189_held : forall l p q f o r, q <> p -> owns (snd (run start l)) q f ->
  let a := acquire p f o r (fst (run start l)) in
  snd a = None /\ fds (fst (fst a)) = fds (fst (run start l)) /\ (forall g, lock (fst (fst a)) g = lock (fst (run start l)) g) /\ owns (snd (run start l) ++ snd (fst a)) q f.
Proof. exact acquire_held. Qed.
Print Assumptions C189_held.
Example C189_held_ex : 3 <> 4 /\ owns (snd (run start ex)) 3 5 /\ snd (acquire 4 5 true [] (fst (run start ex))) = None.
Proof. split; [discriminate|]. split; [exact C187_exclusive_ex|reflexivity]. Qed.

Theorem C189_release : forall l fd r p f, In (fd, p, f) (fds (fst (run start l))) -> (forall x, In x (fds (fst (run start l))) -> fst (fst x) = fd -> x = (fd, p, f)) ->
  let a := release fd r (fst (run start l)) in
  snd (fst a) = [Released p f fd] /\ ~ owns (snd (run start l) ++ snd (fst a)) p f /\ lock (fst (fst a)) f <> Some p /\ (snd a = Some 0 <-> call r = true) /\
  (forall q g, q <> p -> owns (snd (run start l)) q g -> owns (snd (run start l) ++ snd (fst a)) q g).
Proof.
  intros l fd r p f A B. cbn zeta.
  assert (E : find (fun x => fst (fst x) =? fd) (fds (fst (run start l))) = Some (fd, p, f)).
  { destruct (find _ _) as [x|] eqn:E.
    - apply find_some in E. destruct E as [I E]. apply Nat.eqb_eq in E. now rewrite (B x I E).
    - apply (find_none _ _ E) in A. cbn in A. now rewrite Nat.eqb_refl in A. }
  pose proof (release_inv fd r _ _ (run_inv l)) as I. assert (X : snd (fst (release fd r (fst (run start l)))) = [Released p f fd]) by (unfold release; now rewrite E).
  assert (N : ~ owns (snd (run start l) ++ [Released p f fd]) p f) by (rewrite owns_last; intros [[k Y]|[_ (_ & _ & Y)]]; [discriminate Y|now apply (Y fd)]).
  rewrite X in *. split; [reflexivity|]. split; [exact N|]. split; [intros Y; now apply I in Y|]. split.
  - unfold release. rewrite E. cbn [snd]. destruct (call r); split; congruence.
  - intros q g Q W. rewrite owns_last. right. split; [exact W|]. repeat split; try discriminate. intros k Y. congruence.
Qed.
Print Assumptions C189_release.
Example C189_release_ex : fds (fst (run start ex)) = [(2, 3, 5)].
Proof. reflexivity. Qed.

(** However often fcntl is interrupted, what counts is what it does in the end *)
Theorem C189_interrupted : forall l p f n t, (forall q, q <> p -> ~ owns (snd (run start l)) q f) ->
  snd (acquire p f true (repeat Intr n ++ Works :: t) (fst (run start l))) <> None /\
  snd (acquire p f true (repeat Intr n ++ Fails :: t) (fst (run start l))) = None.
Proof.
  intros l p f n t H. split.
  - destruct (acquire_free l p f (repeat Intr n ++ Works :: t) H) as (fd & E & _); [now induction n|]. rewrite E. discriminate.
  - assert (E : call (repeat Intr n ++ Fails :: t) = false) by now induction n. unfold acquire, setlk. cbn [negb]. now rewrite E.
Qed.
Print Assumptions C189_interrupted.
Example C189_interrupted_ex : (forall q, q <> 7 -> ~ owns (snd (run start [])) q 5) /\ snd (acquire 7 5 true (repeat Intr 3 ++ [Works]) (fst (run start []))) = Some 0.
Proof. split; [apply C189_free_ex|reflexivity]. Qed.
Theorem C189_release_interrupted : forall l fd n t, (exists x, In x (fds (fst (run start l))) /\ fst (fst x) = fd) ->
  snd (release fd (repeat Intr n ++ Works :: t) (fst (run start l))) = Some 0 /\
  snd (release fd (repeat Intr n ++ Fails :: t) (fst (run start l))) = None.
Proof.
  intros l fd n t (x & I & X). assert (E1 : call (repeat Intr n ++ Works :: t) = true) by now induction n.
  assert (E2 : call (repeat Intr n ++ Fails :: t) = false) by (clear; now induction n). unfold release.
  destruct (find _ _) as [[[k p] f]|] eqn:E.
  - rewrite E1, E2. cbn [snd]. split; reflexivity.
  - apply (find_none _ _ E) in I. rewrite X, Nat.eqb_refl in I. discriminate I.
Qed.
Print Assumptions C189_release_interrupted.
Example C189_release_interrupted_ex : In (2, 3, 5) (fds (fst (run start ex))) /\ fst (fst (2, 3, 5)) = 2.
Proof. split; [now left|reflexivity]. Qed.

(** C190: when mtev_lockfile_acquire_owner fails over the lock of another, it names that process.
    Does not hold: the owner is asked for before the lock is tried *)
Definition C190_full : Prop := forall l p f l1 mid l2, call l1 = true -> call l2 = true ->
  let a := acquire_owner p f true l1 mid l2 (fst (run start l)) in
  snd (fst a) = None -> exists q, snd a = Some q /\ q <> p /\ owns (snd (run start l) ++ snd (fst (fst a))) q f.
Theorem C190_refuted : ~ C190_full.
Proof. intros H. destruct (H [] 1 5 [] [Acquire 2 5 true []] []) as (q & E & _); [reflexivity|reflexivity|reflexivity|]. discriminate E. Qed.
Print Assumptions C190_refuted.
(** What is missing from the full statement: other processes between the two calls *)
Theorem C190_names_partial : forall l p f l1 l2, call l1 = true -> call l2 = true ->
  let a := acquire_owner p f true l1 [] l2 (fst (run start l)) in
  match snd a with
  | Some q => q <> p /\ owns (snd (run start l)) q f /\ snd (fst a) = None
  | None => (forall q, q <> p -> ~ owns (snd (run start l)) q f) /\ snd (fst a) <> None
  end.
Proof. exact acquire_owner_quiet. Qed.
Print Assumptions C190_names_partial.
Example C190_names_partial_ex : call [Intr] = true /\ acquire_owner 4 5 true [Intr] [] [] (fst (run start ex)) = (fst (fst (fst (acquire_owner 4 5 true [] [] [] (fst (run start ex))))), [Gave_up 4 5], None, Some 3).
Proof. split; reflexivity. Qed.
