(** Property theorems for C09 and C10 (linked-list merge sort). *)
From Coq Require Import Arith NArith ZArith List Bool Lia Permutation.
From Verif.Sort Require Import Model Spec Proofs.
Import ListNotations.

(** five nodes 0..4 linked in order, keys 3 1 3 2 1 *)
Definition ex_heap : heap := fun a => if Nat.ltb a 4 then Some (S a) else None.
Definition ex_key (a : nat) : Z := nth a [3; 1; 3; 2; 1]%Z 0%Z.
Definition ex_cmp (a b : nat) : Z := (ex_key a - ex_key b)%Z.

Lemma ex_weak : weak_order ex_cmp.
Proof. unfold weak_order, ex_cmp. split; intros; lia. Qed.

(** C09: the sort terminates without a crash; the list then holds the same nodes in order, and
    no link outside the list is touched.  (2^30 nodes is where list_size would overflow.) *)
Theorem C09_sort_sorted_permutation : forall compare, weak_order compare ->
  forall h p l fuel, chain h p l -> NoDup l -> (N.of_nat (length l) <= 2 ^ 30)%N -> 2 * length l < fuel ->
  exists h' p' l', merge_sort compare fuel h p = Done h' p' /\ chain h' p' l' /\
    Permutation l l' /\ ordered compare l' /\ (forall a, ~ In a l -> h' a = h a).
Proof. exact sorted_permutation. Qed.
Print Assumptions C09_sort_sorted_permutation.

Example C09_sort_sorted_permutation_ex : weak_order ex_cmp /\ chain ex_heap (Some 0) [0;1;2;3;4] /\ NoDup [0;1;2;3;4] /\
  exists h' p', merge_sort ex_cmp 11 ex_heap (Some 0) = Done h' p' /\ chain h' p' [4;1;3;2;0].
Proof.
  split; [exact ex_weak|]. split; [cbn; repeat split|]. split; [repeat constructor; cbn; intuition lia|].
  eexists. eexists. split; [vm_compute; reflexivity|]. vm_compute. repeat split.
Qed.

(** C10 as documented ("Stable", mtev_sort.c:8) does not hold: *)
Theorem C10_sort_stable_refuted : exists compare h p l h' p' l' x,
  weak_order compare /\ chain h p l /\ NoDup l /\ merge_sort compare 11 h p = Done h' p' /\ chain h' p' l' /\
  filter (tied compare x) l' <> filter (tied compare x) l.
Proof.
  exists ex_cmp, ex_heap, (Some 0), [0;1;2;3;4]. eexists. eexists. exists [4;1;3;2;0], 0.
  split; [exact ex_weak|]. split; [cbn; repeat split|]. split; [repeat constructor; cbn; intuition lia|].
  split; [vm_compute; reflexivity|]. split; [vm_compute; repeat split|]. vm_compute. discriminate.
Qed.
Print Assumptions C10_sort_stable_refuted.

(** What holds instead: nodes that compare equal come out in exactly the reverse of their
    original order. *)
Theorem C10_sort_ties_reversed_partial : forall compare, weak_order compare ->
  forall h p l fuel h' p' l', chain h p l -> NoDup l -> (N.of_nat (length l) <= 2 ^ 30)%N -> 2 * length l < fuel ->
  merge_sort compare fuel h p = Done h' p' -> chain h' p' l' ->
  forall x, filter (tied compare x) l' = rev (filter (tied compare x) l).
Proof. exact ties_reversed. Qed.
Print Assumptions C10_sort_ties_reversed_partial.

Example C10_sort_ties_reversed_partial_ex :
  filter (tied ex_cmp 0) [4;1;3;2;0] = [2;0] /\ filter (tied ex_cmp 0) [0;1;2;3;4] = [0;2].
Proof. split; reflexivity. Qed.

(** so the order of ties is kept exactly when no two nodes compare equal *)
Theorem C10_sort_stable_without_ties_partial : forall compare, weak_order compare ->
  forall h p l fuel h' p' l', chain h p l -> NoDup l -> (N.of_nat (length l) <= 2 ^ 30)%N -> 2 * length l < fuel ->
  merge_sort compare fuel h p = Done h' p' -> chain h' p' l' ->
  ((forall x, filter (tied compare x) l' = filter (tied compare x) l) <->
   (forall a b, In a l -> In b l -> tied compare a b = true -> a = b)).
Proof. exact stable_iff_no_ties. Qed.
Print Assumptions C10_sort_stable_without_ties_partial.

Example C10_sort_stable_without_ties_partial_ex : exists h' p',
  merge_sort (fun a b => (Z.of_nat b - Z.of_nat a)%Z) 11 ex_heap (Some 0) = Done h' p' /\ chain h' p' [4;3;2;1;0].
Proof. eexists. eexists. split; [vm_compute; reflexivity|]. vm_compute. repeat split. Qed.
