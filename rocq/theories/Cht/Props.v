(** C23, C24, C56, C57: consistent hashing. *)
From Coq Require Import Arith NArith ZArith List Bool Lia Permutation Sorted.
From Verif.Cht Require Import Model Spec Proofs.
Import ListNotations.
Local Open Scope N_scope.

(** C23: for every key hash there is one order of all nodes such that every lookup returns a prefix
    of it; asked for more than there are nodes it returns them all and the first one once more.
    [cnt <= 65536]: node_idx is an unsigned short. *)
Theorem C23_distinct_owners : forall fuel srt H c ns c' cnt h, is_qsort srt -> (1 <= weight c)%nat ->
  set_nodes fuel srt H c ns = Set_ c' cnt -> (0 < cnt)%nat -> (cnt <= N.to_nat 65536)%nat ->
  exists order, NoDup order /\ length order = cnt /\ (forall i, In i order -> (i < cnt)%nat) /\
  forall w, vlookup_h c' h w = Nodes (firstn (Z.to_nat (Z.min w 256)) (order ++ [hd 0%nat order])).
Proof. exact owners. Qed.
Print Assumptions C23_distinct_owners.
(** C23: without collisions the first owner is the node of the point responsible for the hash *)
Theorem C23_first_is_responsible : forall fuel srt H c ns c' cnt h w, is_qsort srt -> (1 <= weight c)%nat ->
  set_nodes fuel srt H c ns = Set_ c' cnt -> (0 < cnt)%nat -> (cnt <= N.to_nat 65536)%nat ->
  no_collision H (nbits c') (weight c') (names c') -> (0 < w)%Z ->
  exists i l p, vlookup_h c' h w = Nodes (i :: l) /\ (i < cnt)%nat /\
    responsible (points H (nbits c') (weight c') (names c')) h (p, nth i (names c') []).
Proof. exact owner_ok. Qed.
Print Assumptions C23_first_is_responsible.

(** a concrete sort and hash for the examples *)
Fixpoint insert (x : rp) (l : list rp) : list rp :=
  match l with [] => [x] | y :: r => if pos x <=? pos y then x :: l else y :: insert x r end.
Definition isort (l : list rp) : list rp := fold_right insert [] l.
Lemma insert_perm x l : Permutation (x :: l) (insert x l).
Proof. induction l as [|y l IH]; cbn; [reflexivity|]. destruct (_ <=? _); [reflexivity|]. rewrite perm_swap. constructor. exact IH. Qed.
Lemma isort_is_qsort : is_qsort isort.
Proof.
  intros l. induction l as [|x l [P Q]]; cbn [isort fold_right]; [split; constructor|]. fold (isort l). split.
  - rewrite <- insert_perm. constructor. exact P.
  - clear P. induction Q as [|y r Q1 IH F]; cbn [insert]; [repeat constructor|]. destruct (N.leb_spec (pos x) (pos y)).
    + constructor; [constructor; assumption|]. constructor; [assumption|]. eapply Forall_impl; [|exact F]. intros z. cbn. lia.
    + constructor; [exact IH|]. eapply Permutation_Forall; [apply insert_perm|]. constructor; [lia|exact F].
Qed.
Definition toy (k : list N) (i : N) : N := fold_right (fun a b => a * 7919 + b * 31) 0 k + i * 40503.
Definition t0 : cht := alloc_custom 2 16.
Definition ns4 : list (list N) := [[1]; [2]; [3]; [9]].
Definition t4 : cht := match set_nodes 5 isort toy t0 ns4 with Set_ c _ => c | _ => t0 end.
Example C23_distinct_owners_ex :
  set_nodes 5 isort toy t0 ns4 = Set_ t4 4 /\ vlookup_h t4 30000 2 = Nodes [2; 3]%nat /\ vlookup_h t4 30000 4 = Nodes [2; 3; 0; 1]%nat /\
  vlookup_h t4 30000 9 = Nodes [2; 3; 0; 1; 2]%nat /\ vlookup_h t4 30000 (-1) = Nodes [].
Proof. vm_compute. auto 6. Qed.
Example C23_first_is_responsible_ex :
  points toy (nbits t4) (weight t4) (names t4) = [(7919, [1]); (48422, [1]); (15838, [2]); (56341, [2]); (23757, [3]); (64260, [3]); (5735, [9]); (46238, [9])] /\
  vlookup_h t4 30000 1 = Nodes [2]%nat /\ vlookup_h t4 5734 1 = Nodes [2]%nat /\ vlookup_h t4 5735 1 = Nodes [3]%nat.
Proof. vm_compute. auto. Qed.

(** C24: adding node [n] (read backwards: removing it), at whatever place in the list, leaves the
    owner of a key alone unless the new owner is [n] *)
Theorem C24_moves_only_what_it_must : forall fuel1 fuel2 srt H c a n b c1 c2 h, is_qsort srt -> (1 <= weight c)%nat ->
  set_nodes fuel1 srt H c (a ++ b) = Set_ c1 (length (a ++ b)) -> a ++ b <> [] ->
  set_nodes fuel2 srt H c (a ++ n :: b) = Set_ c2 (length (a ++ n :: b)) -> (length (a ++ n :: b) <= N.to_nat 65536)%nat ->
  no_collision H (nbits c) (weight c) (a ++ n :: b) ->
  exists x1 x2, owner_name c1 h = Some x1 /\ owner_name c2 h = Some x2 /\ (x2 = n \/ x1 = x2).
Proof. exact moves_only. Qed.
Print Assumptions C24_moves_only_what_it_must.
Definition t3 : cht := match set_nodes 5 isort toy t0 [[1]; [2]; [9]] with Set_ c _ => c | _ => t0 end.
Example C24_moves_only_what_it_must_ex :
  map (owner_name t3) [30000; 6000; 50000; 65000] = [Some [2]; Some [9]; Some [1]; Some [2]] /\
  map (owner_name t4) [30000; 6000; 50000; 65000] = [Some [3]; Some [9]; Some [1]; Some [3]].
Proof. vm_compute. auto. Qed.

(** C56, natural statement: [owned] of a node is the fraction of hash values that lead to it.
    False when three positions collide at the start of the ring: *)
Definition owned_is_share : Prop := forall fuel srt H c ns c' cnt i, is_qsort srt -> (1 <= weight c)%nat -> nbits c <= 32 ->
  set_nodes fuel srt H c ns = Set_ c' cnt -> (0 < cnt)%nat -> (cnt <= N.to_nat 65536)%nat ->
  owned (nbits c') (ring c') i = N.of_nat (length (filter (goes_to c' i) (upto (maxpos (nbits c'))))).
Definition clash (k : list N) (i : N) : N := 5.
Definition c1 : cht := alloc_custom 1 16.
Definition cc : cht := match set_nodes 5 isort clash c1 [[1]; [2]; [3]] with Set_ c _ => c | _ => c1 end.
Theorem C56_owned_is_share_refuted : ~ owned_is_share.
Proof.
  intros P. assert (E : set_nodes 5 isort clash c1 [[1]; [2]; [3]] = Set_ cc 3) by (vm_compute; reflexivity).
  specialize (P 5%nat isort clash c1 _ cc 3%nat 0%nat isort_is_qsort ltac:(vm_compute; lia) ltac:(vm_compute; discriminate) E ltac:(lia) ltac:(lia)).
  assert (length (filter (goes_to cc 0) (upto (maxpos (nbits cc)))) <= length (upto (maxpos (nbits cc))))%nat as L.
  { generalize (upto (maxpos (nbits cc))). intros l. induction l as [|x l IH]; cbn [filter length]; [apply le_n|]. destruct (goes_to cc 0 x); cbn [length]; lia. }
  unfold upto in L at 2. rewrite map_length, seq_length in L.
  assert (Q : owned (nbits cc) (ring cc) 0 = 4294967295) by (vm_compute; reflexivity). rewrite Q in P. change (maxpos (nbits cc)) with 65535 in *. lia.
Qed.
Print Assumptions C56_owned_is_share_refuted.
(** the ring ends up out of order, a node is reached by no hash and its share exceeds the whole *)
Example C56_owned_is_share_refuted_ex :
  ring cc = [{| pos := 5; node_idx := 0 |}; {| pos := 4; node_idx := 1 |}; {| pos := 5; node_idx := 2 |}] /\
  owned 16 (ring cc) 0 = 4294967295 /\ filter (goes_to cc 0) [0; 3; 4; 5; 6; 7; 32768; 65535] = [].
Proof. split; [vm_compute; reflexivity|]. split; [vm_compute; reflexivity|vm_compute; reflexivity]. Qed.
(** C56: without collisions it is exact *)
Theorem C56_owned_is_share : forall fuel srt H c ns c' cnt i, is_qsort srt -> (1 <= weight c)%nat -> nbits c <= 32 ->
  set_nodes fuel srt H c ns = Set_ c' cnt -> (0 < cnt)%nat -> (cnt <= N.to_nat 65536)%nat ->
  no_collision H (nbits c') (weight c') (names c') ->
  owned (nbits c') (ring c') i = N.of_nat (length (filter (goes_to c' i) (upto (maxpos (nbits c'))))).
Proof. exact share. Qed.
Print Assumptions C56_owned_is_share.
Example C56_owned_is_share_ex : map (owned 16 (ring t4)) [0; 1; 2; 3]%nat = [15838; 15838; 29492; 4368] /\ 15838 + 15838 + 29492 + 4368 = 65536.
Proof. vm_compute. auto. Qed.

(** C57, natural statement: with any number of bits that alloc accepts, a node set that fits is
    taken whole.  False for 31 bits: 1 << 31 overflows *)
Definition set_takes_all : Prop := forall srt H w nb ns, is_qsort srt -> let c := alloc_custom w nb in
  N.of_nat (length ns * weight c) < 2 ^ 31 -> N.of_nat (length ns * weight c) <= 2 ^ nbits c ->
  exists f0, forall f, (f0 <= f)%nat -> exists c', set_nodes f srt H c ns = Set_ c' (length ns) /\ names c' = ns.
Theorem C57_set_takes_all_refuted : ~ set_takes_all.
Proof.
  intros P. destruct (P isort toy 1%nat 31 [[1]] isort_is_qsort) as [f0 Q]; [vm_compute; reflexivity|vm_compute; discriminate|].
  destruct (Q f0 (le_n _)) as (c' & E & _). discriminate E.
Qed.
Print Assumptions C57_set_takes_all_refuted.
Example C57_set_takes_all_refuted_ex : set_nodes 9 isort toy (alloc_custom 1 31) [[1]] = SetUB /\ nbits (alloc_custom 1 31) = 31.
Proof. vm_compute. auto. Qed.
(** C57: for every other number of bits, whatever the hash values: the collision loops terminate *)
Theorem C57_set_takes_all : forall srt H c ns, is_qsort srt -> nbits c <> 31 -> nbits c <= 32 ->
  N.of_nat (length ns * weight c) < 2 ^ 31 -> N.of_nat (length ns * weight c) <= 2 ^ nbits c ->
  exists f0, forall f, (f0 <= f)%nat -> exists c', set_nodes f srt H c ns = Set_ c' (length ns) /\ names c' = ns.
Proof. exact set_total. Qed.
Print Assumptions C57_set_takes_all.
Example C57_set_takes_all_ex : match set_nodes 9 isort clash c1 [[1]; [2]] with Set_ c n => ring c = [{| pos := 5; node_idx := 0 |}; {| pos := 6; node_idx := 1 |}] /\ n = 2%nat | _ => False end.
Proof. vm_compute. auto. Qed.
