(** Property theorems for C28 and C63 (memory of intern pools). *)
From Coq Require Import Arith NArith ZArith List Bool Lia.
From Verif.Sort Require Model Spec.
From Verif.Ipool Require Import Model Spec Proofs.
Import ListNotations.
Local Open Scope N_scope.

(** a pool with extents of 64 bytes: four items, two released, a compaction, a second extent right behind the first *)
Definition ex_ops : list op :=
  [Alloc 5 [4096]; Alloc 1 []; Alloc 9 []; Free 4132 1; Alloc 20 [4160]; Free 4112 9].
Ltac apart_tac := repeat first [apply Forall_nil | apply Forall_cons | split | exact I];
  try (intros x [[A B] [C D]]; cbn [fst snd] in *; lia).
Lemma ex_mmap : good_mmap 64 ex_ops.
Proof. unfold good_mmap, granted, ex_ops. cbn [flat_map grants app map all_apart]. apart_tac; reflexivity. Qed.
Lemma ex_good : Forall good_op ex_ops.
Proof. unfold ex_ops. repeat constructor. Qed.
Lemma ex_extent : good_extent 64. Proof. split; [lia|reflexivity]. Qed.

(** C28: after every history of interning, releasing and compacting, no byte belongs to two items or to an
    item and a free fragment; items and free fragments together are exactly the mapped memory; items start
    at multiples of four. *)
Theorem C28_pool_memory_partitioned : forall es ops s, good_extent es -> good_mmap es ops -> Forall good_op ops ->
  run (init es) ops = Ok s ->
  all_apart (live_regions s ++ free_regions s) /\
  same_memory (live_regions s ++ free_regions s) (mapped s) /\
  total (live_regions s) + total (free_regions s) = total (mapped s) /\
  Forall (fun r => In r (granted es ops)) (mapped s) /\
  Forall (fun i => fst i mod 4 = 0) (live s).
Proof. exact partition. Qed.
Print Assumptions C28_pool_memory_partitioned.
Example C28_pool_memory_partitioned_ex : good_extent 64 /\ good_mmap 64 ex_ops /\ Forall good_op ex_ops /\
  exists s, run (init 64) ex_ops = Ok s /\ live s = [(4196, 20); (4144, 5)] /\
    free_regions s = [(4112, 20); (4132, 12); (4096, 16); (4160, 36)].
Proof.
  split; [exact ex_extent|]. split; [exact ex_mmap|]. split; [exact ex_good|].
  eexists. split; [vm_compute; reflexivity|]. split; vm_compute; reflexivity.
Qed.

(** C28: a compaction keeps the free bytes and the mappings, merges everything that touches, and returns the
    number of merges. *)
Theorem C28_compaction_keeps_free_space : forall es ops s c p, good_extent es -> good_mmap es ops -> Forall good_op ops ->
  run (init es) ops = Ok s -> pool_compact (pl s) true = Ok (c, p) ->
  let s' := St p (live s) in
  same_memory (free_regions s') (free_regions s) /\ total (free_regions s') = total (free_regions s) /\
  mapped s' = mapped s /\
  N.of_nat (length (free_regions s')) + c = N.of_nat (length (free_regions s)) /\
  no_two_touch (free_regions s') /\ staged p = [].
Proof. exact compaction. Qed.
Print Assumptions C28_compaction_keeps_free_space.
Example C28_compaction_keeps_free_space_ex : good_extent 64 /\ good_mmap 64 ex_ops /\ Forall good_op ex_ops /\
  exists s c p, run (init 64) ex_ops = Ok s /\ pool_compact (pl s) true = Ok (c, p) /\ c = 2 /\
    free_regions (St p (live s)) = [(4160, 36); (4096, 48)].
Proof.
  split; [exact ex_extent|]. split; [exact ex_mmap|]. split; [exact ex_good|].
  eexists. eexists. eexists. split; [vm_compute; reflexivity|]. split; [vm_compute; reflexivity|].
  split; vm_compute; reflexivity.
Qed.

(** C28: the list sort used by the compaction is what mtev_merge_sort computes with compare_free_node, although
    that comparison never returns a positive value. *)
Theorem C28_compaction_sort : forall (node : nat -> fnode) h p ids fuel,
  Sort.Spec.chain h p ids -> NoDup ids -> NoDup (map (fun i => base (node i)) ids) ->
  (N.of_nat (length ids) <= 2 ^ 30) -> (2 * length ids < fuel)%nat ->
  exists h' p' ids', Sort.Model.merge_sort (fun a b => compare_free_node (node a) (node b)) fuel h p = Sort.Model.Done h' p' /\
    Sort.Spec.chain h' p' ids' /\ map node ids' = sort (map node ids).
Proof. exact sort_link. Qed.
Print Assumptions C28_compaction_sort.
Definition ex_node (i : nat) : fnode := nth i [Fn 64 8; Fn 0 16; Fn 32 4] (Fn 0 0).
Definition ex_heap (i : nat) : option nat := if Nat.ltb i 2 then Some (S i) else None.
Example C28_compaction_sort_ex : Sort.Spec.chain ex_heap (Some 0%nat) [0;1;2]%nat /\ NoDup [0;1;2]%nat /\
  NoDup (map (fun i => base (ex_node i)) [0;1;2]%nat) /\
  sort (map ex_node [0;1;2]%nat) = [Fn 0 16; Fn 32 4; Fn 64 8].
Proof.
  split; [cbn; repeat split|]. split; [repeat constructor; cbn; intuition lia|].
  split; [repeat constructor; cbn; intuition lia|reflexivity].
Qed.

(** C28: the statistics report exactly the mapped bytes, the free bytes and the number of free fragments. *)
Theorem C28_pool_stats_exact : forall es ops s, good_extent es -> good_mmap es ops -> Forall good_op ops ->
  run (init es) ops = Ok s ->
  stat_allocated (pl s) = total (mapped s) /\ stat_available (pl s) = total (free_regions s) /\
  stat_fragments (pl s) = N.of_nat (length (free_regions s)).
Proof. exact stats_exact. Qed.
Print Assumptions C28_pool_stats_exact.
Example C28_pool_stats_exact_ex : good_extent 64 /\ good_mmap 64 ex_ops /\ Forall good_op ex_ops /\
  exists s, run (init 64) ex_ops = Ok s /\ stat_allocated (pl s) = 128 /\ stat_available (pl s) = 84 /\ stat_fragments (pl s) = 4.
Proof.
  split; [exact ex_extent|]. split; [exact ex_mmap|]. split; [exact ex_good|].
  eexists. split; [vm_compute; reflexivity|]. repeat split.
Qed.

(** C63 in full ("interning any item of a documented size succeeds, compacting always succeeds") does not hold.
    When 4 GiB of free memory become one fragment, the level is computed from the size cut to 32 bits: the
    logarithm of 0, an index before the array of levels. *)
Definition it : N := 2 ^ 23 - 8.
Definition fill : list op := Alloc it [2 ^ 40] :: repeat (Alloc it []) 255 ++ [Alloc it [2 ^ 40 + 2 ^ 31]].
Definition drain : list op :=
  map (fun k => Free (2 ^ 40 + 2 ^ 23 * N.of_nat k) it) (seq 0 256) ++ [Free (2 ^ 40 + 2 ^ 32 - 2 ^ 23) it].
Definition is_stuck {A} (r : res A) : bool := match r with Stuck => true | _ => false end.
Lemma is_stuck_true {A} (r : res A) : is_stuck r = true -> r = Stuck.
Proof. destruct r; [discriminate|reflexivity|discriminate]. Qed.
Theorem C63_pool_compaction_4g_refuted : exists es ops, good_extent es /\ good_mmap es ops /\ Forall good_op ops /\
  run (init es) ops = Stuck.
Proof.
  exists (2 ^ 31), (fill ++ drain ++ [Compact true]). split; [split; [lia|reflexivity]|]. split.
  - unfold good_mmap, granted.
    replace (flat_map grants (fill ++ drain ++ [Compact true])) with [2 ^ 40; 2 ^ 40 + 2 ^ 31] by (vm_compute; reflexivity).
    cbn [map all_apart]. apart_tac; reflexivity.
  - split.
    + assert (forallb (fun o => match o with Alloc len _ => 0 <? len | _ => true end) (fill ++ drain ++ [Compact true]) = true) as F
        by (vm_compute; reflexivity).
      rewrite forallb_forall in F. apply Forall_forall. intros o Ho. specialize (F o Ho).
      destruct o; cbn; auto. apply N.ltb_lt. exact F.
    + apply is_stuck_true. vm_compute. reflexivity.
Qed.
Print Assumptions C63_pool_compaction_4g_refuted.

(** What holds: as long as the mappings total less than 4 GiB, no assertion fails and no index leaves the
    array, whatever the history. *)
Theorem C63_pool_never_aborts_partial : forall es ops, good_extent es -> good_mmap es ops -> below_4g es ops -> Forall good_op ops ->
  run (init es) ops <> Stuck.
Proof. exact never_stuck. Qed.
Print Assumptions C63_pool_never_aborts_partial.
Example C63_pool_never_aborts_partial_ex : good_extent 64 /\ good_mmap 64 ex_ops /\ below_4g 64 ex_ops /\ Forall good_op ex_ops.
Proof. split; [exact ex_extent|]. split; [exact ex_mmap|]. split; [reflexivity|exact ex_good]. Qed.

(** With extents of a power of two, an item that fits an extent (header included) and 8 MiB is always placed,
    using at most one new mapping. *)
Theorem C63_pool_alloc_succeeds_partial : forall k ops s len maps, 2 <= k <= 31 ->
  good_mmap (2 ^ k) (ops ++ [Alloc len maps]) -> below_4g (2 ^ k) (ops ++ [Alloc len maps]) -> Forall good_op ops ->
  run (init (2 ^ k)) ops = Ok s ->
  0 < len -> wrapped_size len <= 2 ^ k -> wrapped_size len <= 2 ^ 23 -> maps <> [] ->
  exists s' a, step s (Alloc len maps) = Ok s' /\ live s' = (a, len) :: live s.
Proof. exact alloc_succeeds. Qed.
Print Assumptions C63_pool_alloc_succeeds_partial.
Example C63_pool_alloc_succeeds_partial_ex : exists s s',
  run (init (2 ^ 6)) ex_ops = Ok s /\ wrapped_size 56 <= 2 ^ 6 /\ good_mmap (2 ^ 6) (ex_ops ++ [Alloc 56 [8192]]) /\
  below_4g (2 ^ 6) (ex_ops ++ [Alloc 56 [8192]]) /\ step s (Alloc 56 [8192]) = Ok s' /\ live s' = (8192, 56) :: live s.
Proof.
  eexists. eexists. split; [vm_compute; reflexivity|]. split; [vm_compute; discriminate|].
  split; [unfold good_mmap, granted, ex_ops; cbn [flat_map grants app map all_apart]; change (2 ^ 6) with 64; apart_tac; reflexivity|].
  split; [reflexivity|]. split; vm_compute; reflexivity.
Qed.

(** With any other extent size the search for an item larger than the power of two below the extent size
    never ends: each round maps one more extent, puts it on a level below the ones searched, and tries again.
    (Mappings that happen to touch would be merged by a compaction.) *)
Theorem C63_pool_search_never_ends_partial : forall es len maps, good_extent es ->
  2 ^ N.log2 es < wrapped_size len <= es -> wrapped_size len <= 2 ^ 23 ->
  NoDup maps -> (forall a b, In a maps -> In b maps -> a + es <> b) ->
  step (init es) (Alloc len maps) = Waits.
Proof. exact search_never_ends. Qed.
Print Assumptions C63_pool_search_never_ends_partial.
Example C63_pool_search_never_ends_partial_ex : good_extent 3000 /\ 2 ^ N.log2 3000 < wrapped_size 2500 <= 3000 /\
  NoDup [4096; 8192; 12288] /\ (forall a b, In a [4096; 8192; 12288] -> In b [4096; 8192; 12288] -> a + 3000 <> b).
Proof.
  split; [split; [lia|reflexivity]|]. split; [split; vm_compute; [reflexivity|discriminate]|].
  split; [repeat constructor; cbn; intuition lia|]. cbn. intros a b. intuition lia.
Qed.

(** Items larger than an extent less the header, or than 8 MiB less the header, get no memory (the caller then
    fails an assertion, mtev_intern.c:871), although sizes up to 2^23-1 are documented. *)
Theorem C63_pool_large_items_partial : forall s len maps, extent_size (pl s) <> 0 ->
  extent_size (pl s) < wrapped_size len \/ 2 ^ 23 < wrapped_size len ->
  pool_find maps (pl s) (wrapped_size len) = Ok (None, pl s).
Proof. exact too_large. Qed.
Print Assumptions C63_pool_large_items_partial.
Example C63_pool_large_items_partial_ex :
  extent_size (pl (init (2 ^ 20))) < wrapped_size (2 ^ 20) /\ 2 ^ 20 < 2 ^ 23 - 1 /\ 2 ^ 23 < wrapped_size (2 ^ 23 - 7).
Proof. vm_compute. repeat split. Qed.
