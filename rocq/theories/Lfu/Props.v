From Coq Require Import Arith NArith ZArith List Bool Permutation Lia.
From Verif.Lru Require Import Model Spec Proofs.
From Verif.Lfu Require Import Model Spec Buckets Proofs.
Import ListNotations.

(** ** C14 *)
(** For every capacity and history the cache answers like the textbook LFU cache (ties broken
    first-in first-out); it never touches freed or uninitialised memory.  [Misuse]: the client
    released a token it does not hold. *)
Theorem C14_lfu_textbook : forall cap ops, 0 < cap ->
  lfu_run (lfu_start (Z.of_nat cap)) ops = Misuse \/
  exists c held ys, lfu_run (lfu_start (Z.of_nat cap)) ops = Ok (c, held, ys) /\ map obs ys = snd (f_run cap [] ops).
Proof. exact lfu_refines. Qed.
Print Assumptions C14_lfu_textbook.

Definition ops1 : list op :=
  [Put [1%N] 10%N; Put [2%N] 20%N; Get [1%N]; Put [3%N] 30%N; Get [2%N]; Get [1%N]; Put [1%N] 11%N; Get [3%N]; Put [4%N] 40%N; Get [1%N]; Get [3%N]].
Example C14_lfu_textbook_ex : exists c held ys, lfu_run (lfu_start 2) ops1 = Ok (c, held, ys) /\
    map obs ys = [None; None; Some 10%N; None; None; Some 10%N; None; Some 30%N; None; None; Some 30%N].
Proof. do 3 eexists. split; [vm_compute; reflexivity|]. vm_compute; reflexivity. Qed.

(** a hit returns the value stored last under that key *)
Theorem C14_lfu_coherent : forall cap ops k c held ys c' t v, 0 < cap ->
  lfu_run (lfu_start (Z.of_nat cap)) ops = Ok (c, held, ys) ->
  lfu_get c k None = Ok (c', Some t, v) -> last_put ops k = v /\ v <> None.
Proof. exact lfu_coherent. Qed.
Print Assumptions C14_lfu_coherent.

Example C14_lfu_coherent_ex : exists c held ys c' t,
  lfu_run (lfu_start 2) [Put [1%N] 10%N; Put [2%N] 20%N; Put [1%N] 11%N] = Ok (c, held, ys) /\ lfu_get c [1%N] None = Ok (c', Some t, Some 11%N).
Proof. do 5 eexists. split; vm_compute; reflexivity. Qed.

(** the cached keys are finitely many, mtev_lfu_size is their number, and it is at most [cap] *)
Theorem C14_lfu_keys : forall cap ops c held ys, 0 < cap ->
  lfu_run (lfu_start (Z.of_nat cap)) ops = Ok (c, held, ys) ->
  exists ks, NoDup ks /\ forall k, In k ks <-> cached c k.
Proof. exact lfu_keys. Qed.
Print Assumptions C14_lfu_keys.

Example C14_lfu_keys_ex : exists c held ys, lfu_run (lfu_start 2) ops1 = Ok (c, held, ys) /\ cached c [3%N] /\ ~ cached c [1%N].
Proof.
  do 3 eexists. split; [vm_compute; reflexivity|]. split; [do 3 eexists; vm_compute; reflexivity|].
  intros (c' & t & v & H). vm_compute in H. discriminate.
Qed.

Theorem C14_lfu_bounded : forall cap ops c held ys ks, 0 < cap ->
  lfu_run (lfu_start (Z.of_nat cap)) ops = Ok (c, held, ys) ->
  NoDup ks -> (forall k, In k ks <-> cached c k) -> lfu_size c = Z.of_nat (length ks) /\ length ks <= cap.
Proof. exact lfu_bounded. Qed.
Print Assumptions C14_lfu_bounded.

Example C14_lfu_bounded_ex : exists c held ys ks, lfu_run (lfu_start 2) ops1 = Ok (c, held, ys) /\
  NoDup ks /\ (forall k, In k ks <-> cached c k) /\ lfu_size c = 2%Z.
Proof.
  destruct (lfu_refines 2 ops1) as [H|(c & held & ys & H & _)]; [lia|vm_compute in H; discriminate|].
  destruct (lfu_keys 2 ops1 c held ys) as (ks & H1 & H2); [lia|exact H|].
  exists c, held, ys, ks. split; [exact H|]. split; [exact H1|]. split; [exact H2|]. vm_compute in H. injection H as <- _ _. reflexivity.
Qed.

(** A put stores its key.  If the key is not cached and the cache is full, exactly one key is
    evicted, and no cached key was used less often; otherwise every key stays. *)
Theorem C14_lfu_victim : forall cap ops c held ys k v c' b, 0 < cap ->
  lfu_run (lfu_start (Z.of_nat cap)) ops = Ok (c, held, ys) ->
  lfu_put c k v = Ok (c', b) ->
  b = true /\ cached c' k /\ (forall k', cached c' k' -> k' = k \/ cached c k') /\
  ((~ cached c k /\ lfu_size c = Z.of_nat cap /\
    exists z, cached c z /\ ~ cached c' z /\ forall k', cached c k' -> uses ops z <= uses ops k' /\ (k' <> z -> cached c' k'))
   \/ ((cached c k \/ (lfu_size c < Z.of_nat cap)%Z) /\ forall k', cached c k' -> cached c' k')).
Proof. exact lfu_victim. Qed.
Print Assumptions C14_lfu_victim.

Example C14_lfu_victim_ex : exists c held ys c',
  lfu_run (lfu_start 2) [Put [1%N] 10%N; Put [2%N] 20%N; Get [1%N]] = Ok (c, held, ys) /\
  lfu_put c [3%N] 30%N = Ok (c', true) /\ cached c' [1%N] /\ cached c [2%N] /\ ~ cached c' [2%N] /\
  uses [Put [1%N] 10%N; Put [2%N] 20%N; Get [1%N]] [1%N] = 2.
Proof.
  do 4 eexists. split; [vm_compute; reflexivity|]. split; [vm_compute; reflexivity|].
  split; [do 3 eexists; vm_compute; reflexivity|]. split; [do 3 eexists; vm_compute; reflexivity|].
  split; [|reflexivity]. intros (c' & t & v & H). vm_compute in H. discriminate.
Qed.

(** ** C49 *)
(** Every value put in is in exactly one place: in an allocated entry, passed to free_fn, or handed
    back by remove; free_fn runs at most once per entry and has run exactly for the entries that are
    neither in the cache nor held. *)
Theorem C49_lfu_ownership : forall cap ops c held ys, 0 < cap ->
  lfu_run (lfu_start (Z.of_nat cap)) ops = Ok (c, held, ys) ->
  Permutation (put_values ops) (removed_values ys ++ live (h c) ++ freedv (log (h c))) /\
  NoDup (map f_id (log (h c))) /\
  forall i, In i (map f_id (log (h c))) <-> (i < length (put_values ops) /\ ~ In i (flat_map items (flist c)) /\ held i = 0).
Proof. exact lfu_ownership. Qed.
Print Assumptions C49_lfu_ownership.

Example C49_lfu_ownership_ex : exists c held ys,
  lfu_run (lfu_start 2) [Put [1%N] 10%N; Get [1%N]; Put [2%N] 20%N; Put [3%N] 30%N; Put [1%N] 40%N; Remove [3%N]; Release 0] = Ok (c, held, ys) /\
  live (h c) = [40%N] /\ freedv (log (h c)) = [20%N; 10%N] /\ removed_values ys = [30%N].
Proof. do 3 eexists. split; [vm_compute; reflexivity|]. repeat split; vm_compute; reflexivity. Qed.

(** ** C50 *)
(** Full statement (false, see the [_refuted] theorems): every bucket is freed exactly when it
    leaves the list, and with a negative max_entries the cache is a plain map that owns its values.
    Proved: no bucket is freed twice, none of the list is freed, and the list has no empty bucket
    and no two buckets for one use count. *)
Theorem C50_lfu_buckets_partial : forall cap ops c held ys, 0 < cap ->
  lfu_run (lfu_start (Z.of_nat cap)) ops = Ok (c, held, ys) ->
  NoDup (bfreed c) /\ (forall b, In b (map bid (flist c)) -> ~ In b (bfreed c)) /\
  (forall b, In b (flist c) -> items b <> []) /\ NoDup (map freq (flist c)).
Proof. exact lfu_buckets. Qed.
Print Assumptions C50_lfu_buckets_partial.

Example C50_lfu_buckets_partial_ex : exists c held ys,
  lfu_run (lfu_start 2) [Put [1%N] 10%N; Get [1%N]; Put [2%N] 20%N; Put [3%N] 30%N] = Ok (c, held, ys) /\ bfreed c = [1] /\ map freq (flist c) = [1; 2].
Proof. do 3 eexists. split; [vm_compute; reflexivity|]. split; vm_compute; reflexivity. Qed.

(** a touch that empties a bucket whose successor exists leaks the bucket: bucket 0 is allocated,
    not freed and not reachable *)
Theorem C50_lfu_bucket_leak_refuted : exists c held ys,
  lfu_run (lfu_start 2) [Put [1%N] 10%N; Put [2%N] 20%N; Get [1%N]; Get [2%N]] = Ok (c, held, ys) /\
  live_buckets c = [0; 1] /\ map bid (flist c) = [1].
Proof. do 3 eexists. split; [vm_compute; reflexivity|]. split; vm_compute; reflexivity. Qed.
Print Assumptions C50_lfu_bucket_leak_refuted.

(** negative max_entries: a plain map on histories without overwriting put and without invalidate *)
Theorem C50_lfu_unlimited_partial : forall m, (m < 0)%Z -> forall ops,
  (forall a k v b, ops = a ++ Put k v :: b -> last_put a k = None) -> ~ In Invalidate ops ->
  lfu_run (lfu_start m) ops = Misuse \/
  exists c held ys, lfu_run (lfu_start m) ops = Ok (c, held, ys) /\
    (forall k old, exists c' t, lfu_get c k old = Ok (c', t, last_put ops k)) /\
    Permutation (put_values ops) (removed_values ys ++ live (h c) ++ freedv (log (h c))) /\
    NoDup (map f_id (log (h c))).
Proof. exact lfu_unlimited. Qed.
Print Assumptions C50_lfu_unlimited_partial.

Example C50_lfu_unlimited_partial_ex :
  exists c held ys, lfu_run (lfu_start (-1)) [Put [1%N] 10%N; Put [2%N] 20%N; Remove [1%N]; Put [1%N] 11%N; Get [1%N]] = Ok (c, held, ys) /\
    map obs ys = [None; None; Some 10%N; None; Some 11%N].
Proof. do 3 eexists. split; vm_compute; reflexivity. Qed.

(** overwriting unlinks an entry through a frequency_list_head that was never set *)
Theorem C50_lfu_unlimited_overwrite_refuted : forall m, (m < 0)%Z -> forall k v w,
  lfu_run (lfu_start m) [Put k v; Put k w] = Bad.
Proof.
  intros m M k v w. unfold lfu_start. cbn [lfu_run lfu_step bind]. unfold lfu_put at 1. cbn -[keyb add_lfu_cache Z.eqb lfu_put].
  destruct (m =? 0)%Z eqn:E0; [apply Z.eqb_eq in E0; lia|].
  unfold add_lfu_cache at 1. cbn -[keyb add_lfu_cache Z.ltb Z.eqb lfu_put]. destruct (0 <? m)%Z eqn:E; [apply Z.ltb_lt in E; lia|]. cbn -[keyb lfu_put].
  unfold lfu_put, t_set. cbn -[keyb Z.eqb]. rewrite E0, keyb_refl. reflexivity.
Qed.
Print Assumptions C50_lfu_unlimited_overwrite_refuted.

Theorem C50_lfu_unlimited_invalidate_refuted : exists c held ys,
  lfu_run (lfu_start (-1)) [Put [1%N] 10%N; Invalidate] = Ok (c, held, ys) /\
  log (h c) = [] /\ table (h c) = [] /\ held 0 = 0 /\ live (h c) = [10%N].
Proof. do 3 eexists. split; [vm_compute; reflexivity|]. repeat split; vm_compute; reflexivity. Qed.
Print Assumptions C50_lfu_unlimited_invalidate_refuted.

(** max_entries = 0: put stores nothing and says so, but a get leaves *value as it was *)
Theorem C50_lfu_zero_refuted : forall k v old,
  lfu_put (lfu_create 0) k v = Ok (lfu_create 0, false) /\
  lfu_get (lfu_create 0) k old = Ok (lfu_create 0, None, old).
Proof. intros. split; reflexivity. Qed.
Print Assumptions C50_lfu_zero_refuted.
