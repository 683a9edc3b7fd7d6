From Coq Require Import Arith NArith ZArith List Bool Permutation Lia.
From Verif.Lru Require Import Model Spec Proofs.
Import ListNotations.

(** ** C13 *)
(** Full statement (false, see the two [_refuted] theorems): for every capacity and history the
    cache answers like the textbook LRU.  What is proved: it does so on histories in which no put
    hits a key that is still cached. *)
Theorem C13_lru_textbook_partial : forall cap ops, 0 < cap -> no_overwrite cap [] ops ->
  run (start (Z.of_nat cap)) ops = Misuse \/
  exists c held ys, run (start (Z.of_nat cap)) ops = Ok (c, held, ys) /\ map obs ys = text_run cap [] ops.
Proof. exact text_refines. Qed.
Print Assumptions C13_lru_textbook_partial.

Definition ops1 : list op := [Put [1%N] 10%N; Put [2%N] 20%N; Get [1%N]; Put [3%N] 30%N; Get [2%N]; Get [1%N]; Put [2%N] 21%N; Get [3%N]].
Example C13_lru_textbook_partial_ex : no_overwrite 2 [] ops1 /\
  exists c held ys, run (start 2) ops1 = Ok (c, held, ys) /\
    map obs ys = [None; None; Some 10%N; None; None; Some 10%N; None; None].
Proof. split; [cbn; intuition|]. do 3 eexists. split; [vm_compute; reflexivity|]. vm_compute; reflexivity. Qed.

(** Exact behaviour on all histories: the [leaky_put] cache, crash included; never a use of freed
    or uninitialised memory. *)
Theorem C13_lru_behaviour : forall cap ops, 0 < cap ->
  run (start (Z.of_nat cap)) ops = Misuse \/
  match spec_run cap [] 0 ops with
  | None => run (start (Z.of_nat cap)) ops = Crash
  | Some (_, _, xs) => exists c held ys, run (start (Z.of_nat cap)) ops = Ok (c, held, ys) /\ map obs ys = xs
  end.
Proof. exact bounded_run. Qed.
Print Assumptions C13_lru_behaviour.

Example C13_lru_behaviour_ex : exists c held ys,
  run (start 3) [Put [1%N] 10%N; Put [1%N] 11%N; Put [2%N] 20%N; Put [3%N] 30%N; Get [1%N]; Get [2%N]; Release 2; Remove [3%N]]
    = Ok (c, held, ys) /\ map obs ys = [None; None; None; None; None; Some 20%N; None; Some 30%N].
Proof. do 3 eexists. split; vm_compute; reflexivity. Qed.

Theorem C13_lru_overwrite_crash_refuted :
  run (start 1) [Put [1%N] 10%N; Put [1%N] 11%N] = Crash.
Proof. reflexivity. Qed.
Print Assumptions C13_lru_overwrite_crash_refuted.

Theorem C13_lru_capacity_refuted : exists c held ys,
  run (start 2) [Put [1%N] 10%N; Put [1%N] 11%N; Put [2%N] 20%N; Get [1%N]] = Ok (c, held, ys) /\
  map obs ys = [None; None; None; None] /\
  text_run 2 [] [Put [1%N] 10%N; Put [1%N] 11%N; Put [2%N] 20%N; Get [1%N]] = [None; None; None; Some 11%N].
Proof. do 3 eexists. split; [vm_compute; reflexivity|]. split; vm_compute; reflexivity. Qed.
Print Assumptions C13_lru_capacity_refuted.

(** On every history a hit returns the value stored last under that key ... *)
Theorem C13_lru_coherent : forall cap ops k c held ys c' t v, 0 < cap ->
  run (start (Z.of_nat cap)) ops = Ok (c, held, ys) ->
  get c k = Ok (c', Some t, Some v) -> last_put ops k = Some v.
Proof. exact coherent. Qed.
Print Assumptions C13_lru_coherent.

Example C13_lru_coherent_ex : exists c held ys c' t,
  run (start 3) [Put [1%N] 10%N; Put [2%N] 20%N; Put [1%N] 11%N] = Ok (c, held, ys) /\ get c [1%N] = Ok (c', Some t, Some 11%N).
Proof. do 5 eexists. split; vm_compute; reflexivity. Qed.

(** ... and at most [cap] keys are cached. *)
Theorem C13_lru_bounded : forall cap ops c held ys ks, 0 < cap ->
  run (start (Z.of_nat cap)) ops = Ok (c, held, ys) ->
  NoDup ks -> (forall k, In k ks -> exists c' t v, get c k = Ok (c', Some t, v)) -> length ks <= cap.
Proof. exact bounded_size. Qed.
Print Assumptions C13_lru_bounded.

Example C13_lru_bounded_ex : exists c held ys,
  run (start 2) ops1 = Ok (c, held, ys) /\ NoDup [[1%N]; [2%N]] /\
  (forall k, In k [[1%N]; [2%N]] -> exists c' t v, get c k = Ok (c', Some t, v)).
Proof.
  do 3 eexists. split; [vm_compute; reflexivity|]. split.
  - repeat constructor; cbn; intuition discriminate.
  - intros k [<-|[<-|[]]]; do 3 eexists; vm_compute; reflexivity.
Qed.

(** ** C47 *)
(** Every value put in is, at any time, in exactly one place: in an allocated entry, passed to
    free_fn, or handed back by remove; free_fn runs at most once per entry, and has run exactly for
    the entries that are neither cached nor held. *)
Theorem C47_lru_ownership : forall cap ops c held ys, 0 < cap ->
  run (start (Z.of_nat cap)) ops = Ok (c, held, ys) ->
  Permutation (put_values ops) (removed_values ys ++ live c ++ freedv (log c)) /\
  NoDup (map f_id (log c)) /\
  forall i, In i (map f_id (log c)) <-> (i < length (put_values ops) /\ ~ In i (queue c) /\ held i = 0).
Proof. exact ownership. Qed.
Print Assumptions C47_lru_ownership.

Example C47_lru_ownership_ex : exists c held ys,
  run (start 2) [Put [1%N] 10%N; Get [1%N]; Put [2%N] 20%N; Put [3%N] 30%N; Put [4%N] 40%N; Remove [3%N]; Release 0] = Ok (c, held, ys) /\
  live c = [40%N] /\ freedv (log c) = [20%N; 10%N] /\ removed_values ys = [30%N].
Proof. do 3 eexists. split; [vm_compute; reflexivity|]. repeat split; vm_compute; reflexivity. Qed.

(** ** C48 *)
(** Full statement (false, see below): with max_entries <= 0 the cache is a plain map that owns its
    values.  Proved for histories without an overwriting put and without invalidate. *)
Theorem C48_lru_unlimited_partial : forall m, (m <= 0)%Z -> forall ops,
  (forall a k v b, ops = a ++ Put k v :: b -> last_put a k = None) -> ~ In Invalidate ops ->
  run (start m) ops = Misuse \/
  exists c held ys, run (start m) ops = Ok (c, held, ys) /\
    (forall k, exists c' t, get c k = Ok (c', t, last_put ops k)) /\
    Permutation (put_values ops) (removed_values ys ++ live c ++ freedv (log c)) /\
    NoDup (map f_id (log c)).
Proof. exact unlimited_map. Qed.
Print Assumptions C48_lru_unlimited_partial.

Example C48_lru_unlimited_partial_ex :
  exists c held ys, run (start (-1)) [Put [1%N] 10%N; Put [2%N] 20%N; Remove [1%N]; Put [1%N] 11%N; Get [1%N]] = Ok (c, held, ys) /\
    map obs ys = [None; None; Some 10%N; None; Some 11%N].
Proof. do 3 eexists. split; vm_compute; reflexivity. Qed.

(** overwriting a key unlinks an entry that was never linked *)
Theorem C48_lru_unlimited_overwrite_refuted : forall m, (m <= 0)%Z -> forall k v w,
  run (start m) [Put k v; Put k w] = Bad.
Proof.
  intros m M k v w. unfold start. cbn [run step bind]. unfold put. cbn -[keyb add_lru_cache].
  unfold add_lru_cache at 1. cbn -[keyb add_lru_cache Z.ltb]. destruct (0 <? m)%Z eqn:E; [apply Z.ltb_lt in E; lia|]. cbn -[keyb].
  unfold put, t_set. cbn -[keyb]. rewrite keyb_refl. reflexivity.
Qed.
Print Assumptions C48_lru_unlimited_overwrite_refuted.

(** invalidate forgets the values without freeing them *)
Theorem C48_lru_unlimited_invalidate_refuted : exists c held ys,
  run (start (-1)) [Put [1%N] 10%N; Invalidate] = Ok (c, held, ys) /\
  log c = [] /\ table c = [] /\ held 0 = 0 /\ live c = [10%N].
Proof. do 3 eexists. split; [vm_compute; reflexivity|]. repeat split; vm_compute; reflexivity. Qed.
Print Assumptions C48_lru_unlimited_invalidate_refuted.
