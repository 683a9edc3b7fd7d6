From Coq Require Import Arith NArith List Bool.
From Verif.Btrie Require Import Model Spec Words Abs Proofs.
Import ListNotations.

(** ** C15 *)
(** For every history of additions and deletions that runs, in both families, looking an address up
    returns the data of the longest configured prefix covering it (NULL when there is none) and
    stores that prefix's length; [Bad] is the overrun of pstack, excluded by C51_find_total.  The
    words an IPv4 call leaves uninitialised are arbitrary words of the address. *)
Theorem C15_longest_match : forall ops t fs f a, Forall valid ops -> run Nil ops = Ok (t, fs) -> address a ->
  lookup t a (fam_bits f) = Bad \/
  exists pl, lookup t a (fam_bits f) = Ok (match longest (route ops) (addr_bits a) (fam_bits f) with Some (_, d) => d | None => 0%N end, pl) /\
    (forall n d, longest (route ops) (addr_bits a) (fam_bits f) = Some (n, d) -> pl = Some n).
Proof. exact find_longest. Qed.
Print Assumptions C15_longest_match.

Definition ip4 (a b c d : N) : list N := [(a * 16777216 + b * 65536 + c * 256 + d)%N; 7%N; 0xdeadbeef%N; 3%N].
Definition ops1 : list op :=
  [Add V4 (ip4 10 0 0 0) 8 1; Add V4 (ip4 10 1 2 0) 24 2; Add V4 (ip4 192 168 0 0) 16 3; Add V4 (ip4 10 1 0 0) 16 4;
   Del V4 (ip4 10 1 2 0) 24; Add V4 (ip4 10 1 2 128) 25 5; Add V6 [0x20010db8%N; 0%N; 0%N; 1%N] 128 6].
Example C15_longest_match_ex : Forall valid ops1 /\ exists t, run Nil ops1 = Ok (t, [2%N]) /\
  lookup t (ip4 10 1 2 3) 32 = Ok (4%N, Some 16) /\ lookup t (ip4 10 1 2 200) 32 = Ok (5%N, Some 25) /\
  lookup t (ip4 11 1 2 200) 32 = Ok (0%N, Some 0) /\ lookup t [0x20010db8%N; 0%N; 0%N; 1%N] 128 = Ok (6%N, Some 128).
Proof. split; [repeat constructor|]. eexists. split; [vm_compute; reflexivity|]. vm_compute. auto. Qed.

(** the assertions of mtev_btrie_add_route never fire *)
Theorem C15_never_aborts : forall ops, Forall valid ops -> run Nil ops <> Abort.
Proof. exact run_never_aborts. Qed.
Print Assumptions C15_never_aborts.
Example C15_never_aborts_ex : Forall valid ops1.
Proof. repeat constructor. Qed.

(** a deletion that reports 0 found no such route; f is called on the deleted route's data *)
Theorem C15_del_returns : forall ops t fs f a n t' r l, Forall valid ops -> run Nil ops = Ok (t, fs) -> n <= fam_bits f -> address a ->
  step t (Del f a n) = Ok (t', r, l) ->
  (r = false -> route ops (prefix a n) = None) /\
  l = (match route ops (prefix a n) with Some d => if N.eqb d 0 then [] else [d] | None => [] end).
Proof. exact del_returns. Qed.
Print Assumptions C15_del_returns.
Example C15_del_returns_ex : exists t t', run Nil ops1 = Ok (t, [2%N]) /\ step t (Del V4 (ip4 10 1 0 0) 16) = Ok (t', true, [4%N]).
Proof. do 2 eexists. split; [vm_compute; reflexivity|vm_compute; reflexivity]. Qed.

(** ** C51: every history of valid calls runs to completion.  False; what holds: *)
(** histories in which each deleted prefix fails to cover some prefix added before, and no prefix has 128 bits *)
Theorem C51_run_total_partial : forall ops, Forall valid ops -> Forall below_128 ops -> guarded [] ops -> exists t fs, run Nil ops = Ok (t, fs).
Proof. exact run_total. Qed.
Print Assumptions C51_run_total_partial.
Definition ops2 : list op := firstn 6 ops1.
Example C51_run_total_partial_ex : Forall valid ops2 /\ Forall below_128 ops2 /\ guarded [] ops2.
Proof.
  split; [repeat constructor|]. split; [repeat constructor|]. cbn [guarded ops2 firstn ops1]. split; [|exact I]. right.
  exists (prefix (ip4 10 0 0 0) 8). split; [cbn; auto|]. intros H. apply is_prefix_len in H. apply Nat.leb_le in H. vm_compute in H. discriminate.
Qed.

(** IPv4 lookups, and all lookups while no 128 bit prefix was added, stay within pstack *)
Theorem C51_find_total : forall ops t fs f a, Forall valid ops -> run Nil ops = Ok (t, fs) -> address a ->
  (f = V4 \/ Forall below_128 ops) -> lookup t a (fam_bits f) <> Bad.
Proof. exact find_total. Qed.
Print Assumptions C51_find_total.
Example C51_find_total_ex : exists t fs, Forall valid ops2 /\ run Nil ops2 = Ok (t, fs) /\ Forall below_128 ops2.
Proof. do 2 eexists. split; [repeat constructor|]. split; [vm_compute; reflexivity|repeat constructor]. Qed.

(** deleting the only route dereferences NULL, whatever the route *)
Theorem C51_delete_last_refuted : forall f a n d, n <= fam_bits f -> address a -> run Nil [Add f a n d; Del f a n] = Crash.
Proof. exact sole_crash. Qed.
Print Assumptions C51_delete_last_refuted.
Example C51_delete_last_refuted_ex : 8 <= fam_bits V4 /\ address (ip4 10 0 0 0).
Proof. repeat constructor. Qed.

(** with the prefixes ::/0, ::/1, ..., ::/128 configured a lookup of :: writes past pstack *)
Theorem C51_overrun_refuted : exists ops t, Forall valid ops /\ run Nil ops = Ok (t, []) /\ find_ipv6 t [0%N; 0%N; 0%N; 0%N] = Bad.
Proof.
  exists (map (fun n => Add V6 [0%N; 0%N; 0%N; 0%N] n 1%N) (seq 0 129)). eexists. split; [|split; [vm_compute; reflexivity|vm_compute; reflexivity]].
  apply Forall_forall. intros o H. apply in_map_iff in H. destruct H as (n & <- & H). apply in_seq in H. split; [cbn [fam_bits]; apply Nat.lt_succ_r, H|repeat constructor].
Qed.
Print Assumptions C51_overrun_refuted.

(** ** C52 *)
(** f is called on the data of exactly the deleted routes, once each in order; dropping the tree
    calls it on the data of exactly the remaining routes, once each (never on NULL) *)
Theorem C52_released_once : forall ops t fs, Forall valid ops -> run Nil ops = Ok (t, fs) ->
  fs = deleted [] ops /\
  exists rs, NoDup (map fst rs) /\ (forall p d, In (p, d) rs <-> route ops p = Some d) /\
    drop_node t = filter (fun d => negb (N.eqb d 0)) (map snd rs).
Proof. exact released. Qed.
Print Assumptions C52_released_once.
Example C52_released_once_ex : Forall valid ops1 /\ exists t, run Nil ops1 = Ok (t, [2%N]) /\ drop_node t = [5; 4; 1; 6; 3]%N.
Proof. split; [repeat constructor|]. eexists. split; [vm_compute; reflexivity|vm_compute; reflexivity]. Qed.

(** overwriting a route drops the pointer to its data without calling f *)
Theorem C52_overwrite_refuted : exists ops t, Forall valid ops /\ run Nil ops = Ok (t, []) /\
  In (Add V4 (ip4 10 0 0 0) 8 1%N) ops /\ drop_node t = [2%N].
Proof. exists [Add V4 (ip4 10 0 0 0) 8 1%N; Add V4 (ip4 10 0 0 0) 8 2%N]. eexists. split; [repeat constructor|]. split; [vm_compute; reflexivity|]. split; [left; reflexivity|vm_compute; reflexivity]. Qed.
Print Assumptions C52_overwrite_refuted.

(** ** C53: IPv4 routes do not affect IPv6 lookups.  False; what holds: *)
(** IPv4 calls whose prefix, read as leading bits, does not cover the IPv6 address are irrelevant to it *)
Theorem C53_families_partial : forall ops t fs t' fs' a, Forall valid ops -> address a ->
  run Nil ops = Ok (t, fs) -> run Nil (filter is_v6 ops) = Ok (t', fs') ->
  (forall o, In o ops -> is_v6 o = false -> ~ is_prefix (op_prefix o) (addr_bits a)) ->
  forall r r' pl pl', find_ipv6 t a = Ok (r, pl) -> find_ipv6 t' a = Ok (r', pl') -> r = r'.
Proof. exact v4_isolated. Qed.
Print Assumptions C53_families_partial.
Definition ops3 : list op := [Add V4 (ip4 10 0 0 0) 8 1; Add V6 [0x20010db8%N; 0%N; 0%N; 0%N] 32 6].
Example C53_families_partial_ex : exists t t', Forall valid ops3 /\ run Nil ops3 = Ok (t, []) /\ run Nil (filter is_v6 ops3) = Ok (t', []) /\
  (forall o, In o ops3 -> is_v6 o = false -> ~ is_prefix (op_prefix o) (addr_bits [0x20010db8%N; 1%N; 2%N; 3%N])) /\
  find_ipv6 t [0x20010db8%N; 1%N; 2%N; 3%N] = Ok (6%N, Some 32).
Proof.
  do 2 eexists. split; [repeat constructor|]. split; [vm_compute; reflexivity|]. split; [vm_compute; reflexivity|]. split; [|vm_compute; reflexivity].
  intros o [<-|[<-|[]]] V; [|discriminate]. intros [s E]. vm_compute in E. discriminate.
Qed.

(** 10.0.0.0/8 matches the IPv6 address 0a00:: *)
Theorem C53_families_refuted : exists ops t, Forall valid ops /\ filter is_v6 ops = [] /\ run Nil ops = Ok (t, []) /\
  find_ipv6 t [0x0a000000%N; 0%N; 0%N; 1%N] = Ok (1%N, Some 8).
Proof. exists [Add V4 (ip4 10 0 0 0) 8 1%N]. eexists. split; [repeat constructor|]. split; [reflexivity|]. split; [vm_compute; reflexivity|vm_compute; reflexivity]. Qed.
Print Assumptions C53_families_refuted.
