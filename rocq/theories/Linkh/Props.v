(** Properties of the containers behind JSON objects, arrays and texts. *)
From Coq Require Import NArith ZArith List Bool Lia Arith Permutation.
From Verif Require Import Linkh.Model Linkh.Spec Linkh.Proofs Linkh.Proofs2 Linkh.Proofs3 Linkh.Proofs4.
Import ListNotations.

(** *** C91: objects are maps in the order of insertion *)

(** Whatever the hash function: calls that return have answered, kept the order
    and released as expected. *)
Theorem C91_map : forall hash ops t outs, run hash object_new ops = Done (t, outs) ->
  outs = answers (expects w0 ops)
  /\ entries t = Done (obj (expects w0 ops))
  /\ released t = let_go (expects w0 ops)
  /\ NoDup (map fst (obj (expects w0 ops))).
Proof.
  intros hash ops t outs H. pose proof (run_spec hash ops _ _ (rel_new hash)) as R. rewrite H in R.
  destruct R as ((ids & I & A & B) & C). split; [symmetry; exact C|].
  rewrite <- A. split; [apply (entries_spec hash); exact I|]. split; [exact B|exact (i_dist _ _ _ I)].
Qed.
Print Assumptions C91_map.

Example C91_map_ex :
  let ops := [Add [97] (Some 1); Add [98] (Some 2); Add [97] (Some 3); Del [98]; Get [97]; Get [98]]%N in
  exists t, run char_hash object_new ops = Done (t, [Some 3; None]%N)
    /\ entries t = Done [([97], Some 3)]%N /\ released t = [([97], Some 1); ([98], Some 2)]%N.
Proof. eexists. split; [vm_compute; reflexivity|]. split; reflexivity. Qed.

(** No call dereferences a NULL link or leaves the table. *)
Theorem C91_safe : forall hash ops, run hash object_new ops <> Bad.
Proof.
  intros hash ops E. pose proof (run_spec hash ops _ _ (rel_new hash)) as R. rewrite E in R. exact R.
Qed.
Print Assumptions C91_safe.

Example C91_safe_ex : exists r, run (fun _ => 7%N) object_new [Add [1] None; Add [2] None; Del [1]; Add [3] None; Get [2]]%N = Done r.
Proof. eexists. vm_compute. reflexivity. Qed.

(** *** C92: calls return *)

(** With at most four members removed by object_del all calls return; growing,
    overwriting and looking up do no harm. *)
Theorem C92_returns : forall hash ops, removals [] ops <= 4 -> exists r, run hash object_new ops = Done r.
Proof.
  intros hash ops H. apply (run_returns hash ops _ w0 (rel_new hash)).
  change (cnt is_freed (slots object_new)) with 0. exact H.
Qed.
Print Assumptions C92_returns.

(** So the parser, which never removes, always gets an answer. *)
Example C92_returns_ex : removals [] [Add [97] None; Add [97] (Some 1); Get [98]; Del [99]; Del [97]]%N = 1.
Proof. reflexivity. Qed.

(** Eleven members, five of them replaced by others: looking up anything else
    never ends. *)
Definition filled : list op :=
  (map (fun c => Add [c] (Some c)) [96;97;98;99;100;101;102;103;104;105;106]
   ++ map (fun c => Del [c]) [96;97;98;99;100]
   ++ map (fun c => Add [c] (Some c)) [107;108;109;110;111])%N.
Theorem C92_lookup_refuted : exists t s,
  run char_hash object_new filled = Done (t, []) /\ removals [] filled = 5 /\
  entries t = Done (map (fun c => ([c], Some c)) [101;102;103;104;105;106;107;108;109;110;111])%N /\
  object_get char_hash t s = Hang /\
  forall fuel, probe fuel (slots t) (first_slot char_hash (length (slots t)) s) s = Hang.
Proof.
  eexists. exists [112]%N. split; [vm_compute; reflexivity|]. split; [reflexivity|].
  split; [vm_compute; reflexivity|]. split; [vm_compute; reflexivity|].
  apply probe_forever; [apply first_lt; cbn; lia|vm_compute; reflexivity].
Qed.
Print Assumptions C92_lookup_refuted.

Example C92_lookup_refuted_ex : run char_hash object_new (filled ++ [Add [112] None])%N = Hang
  /\ run char_hash object_new (filled ++ [Del [112]])%N = Hang.
Proof. split; vm_compute; reflexivity. Qed.

(** *** C93: arrays *)

(** Any sequence of puts and adds returns; every index gives what was put there
    last, NULL where nothing was, and the length is one above the highest. *)
Theorem C93_array : forall ops, exists a, aruns array_new ops = Done a
  /\ alength a = Z.of_N (len (aexpects aw0 ops))
  /\ dropped a = replaced (aexpects aw0 ops)
  /\ forall i, array_get a (Z.of_N i) = Done (at_ (aexpects aw0 ops) i).
Proof.
  intros ops. destruct (aruns_spec ops _ _ anew_inv) as (a & E & I).
  exists a. split; [exact E|]. split; [exact (a_len _ _ I)|]. split; [exact (a_drop _ _ I)|].
  intros i. apply array_get_spec. exact I.
Qed.
Print Assumptions C93_array.

Example C93_array_ex :
  let w := aexpects aw0 [Push (Some 5); Put 40 (Some 6); Push None; Put 0 (Some 7)]%N in
  len w = 42%N /\ at_ w 0 = Some 7%N /\ at_ w 40 = Some 6%N /\ at_ w 39 = None /\ replaced w = [5]%N.
Proof. vm_compute. repeat split. Qed.

(** A negative index is not refused. *)
Theorem C93_negative_refuted : forall a i x, (i < 0)%Z -> (0 <= alength a)%Z ->
  array_get a i = Bad /\ array_put a i x = Bad.
Proof.
  intros a i x H L. unfold array_get, array_put. cbv zeta.
  destruct (Z.leb_spec (alength a) i); [lia|]. destruct (Z.ltb_spec i 0); [|lia]. split; reflexivity.
Qed.
Print Assumptions C93_negative_refuted.

Example C93_negative_refuted_ex : array_get array_new (-1) = Bad.
Proof. reflexivity. Qed.

(** *** C94: everything handed over is released once *)

(** Objects: by overwriting, deletion or the end of the object. *)
Theorem C94_object : forall hash ops t outs, run hash object_new ops = Done (t, outs) ->
  exists l, table_free t = Done l /\ Permutation l (given ops).
Proof.
  intros hash ops t outs H. destruct (C91_map hash ops t outs H) as (_ & A & B & _).
  unfold table_free. rewrite A. cbn [bind]. eexists. split; [reflexivity|].
  rewrite B. exact (given_perm ops w0).
Qed.
Print Assumptions C94_object.

Example C94_object_ex : exists t l,
  run char_hash object_new [Add [97] (Some 1); Add [98] (Some 2); Add [97] (Some 3); Del [98]]%N = Done (t, [])
  /\ table_free t = Done l /\ l = [([97], Some 1); ([98], Some 2); ([97], Some 3)]%N.
Proof. eexists _, _. split; [vm_compute; reflexivity|]. split; reflexivity. Qed.

(** Arrays: by overwriting or the end of the array. *)
Theorem C94_array : forall ops, exists a, aruns array_new ops = Done a /\ Permutation (array_free a) (agiven ops).
Proof.
  intros ops. destruct (aruns_spec ops _ _ anew_inv) as (a & E & I). exists a. split; [exact E|].
  rewrite (array_free_spec _ _ I). exact (agiven_perm ops _ _ anew_inv).
Qed.
Print Assumptions C94_array.

Example C94_array_ex : exists a, aruns array_new [Push (Some 5); Put 3 (Some 6); Put 0 None; Put 0 (Some 7)]%N = Done a
  /\ array_free a = [5; 7; 6]%N.
Proof. eexists. split; [vm_compute; reflexivity|]. reflexivity. Qed.

(** *** C95: text buffers *)

(** Appending never leaves the buffer, and the buffer holds what was appended
    since the last reset, followed by a NUL. *)
Theorem C95_printbuf : forall ops, exists p, pruns pb_new ops = Done p
  /\ bpos p = length (fold_left pexpect ops [])
  /\ firstn (bpos p) (buf p) = fold_left pexpect ops []
  /\ (ops <> [] -> nth (bpos p) (buf p) 256%N = 0%N).
Proof.
  intros ops. destruct (pruns_spec ops pb_new []) as (p & E & (A & B & C) & D).
  - split; [reflexivity|]. split; [cbn; lia|reflexivity].
  - exists p. split; [exact E|]. split; [exact A|]. rewrite A. split; [exact C|exact D].
Qed.
Print Assumptions C95_printbuf.

Example C95_printbuf_ex : exists p, pruns pb_new [Append (repeat 7%N 31); AppendFast [8]%N; AppendFast [9]%N; Clear; Append [1;2]%N] = Done p
  /\ firstn 3 (buf p) = [1; 2; 0]%N /\ length (buf p) = 64.
Proof. eexists. split; [vm_compute; reflexivity|]. split; reflexivity. Qed.
