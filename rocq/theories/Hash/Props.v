(** C33: the hash table is a finite map over binary keys.  C68: merging one dictionary into another. *)
From Coq Require Import Arith NArith List Bool Permutation.
From Verif.Hash Require Import Model Spec Proofs.
Import ListNotations.
Local Open Scope N_scope.

(** Every history of operations returns, and frees, what the finite map does, whatever the hash function and the order
    of the set; nothing freed or foreign is read; iterating yields exactly the bindings; exactly the elements in the set
    are allocated, as many as there are bindings. *)
Theorem C33_map : forall xxh ord u b os, (forall l, Permutation (ord l) l) -> oks u [] os ->
  let '(u', m, rs') := srun u [] os in
  exists s rs, run xxh ord (empty u b) os = Some (s, rs) /\ Forall2 agree rs rs' /\
    (exists l, iterate s = Some l /\ Permutation l (map (fun e => (fst (snd e), N.of_nat (length (fst e)), snd (snd e))) m)) /\
    (forall p, attrs s p <> None <-> In p (map snd (hs s))) /\ length (hs s) = length m.
Proof. exact (fun xxh ord u b os H => refines xxh ord H u b os). Qed.
Print Assumptions C33_map.
(** keys with NUL bytes, one a prefix of another, all with the same hash; the buffer at 10 is used twice *)
Definition story : list op :=
  [Iterate; New 10 [1; 0; 2]; Store 10 3 100; Store 10 2 101; Store 10 3 102; New 10 [7]; New 11 [1; 0; 2]; Retrieve 11 3;
   Replace 11 3 103 true true; Get 11 2; Get 11 1; SetOp 11 2 104; Size; Iterate; Delete 11 3 true false; Delete 11 3 true true;
   Size; DeleteAll true true; Size; Iterate].
Definition mem0 : N -> list N := fun _ => [].
Example C33_map_ex : oks mem0 [] story /\
  map fst (snd (srun mem0 [] story)) =
    [RList []; RUnit; RInt 1; RInt 1; RInt 0; RUnit; RUnit; RRet 1 (Some 100); RInt 2; RPtr 101; RPtr 0; RSet 2 (Some (10, 101));
     RInt 2; RList [(11, 2, 104); (11, 3, 103)]; RInt 1; RInt 0; RInt 1; RUnit; RInt 0; RList []] /\
  map snd (snd (srun mem0 [] story)) =
    [[]; []; []; []; []; []; []; []; [FKey 10; FData 100]; []; []; []; []; []; [FKey 11]; []; []; [FKey 11; FData 104]; []; []] /\
  (let '(u', m, rs') := srun mem0 [] story in
   exists s rs, run (fun _ => 5) (@rev _) (empty mem0 1000) story = Some (s, rs) /\ Forall2 agree rs rs').
Proof.
  split; [vm_compute; repeat split; discriminate|]. split; [vm_compute; reflexivity|]. split; [vm_compute; reflexivity|].
  pose proof (C33_map (fun _ => 5) (@rev _) mem0 1000 story) as H. destruct (srun mem0 [] story) as [[u' m] rs'] eqn:E.
  destruct H as (s & rs & H1 & H2 & _); [intros l; apply Permutation_sym, Permutation_rev| |eauto].
  vm_compute; repeat split; discriminate.
Qed.

(** store never overwrites *)
Theorem C33_store : forall xxh ord u b os k klen d, (forall l, Permutation (ord l) l) -> oks u [] os ->
  let '(u', m, _) := srun u [] os in
  readable u' k klen ->
  exists s rs s' r, run xxh ord (empty u b) os = Some (s, rs) /\ store xxh ord s k klen d = Some (s', r) /\
    (r = 0 <-> In (bytes u' k klen) (map fst m)) /\ (r = 0 \/ r = 1) /\
    forall k' klen', readable u' k' klen' -> bytes u' k' klen' <> bytes u' k klen \/ r = 0 ->
      option_map snd (get xxh s' k' klen') = option_map snd (get xxh s k' klen').
Proof. exact (fun xxh ord u b os k klen d H => store_keeps xxh ord H u b os k klen d). Qed.
Print Assumptions C33_store.
Example C33_store_ex : oks mem0 [] (firstn 7 story) /\ readable (fst (fst (srun mem0 [] (firstn 7 story)))) 11 3 /\
  readable (fst (fst (srun mem0 [] (firstn 7 story)))) 11 1.
Proof. split; [vm_compute; repeat split; discriminate|]. vm_compute; repeat split; discriminate. Qed.

(** Merging a dictionary (distinct keys, each a C string with or without its NUL; values NULL or C strings): every key of
    the source is afterwards bound to fresh copies of its key and value, every other key keeps its binding, exactly
    the displaced keys and values are freed, and the table goes on working as that map. *)
Theorem C68_merge : forall xxh ord u b os src, (forall l, Permutation (ord l) l) -> oks u [] os ->
  let '(u', m, _) := srun u [] os in
  b <> 0 -> Forall (dict_entry u' b) src -> NoDup (map (ekey u') src) ->
  exists s rs s' m', run xxh ord (empty u b) os = Some (s, rs) /\
    merge xxh ord s src = Some (s', flat_map (fun e => match lookup (ekey u' e) m with Some v => frees true true v | None => [] end) src) /\
    (forall os', oks (um s') m' os' ->
      let '(_, _, rs') := srun (um s') m' os' in exists s2 rs2, run xxh ord s' os' = Some (s2, rs2) /\ Forall2 agree rs2 rs') /\
    merged u' b src m (um s') m'.
Proof. exact (fun xxh ord u b os src H => merge_all xxh ord H u b os src). Qed.
Print Assumptions C68_merge.
(** "ab" -> "x" is in the table; "ab" -> "y" and "c" -> NULL are merged *)
Definition dict : list op := [New 10 [97; 98; 0]; New 11 [120; 0]; Store 10 2 11; New 12 [97; 98; 0]; New 13 [121; 0]; New 14 [99; 0]].
Example C68_merge_ex : oks mem0 [] dict /\
  (let '(u', m, _) := srun mem0 [] dict in
   1000 <> 0 /\ Forall (dict_entry u' 1000) [(12, 2, 13); (14, 1, 0)] /\ NoDup (map (ekey u') [(12, 2, 13); (14, 1, 0)]) /\
   flat_map (fun e => match lookup (ekey u' e) m with Some v => frees true true v | None => [] end) [(12, 2, 13); (14, 1, 0)] =
     [FKey 10; FData 11]).
Proof.
  split; [vm_compute; repeat split; discriminate|]. cbv beta iota zeta delta [dict srun sstep bytes lookup].
  assert (N1 : ~ In 0 [97; 98]) by (cbn; intros [H|[H|[]]]; discriminate).
  assert (N2 : ~ In 0 [121]) by (cbn; intros [H|[]]; discriminate).
  assert (N3 : ~ In 0 [99]) by (cbn; intros [H|[]]; discriminate).
  split; [discriminate|]. split; [|split; [|vm_compute; reflexivity]].
  - constructor; [|constructor; [|constructor]].
    + split; [exists [97; 98]; split; [split; [exact N1|exists []; reflexivity]|discriminate]|].
      repeat split. right. exists [121]. split; [exact N2|exists []; reflexivity].
    + split; [exists [99]; split; [split; [exact N3|exists []; reflexivity]|discriminate]|].
      repeat split. left. reflexivity.
  - vm_compute. constructor; [intros [H|[]]; discriminate|constructor; [intros []|constructor]].
Qed.

(** a source key counted longer than its string and NUL, a binary key, is read past the end of its copy *)
Theorem C68_binary : forall xxh ord s src kp klen d kb, string_at (um s) kp kb -> (d = 0 \/ exists vb, string_at (um s) d vb) ->
  kp < brk s -> d < brk s -> N.of_nat (length kb) + 1 < klen -> merge xxh ord s ((kp, klen, d) :: src) = None.
Proof. exact merge_over. Qed.
Print Assumptions C68_binary.
Example C68_binary_ex : let u := updN mem0 10 [1; 0; 2] in
  string_at u 10 [1] /\ oks u [] [Store 10 3 0] /\
  option_map (fun x => iterate (fst x)) (run (fun _ => 5) (fun l => l) (empty u 1000) [Store 10 3 0]) = Some (Some [(10, 3, 0)]) /\
  N.of_nat (length [1]) + 1 < 3.
Proof.
  cbv zeta. split; [split; [cbn; intros [H|[]]; discriminate|exists [2]; reflexivity]|].
  split; [vm_compute; repeat split; discriminate|]. split; vm_compute; reflexivity.
Qed.
