(** C29: the skip list is an ordered set. *)
From Coq Require Import Arith NArith ZArith List Bool Lia.
From Verif.Skip Require Import Model Spec Rep Proofs Proofs2.
Import ListNotations.

(** Every history of calls with every outcome of the coin tosses returns, and frees, what the sorted list does; no NULL or
    freed node is used and every loop ends. *)
Theorem C29_set : forall comp compk os, ordered comp compk ->
  exists s, run comp compk init os = Some (s, snd (srun comp compk [] os)).
Proof.
  exact (fun comp compk os O => match run_ok comp compk O os init [] [] (inv_init comp) with
    ex_intro _ s (ex_intro _ _ (ex_intro _ _ (conj E _))) => ex_intro _ s E end).
Qed.
Print Assumptions C29_set.
Definition by_value (a b : N) : Z := Z.of_N a - Z.of_N b.
Definition by_half (k a : N) : Z := 2 * Z.of_N k - Z.of_N a.
Lemma ord_ex : ordered by_value by_half.
Proof. unfold by_value, by_half. constructor; intros; try lia. Qed.
(** towers of different heights; NULL data (0) is kept but not handed to myfree *)
Definition story : list op :=
  [Peek; Pop true; Find 3; Remove 3 true; Insert 6 [true; true; true]; Insert 3 []; Insert 8 [true; true; false]; Insert 0 [true; true; true; true];
   Insert 6 [true; true; true; true]; Insert 7 [true]; List_; Find 3; Find 2; Find 0; Find 9; Find 4; Size; Remove 4 true; Remove 4 true; Pop true; Remove 3 false;
   List_; Insert 1 [true; true; true; true; true]; Pop true; Peek; Size; RemoveAll true; List_; Size; Insert 5 [true]; List_].
Example C29_set_ex : ordered by_value by_half /\ snd (srun by_value by_half [] story) =
  [RPeek 0; RPop 0 []; RFind None None None [] []; RRem false []; RIns true (Some 6%N); RIns true (Some 3%N); RIns true (Some 8%N); RIns true (Some 0%N);
   RIns false None; RIns true (Some 7%N); RList [0; 3; 6; 7; 8]%N; RFind (Some 6%N) (Some 3%N) (Some 7%N) [6; 3; 0]%N [6; 7; 8]%N; RFind None (Some 3%N) (Some 6%N) [] [];
   RFind (Some 0%N) None (Some 3%N) [0]%N [0; 3; 6; 7; 8]%N; RFind None (Some 8%N) None [] []; RFind (Some 8%N) (Some 7%N) None [8; 7; 6; 3; 0]%N [8%N];
   RSize 5; RRem true [8%N]; RRem false []; RPop 0 []; RRem true []; RList [3; 7]%N; RIns true (Some 1%N); RPop 1 [1%N]; RPeek 3; RSize 2; RAll [3; 7]%N;
   RList []; RSize 0; RIns true (Some 5%N); RList [5%N]].
Proof. split; [exact ord_ex|reflexivity]. Qed.

(** What the list holds is strictly increasing, its towers fit the stack of insert, and an emptied list holds no memory. *)
Theorem C29_state : forall comp compk, ordered comp compk -> forall os s, (exists rs, run comp compk init os = Some (s, rs)) ->
  let l := fst (srun comp compk [] os) in
  sorted comp l /\ height s <= 24 /\ (l = [] -> forall a, heap s a = None).
Proof. exact state_ok. Qed.
Print Assumptions C29_state.
Definition drained : list op := [Insert 6 [true; true]; Insert 3 []; Insert 8 [true; true; true]; Remove 3 true; Pop true; Remove 4 false].
Example C29_state_ex : ordered by_value by_half /\
  (match run by_value by_half init drained with Some (s, _) => Some (height s, map (fun a => match heap s a with None => false | _ => true end) (seq 0 12)) | None => None end)
  = Some (0, repeat false 12) /\
  (match run by_value by_half init (firstn 3 drained) with Some (s, _) => Some (height s, map (fun a => match heap s a with None => false | _ => true end) (seq 0 9)) | None => None end)
  = Some (3, repeat true 9) /\
  fst (srun by_value by_half [] drained) = [].
Proof. split; [exact ord_ex|]. repeat split; reflexivity. Qed.

(** The set is the set of what was inserted and not removed: reference by membership. *)
Theorem C29_members : forall comp compk l d bits x,
  (In x (fst (sstep comp compk l (Insert d bits))) <-> In x l \/ (x = d /\ forall y, In y l -> comp d y <> 0%Z)).
Proof. exact members_insert. Qed.
Print Assumptions C29_members.
Example C29_members_ex : fst (sstep by_value by_half [2; 5; 9]%N (Insert 7 [])) = [2; 5; 7; 9]%N /\
  fst (sstep by_value by_half [2; 5; 9]%N (Insert 5 [])) = [2; 5; 9]%N.
Proof. split; reflexivity. Qed.

Theorem C29_members_remove : forall comp compk l k myfree x,
  In x (fst (sstep comp compk l (Remove k myfree))) <-> In x l /\ compk k x <> 0%Z.
Proof. exact members_remove. Qed.
Print Assumptions C29_members_remove.
Example C29_members_remove_ex : fst (sstep by_value by_half [2; 6; 9]%N (Remove 3 false)) = [2; 9]%N.
Proof. reflexivity. Qed.

(** When a search comparator matches several elements, which of them is found depends on the coin tosses. *)
Theorem C29_ambiguous_key : exists comp compk b b',
  (forall k a b, (comp a b < 0 -> compk k a < 0 -> compk k b < 0)%Z) /\
  option_map snd (run comp compk init [Insert 10 []; Insert 11 b; Find 1]) <> option_map snd (run comp compk init [Insert 10 []; Insert 11 b'; Find 1]).
Proof. exact ambiguous. Qed.
Print Assumptions C29_ambiguous_key.
