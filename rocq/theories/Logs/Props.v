(** Log streams. *)
From Coq Require Import Arith NArith List Bool Lia Ascii String.
From Verif.Logs Require Import Model Spec Proofs Proofs2 Proofs3 Proofs4 Proofs5 Proofs6.
Import ListNotations.

(** A graph for the examples: a and b both pass on to f, which writes; a also passes on
    to b, but only long messages. *)
Definition long : filter := mkfilter true (fun l => 3 <=? List.length (text l)).
Lemma long_honest : honest long. Proof. discriminate. Qed.
Definition graph : list op :=
  [Register (bs "t"); New (bs "f") (Some (bs "t")) true; Find (bs "a"); Find (bs "b"); Add 1 0; Add 2 0; Add_filtered 1 2 long].
Definition said (s : string) : line := mkline 0 (bs s).
Lemma graph_honest : Forall honest_op graph.
Proof. repeat constructor. exact long_honest. Qed.
Lemma graph_quiet : Forall quiet graph. Proof. repeat constructor. Qed.
Definition built (o : option state) : state := match o with Some s => s | None => empty end.

(** a, b, f in a row; a asks for stamps and its name *)
Definition row (k : nat) : list op :=
  [Register (bs "t"); New (bs "f") (Some (bs "t")) true; Find (bs "a"); Find (bs "b"); Add 2 0; Add 1 2; Set_flags k (mkflags true false true true false)].
(** the states of the examples *)
Definition ex_fil : state := Eval vm_compute in built (steps 9 empty [Find (bs "a"); Find (bs "b"); Add_filtered 1 0 long]).
Definition ex_all : state := Eval vm_compute in built (steps 9 empty (graph ++ [Remove_all 1])).
Definition ex_plain : state := Eval vm_compute in built (steps 9 empty (graph ++ [Set_plain 0 false])).
Definition ex_res : state := Eval vm_compute in built (steps 5 empty [New (bs "x") (Some (bs "t")) true; Register (bs "t")]).
Definition ex_row : state := Eval vm_compute in built (steps 9 empty (row 1)).
Definition ex_loop : state := Eval vm_compute in built (steps 9 empty [Find (bs "a"); Find (bs "b"); Add 0 1]).
Definition ex0 : state := Eval vm_compute in built (steps 9 empty graph).
Definition ex1 : state := Eval vm_compute in built (steps 9 empty (graph ++ [Remove 1 (bs "f")])).
Definition ex2 : state := Eval vm_compute in built (steps 5 empty [New_on_fd (bs "x")]).
Definition ex3 : state := Eval vm_compute in built (steps 5 empty [New (bs "x") (Some (bs "t")) true; Register (bs "t"); Resolve]).
Definition ex4 : state := Eval vm_compute in built (steps 9 empty [New_on_fd (bs "x")]).
Definition ex5 : state := Eval vm_compute in built (steps 9 empty [New_on_fd (bs "x"); New (bs "y") None true]).
Definition ex6 : state := Eval vm_compute in built (steps 9 empty [New_on_fd (bs "x"); Set_flags 0 BOOT_STDERR_FLAGS]).
Definition ex7 : state := Eval vm_compute in built (steps 9 empty (graph ++ [Find (bs "c/d")])).
Definition ex8 : state := Eval vm_compute in built (steps 9 empty [Find (bs "a/b")]).
Definition ex9 : state := Eval vm_compute in built (steps 9 empty [Find (bs "a/b"); New (bs "a/b") None true]).
Definition ex10 : state := Eval vm_compute in built (steps 9 empty (row 2)).
Definition ex11 : state := Eval vm_compute in built (steps 9 empty (row 0)).
Definition ex12 : state := Eval vm_compute in built (steps 9 empty [Register (bs "file"); New (bs "f") (Some (bs "file")) true]).

(** ** C147: a line is written once for each way from its stream to one that writes *)
Theorem C147_every_way_once : forall d0 ops st l i, Forall honest_op ops -> Forall quiet ops -> steps d0 empty ops = Some st ->
  (exists d0, forall d, d0 <= d -> log d (streams st) i l <> None) /\
  forall d w, log d (streams st) i l = Some w ->
    exists rs, NoDup rs /\ (forall r, In r rs <-> route (streams st) l i r) /\ w = flat_map (given (streams st) l) rs.
Proof. exact deliver. Qed.
Print Assumptions C147_every_way_once.
Example C147_every_way_once_ex : exists st, Forall honest_op graph /\ Forall quiet graph /\ steps 9 empty graph = Some st /\
  log 9 (streams st) 1 (said "hello") = Some [Text 0 false None false (bs "hello"); Text 0 false None false (bs "hello")] /\
  log 9 (streams st) 1 (said "hi") = Some [Text 0 false None false (bs "hi")].
Proof.
  exists ex0. split; [exact graph_honest|]. split; [exact graph_quiet|]. split; [(vm_compute; reflexivity)|]. split; (vm_compute; reflexivity).
Qed.
(** The answer whether a line is needed at all: with the message at hand it is never
    that the message is needed, and no means that there is no way for the line. *)
Theorem C147_not_needed : forall d0 ops st l hm d i t, Forall honest_op ops -> Forall quiet ops -> steps d0 empty ops = Some st ->
  needed d (streams st) l hm i [] = Some (No, t) -> forall r, ~ route (streams st) l i r.
Proof.
  intros d0 ops st l hm d i t F Q H N. destruct (reached _ _ _ F H) as [I _].
  destruct (needed_ok (streams st) l I (proj1 (proj2 (steps_ok d0 ops empty st inv_empty F H) Q sound_empty)) hm d i [] No t (true_nil _ _ I (proj1 (proj2 (steps_ok d0 ops empty st inv_empty F H) Q sound_empty))) N) as (_ & U & _).
  exact (U eq_refl).
Qed.
Print Assumptions C147_not_needed.
Example C147_not_needed_ex : exists st, steps 9 empty (graph ++ [Remove 1 (bs "f")]) = Some st /\
  needed 9 (streams st) (said "hi") false 1 [] = Some (Message, []) /\ needed 9 (streams st) (said "hi") true 1 [] = Some (No, [(1, 2, false)]).
Proof. exists ex1. split; [(vm_compute; reflexivity)|]. split; (vm_compute; reflexivity). Qed.

(** ** C148: a stream that writes gets the lines as soon as it is there *)
Definition C148_full : Prop := forall d0 ops st l i r d w, Forall honest_op ops -> steps d0 empty ops = Some st ->
  route (streams st) l i r -> log d (streams st) i l = Some w -> incl (given (streams st) l r) w.
(** Not so for a stream made on a file descriptor, nor for streams whose type comes to be
    known later: nothing is logged until some other call looks at the graph again. *)
Theorem C148_on_fd_refuted : ~ C148_full.
Proof.
  intro H. specialize (H 5 [New_on_fd (bs "x")] ex2 (said "hi") 0 [0] 5 []).
  assert (X : incl (given (streams ex2) (said "hi") [0]) []).
  { apply H; [repeat constructor|(vm_compute; reflexivity)|apply r_here; (vm_compute; reflexivity)|(vm_compute; reflexivity)]. }
  exact (X _ (or_introl eq_refl)).
Qed.
Print Assumptions C148_on_fd_refuted.
Theorem C148_resolve_refuted : exists st l i r, steps 5 empty [New (bs "x") (Some (bs "t")) true; Register (bs "t"); Resolve] = Some st /\
  route (streams st) l i r /\ given (streams st) l r <> [] /\ log 5 (streams st) i l = Some [].
Proof.
  exists ex3, (said "hi"), 0, [0]. split; [(vm_compute; reflexivity)|].
  split; [apply r_here; (vm_compute; reflexivity)|]. split; [discriminate|(vm_compute; reflexivity)].
Qed.
Print Assumptions C148_resolve_refuted.
Theorem C148_new_partial : forall d0 ops st d1 n ty st' l i, Forall honest_op ops -> steps d0 empty ops = Some st -> n <> bs "stderr" -> step d1 st (New n ty true) = Some st' ->
  forall d w, log d (streams st') i l = Some w ->
    exists rs, NoDup rs /\ (forall r, In r rs <-> route (streams st') l i r) /\ w = flat_map (given (streams st') l) rs.
Proof. exact deliver_new. Qed.
Print Assumptions C148_new_partial.
Example C148_new_partial_ex : exists st st', steps 9 empty [New_on_fd (bs "x")] = Some st /\ bs "y" <> bs "stderr" /\ step 9 st (New (bs "y") None true) = Some st' /\
  log 9 (streams st') 0 (said "hi") = Some [Text 0 false None false (bs "hi")].
Proof.
  exists ex4, ex5. split; [(vm_compute; reflexivity)|]. split; [discriminate|].
  split; (vm_compute; reflexivity).
Qed.
Theorem C148_flags_partial : forall d0 ops st d1 k f st' l i, Forall honest_op ops -> steps d0 empty ops = Some st -> flg (get (streams st) k) <> f -> step d1 st (Set_flags k f) = Some st' ->
  forall d w, log d (streams st') i l = Some w ->
    exists rs, NoDup rs /\ (forall r, In r rs <-> route (streams st') l i r) /\ w = flat_map (given (streams st') l) rs.
Proof. exact deliver_flags. Qed.
Print Assumptions C148_flags_partial.
Example C148_flags_partial_ex : exists st st', steps 9 empty [New_on_fd (bs "x")] = Some st /\ flg (get (streams st) 0) <> BOOT_STDERR_FLAGS /\
  step 9 st (Set_flags 0 BOOT_STDERR_FLAGS) = Some st' /\ log 9 (streams st') 0 (said "hi") = Some [Text 0 true None false (bs "hi" ++ [10%N])].
Proof.
  exists ex4, ex6. split; [(vm_compute; reflexivity)|]. split; [discriminate|].
  split; (vm_compute; reflexivity).
Qed.

(** ** C149: calls on the graph return *)
Definition C149_full : Prop := forall d0 ops st i j, Forall honest_op ops -> steps d0 empty ops = Some st ->
  i < List.length (streams st) -> j < List.length (streams st) -> exists d, step d st (Add i j) <> None.
(** Adding an outlet returns unless that makes a loop; then it does not, whatever the
    depth of the stack. *)
Theorem C149_add_returns_partial : forall d0 ops st i j, Forall honest_op ops -> steps d0 empty ops = Some st ->
  i < List.length (streams st) -> j < List.length (streams st) ->
  (exists d, step d st (Add i j) <> None) <-> edge (streams st) i j \/ (i <> j /\ ~ leads (streams st) j i).
Proof.
  intros d0 ops st i j F H Li Lj. destruct (reached _ _ _ F H) as [I A]. rewrite <- (add_returns (streams st) i j None I A Li Lj ltac:(discriminate)).
  cbn [step]. rewrite (proj2 (there_iff _ _) Li), (proj2 (there_iff _ _) Lj). cbn [andb].
  split; intros [d N]; exists d; destruct (add_stream d (streams st) i j None); cbn in *; congruence.
Qed.
Print Assumptions C149_add_returns_partial.
Example C149_add_returns_partial_ex : exists st, steps 9 empty graph = Some st /\ 1 < List.length (streams st) /\ 2 < List.length (streams st) /\
  edge (streams st) 1 2 /\ leads (streams st) 1 0 /\ ~ leads (streams st) 0 1.
Proof.
  exists ex0. split; [(vm_compute; reflexivity)|]. split; [cbn; lia|]. split; [cbn; lia|].
  assert (O1 : outs (get (streams ex0) 1) = [mkoutlet 2 (Some long); mkoutlet 0 None]) by (vm_compute; reflexivity).
  assert (O0 : outs (get (streams ex0) 0) = []) by (vm_compute; reflexivity).
  split; [exists (mkoutlet 2 (Some long)); rewrite O1; split; [now left|(vm_compute; reflexivity)]|].
  split; [constructor; exists (mkoutlet 0 None); rewrite O1; split; [right; now left|(vm_compute; reflexivity)]|].
  intro L. inversion L as [? ? (o & I & _)|? ? ? (o & I & _)]; rewrite O0 in I; destruct I.
Qed.
Theorem C149_loop_refuted : ~ C149_full.
Proof.
  intro H. pose (ops := [Find (bs "a"); Find (bs "b"); Add 0 1]). pose (st := ex_loop).
  assert (F : Forall honest_op ops) by (repeat constructor). assert (E : steps 9 empty ops = Some st) by (vm_compute; reflexivity).
  pose proof (H 9 ops st 1 0 F E ltac:(cbn; lia) ltac:(cbn; lia)) as R. apply (C149_add_returns_partial 9 ops st 1 0 F E) in R; [|cbn; lia|cbn; lia].
  assert (O0 : outs (get (streams st) 0) = [mkoutlet 1 None]) by (vm_compute; reflexivity). assert (O1 : outs (get (streams st) 1) = []) by (vm_compute; reflexivity).
  destruct R as [(o & I & _)|[_ N]]; [rewrite O1 in I; destruct I|]. apply N. constructor. exists (mkoutlet 1 None). rewrite O0. split; [now left|(vm_compute; reflexivity)].
Qed.
Print Assumptions C149_loop_refuted.
(** So no call that returned has left a loop behind. *)
Theorem C149_no_loops : forall d0 ops st i, Forall honest_op ops -> steps d0 empty ops = Some st -> ~ leads (streams st) i i.
Proof. intros d0 ops st i F H. apply no_loop. apply (reached _ _ _ F H). Qed.
Print Assumptions C149_no_loops.
Example C149_no_loops_ex : exists st, Forall honest_op graph /\ steps 9 empty graph = Some st /\ leads (streams st) 1 0.
Proof.
  destruct C149_add_returns_partial_ex as (st & E & _ & _ & _ & L & _). exists st. split; [exact graph_honest|]. now split.
Qed.

(** ** C150: finding a stream makes it, with its parent as its outlet *)
Theorem C150_found : forall d0 ops st d n ss' i, Forall honest_op ops -> steps d0 empty ops = Some st -> In n (map name (streams st)) ->
  find_stream d (streams st) n = Some (ss', i) -> ss' = streams st /\ named ss' i n.
Proof.
  intros d0 ops st d n ss' i F H I E. destruct (reached _ _ _ F H) as [INV _]. destruct (find_ok _ _ _ _ _ _ INV E) as (_ & _ & _ & N & _ & S). split; [now apply S|exact N].
Qed.
Print Assumptions C150_found.
Example C150_found_ex : exists st, steps 9 empty graph = Some st /\ find_stream 9 (streams st) (bs "b") = Some (streams st, 2).
Proof. exists ex0. split; (vm_compute; reflexivity). Qed.
Theorem C150_made : forall d0 ops st d n ss' i, Forall honest_op ops -> steps d0 empty ops = Some st -> ~ In n (map name (streams st)) ->
  find_stream d (streams st) n = Some (ss', i) ->
  named ss' i n /\ i = List.length (streams st) /\ (forall k, k < i -> same (get (streams st) k) (get ss' k)) /\
  writer (get ss' i) = false /\ type (get ss' i) = None /\ plain (get ss' i) = true /\
  (n <> bs "debug" -> n <> bs "stderr" -> flg (get ss' i) = mkflags true false false false false) /\
  (n = bs "debug" -> flg (get ss' i) = mkflags false false true false false) /\
  (n = bs "stderr" -> flg (get ss' i) = mkflags true false true false true) /\
  match parent n with
  | None => outs (get ss' i) = []
  | Some p => exists j, outs (get ss' i) = [mkoutlet j None] /\ named ss' j p
  end.
Proof.
  intros d0 ops st d n ss' i F H NI E. destruct (reached _ _ _ F H) as [INV _]. destruct (find_ok _ _ _ _ _ _ INV E) as (_ & _ & G & N & S & _).
  destruct (S NI) as [_ (Ei & Fl & W & T & P & O)]. split; [exact N|]. split; [exact Ei|]. split; [intros k K; apply G; lia|]. split; [exact W|]. split; [exact T|]. split; [exact P|].
  split; [|split; [intros ->; exact Fl|split; [intros ->; exact Fl|exact O]]]. intros N1 N2. rewrite Fl. unfold boot. destruct (eqb_bytes n n_debug) eqn:E1; [apply eqb_bytes_iff in E1; now elim N1|].
  destruct (eqb_bytes n n_stderr) eqn:E2; [apply eqb_bytes_iff in E2; now elim N2|reflexivity].
Qed.
Print Assumptions C150_made.
Example C150_made_ex : exists st ss', steps 9 empty graph = Some st /\ find_stream 9 (streams st) (bs "c/d") = Some (ss', 3) /\
  outs (get ss' 3) = [mkoutlet 4 None] /\ name (get ss' 4) = bs "c" /\ outs (get ss' 4) = [].
Proof.
  exists ex0, (streams ex7). split; [(vm_compute; reflexivity)|]. split; [(vm_compute; reflexivity)|].
  split; [(vm_compute; reflexivity)|]. split; (vm_compute; reflexivity).
Qed.
(** The parent is what is before the last slash. *)
Theorem C150_parent : forall n p, parent n = Some p <-> exists q, n = p ++ 47%N :: q /\ ~ In 47%N q.
Proof.
  assert (X : forall n, match parent n with Some p => exists q, n = p ++ 47%N :: q /\ ~ In 47%N q | None => ~ In 47%N n end).
  { induction n as [|x n IH]; [intros []|]. cbn [parent]. destruct (parent n) as [p|].
    - destruct IH as (q & -> & N). now exists q.
    - destruct (N.eqb_spec x 47) as [->|NE]; [now exists n|]. intros [E|E]; [congruence|contradiction]. }
  assert (U : forall a b q r : bytes, a ++ 47%N :: q = b ++ 47%N :: r -> ~ In 47%N q -> ~ In 47%N r -> a = b).
  { induction a as [|x a IH]; intros [|y b] q r E Q R; [reflexivity| | |].
    - injection E as <- E. exfalso. apply Q. rewrite E. apply in_or_app. right. now left.
    - injection E as -> E. exfalso. apply R. rewrite <- E. apply in_or_app. right. now left.
    - injection E as -> E. f_equal. now apply (IH b q r). }
  intros n p. specialize (X n). split.
  - intro E. now rewrite E in X.
  - intros (q & -> & N). destruct (parent (p ++ 47%N :: q)) as [p'|].
    + destruct X as (q' & E & N'). f_equal. symmetry. now apply (U p p' q q').
    + exfalso. apply X. apply in_or_app. right. now left.
Qed.
Print Assumptions C150_parent.
Example C150_parent_ex : parent (bs "a/b/c") = Some (bs "a/b") /\ parent (bs "abc") = None.
Proof. split; (vm_compute; reflexivity). Qed.
(** A stream that is made with a type starts anew: also the outlet to its parent is gone. *)
Theorem C150_new_starts_anew : forall d0 ops st d n ty st', Forall honest_op ops -> steps d0 empty ops = Some st -> n <> bs "stderr" ->
  step d st (New n ty true) = Some st' ->
  exists i, named (streams st') i n /\ outs (get (streams st') i) = [] /\ type (get (streams st') i) = ty /\
    writer (get (streams st') i) = match ty with Some t => existsb (eqb_bytes t) (types st) | None => false end /\
    flg (get (streams st') i) = mkflags true false false false (match ty with Some t => eqb_bytes t (bs "file") | None => false end) /\
    forall k, k < List.length (streams st) -> k <> i -> same (get (streams st) k) (get (streams st') k).
Proof.
  intros d0 ops st d n ty st' F H N E. destruct (reached _ _ _ F H) as [INV _]. cbn [step] in E.
  destruct (new_stream d st n ty true) as [s1|] eqn:E1; [|discriminate E]. cbn [bind] in E. injection E as <-. cbn [streams].
  destruct (new_ok _ _ _ _ _ _ INV E1) as (_ & _ & X). destruct (X N eq_refl) as (_ & i & Nm & (Sn & Sf & Sw & St & Sp & So) & K).
  exists i. split; [exact Nm|]. split; [symmetry; exact So|]. split; [symmetry; exact St|]. split; [symmetry; exact Sw|]. split; [symmetry; exact Sf|exact K].
Qed.
Print Assumptions C150_new_starts_anew.
Example C150_new_starts_anew_ex : exists st st', steps 9 empty [Find (bs "a/b")] = Some st /\ outs (get (streams st) 0) = [mkoutlet 1 None] /\
  step 9 st (New (bs "a/b") None true) = Some st' /\ outs (get (streams st') 0) = [].
Proof.
  exists ex8, ex9. split; [(vm_compute; reflexivity)|]. split; [(vm_compute; reflexivity)|].
  split; (vm_compute; reflexivity).
Qed.

(** ** C151: what a stream on the way asks for is put in front of the text *)
Definition C151_full : Prop := forall d0 ops st l i r d w u, Forall honest_op ops -> Forall quiet ops -> steps d0 empty ops = Some st ->
  route (streams st) l i r -> text l <> [] -> plain (get (streams st) (last r 0)) = true -> log d (streams st) i l = Some w ->
  In u r -> stamps (flg (get (streams st) u)) = true -> exists f g t, In (Text (last r 0) true f g t) w.
(** Only the stream that writes and the one right before it count; the name is that of
    the stream logged to. *)
Theorem C151_last_two_partial : forall d0 ops st l i r u to d w p, Forall honest_op ops -> Forall quiet ops -> steps d0 empty ops = Some st ->
  route (streams st) l i (r ++ [u; to]) -> plain (get (streams st) to) = true -> log d (streams st) i l = Some w ->
  In p (pieces (split (flg (get (streams st) to))) (text l)) ->
  let on f := f (flg (get (streams st) to)) || f (flg (get (streams st) u)) in
  In (Text to (on stamps) (if on facility then Some (name (get (streams st) i)) else None) (on debug) p) w.
Proof.
  intros d0 ops st l i r u to d w p F Q H R P L I on. destruct (deliver d0 ops st l i F Q H) as [_ D]. destruct (D d w L) as (rs & _ & A & ->).
  apply in_flat_map. exists (r ++ [u; to]). split; [now apply A|]. unfold given.
  assert (E1 : last (r ++ [u; to]) 0 = to) by (change [u; to] with ([u] ++ [to]); rewrite app_assoc; apply last_last).
  assert (E2 : hd 0 (r ++ [u; to]) = i) by (assert (RH : forall q, route (streams st) l i q -> hd 0 q = i) by (intros q Rq; inversion Rq; reflexivity); now apply RH).
  assert (E3 : forall f, asked (streams st) f (r ++ [u; to]) = on f) by (intro f; unfold asked; rewrite rev_app_distr; reflexivity).
  rewrite E1, E2, P, !E3. apply in_map. exact I.
Qed.
Print Assumptions C151_last_two_partial.
Example C151_last_two_partial_ex : exists st, Forall honest_op (row 2) /\ Forall quiet (row 2) /\ steps 9 empty (row 2) = Some st /\
  route (streams st) (said "hi") 1 ([1] ++ [2; 0]) /\ plain (get (streams st) 0) = true /\
  log 9 (streams st) 1 (said "hi") = Some [Text 0 true (Some (bs "a")) false (bs "hi")].
Proof.
  exists ex10. split; [repeat constructor|]. split; [repeat constructor|]. split; [(vm_compute; reflexivity)|].
  split; [|split; (vm_compute; reflexivity)]. apply (r_on _ _ 1 (mkoutlet 2 None)); [(vm_compute; reflexivity)|now left|exact I|]. apply (r_on _ _ 2 (mkoutlet 0 None)); [(vm_compute; reflexivity)|now left|exact I|].
  apply r_here; (vm_compute; reflexivity).
Qed.
Theorem C151_further_up_refuted : ~ C151_full.
Proof.
  intro H. pose (st := ex_row).
  assert (F : Forall honest_op (row 1)) by (repeat constructor). assert (Q : Forall quiet (row 1)) by (repeat constructor).
  destruct (H 9 (row 1) st (said "hi") 1 [1; 2; 0] 9 [Text 0 false None false (bs "hi")] 1 F Q) as (f & g & t & [X|[]]); try (vm_compute; reflexivity); try discriminate X.
  - apply (r_on _ _ 1 (mkoutlet 2 None)); [(vm_compute; reflexivity)|now left|exact I|]. apply (r_on _ _ 2 (mkoutlet 0 None)); [(vm_compute; reflexivity)|now left|exact I|]. apply r_here; (vm_compute; reflexivity).
  - discriminate.
  - now left.
Qed.
Print Assumptions C151_further_up_refuted.
Theorem C151_alone : forall d0 ops st l i d w p, Forall honest_op ops -> Forall quiet ops -> steps d0 empty ops = Some st ->
  enabled (flg (get (streams st) i)) = true -> writer (get (streams st) i) = true -> plain (get (streams st) i) = true -> log d (streams st) i l = Some w ->
  In p (pieces (split (flg (get (streams st) i))) (text l)) ->
  In (Text i (stamps (flg (get (streams st) i))) (if facility (flg (get (streams st) i)) then Some (name (get (streams st) i)) else None) (debug (flg (get (streams st) i))) p) w.
Proof.
  intros d0 ops st l i d w p F Q H E W P L I. destruct (deliver d0 ops st l i F Q H) as [_ D]. destruct (D d w L) as (rs & _ & A & ->).
  apply in_flat_map. exists [i]. split; [apply A; now apply r_here|]. unfold given. cbn [last hd]. rewrite P. unfold asked. cbn [rev app]. apply in_map. exact I.
Qed.
Print Assumptions C151_alone.
Example C151_alone_ex : exists st, Forall honest_op (row 0) /\ Forall quiet (row 0) /\ steps 9 empty (row 0) = Some st /\
  log 9 (streams st) 0 (said "hi") = Some [Text 0 true (Some (bs "f")) false (bs "hi")].
Proof. exists ex11. split; [repeat constructor|]. split; [repeat constructor|]. split; (vm_compute; reflexivity). Qed.

(** ** C152: a stream that splits gets one line at a time *)
Theorem C152_split_lines : forall t,
  Forall (fun p => exists q, p = q ++ [10%N] /\ ~ In 10%N q) (pieces true t) /\
  List.concat (pieces true t) = (if list_eq_dec N.eq_dec t [] then [] else if N.eqb (last t 0%N) 10 then t else t ++ [10%N]).
Proof. intro t. destruct (split_pieces t) as (A & B & _). exact (conj A B). Qed.
Print Assumptions C152_split_lines.
Example C152_split_lines_ex : pieces true (bs "a" ++ [10; 10]%N ++ bs "bc") = [bs "a" ++ [10%N]; [10%N]; bs "bc" ++ [10%N]].
Proof. (vm_compute; reflexivity). Qed.
Theorem C152_whole : forall t, pieces false t = (if list_eq_dec N.eq_dec t [] then [] else [t]).
Proof. intros [|x t]; reflexivity. Qed.
Print Assumptions C152_whole.
Example C152_whole_ex : pieces false (bs "a" ++ [10]%N ++ bs "bc") = [bs "a" ++ [10]%N ++ bs "bc"].
Proof. (vm_compute; reflexivity). Qed.
(** On the way: what one writer gets of one line is these pieces, in their order. *)
Theorem C152_in_order : forall d0 ops st l i d w, Forall honest_op ops -> Forall quiet ops -> steps d0 empty ops = Some st ->
  enabled (flg (get (streams st) i)) = true -> writer (get (streams st) i) = true -> plain (get (streams st) i) = true -> outs (get (streams st) i) = [] ->
  log d (streams st) i l = Some w -> map (fun x => match x with Text _ _ _ _ p => p | Whole _ => [] end) w = pieces (split (flg (get (streams st) i))) (text l).
Proof.
  intros d0 ops st l i d w F Q H E W P O L. destruct (deliver d0 ops st l i F Q H) as [_ D]. destruct (D d w L) as (rs & N & A & ->).
  assert (R : forall r, In r rs <-> r = [i]).
  { intro r. rewrite A. split; [|intros ->; now apply r_here]. intro R. inversion R as [? ? ?|? o ? ? Io]; subst; [reflexivity|]. rewrite O in Io. destruct Io. }
  destruct rs as [|a rs]; [now destruct (proj2 (R [i]) eq_refl)|]. pose proof (proj1 (R a) (or_introl eq_refl)) as ->.
  destruct rs as [|b rs]; [|pose proof (proj1 (R b) (or_intror (or_introl eq_refl))) as ->; inversion N as [|? ? NI _]; exfalso; apply NI; now left].
  cbn [flat_map]. rewrite app_nil_r. unfold given. cbn [last]. rewrite P, map_map. apply map_id.
Qed.
Print Assumptions C152_in_order.
Example C152_in_order_ex : exists st, steps 9 empty [Register (bs "file"); New (bs "f") (Some (bs "file")) true] = Some st /\
  log 9 (streams st) 0 (said "hi") = Some [Text 0 false None false (bs "hi" ++ [10%N])].
Proof. exists ex12. split; (vm_compute; reflexivity). Qed.

(** ** C153: writing a vector of parts *)
Definition C153_full : Prop := forall handler iov, writev handler iov = Some (List.concat iov).
Theorem C153_writev_partial : forall handler iov, handler = false \/ List.length (List.concat iov) <= 128 * 128 -> writev handler iov = Some (List.concat iov).
Proof. intros handler iov H. apply writev_ok. destruct H as [H|H]; [now left|right]. exact H. Qed.
Print Assumptions C153_writev_partial.
Example C153_writev_partial_ex : writev true [bs "[x] "; bs "hello"; [10%N]] = Some (bs "[x] hello" ++ [10%N]).
Proof. apply C153_writev_partial. right. cbn. lia. Qed.
(** In a signal handler, more than the buffer holds is read or written outside of it. *)
Theorem C153_handler_refuted : ~ C153_full.
Proof.
  intro H. specialize (H true [bs "x"; repeat 0%N STACK]).
  rewrite writev_bad in H; [discriminate H|]. cbn [List.concat]. rewrite app_nil_r, app_length, repeat_length. cbn [bs map list_ascii_of_string List.length]. lia.
Qed.
Print Assumptions C153_handler_refuted.
Theorem C153_handler_bad : forall a b r, 128 * 128 < List.length (List.concat (a :: b :: r)) -> writev true (a :: b :: r) = None.
Proof. intros a b r H. apply writev_bad. exact H. Qed.
Print Assumptions C153_handler_bad.
Example C153_handler_bad_ex : 128 * 128 < List.length (List.concat [bs "x"; repeat 0%N STACK]) /\ writev true [bs "x"; repeat 0%N STACK] = None.
Proof.
  assert (L : STACK < List.length (List.concat [bs "x"; repeat 0%N STACK])) by (cbn [List.concat]; rewrite app_nil_r, app_length, repeat_length; cbn [bs map list_ascii_of_string List.length]; lia).
  split; [exact L|]. now apply writev_bad.
Qed.

(** ** C154: each call changes only what it names *)
Theorem C154_add : forall d0 ops st d i j st', Forall honest_op ops -> steps d0 empty ops = Some st -> step d st (Add i j) = Some st' ->
  types st' = types st /\
  (edge (streams st) i j -> nothing (streams st) (streams st')) /\
  (~ edge (streams st) i j -> only (streams st) (streams st') i (flg (get (streams st) i)) (plain (get (streams st) i)) (mkoutlet j None :: outs (get (streams st) i))).
Proof. intros d0 ops st d i j st' F H E. destruct (reached _ _ _ F H) as [INV _]. apply (add_step d st i j None st' INV); [discriminate|exact E]. Qed.
Print Assumptions C154_add.
Example C154_add_ex : exists st st', steps 9 empty graph = Some st /\ step 9 st (Add 1 2) = Some st' /\ outs (get (streams st') 1) = outs (get (streams st) 1).
Proof. exists ex0, ex0. split; [|split]; (vm_compute; reflexivity). Qed.
Theorem C154_add_filtered : forall d0 ops st d i j f st', Forall honest_op ops -> honest f -> steps d0 empty ops = Some st -> step d st (Add_filtered i j f) = Some st' ->
  types st' = types st /\
  (edge (streams st) i j -> nothing (streams st) (streams st')) /\
  (~ edge (streams st) i j -> only (streams st) (streams st') i (flg (get (streams st) i)) (plain (get (streams st) i)) (mkoutlet j (Some f) :: outs (get (streams st) i))).
Proof.
  intros d0 ops st d i j f st' F Hf H E. destruct (reached _ _ _ F H) as [INV _]. apply (add_step d st i j (Some f) st' INV); [|exact E]. intros g Q. now injection Q as <-.
Qed.
Print Assumptions C154_add_filtered.
Example C154_add_filtered_ex : honest long /\ steps 9 empty [Find (bs "a"); Find (bs "b"); Add_filtered 1 0 long] = Some ex_fil /\ outs (get (streams ex_fil) 1) = [mkoutlet 0 (Some long)].
Proof. split; [exact long_honest|]. split; (vm_compute; reflexivity). Qed.
Theorem C154_remove : forall d0 ops st d i n st', Forall honest_op ops -> steps d0 empty ops = Some st -> step d st (Remove i n) = Some st' ->
  types st' = types st /\
  exists os, only (streams st) (streams st') i (flg (get (streams st) i)) (plain (get (streams st) i)) os /\
    forall o, In o os <-> In o (outs (get (streams st) i)) /\ name (get (streams st) (target o)) <> n.
Proof. intros d0 ops st d i n st' F H E. destruct (reached _ _ _ F H) as [INV _]. now apply (remove_step d st i n st' INV). Qed.
Print Assumptions C154_remove.
Example C154_remove_ex : steps 9 empty graph = Some ex0 /\ step 9 ex0 (Remove 1 (bs "f")) = Some ex1 /\ outs (get (streams ex1) 1) = [mkoutlet 2 (Some long)].
Proof. split; [|split]; (vm_compute; reflexivity). Qed.
Theorem C154_remove_all : forall d0 ops st d i st', Forall honest_op ops -> steps d0 empty ops = Some st -> step d st (Remove_all i) = Some st' ->
  types st' = types st /\ only (streams st) (streams st') i (flg (get (streams st) i)) (plain (get (streams st) i)) [].
Proof. intros d0 ops st d i st' F H E. destruct (reached _ _ _ F H) as [INV _]. now apply (removeall_step d st i st' INV). Qed.
Print Assumptions C154_remove_all.
Example C154_remove_all_ex : steps 9 empty graph = Some ex0 /\ step 9 ex0 (Remove_all 1) = Some ex_all /\ outs (get (streams ex_all) 1) = [] /\ outs (get (streams ex_all) 2) = [mkoutlet 0 None].
Proof. split; [|split; [|split]]; (vm_compute; reflexivity). Qed.
Theorem C154_set_flags : forall d0 ops st d i f st', Forall honest_op ops -> steps d0 empty ops = Some st -> step d st (Set_flags i f) = Some st' ->
  types st' = types st /\ only (streams st) (streams st') i f (plain (get (streams st) i)) (outs (get (streams st) i)).
Proof. intros d0 ops st d i f st' F H E. destruct (reached _ _ _ F H) as [INV _]. now apply (set_flags_step d st i f st' INV). Qed.
Print Assumptions C154_set_flags.
Example C154_set_flags_ex : steps 9 empty [New_on_fd (bs "x")] = Some ex4 /\ step 9 ex4 (Set_flags 0 BOOT_STDERR_FLAGS) = Some ex6 /\ flg (get (streams ex6) 0) = BOOT_STDERR_FLAGS.
Proof. split; [|split]; (vm_compute; reflexivity). Qed.
Theorem C154_set_plain : forall d st i b st', step d st (Set_plain i b) = Some st' ->
  types st' = types st /\
  (writer (get (streams st) i) = true -> only (streams st) (streams st') i (flg (get (streams st) i)) b (outs (get (streams st) i))) /\
  (writer (get (streams st) i) = false -> nothing (streams st) (streams st')).
Proof. exact set_plain_step. Qed.
Print Assumptions C154_set_plain.
Example C154_set_plain_ex : step 9 ex0 (Set_plain 0 false) = Some ex_plain /\ log 9 (streams ex_plain) 2 (said "hi") = Some [Whole 0].
Proof. split; (vm_compute; reflexivity). Qed.
Theorem C154_register : forall d st t st', step d st (Register t) = Some st' -> streams st' = streams st /\ forall u, In u (types st') <-> u = t \/ In u (types st).
Proof. intros d st t st' H. injection H as <-. split; [reflexivity|]. intro u. cbn [types In]. split; intros [E|E]; auto. Qed.
Print Assumptions C154_register.
Example C154_register_ex : exists st, step 0 empty (Register (bs "t")) = Some st /\ types st = [bs "t"].
Proof. exists (mkstate [] [bs "t"]). split; (vm_compute; reflexivity). Qed.
(** When the types of all streams are known, the streams of a type write afterwards. *)
Theorem C154_resolve : forall d st st', step d st Resolve = Some st' ->
  (forall i t, i < List.length (streams st) -> type (get (streams st) i) = Some t -> In t (types st)) ->
  types st' = types st /\ List.length (streams st') = List.length (streams st) /\
  forall i, let s := get (streams st) i in let s' := get (streams st') i in
    name s' = name s /\ flg s' = flg s /\ type s' = type s /\ plain s' = plain s /\ outs s' = outs s /\
    writer s' = (writer s || match type s with Some _ => true | None => false end).
Proof.
  intros d st st' H K. cbn [step bind] in H. injection H as <-. cbn [streams types]. split; [reflexivity|]. split; [apply resolve_len|]. exact (resolve_all _ _ K).
Qed.
Print Assumptions C154_resolve.
Example C154_resolve_ex : exists st', step 5 ex_res Resolve = Some st' /\ type (get (streams ex_res) 0) = Some (bs "t") /\ In (bs "t") (types ex_res) /\
  writer (get (streams ex_res) 0) = false /\ writer (get (streams st') 0) = true.
Proof. exists ex3. split; [vm_compute; reflexivity|]. split; [vm_compute; reflexivity|]. split; [vm_compute; now left|]. split; (vm_compute; reflexivity). Qed.
(** A stream that cannot be opened is made as if it had been looked for; so is stderr. *)
Theorem C154_new_fails : forall d st n ty opens, n = bs "stderr" \/ (opens = false /\ exists t, ty = Some t /\ In t (types st)) ->
  step d st (New n ty opens) = step d st (Find n).
Proof. intros d st n ty opens H. cbn [step]. now rewrite (new_fails d st n ty opens H). Qed.
Print Assumptions C154_new_fails.
Example C154_new_fails_ex : exists st', step 9 ex_res (New (bs "y") (Some (bs "t")) false) = Some st' /\ writer (get (streams st') 1) = false.
Proof. exists (built (step 9 ex_res (Find (bs "y")))). split; (vm_compute; reflexivity). Qed.
