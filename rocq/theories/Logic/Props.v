(** C30, C69, C70, C71, C72: logic expressions. *)
From Coq Require Import Arith NArith ZArith List Bool Lia Permutation.
From Verif Require Import Logic.Model Logic.Spec Logic.Proofs Logic.Proofs2 Logic.Proofs3 Logic.Proofs4.
Import ListNotations.
Local Open Scope N_scope.

(** for the examples: integers for doubles, no strtod, a pattern matching only itself *)
Definition x_strtod (s : bytes) : Z * bytes := (0%Z, s).
Definition x_cmp (a b : Z) : option comparison := Some (Z.compare a b).
Definition x_re (p s : bytes) : bool := if list_eq_dec N.eq_dec p s then true else false.
Definition x_exec := exec_node Z x_strtod (fun z => z) x_cmp show_int x_re.
Definition x_pred := exec_predicate Z x_strtod (fun z => z) x_cmp show_int x_re.
Definition x_holds := holds Z x_strtod (fun z => z) x_cmp show_int x_re.
(** a is the string xy, b is 12, c is missing *)
Definition x_lookup (n : bytes) : bool * var Z :=
  match n with
  | [97] => (true, set_stringn Z (var0 Z 0%Z) (Some [120; 121; 122]) 2)
  | [98] => (true, set_int64 Z (var0 Z 0%Z) 12)
  | _ => (false, var0 Z 0%Z)
  end.
Definition x_answer (n : bytes) : answer Z := match n with [97] => Str [120; 121] | [98] => Int 12 | _ => Missing end.

(** C30: a predicate says of the program's answer what it should *)
Theorem C30_predicate : forall D strtod of_int dcmp fmtg re_match lookup op left r a,
  gives D fmtg a (lookup left) -> small D a r ->
  exec_predicate D strtod of_int dcmp fmtg re_match lookup op left r =
    match holds D strtod of_int dcmp fmtg re_match op a r with Some b => Val b | None => Abort end.
Proof. exact Proofs.predicate_ok. Qed.
Print Assumptions C30_predicate.
Example C30_predicate_ex :
  gives Z show_int (Str [120; 121]) (x_lookup [97]) /\ small Z (Str [120; 121]) (Right RString [120; 122]) /\
  x_pred x_lookup LT [97] (Right RString [120; 122]) = Val true /\ x_pred x_lookup GE [98] (Right RInt [49; 50]) = Val true.
Proof.
  split; [exact (gives_stringn Z show_int (var0 Z 0%Z) [120; 121] [122] ltac:(cbn; lia))|]. split; [repeat split; cbn; lia|]. split; reflexivity.
Qed.

(** C30: a tree evaluates to the truth value of its formula *)
Theorem C30_formula : forall D strtod of_int dcmp fmtg re_match lookup a n, sound n ->
  (forall op l r, occurs op l r n -> gives D fmtg (a l) (lookup l) /\ small D (a l) r /\ holds D strtod of_int dcmp fmtg re_match op (a l) r <> None) ->
  exec_node D strtod of_int dcmp fmtg re_match lookup n =
    Val (truth (fun op l r => match holds D strtod of_int dcmp fmtg re_match op (a l) r with Some b => b | None => false end) n).
Proof. exact exec_ok. Qed.
Print Assumptions C30_formula.
Definition x_tree : node :=
  Oper LAnd [Pred EQ [97] (Right RString [120; 121]); Oper LNot [Oper LOr [Pred LT [98] (Right RInt [53]); Pred EQ [99] (Right RInt [53])]]; Pred NE [99] (Right RString [])].
Lemma x_occurs : forall op l r, occurs op l r x_tree -> gives Z show_int (x_answer l) (x_lookup l) /\ small Z (x_answer l) r /\ x_holds op (x_answer l) r <> None.
Proof.
  intros op l r O. cbn [occurs x_tree] in O.
  repeat match goal with H : _ \/ _ |- _ => destruct H as [H|H] | H : False |- _ => destruct H | H : _ /\ _ |- _ => destruct H end; subst;
    (split; [first [exact (gives_stringn Z show_int (var0 Z 0%Z) [120; 121] [122] ltac:(cbn; lia)) | exact (gives_int Z show_int (var0 Z 0%Z) 12 (or_introl eq_refl)) | exact (gives_missing Z show_int (var0 Z 0%Z))]
            |split; [repeat split; cbn; lia|discriminate]]).
Qed.
Example C30_formula_ex : sound x_tree /\
  (forall op l r, occurs op l r x_tree -> gives Z show_int (x_answer l) (x_lookup l) /\ small Z (x_answer l) r /\ x_holds op (x_answer l) r <> None) /\
  x_exec x_lookup x_tree = Val true.
Proof. split; [cbn; tauto|]. split; [exact x_occurs|reflexivity]. Qed.

(** C30: the order of arguments does not matter *)
Theorem C30_order : forall D strtod of_int dcmp fmtg re_match lookup h o es es',
  Permutation es es' -> o <> LNot -> sound (Oper o es) ->
  (forall op l r, occurs op l r (Oper o es) -> exec_predicate D strtod of_int dcmp fmtg re_match lookup op l r = Val (h op l r)) ->
  exec_node D strtod of_int dcmp fmtg re_match lookup (Oper o es') = exec_node D strtod of_int dcmp fmtg re_match lookup (Oper o es).
Proof. exact order_irrelevant. Qed.
Print Assumptions C30_order.
Example C30_order_ex :
  Permutation [Pred EQ [98] (Right RInt [53]); Pred NE [99] (Right RInt [53])] [Pred NE [99] (Right RInt [53]); Pred EQ [98] (Right RInt [53])] /\
  x_exec x_lookup (Oper LOr [Pred EQ [98] (Right RInt [53]); Pred NE [99] (Right RInt [53])]) = Val true.
Proof. split; [apply perm_swap|reflexivity]. Qed.

(** C30: a missing variable satisfies the negated comparisons only *)
Theorem C30_missing : forall D strtod of_int dcmp fmtg re_match lookup op left r v,
  lookup left = (false, v) ->
  exec_predicate D strtod of_int dcmp fmtg re_match lookup op left r = Val (match op with NE | NRE => true | _ => false end).
Proof. intros. unfold exec_predicate. rewrite H. destruct op; reflexivity. Qed.
Print Assumptions C30_missing.
Example C30_missing_ex : x_lookup [99] = (false, var0 Z 0%Z) /\ x_pred x_lookup NRE [99] (Right RString [120]) = Val true.
Proof. split; reflexivity. Qed.

(** C30: mtev_logic_has_predicate finds the names compared *)
Theorem C30_has_predicate : forall n lval, sound n -> exists b, has_predicate n lval = Some b /\ (b = true <-> exists op r, occurs op lval r n).
Proof. exact has_predicate_ok. Qed.
Print Assumptions C30_has_predicate.
Example C30_has_predicate_ex : sound x_tree /\ has_predicate x_tree [99] = Some true /\ has_predicate x_tree [100] = Some false.
Proof. split; [cbn; tauto|]. split; reflexivity. Qed.

(** C69: against a string literal every operator and its negation disagree *)
Theorem C69_string_literals : forall D strtod of_int dcmp fmtg re_match a r, a <> Missing /\ a <> NoString -> rty r = RString ->
  let negates p q := exists b, holds D strtod of_int dcmp fmtg re_match p a r = Some b /\ holds D strtod of_int dcmp fmtg re_match q a r = Some (negb b) in
  negates EQ NE /\ negates LT GE /\ negates GT LE /\ negates RE NRE.
Proof. exact negates_string. Qed.
Print Assumptions C69_string_literals.
Example C69_string_literals_ex : x_holds LT (Int 9) (Right RString [49; 48]) = Some true /\ x_holds GE (Int 9) (Right RString [49; 48]) = Some false.
Proof. split; reflexivity. Qed.

(** C69: strings are totally ordered, and equal only when the same *)
Theorem C69_order : (forall l r, shortlex l r = Eq <-> l = r) /\ (forall l r, shortlex r l = CompOpp (shortlex l r)) /\
  (forall a b c, shortlex a b = Lt -> shortlex b c = Lt -> shortlex a c = Lt).
Proof. exact (conj shortlex_eq (conj shortlex_antisym shortlex_trans)). Qed.
Print Assumptions C69_order.
Example C69_order_ex : shortlex [57] [49; 48] = Lt /\ shortlex [49; 48] [49; 49] = Lt.
Proof. split; reflexivity. Qed.

(** C69: against a number this holds exactly when the variable is a number, and comparable to it *)
Theorem C69_numeric_literals : forall D strtod of_int dcmp fmtg re_match a r, a <> Missing /\ a <> NoString -> rty r <> RString ->
  let negates p q := exists b, holds D strtod of_int dcmp fmtg re_match p a r = Some b /\ holds D strtod of_int dcmp fmtg re_match q a r = Some (negb b) in
  (negates EQ NE /\ negates LT GE /\ negates GT LE) <-> exists n c, number D strtod a = Some n /\ ncompare D of_int dcmp n (rnumber D strtod r) = Some c.
Proof. exact negates_number. Qed.
Print Assumptions C69_numeric_literals.
Example C69_numeric_literals_ex : number Z x_strtod (Str [45; 55]) = Some (Zn Z (-7)) /\ x_holds LT (Str [45; 55]) (Right RInt [49]) = Some true.
Proof. split; reflexivity. Qed.

(** C69: anything else equals no number, and differs from none; a number against a numeric pattern aborts the process *)
Theorem C69_not_a_number : forall D strtod of_int dcmp fmtg re_match a r, a <> Missing /\ a <> NoString -> rty r <> RString ->
  (number D strtod a = None -> forall op, op <> EXISTS -> holds D strtod of_int dcmp fmtg re_match op a r = Some false) /\
  (number D strtod a <> None -> holds D strtod of_int dcmp fmtg re_match RE a r = None /\ holds D strtod of_int dcmp fmtg re_match NRE a r = None).
Proof.
  intros D strtod of_int dcmp fmtg re_match a r P R. split; [exact (not_a_number D strtod of_int dcmp fmtg re_match a r P R)|].
  intro H. destruct (number D strtod a) as [n|] eqn:E; [|congruence]. exact (regex_number D strtod of_int dcmp fmtg re_match a r n P R E).
Qed.
Print Assumptions C69_not_a_number.
Example C69_not_a_number_ex : number Z x_strtod (Str [120]) = None /\ x_holds NE (Str [120]) (Right RInt [53]) = Some false /\
  number Z x_strtod (Int 5) <> None /\ x_pred x_lookup RE [98] (Right RInt [53]) = Abort.
Proof. repeat split; discriminate. Qed.

(** C69: so the operators do not always negate one another, and some predicates abort *)
Theorem C69_refuted :
  ~ (forall (a : answer Z) r, a <> Missing /\ a <> NoString -> exists b, x_holds EQ a r = Some b /\ x_holds NE a r = Some (negb b)) /\
  ~ (forall (a : answer Z) r, a <> Missing /\ a <> NoString -> x_holds RE a r <> None).
Proof.
  split.
  - intro H. destruct (H (Str [120]) (Right RInt [53]) ltac:(split; discriminate)) as (b & B1 & B2). vm_compute in B1, B2. injection B1 as <-. discriminate.
  - intro H. apply (H (Int 5) (Right RInt [53])); [split; discriminate|reflexivity].
Qed.
Print Assumptions C69_refuted.
Example C69_refuted_ex : x_holds EQ (Str [120]) (Right RInt [53]) = Some false /\ x_holds NE (Str [120]) (Right RInt [53]) = Some false.
Proof. split; reflexivity. Qed.

(** C69: a string of 128 or more bytes compared with a number is never read: what is converted is uninitialised memory *)
Theorem C69_long_string : forall D strtod of_int dcmp fmtg re_match lookup op left r v s,
  lookup left = (true, v) -> ty D v = VString -> vs D v = Some s -> (128 <= s_len D v)%nat -> op <> EXISTS -> rty r <> RString ->
  exec_predicate D strtod of_int dcmp fmtg re_match lookup op left r = Ub.
Proof.
  intros D strtod of_int dcmp fmtg re_match lookup op left r v s H1 H2 H3 H4 H5 H6. unfold exec_predicate. rewrite H1, H2, H3. apply Nat.leb_le in H4. rewrite H4.
  destruct op; try congruence; destruct (rty r); congruence || reflexivity.
Qed.
Print Assumptions C69_long_string.
Example C69_long_string_ex : x_pred (fun _ => (true, set_stringn Z (var0 Z 0%Z) (Some (repeat 49 128)) 128)) EQ [97] (Right RInt [49]) = Ub.
Proof. reflexivity. Qed.

(** C69: a whole number and its decimal text are interchangeable *)
Theorem C69_decimal : forall D strtod of_int dcmp fmtg re_match op z r, (- 2 ^ 63 <= z < 2 ^ 63)%Z ->
  holds D strtod of_int dcmp fmtg re_match op (Int z) r = holds D strtod of_int dcmp fmtg re_match op (Str (show_int z)) r.
Proof. exact decimal_same. Qed.
Print Assumptions C69_decimal.
Example C69_decimal_ex : show_int (-120) = [45; 49; 50; 48] /\ x_holds GT (Str [45; 49; 50; 48]) (Right RInt [45; 49; 50; 49]) = Some true.
Proof. split; reflexivity. Qed.

(** C70: every text of the grammar parses to the tree it stands for *)
Theorem C70_parse : forall re_ok n t w, etext re_ok n t -> ws w -> (w <> [] -> compound n) -> parse re_ok (t ++ w) = Some n.
Proof. exact parse_yes. Qed.
Print Assumptions C70_parse.
(** and( a = 'x' ,not(b<5)) *)
Definition x_text : bytes := [97; 110; 100; 40; 32; 97; 32; 61; 32; 39; 120; 39; 32; 44; 110; 111; 116; 40; 98; 60; 53; 41; 41].
Definition x_node : node := Oper LAnd [Pred EQ [97] (Right RString [120]); Oper LNot [Pred LT [98] (Right RInt [53])]].
Example C70_parse_ex : etext (fun _ => true) x_node x_text /\ parse (fun _ => true) (x_text ++ [32]) = Some x_node.
Proof.
  split; [|vm_compute; reflexivity].
  assert (W : ws [32]) by (repeat constructor; auto). assert (W0 : ws []) by constructor.
  assert (Na : forall c, ident_start c = true -> name [c] [c]) by (intros c H; left; exists c, []; repeat split; exact H).
  change x_text with ([97; 110; 100] ++ [] ++ 40 :: [32] ++ [97; 32; 61; 32; 39; 120; 39] ++ [32] ++ [44; 110; 111; 116; 40; 98; 60; 53; 41] ++ [41]).
  apply e_op; try assumption; [constructor| |].
  - apply e_pred. change [97; 32; 61; 32; 39; 120; 39] with ([97] ++ [32] ++ [61] ++ [32] ++ [39; 120; 39]).
    change (Pred EQ [97] (Right RString [120])) with (mk_pred (fun _ => true) [97] EQ (Right RString (meaning [120]))).
    apply p_cmp; try assumption; [apply Na; reflexivity|constructor|]. left. exists [120]. split; [|reflexivity]. exists 39. repeat split. left; reflexivity.
  - change [44; 110; 111; 116; 40; 98; 60; 53; 41] with (44 :: [] ++ [110; 111; 116; 40; 98; 60; 53; 41] ++ [] ++ []).
    apply a_cons; try assumption; [|congruence|apply a_nil; exact W0].
    change [110; 111; 116; 40; 98; 60; 53; 41] with ([110; 111; 116] ++ [] ++ 40 :: [] ++ [98; 60; 53] ++ [] ++ [41]).
    apply e_not; try assumption. apply e_pred. change [98; 60; 53] with ([98] ++ [] ++ [60] ++ [] ++ [53]).
    change (Pred LT [98] (Right RInt [53])) with (mk_pred (fun _ => true) [98] LT (Right RInt [53])).
    apply p_cmp; try assumption; [apply Na; reflexivity|constructor|]. right. split; [|reflexivity].
    exists [], [53], [], []. repeat split; auto. discriminate.
Qed.

(** C70: every string without NUL has a literal *)
Theorem C70_any_string : forall s, Forall (fun c => 0 < c < 256) s ->
  quoted (escape s) (39 :: escape s ++ [39]) /\ quoted (escape s) (34 :: escape s ++ [34]) /\ meaning (escape s) = s.
Proof.
  intros s H. split; [exists 39; split; [left; reflexivity|]; split; [apply escape_okraw; left; reflexivity|reflexivity]|].
  split; [exists 34; split; [right; reflexivity|]; split; [apply escape_okraw; right; reflexivity|reflexivity]|]. exact (meaning_escape s H).
Qed.
Print Assumptions C70_any_string.
Example C70_any_string_ex : escape [10; 39; 65; 200] = [92; 48; 49; 50; 92; 39; 65; 200] /\ meaning [92; 48; 49; 50; 92; 39; 65; 200] = [10; 39; 65; 200].
Proof. split; vm_compute; reflexivity. Qed.
(** C70: what the escapes in a literal stand for *)
Theorem C70_escapes : forall raw v, ~ In 0 raw -> denotes raw v -> meaning raw = cstr v.
Proof. exact denotes_meaning. Qed.
Print Assumptions C70_escapes.
Example C70_escapes_ex : denotes [65; 92; 110; 92; 51; 55; 55; 92; 52; 55; 55; 92; 55; 120; 92; 113; 92; 39] [65; 10; 255; 39; 55; 7; 120; 113; 39].
Proof.
  apply d_plain; [discriminate|]. apply (d_letter 110 10); [cbn; tauto|]. apply (d_octal3 51 55 55); try reflexivity.
  apply (d_octal2 52 55); try reflexivity; [left; discriminate|]. apply d_plain; [discriminate|]. apply (d_octal1 55); try reflexivity.
  apply d_plain; [discriminate|]. apply d_other; [discriminate|reflexivity|cbn; intuition discriminate|]. apply (d_letter 39 39); [cbn; tauto|]. constructor.
Qed.


(** C71: what is accepted is a sequence of expressions and a rest that is ignored; the last expression is the one kept, and without any the tree is NULL *)
Theorem C71_accepted : forall re_ok input root, parse re_ok input = Some root -> exists rest, run re_ok Null input root rest.
Proof. exact parse_run. Qed.
Print Assumptions C71_accepted.
(** a=1b=2 *)
Example C71_accepted_ex : parse (fun _ => true) [97; 61; 49; 98; 61; 50] = Some (Pred EQ [98] (Right RInt [50])).
Proof. vm_compute. reflexivity. Qed.

(** C71: texts that are no expressions are accepted *)
Theorem C71_refuted :
  (* and(a=1    the closing parenthesis is missing: accepted, and evaluating it dereferences NULL *)
  parse (fun _ => true) [97; 110; 100; 40; 97; 61; 49] = Some Null /\
  (* x=1e5    is taken for x=1 *)
  parse (fun _ => true) [120; 61; 49; 101; 53] = Some (Pred EQ [120] (Right RInt [49])) /\
  (* a~'('    a pattern PCRE refuses: accepted, and evaluating it dereferences NULL *)
  parse (fun _ => false) [97; 126; 39; 40; 39] = Some Null /\
  (forall D strtod of_int dcmp fmtg re_match lookup, exec_node D strtod of_int dcmp fmtg re_match lookup Null = Ub) /\
  ~ (forall input root, parse (fun _ => true) input = Some root -> exists w t, input = t ++ w /\ etext (fun _ => true) root t /\ ws w).
Proof.
  split; [vm_compute; reflexivity|]. split; [vm_compute; reflexivity|]. split; [vm_compute; reflexivity|]. split; [reflexivity|].
  intro H. destruct (H [97] Null ltac:(vm_compute; reflexivity)) as (w & t & E & T & _).
  pose proof (etext_not_nil _ _ _ T) as L. assert (length t <= 1)%nat by (change 1%nat with (length [97]); rewrite E, app_length; lia). lia.
Qed.
Print Assumptions C71_refuted.
Example C71_refuted_ex : parse (fun _ => true) [97; 110; 100; 40; 97; 61; 49] = Some Null.
Proof. vm_compute. reflexivity. Qed.

(** C71: space before a comma is an error from the second argument on: and(a=1 ,b=2) and and(a=1,b=2 ,c=3) *)
Theorem C71_comma_space_refuted :
  parse (fun _ => true) [97; 110; 100; 40; 97; 61; 49; 32; 44; 98; 61; 50; 41] = Some (Oper LAnd [Pred EQ [97] (Right RInt [49]); Pred EQ [98] (Right RInt [50])]) /\
  parse (fun _ => true) [97; 110; 100; 40; 97; 61; 49; 44; 98; 61; 50; 32; 44; 99; 61; 51; 41] = None.
Proof. split; vm_compute; reflexivity. Qed.
Print Assumptions C71_comma_space_refuted.
Example C71_comma_space_refuted_ex : exists n, parse (fun _ => true) [97; 110; 100; 40; 97; 61; 49; 44; 98; 61; 50; 44; 99; 61; 51; 41] = Some n /\ sound n.
Proof. eexists. split; [vm_compute; reflexivity|cbn; tauto]. Qed.

(** C72: a string set last is the value *)
Theorem C72_string_last : forall D strtod of_int dcmp fmtg re_match op left r v s ext,
  (length s < 4096)%nat -> small D (Str s) r ->
  exec_predicate D strtod of_int dcmp fmtg re_match (fun _ => (true, set_stringn D v (Some (s ++ ext)) (length s))) op left r =
    match holds D strtod of_int dcmp fmtg re_match op (Str s) r with Some b => Val b | None => Abort end.
Proof. intros. apply Proofs.predicate_ok; [apply gives_stringn; assumption|assumption]. Qed.
Print Assumptions C72_string_last.
Example C72_string_last_ex : x_pred (fun _ => (true, set_stringn Z (set_int64 Z (var0 Z 0%Z) 5) (Some [54; 55]) 1)) EQ [97] (Right RInt [54]) = Val true.
Proof. reflexivity. Qed.

(** C72: a number set last is what numbers are compared with *)
Theorem C72_number_last : forall D strtod of_int dcmp fmtg re_match op left r v z, rty r <> RString ->
  exec_predicate D strtod of_int dcmp fmtg re_match (fun _ => (true, set_int64 D v z)) op left r =
    match holds D strtod of_int dcmp fmtg re_match op (Int z) r with Some b => Val b | None => Abort end.
Proof.
  intros D strtod of_int dcmp fmtg re_match op left r v z R. unfold exec_predicate, holds. cbn [negb orb set_int64 ty vl vn number]. unfold rnumber, ncompare.
  destruct (rty r) eqn:Er; try congruence; destruct op; try reflexivity; cbn [domatch is_re decide]; try reflexivity;
    repeat match goal with |- context [match ?x with _ => _ end] => destruct x end; reflexivity.
Qed.
Print Assumptions C72_number_last.
Example C72_number_last_ex : x_pred (fun _ => (true, set_int64 Z (set_stringn Z (var0 Z 0%Z) (Some [54; 55]) 2) 5)) EQ [97] (Right RInt [53]) = Val true.
Proof. reflexivity. Qed.

(** C72: but a string set before a number is still what strings are compared with *)
Theorem C72_refuted : forall D strtod of_int dcmp fmtg re_match op left t v s ext z,
  (0 < length s < 4096)%nat -> (Z.of_nat (length t) < 2 ^ 31)%Z -> op <> EXISTS ->
  exec_predicate D strtod of_int dcmp fmtg re_match (fun _ => (true, set_int64 D (set_stringn D v (Some (s ++ ext)) (length s)) z)) op left (Right RString t) =
    match holds D strtod of_int dcmp fmtg re_match op (Str s) (Right RString t) with Some b => Val b | None => Abort end.
Proof.
  intros D strtod of_int dcmp fmtg re_match op left t v s ext z L T O.
  rewrite <- (C72_string_last D strtod of_int dcmp fmtg re_match op left (Right RString t) v s ext) by (try lia; (split; [split; [lia|intro X; exfalso; apply X; reflexivity]|exact T])).
  unfold exec_predicate. cbn [set_int64 set_stringn ty vs free_s s_len]. destruct (length s) eqn:E; [lia|]. reflexivity.
Qed.
Print Assumptions C72_refuted.
Example C72_refuted_ex : x_pred (fun _ => (true, set_int64 Z (set_stringn Z (var0 Z 0%Z) (Some [54; 55]) 2) 5)) EQ [97] (Right RString [54; 55]) = Val true /\
  x_holds EQ (Int 5) (Right RString [54; 55]) = Some false.
Proof. split; reflexivity. Qed.
