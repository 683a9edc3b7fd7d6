(** What the serialiser writes is a text of the grammar, with the value of the
    object. *)
From Coq Require Import NArith ZArith List Bool Lia ZifyBool ZifyNat ZifyN.
From Verif Require Import Json.Model Json.Spec Json.Proofs Json.Proofs2 Json.Proofs3 Json.Proofs4 Json.Proofs5.
Import ListNotations.
Local Open Scope N_scope.

Lemma json_deeper : forall e al, (forall n s v, json e al n s v -> forall m, (n <= m)%nat -> json e al m s v) /\
  (forall n s l, elements e al n s l -> forall m, (n <= m)%nat -> elements e al m s l) /\
  (forall n s l, members e al n s l -> forall m, (n <= m)%nat -> members e al m s l).
Proof.
  intros e al. apply json_both; intros; try (econstructor; eassumption).
  - destruct m as [|m]; [lia|]. constructor. apply H0. lia.
  - destruct m as [|m]; [lia|]. constructor. apply H0. lia.
  - constructor; auto.
  - apply el_more; auto.
  - constructor; auto.
  - apply me_more; auto.
Qed.

(** * Integers *)

Lemma digits_natural : forall f n, n < 10 ^ N.of_nat f -> (f <> 0)%nat -> natural (rev (digits_rev f n)) n.
Proof.
  induction f as [|f IH]; intros n L F; [congruence|].
  cbn [digits_rev rev].
  pose proof (N.div_mod n 10 ltac:(discriminate)) as D.
  pose proof (N.mod_lt n 10 ltac:(discriminate)) as M.
  destruct (n / 10 =? 0) eqn:Q.
  - apply N.eqb_eq in Q. rewrite Q in D. replace n with (n mod 10) at 2 by lia. cbn [rev app].
    apply nat_digit. exact M.
  - apply N.eqb_neq in Q. rewrite D at 3. apply nat_more; [|exact Q|exact M].
    apply IH.
    + apply N.div_lt_upper_bound; [discriminate|]. rewrite Nat2N.inj_succ, N.pow_succ_r in L by lia. exact L.
    + intros ->. cbn in L. assert (n / 10 = 0) by (apply N.div_small; lia). congruence.
Qed.

Lemma print_int_integer : forall z, (- 2 ^ 64 < z < 2 ^ 64)%Z -> integer (print_int z) z.
Proof.
  intros z R. unfold print_int.
  change (2 ^ 64)%Z with 18446744073709551616%Z in R.
  assert (N : natural (rev (digits_rev 20 (Z.to_N (Z.abs z)))) (Z.to_N (Z.abs z))).
  { apply digits_natural; [|discriminate].
    change (10 ^ N.of_nat 20) with 100000000000000000000. lia. }
  destruct (z <? 0)%Z eqn:S.
  - cbn [app]. pose proof (int_neg _ _ N) as X. rewrite Z2N.id in X by lia.
    replace (- Z.abs z)%Z with z in X by lia. exact X.
  - cbn [app]. pose proof (int_pos _ _ N) as X. rewrite Z2N.id in X by lia.
    replace (Z.abs z)%Z with z in X at 2 by lia. exact X.
Qed.

Lemma printed_number : forall i o w, (0 <= w < 2 ^ 64)%Z -> printed_int i o w = number_of i o w.
Proof.
  intros i o w W. destruct o; cbn [printed_int number_of]; try reflexivity.
  unfold as_i64, i64_max, two64.
  change (2 ^ 63)%Z with 9223372036854775808%Z. change (2 ^ 64)%Z with 18446744073709551616%Z in *.
  destruct (w <=? 9223372036854775807)%Z eqn:A, (w <? 9223372036854775808)%Z eqn:B; lia.
Qed.

Lemma number_range : forall i o w, (- 2 ^ 31 <= i < 2 ^ 31)%Z -> (0 <= w < 2 ^ 64)%Z ->
  (- 2 ^ 63 <= number_of i o w < 2 ^ 64)%Z.
Proof.
  intros i o w I W.
  destruct o; cbn [number_of];
    change (2 ^ 63)%Z with 9223372036854775808%Z; change (2 ^ 64)%Z with 18446744073709551616%Z in *;
    change (2 ^ 31)%Z with 2147483648%Z in *; try lia.
  destruct (w <? 9223372036854775808)%Z eqn:B; lia.
Qed.

(** * Strings *)

Lemma hex_nth : forall d, d < 16 -> hex none (nth (N.to_nat d) hex_chars 0) d.
Proof.
  intros d L.
  assert (C : d < 10 \/ 10 <= d < 16) by lia.
  destruct C as [C|C].
  - replace (nth (N.to_nat d) hex_chars 0) with (48 + d); [apply hex_dec; exact C|].
    assert (E : d = 0 \/ d = 1 \/ d = 2 \/ d = 3 \/ d = 4 \/ d = 5 \/ d = 6 \/ d = 7 \/ d = 8 \/ d = 9) by lia.
    decompose [or] E; subst d; reflexivity.
  - replace (nth (N.to_nat d) hex_chars 0) with (87 + d); [apply hex_low; exact C|].
    assert (E : d = 10 \/ d = 11 \/ d = 12 \/ d = 13 \/ d = 14 \/ d = 15) by lia.
    decompose [or] E; subst d; reflexivity.
Qed.

Lemma escape_chars : forall s, Forall (fun c => 0 < c < 256) s -> chars none (escape_str s) s.
Proof.
  intros s F. induction F as [|c s R F IH]; [constructor|].
  cbn [escape_str]. unfold escape_char.
  destruct (c =? 8) eqn:E1; [apply N.eqb_eq in E1; subst c; apply chars_short; [cbn; tauto|exact IH]|].
  destruct (c =? 10) eqn:E2; [apply N.eqb_eq in E2; subst c; apply chars_short; [cbn; tauto|exact IH]|].
  destruct (c =? 13) eqn:E3; [apply N.eqb_eq in E3; subst c; apply chars_short; [cbn; tauto|exact IH]|].
  destruct (c =? 9) eqn:E4; [apply N.eqb_eq in E4; subst c; apply chars_short; [cbn; tauto|exact IH]|].
  destruct (c =? 34) eqn:E5; [apply N.eqb_eq in E5; subst c; apply chars_short; [cbn; tauto|exact IH]|].
  destruct (c =? 92) eqn:E6; [apply N.eqb_eq in E6; subst c; apply chars_short; [cbn; tauto|exact IH]|].
  destruct (c =? 47) eqn:E7; [apply N.eqb_eq in E7; subst c; apply chars_short; [cbn; tauto|exact IH]|].
  destruct (c <? 32) eqn:E8.
  - apply N.ltb_lt in E8. cbn [app].
    replace (c :: s) with (utf8 c ++ s).
    2:{ unfold utf8. assert (H : c < 128) by lia. apply N.ltb_lt in H. rewrite H. reflexivity. }
    apply chars_hex.
    + exists 0, 0, (c / 16), (c mod 16).
      assert (c / 16 < 16) by (apply N.div_lt_upper_bound; lia).
      assert (c mod 16 < 16) by (apply N.mod_lt; discriminate).
      split; [apply (hex_dec none 0); lia|]. split; [apply (hex_dec none 0); lia|].
      split; [apply hex_nth; assumption|]. split; [apply hex_nth; assumption|].
      pose proof (N.div_mod c 16 ltac:(discriminate)). lia.
    + lia.
    + intros ->. lia.
    + exact IH.
  - cbn [app]. apply chars_plain; [lia|lia|lia|exact IH].
Qed.

(** * Containers *)

Fixpoint jv_tree (P : jv -> Prop) (H0 : P JNull) (H1 : forall b, P (JBool b)) (H2 : forall i o w, P (JInt i o w))
    (H3 : forall d, P (JDbl d)) (H4 : forall s, P (JStr s))
    (H5 : forall l, Forall P l -> P (JArr l)) (H6 : forall l, Forall (fun m => P (snd m)) l -> P (JObj l))
    (v : jv) : P v :=
  match v with
  | JNull => H0 | JBool b => H1 b | JInt i o w => H2 i o w | JDbl d => H3 d | JStr s => H4 s
  | JArr l => H5 l ((fix go l : Forall P l :=
      match l with [] => Forall_nil P | x :: l' => Forall_cons x (jv_tree P H0 H1 H2 H3 H4 H5 H6 x) (go l') end) l)
  | JObj l => H6 l ((fix go l : Forall (fun m => P (snd m)) l :=
      match l with [] => Forall_nil _ | x :: l' => Forall_cons x (jv_tree P H0 H1 H2 H3 H4 H5 H6 (snd x)) (go l') end) l)
  end.

Definition arr_go (e : env) : bool -> list jv -> bytes :=
  fix go (first : bool) (l : list jv) : bytes :=
    match l with
    | [] => []
    | x :: l' => (if first then [32] else [44; 32]) ++ to_json e x ++ go false l'
    end.
Definition obj_go (e : env) : bool -> list (bytes * jv) -> bytes :=
  fix go (first : bool) (l : list (bytes * jv)) : bytes :=
    match l with
    | [] => []
    | (k, x) :: l' =>
        (if first then [] else [44]) ++ [32; 34] ++ escape_str k ++ [34; 58; 32]
        ++ to_json e x ++ go false l'
    end.

Lemma ws_one : ws [32].
Proof. repeat constructor. Qed.

Lemma arr_elements : forall e n l x,
  Forall (fun y => json e none n (to_json e y) (meaning y)) (x :: l) ->
  elements e none n ([32] ++ to_json e x ++ arr_go e false l ++ [32]) (map meaning (x :: l)).
Proof.
  intros e n. induction l as [|y l IH]; intros x F.
  - cbn [arr_go app map]. apply (el_one e none n [32] (to_json e x) [32]); [apply ws_one|exact (Forall_inv F)|apply ws_one].
  - replace ([32] ++ to_json e x ++ arr_go e false (y :: l) ++ [32])
      with ([32] ++ to_json e x ++ [] ++ [44] ++ ([32] ++ to_json e y ++ arr_go e false l ++ [32])).
    + cbn [map]. apply el_more; [apply ws_one|exact (Forall_inv F)|constructor|].
      apply IH. exact (Forall_inv_tail F).
    + cbn [arr_go app]. rewrite <- !app_assoc. reflexivity.
Qed.

Lemma obj_members : forall e n l k x,
  Forall (fun m => chars none (escape_str (fst m)) (fst m) /\ json e none n (to_json e (snd m)) (meaning (snd m))) ((k, x) :: l) ->
  members e none n ([32; 34] ++ escape_str k ++ [34; 58; 32] ++ to_json e x ++ obj_go e false l ++ [32])
          (map mean2 ((k, x) :: l)).
Proof.
  intros e n. induction l as [|[k2 y] l IH]; intros k x F.
  - pose proof (Forall_inv F) as [F1 F2]. cbn [fst snd] in F1, F2.
    cbn [obj_go app map].
    apply (me_one e none n [32] (escape_str k) k [] [32] (to_json e x) [32]);
      [apply ws_one|exact F1|constructor|apply ws_one|exact F2|apply ws_one].
  - pose proof (Forall_inv F) as [F1 F2]. cbn [fst snd] in F1, F2.
    specialize (IH k2 y (Forall_inv_tail F)).
    pose proof (me_more e none n [32] (escape_str k) k [] [32] (to_json e x) [] (meaning x) _ _
      ws_one F1 (Forall_nil _) ws_one F2 (Forall_nil _) IH) as X.
    cbn [map]. unfold mean2 at 1. cbn [fst snd].
    replace ([32; 34] ++ escape_str k ++ [34; 58; 32] ++ to_json e x ++ obj_go e false ((k2, y) :: l) ++ [32])
      with ([32] ++ [34] ++ escape_str k ++ [34] ++ [] ++ [58] ++ [32] ++ to_json e x ++ [] ++ [44] ++
            [32; 34] ++ escape_str k2 ++ [34; 58; 32] ++ to_json e y ++ obj_go e false l ++ [32]); [exact X|].
    cbn [obj_go app]. repeat (f_equal; rewrite <- ?app_assoc; cbn [app]).
Qed.

Lemma last_wins_nodup : forall l : list (bytes * value), NoDup (map fst l) -> last_wins l = l.
Proof.
  induction l as [|m l IH]; intros N; [reflexivity|].
  cbn [map] in N. inversion N as [|a b N1 N2]; subst. cbn [last_wins].
  match goal with |- (if ?b then _ else _) = _ => destruct b eqn:E end.
  - apply existsb_exists in E. destruct E as (y & Y1 & Y2).
    destruct (list_eq_dec N.eq_dec (fst y) (fst m)) as [Z|Z]; [|discriminate].
    elim N1. rewrite <- Z. apply in_map. exact Y1.
  - rewrite IH by exact N2. reflexivity.
Qed.

Lemma built_arr : forall e l, built e (JArr l) -> Forall (built e) l.
Proof. intros e. induction l as [|x l IH]; intros H; [constructor|]. destruct H as [A B]. constructor; auto. Qed.
Lemma built_obj : forall e l, built e (JObj l) ->
  NoDup (map fst l) /\ Forall (fun m => Forall (fun c => 0 < c < 256) (fst m) /\ built e (snd m)) l.
Proof.
  intros e l [N H]. split; [exact N|]. clear N.
  induction l as [|x l IH]; [constructor|]. destruct H as (A & B & C). constructor; auto.
Qed.

Lemma nest_arr : forall l, Forall (fun x => (nesting x <= fold_right (fun y n => Nat.max (nesting y) n) 0 l)%nat) l.
Proof.
  induction l as [|x l IH]; [constructor|]. cbn [fold_right]. constructor; [lia|].
  eapply Forall_impl; [|exact IH]. cbn. intros y H. lia.
Qed.
Lemma nest_obj : forall l : list (bytes * jv),
  Forall (fun m => (nesting (snd m) <= fold_right (fun y n => Nat.max (nesting (snd y)) n) 0 l)%nat) l.
Proof.
  induction l as [|x l IH]; [constructor|]. cbn [fold_right]. constructor; [lia|].
  eapply Forall_impl; [|exact IH]. cbn. intros y H. lia.
Qed.

Lemma to_json_grammar : forall e v, built e v -> json e none (nesting v) (to_json e v) (meaning v).
Proof.
  intros e. apply (jv_tree (fun v => built e v -> json e none (nesting v) (to_json e v) (meaning v))).
  - intros _. apply j_null.
  - intros [|] _; constructor.
  - intros i o w [I W]. cbn [to_json meaning]. rewrite printed_number by exact W.
    pose proof (number_range i o w I W) as R. constructor; [|left; exact R].
    apply print_int_integer. change (2 ^ 63)%Z with 9223372036854775808%Z in R. change (2 ^ 64)%Z with 18446744073709551616%Z in *. lia.
  - intros d (A & s & z & f & B & C & D & G). cbn [to_json meaning]. rewrite A. rewrite B in *.
    apply (j_dbl e none _ s z (46 :: f)); [exact C|apply dt_frac; exact D|exact G].
  - intros s H. cbn [to_json meaning]. constructor. apply escape_chars. exact H.
  - intros l F H. destruct l as [|x l].
    + cbn [to_json meaning map]. apply (j_arr0 e none _ [32]). apply ws_one.
    + apply built_arr in H.
      set (n := fold_right (fun y n => Nat.max (nesting y) n) 0%nat (x :: l)).
      change (nesting (JArr (x :: l))) with (S n).
      change (to_json e (JArr (x :: l))) with ([91] ++ arr_go e true (x :: l) ++ [32; 93]).
      replace ([91] ++ arr_go e true (x :: l) ++ [32; 93])
        with ([91] ++ ([32] ++ to_json e x ++ arr_go e false l ++ [32]) ++ [93])
        by (cbn [arr_go app]; rewrite <- !app_assoc; reflexivity).
      cbn [meaning]. apply j_arr. apply arr_elements.
      pose proof (nest_arr (x :: l)) as NE. fold n in NE.
      rewrite Forall_forall in *. intros y Y.
      apply (proj1 (json_deeper e none) (nesting y)); [apply F; [exact Y|apply H; exact Y]|apply NE; exact Y].
  - intros l F H. destruct l as [|[k x] l].
    + cbn [to_json meaning map]. apply (j_obj0 e none _ [32]). apply ws_one.
    + apply built_obj in H. destruct H as [ND H].
      set (n := fold_right (fun y n => Nat.max (nesting (snd y)) n) 0%nat ((k, x) :: l)).
      change (nesting (JObj ((k, x) :: l))) with (S n).
      change (to_json e (JObj ((k, x) :: l))) with ([123] ++ obj_go e true ((k, x) :: l) ++ [32; 125]).
      replace ([123] ++ obj_go e true ((k, x) :: l) ++ [32; 125])
        with ([123] ++ ([32; 34] ++ escape_str k ++ [34; 58; 32] ++ to_json e x ++ obj_go e false l ++ [32]) ++ [125])
        by (cbn [obj_go app]; repeat (f_equal; rewrite <- ?app_assoc; cbn [app])).
      cbn [meaning]. change (fun e0 : bytes * jv => (fst e0, meaning (snd e0))) with mean2.
      assert (NM : NoDup (map fst (map mean2 ((k, x) :: l)))).
      { rewrite map_map. exact ND. }
      rewrite <- (last_wins_nodup _ NM).
      apply j_obj. apply obj_members.
      pose proof (nest_obj ((k, x) :: l)) as NE. fold n in NE.
      rewrite Forall_forall in *. intros y Y. destruct (H y Y) as [H1 H2].
      split; [apply escape_chars; exact H1|].
      apply (proj1 (json_deeper e none) (nesting (snd y))); [apply F; [exact Y|exact H2]|apply NE; exact Y].
Qed.

(** * The round trip *)

Definition is_container (v : jv) : Prop := match v with JArr _ | JObj _ => True | _ => False end.

Lemma to_json_document : forall e v, built e v -> is_container v ->
  document e none (nesting v) (to_json e v) (meaning v).
Proof.
  intros e v B C. exists [], (to_json e v), []. rewrite app_nil_r.
  split; [reflexivity|]. split; [constructor|]. split; [apply to_json_grammar; exact B|].
  split; [constructor|]. destruct v; exact C.
Qed.

Lemma round_trip : forall e v, env_ok e -> built e v -> is_container v -> (nesting v <= 31)%nat ->
  gives (parse_len e (to_json e v)) [] (meaning v) /\ gives (parse e (to_json e v)) [0] (meaning v).
Proof.
  intros e v E B C L. pose proof (to_json_document e v B C) as D.
  split; [exact (document_len e E _ _ _ D L)|exact (document_parse e E _ _ _ D L)].
Qed.
