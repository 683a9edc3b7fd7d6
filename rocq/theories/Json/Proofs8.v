(** Numbers through the getters, and what the parser does not read. *)
From Coq Require Import NArith ZArith List Bool Lia ZifyBool ZifyNat ZifyN.
From Verif Require Import Json.Model Json.Spec Json.Proofs Json.Proofs2 Json.Proofs3 Json.Proofs4 Json.Proofs5 Json.Proofs6 Json.Proofs7.
Import ListNotations.
Local Open Scope N_scope.

(** an array of one number *)
Lemma array_of_number : forall e c r x, num_start c -> Forall (fun c => number_char c = true) r ->
  number_object e (existsb (fun c => (c =? 46) || (c =? 101)) r) (c :: r) = Some x ->
  exists t, parse_len e ([91] ++ (c :: r) ++ [93]) = Ret t (Some (JArr [x])) [] /\ err t = E_success.
Proof.
  intros e c r x Hc F Hx.
  set (t0 := set_started (set_err tok_new E_success)).
  assert (I0 : Inv t0) by exact new_inv.
  set (t1 := frames t0 (arr_top []) (below t0)).
  assert (I1 : Inv t1) by (apply arr_inv; exact I0).
  set (p := frames t1 fresh (mkf S_array_add S_array (JArr []) None :: below t1)).
  assert (Ip : Inv p).
  { apply fresh_inv; [|unfold MAX_DEPTH; cbn; lia].
    constructor; [left; split; [reflexivity|exists []; reflexivity]|constructor]. }
  destruct (num_value e (c :: r) c r x p Ip eq_refl eq_refl Hc F Hx) as (t2 & D2 & B2 & K2).
  destruct (closes_ws e t2 x [] 93 K2 (Forall_nil _)) as (d & A1 & A2 & A3 & A4); [discriminate|reflexivity|].
  assert (D : dsteps e t0 ([91] ++ (c :: r) ++ [93]) = Some (frames d (done (JArr [x])) [])).
  { rewrite dsteps_app, (open_arr e t0 I0 eq_refl). fold t1.
    cbn [app]. rewrite (dsteps_same e t1 p c).
    - change (c :: r ++ [93]) with ((c :: r) ++ [93]). rewrite dsteps_app, D2.
      specialize (A4 []). cbn [app] in A4. rewrite A4.
      rewrite (arr_end e d x [] [] [] A3 A1); [reflexivity|]. rewrite A2, B2. reflexivity.
    - apply push_arr; [exact I1|reflexivity|apply num_starter; exact Hc|cbn; lia]. }
  unfold parse_len. rewrite parse_ex_dparse by (exact new_inv || (split; discriminate)). unfold dparse.
  change (started (set_err tok_new E_success)) with false. cbn match.
  change (skip ([91] ++ (c :: r) ++ [93])) with (91 :: (c :: r) ++ [93]).
  cbn match. cbn [N.eqb Pos.eqb orb].
  pose proof (drun_steps e true _ [] _ _ D) as Q. rewrite app_nil_r in Q.
  change (91 :: (c :: r) ++ [93]) with ([91] ++ (c :: r) ++ [93]). fold t0. rewrite Q.
  cbn [drun]. unfold pop_fail, finish_parse. cbn. eexists. split; [reflexivity|reflexivity].
Qed.

Lemma parsed_getters : forall e s z, env_ok e -> integer s z -> (- 2 ^ 63 <= z < 2 ^ 64)%Z ->
  exists t x, parse_len e ([91] ++ s ++ [93]) = Ret t (Some (JArr [x])) [] /\ err t = E_success /\
    ((z < 2 ^ 63)%Z -> get_int64 x = z) /\ ((0 <= z)%Z -> get_uint64 x = z) /\
    ((- 2 ^ 31 <= z < 2 ^ 31)%Z -> get_int x = z /\ get_double_of_int x = z /\
       get_boolean x = negb (z =? 0)%Z).
Proof.
  intros e s z E H R.
  destruct (int_object e s z E H R) as (i & o & w & O1 & O2 & O3 & O4 & O5 & O6).
  destruct (integer_shape s z H) as (c & r & -> & S1 & S2).
  destruct (array_of_number e c r (JInt i o w) S1) as (t & P & Er).
  - apply Forall_digit_number. exact S2.
  - rewrite no_point by exact S2. exact O1.
  - exists t, (JInt i o w). split; [exact P|]. split; [exact Er|].
    change (2 ^ 63)%Z with 9223372036854775808%Z in *. change (2 ^ 64)%Z with 18446744073709551616%Z in *.
    cbn [get_int64 get_uint64 get_int get_double_of_int get_boolean]. unfold as_i64, i64_max, two64.
    split; [|split].
    + intros L. assert (C : (z < 0 \/ 0 <= z)%Z) by lia. destruct C as [C|C].
      * assert (M : (z mod 18446744073709551616 = z + 18446744073709551616)%Z).
        { symmetry. apply (Z.mod_unique_pos _ _ (-1)); lia. }
        rewrite O5, M. destruct (_ <=? _)%Z eqn:K; lia.
      * rewrite O5, Z.mod_small by lia. destruct (_ <=? _)%Z eqn:K; lia.
    + intros L. rewrite O5, Z.mod_small by lia. reflexivity.
    + intros L. rewrite (O6 L). auto.
Qed.

(** * Scalars and deep nesting do not come back *)

Lemma scalar_starts : forall e v, built e v -> ~ is_container v ->
  exists c r, to_json e v = c :: r /\ (c =? 123) || (c =? 91) = false /\ isspace c = false /\ c <> 0.
Proof.
  intros e v B C.
  assert (Num : forall c, num_start c -> (c =? 123) || (c =? 91) = false /\ isspace c = false /\ c <> 0)
    by (intros c H; unfold num_start, isspace in *; lia).
  assert (Int : forall i o w, built e (JInt i o w) -> exists c r, to_json e (JInt i o w) = c :: r /\ num_start c).
  { intros i o w [I W]. cbn [to_json]. rewrite printed_number by exact W.
    pose proof (number_range i o w I W) as R.
    assert (R' : (- 2 ^ 64 < number_of i o w < 2 ^ 64)%Z).
    { change (2 ^ 63)%Z with 9223372036854775808%Z in R. change (2 ^ 64)%Z with 18446744073709551616%Z in *. lia. }
    destruct (integer_shape _ _ (print_int_integer _ R')) as (c & r & -> & S1 & _). eauto. }
  destruct v as [|b|i o w|d|s|l|l]; try (elim C; exact Logic.I).
  - eexists _, _. split; [reflexivity|]. split; [reflexivity|split; [reflexivity|discriminate]].
  - destruct b; (eexists _, _; split; [reflexivity|]; split; [reflexivity|split; [reflexivity|discriminate]]).
  - destruct (Int i o w B) as (c & r & -> & Hc). eauto.
  - destruct B as (A & s & z & f & P & Hi & _ & _). cbn [to_json]. rewrite A, P.
    destruct (integer_shape s z Hi) as (c & r & -> & S1 & _). exists c, (r ++ 46 :: f). auto.
  - eexists _, _. split; [reflexivity|]. split; [reflexivity|split; [reflexivity|discriminate]].
Qed.

Lemma scalar_rejected : forall e v, built e v -> ~ is_container v ->
  (exists t r, parse_len e (to_json e v) = Ret t None r /\ err t = E_unexpected) /\
  (exists t r, parse e (to_json e v) = Ret t None r /\ err t = E_unexpected).
Proof.
  intros e v B C. destruct (scalar_starts e v B C) as (c & r & -> & H1 & H2 & H3).
  apply N.eqb_neq in H3.
  unfold parse, parse_len. rewrite !parse_ex_dparse by (exact new_inv || (split; discriminate)). unfold dparse.
  change (started (set_err tok_new E_success)) with false. cbn match. rewrite skip_app0.
  assert (S : skip (c :: r) = c :: r) by (unfold skip; rewrite H2; reflexivity).
  rewrite S. cbn [app]. rewrite H1. unfold finish_parse. rewrite H3. cbn [err set_err].
  split; eexists _, _; (split; [reflexivity|reflexivity]).
Qed.

Fixpoint nested (n : nat) : jv := match n with 0%nat => JArr [] | S n' => JArr [nested n'] end.

Lemma nested_ok : forall e n, built e (nested n) /\ is_container (nested n) /\ nesting (nested n) = n.
Proof.
  intros e. induction n as [|n (A & B & C)]; [cbn; auto|].
  split; [cbn; auto|]. split; [exact Logic.I|]. cbn [nested nesting fold_right]. rewrite C. lia.
Qed.

Lemma too_deep : forall e, exists t r, parse_len e (to_json e (nested 32)) = Ret t None r /\ err t = E_depth.
Proof. intros e. eexists _, _. split; [vm_compute; reflexivity|reflexivity]. Qed.

(** * What is left out of the grammar is needed *)

Definition witness (f : feature) : bytes :=
  match f with
  | Upper_hex => [91; 34; 92; 117; 48; 48; 69; 57; 34; 93]
  | Form_feed => [91; 34; 92; 102; 34; 93]
  | Surrogates => [91; 34; 92; 117; 100; 56; 51; 100; 92; 117; 100; 101; 48; 48; 34; 93]
  | Nul_escape => [91; 34; 92; 117; 48; 48; 48; 48; 34; 93]
  | Upper_exponent => [91; 49; 69; 53; 93]
  | Big_integer => [91; 49; 56; 52; 52; 54; 55; 52; 52; 48; 55; 51; 55; 48; 57; 53; 53; 49; 54; 49; 54; 93]
  end.

Lemma array_document : forall e al s v, json e al 0 s v -> document e al 1 ([91] ++ s ++ [93]) (List [v]).
Proof.
  intros e al s v H. exists [], ([91] ++ s ++ [93]), []. rewrite app_nil_r.
  split; [reflexivity|]. split; [constructor|]. split; [|split; [constructor|exact Logic.I]].
  apply j_arr. pose proof (el_one e al 0 [] s [] v (Forall_nil _) H (Forall_nil _)) as X.
  cbn [app] in X. rewrite app_nil_r in X. exact X.
Qed.

Lemma hex_d : forall al v, v < 10 -> hex al (48 + v) v.
Proof. intros. constructor. assumption. Qed.
Lemma hex_l : forall al v, 10 <= v < 16 -> hex al (87 + v) v.
Proof. intros. constructor. assumption. Qed.

Lemma big_natural : natural [49; 56; 52; 52; 54; 55; 52; 52; 48; 55; 51; 55; 48; 57; 53; 53; 49; 54; 49; 54] 18446744073709551616.
Proof.
  pose proof (digits_natural 20 18446744073709551616) as H.
  apply H; [reflexivity|discriminate].
Qed.

Lemma features_refuted : forall e f, env_ok e -> (exists d, scan_lf e [49; 69; 53] = Some d) ->
  exists v, document e (eq f) 1 (witness f) v /\ ~ gives (parse_len e (witness f)) [] v.
Proof.
  intros e f E [d Hd]. destruct f.
  - exists (List [Text [195; 169]]). split.
    + apply (array_document e _ [34; 92; 117; 48; 48; 69; 57; 34]).
      apply (j_str e _ 0 [92; 117; 48; 48; 69; 57]).
      apply (chars_hex _ 48 48 69 57 233 [] []); [|lia|discriminate|constructor].
      exists 0, 0, 14, 9. split; [apply (hex_d _ 0); lia|]. split; [apply (hex_d _ 0); lia|].
      split; [apply (hex_up _ 14); [lia|reflexivity]|]. split; [apply (hex_d _ 9); lia|reflexivity].
    + intros (t & o & H & _ & M). vm_compute in H. discriminate H.
  - exists (List [Text [12]]). split.
    + apply (array_document e _ [34; 92; 102; 34]). apply (j_str e _ 0 [92; 102]).
      apply chars_ff; [reflexivity|constructor].
    + intros (t & o & H & _ & M). vm_compute in H. discriminate H.
  - exists (List [Text [240; 159; 152; 128]]). split.
    + apply (array_document e _ [34; 92; 117; 100; 56; 51; 100; 92; 117; 100; 101; 48; 48; 34]).
      apply (j_str e _ 0 [92; 117; 100; 56; 51; 100; 92; 117; 100; 101; 48; 48]).
      apply (chars_pair _ 100 56 51 100 55357 100 101 48 48 56832 [] []); [reflexivity| |lia| |lia|constructor].
      * exists 13, 8, 3, 13. split; [apply (hex_l _ 13); lia|]. split; [apply (hex_d _ 8); lia|].
        split; [apply (hex_d _ 3); lia|]. split; [apply (hex_l _ 13); lia|reflexivity].
      * exists 13, 14, 0, 0. split; [apply (hex_l _ 13); lia|]. split; [apply (hex_l _ 14); lia|].
        split; [apply (hex_d _ 0); lia|]. split; [apply (hex_d _ 0); lia|reflexivity].
    + intros (t & o & H & _ & M). vm_compute in H. injection H as _ <-. vm_compute in M. discriminate M.
  - exists (List [Text [0]]). split.
    + apply (array_document e _ [34; 92; 117; 48; 48; 48; 48; 34]).
      apply (j_str e _ 0 [92; 117; 48; 48; 48; 48]).
      apply (chars_hex _ 48 48 48 48 0 [] []); [|lia|reflexivity|constructor].
      exists 0, 0, 0, 0. split; [apply (hex_d _ 0); lia|]. split; [apply (hex_d _ 0); lia|].
      split; [apply (hex_d _ 0); lia|]. split; [apply (hex_d _ 0); lia|reflexivity].
    + intros (t & o & H & _ & M). vm_compute in H. injection H as _ <-. vm_compute in M. discriminate M.
  - exists (List [Double d]). split.
    + apply (array_document e _ [49; 69; 53]). apply (j_dbl e _ 0 [49] 1 [69; 53] d).
      * apply (int_pos [49] 1). apply (nat_digit 1). lia.
      * apply (dt_exp _ 69 [] [53]); [right; auto|left; reflexivity|]. split; [discriminate|].
        constructor; [lia|constructor].
      * exact Hd.
    + intros (t & o & H & _ & M).
      destruct (array_of_number e 49 [69; 53] (JInt 1 Ov_int 1)) as (t' & P & _);
        [left; lia|repeat constructor|reflexivity|].
      change (witness Upper_exponent) with ([91] ++ [49; 69; 53] ++ [93]) in H. rewrite P in H.
      injection H as _ <-. cbn in M. discriminate M.
  - exists (List [Integer 18446744073709551616]). split.
    + apply (array_document e _ [49; 56; 52; 52; 54; 55; 52; 52; 48; 55; 51; 55; 48; 57; 53; 53; 49; 54; 49; 54]).
      apply j_int; [|right; reflexivity]. apply (int_pos _ _ big_natural).
    + intros (t & o & H & _ & M).
      set (n := scan_d_wide e 18446744073709551616).
      destruct (array_of_number e 49 [56; 52; 52; 54; 55; 52; 52; 48; 55; 51; 55; 48; 57; 53; 53; 49; 54; 49; 54]
        (JInt n (if (n <? 0)%Z || negb (18446744073709551615 =? n)%Z then Ov_uint64 else Ov_int) 18446744073709551615)) as (t' & P & _);
        [left; lia|repeat constructor|reflexivity|].
      change (witness Big_integer) with ([91] ++ (49 :: [56; 52; 52; 54; 55; 52; 52; 48; 55; 51; 55; 48; 57; 53; 53; 49; 54; 49; 54]) ++ [93]) in H.
      rewrite P in H. injection H as _ <-. cbn [meaning map] in M. injection M as M.
      specialize (E 18446744073709551616%Z). fold n in E. change (2 ^ 31)%Z with 2147483648%Z in E.
      destruct (_ || _); cbn [number_of] in M; [discriminate M|lia].
Qed.
