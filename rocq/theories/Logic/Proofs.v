From Coq Require Import Arith NArith ZArith List Bool Lia ZifyBool ZifyNat ZifyN Permutation.
From Verif Require Import Logic.Model Logic.Spec.
Import ListNotations.
Ltac Zify.zify_post_hook ::= Z.div_mod_to_equations.
Local Open Scope N_scope.

(** * C strings *)
Lemma cstr_nonul s : nonul s -> cstr s = s.
Proof.
  induction s as [|c s IH]; intro H; [reflexivity|]. cbn [cstr]. destruct (N.eqb_spec c 0) as [->|E]; [exfalso; apply H; left; reflexivity|].
  rewrite IH; [reflexivity|]. intro X; apply H; right; exact X.
Qed.
Lemma cstr_app0 s ext : nonul s -> cstr (s ++ 0 :: ext) = s.
Proof.
  induction s as [|c s IH]; intro H; [reflexivity|]. cbn [cstr app]. destruct (N.eqb_spec c 0) as [->|E]; [exfalso; apply H; left; reflexivity|].
  rewrite IH; [reflexivity|]. intro X; apply H; right; exact X.
Qed.
Lemma has_nul s : existsb (N.eqb 0) s = true <-> In 0 s.
Proof.
  rewrite existsb_exists. split.
  - intros (x & I & E). apply N.eqb_eq in E. subst x; exact I.
  - intro I. exists 0; split; [exact I|reflexivity].
Qed.

(** * Order of strings *)
Lemma memcmp_lex l : forall r, length l = length r ->
  match lex l r with Eq => memcmp l r = 0%Z | Lt => (memcmp l r < 0)%Z | Gt => (memcmp l r > 0)%Z end.
Proof.
  induction l as [|a l IH]; intros [|b r] H; cbn [length] in H; try discriminate; [reflexivity|]. cbn [lex memcmp].
  destruct (N.eqb_spec a b) as [->|E].
  - rewrite N.compare_refl. apply IH; lia.
  - destruct (N.compare_spec a b); try lia.
Qed.
Lemma to_int_small z : (- 2 ^ 31 < z < 2 ^ 31)%Z -> to_int z = z.
Proof. intro H. unfold to_int. cbv zeta. destruct (Z.ltb_spec (z mod 2 ^ 32) (2 ^ 31)); lia. Qed.

Lemma strllcmp_ok l e r e' : (Z.of_nat (length l) < 2 ^ 31)%Z -> (Z.of_nat (length r) < 2 ^ 31)%Z ->
  exists c, strllcmp (l ++ e) (length l) (r ++ e') (length r) = Some c /\
    match shortlex l r with Eq => c = 0%Z | Lt => (c < 0)%Z | Gt => (c > 0)%Z end.
Proof.
  intros Hl Hr. unfold strllcmp, shortlex. destruct (Nat.compare_spec (length l) (length r)) as [E|E|E].
  - rewrite (proj2 (Nat.eqb_eq _ _) E). rewrite !app_length. destruct (Nat.ltb_spec (length l + length e) (length l)); [lia|].
    destruct (Nat.ltb_spec (length r + length e') (length r)); [lia|]. cbn [orb]. eexists; split; [reflexivity|].
    rewrite !firstn_app, !Nat.sub_diag, !firstn_O, !app_nil_r, !firstn_all. apply memcmp_lex, E.
  - rewrite (proj2 (Nat.eqb_neq _ _)) by lia. eexists; split; [reflexivity|]. rewrite to_int_small; lia.
  - rewrite (proj2 (Nat.eqb_neq _ _)) by lia. eexists; split; [reflexivity|]. rewrite to_int_small; lia.
Qed.
Lemma cmp_z_decide op c s : is_re op = false -> op <> EXISTS ->
  match s with Eq => c = 0%Z | Lt => (c < 0)%Z | Gt => (c > 0)%Z end -> cmp_z op c = decide op (Some s).
Proof. destruct op, s; cbn [is_re cmp_z decide]; intros; try congruence; lia. Qed.
Lemma domatch_decide op c : is_re op = false -> op <> EXISTS -> domatch op c = Val (decide op c).
Proof. destruct op; cbn [is_re domatch decide]; intros; try congruence; destruct c as [[| |]|]; reflexivity. Qed.

Lemma shortlex_refl l : shortlex l l = Eq.
Proof. unfold shortlex. rewrite Nat.compare_refl. induction l as [|a l IH]; [reflexivity|]. cbn [lex]. rewrite N.compare_refl. exact IH. Qed.
Lemma lex_eq l : forall r, lex l r = Eq -> l = r.
Proof.
  induction l as [|a l IH]; intros [|b r] H; cbn [lex] in H; try discriminate; [reflexivity|].
  destruct (N.compare_spec a b); try discriminate. subst. f_equal. apply IH, H.
Qed.
Lemma shortlex_eq l r : shortlex l r = Eq <-> l = r.
Proof.
  split; [|intros ->; apply shortlex_refl]. unfold shortlex. destruct (Nat.compare (length l) (length r)); try discriminate. apply lex_eq.
Qed.
Lemma lex_antisym l : forall r, lex r l = CompOpp (lex l r).
Proof.
  induction l as [|a l IH]; intros [|b r]; try reflexivity. cbn [lex]. rewrite (N.compare_antisym a b). destruct (a ?= b); cbn [CompOpp]; [apply IH|reflexivity|reflexivity].
Qed.
Lemma shortlex_antisym l r : shortlex r l = CompOpp (shortlex l r).
Proof.
  unfold shortlex. rewrite (Nat.compare_antisym (length l)). destruct (Nat.compare (length l) (length r)); cbn [CompOpp]; [apply lex_antisym|reflexivity|reflexivity].
Qed.
Lemma lex_trans a : forall b c, lex a b = Lt -> lex b c = Lt -> lex a c = Lt.
Proof.
  induction a as [|x a IH]; intros [|y b] [|z c] H1 H2; cbn [lex] in *; try discriminate; try reflexivity.
  destruct (N.compare x y) eqn:E1; try discriminate; destruct (N.compare y z) eqn:E2; try discriminate.
  - apply N.compare_eq in E1. apply N.compare_eq in E2. subst. rewrite N.compare_refl. eapply IH; eassumption.
  - apply N.compare_eq in E1. subst. rewrite E2. reflexivity.
  - apply N.compare_eq in E2. subst. rewrite E1. reflexivity.
  - apply N.compare_lt_iff in E1. apply N.compare_lt_iff in E2. replace (x ?= z) with Lt; [reflexivity|]. symmetry. apply N.compare_lt_iff. exact (N.lt_trans _ _ _ E1 E2).
Qed.
Lemma shortlex_trans a b c : shortlex a b = Lt -> shortlex b c = Lt -> shortlex a c = Lt.
Proof.
  unfold shortlex. destruct (Nat.compare_spec (length a) (length b)), (Nat.compare_spec (length b) (length c)), (Nat.compare_spec (length a) (length c));
    intros; try discriminate; try reflexivity; try lia. eapply lex_trans; eassumption.
Qed.

(** * Numbers *)
Lemma digits_val l : forall acc r, (match r with c :: _ => is_digit c = false | [] => True end) -> forallb is_digit l = true ->
  digits acc (l ++ r) = (fold_left (fun a c => a * 10 + (c - 48)) l acc, r).
Proof.
  induction l as [|c l IH]; intros acc r Hr H.
  - cbn [app fold_left]. destruct r as [|c r]; [reflexivity|]. cbn [digits]. rewrite Hr. reflexivity.
  - cbn [forallb] in H. apply andb_true_iff in H as [H1 H2]. cbn [app digits fold_left]. rewrite H1. apply IH; assumption.
Qed.
Lemma dec_ok f : forall n acc, n < 10 ^ N.of_nat f -> f <> 0%nat ->
  exists l, dec f n acc = l ++ acc /\ l <> [] /\ forallb is_digit l = true /\ fold_left (fun a c => a * 10 + (c - 48)) l 0 = n.
Proof.
  induction f as [|f IH]; intros n acc H Hf; [congruence|]. cbn [dec].
  destruct (N.eqb_spec (n / 10) 0) as [E|E].
  - exists [48 + n mod 10]. split; [reflexivity|]. split; [discriminate|]. cbn [forallb fold_left]. unfold is_digit. split; lia.
  - destruct f as [|f']; [change (10 ^ N.of_nat 1) with 10 in H; lia|].
    destruct (IH (n / 10) (48 + n mod 10 :: acc)) as (l & E1 & E2 & E3 & E4); [|discriminate|].
    + rewrite Nat2N.inj_succ, N.pow_succ_r' in H. apply N.div_lt_upper_bound; lia.
    + exists (l ++ [48 + n mod 10]). rewrite E1, <- app_assoc. split; [reflexivity|]. split; [destruct l; discriminate|].
      rewrite forallb_app, E3. rewrite fold_left_app, E4. cbn [forallb fold_left andb]. unfold is_digit. split; lia.
Qed.
Lemma show_int_strtoll z : (- 2 ^ 63 <= z < 2 ^ 63)%Z -> strtoll (show_int z) = (z, []).
Proof.
  intro H. unfold show_int.
  destruct (dec_ok 20 (Z.abs_N z) []) as (l & E1 & E2 & E3 & E4); [change (10 ^ N.of_nat 20) with 100000000000000000000; lia|discriminate|].
  rewrite E1, app_nil_r. destruct l as [|c l]; [congruence|]. pose proof E3 as E3'. cbn [forallb] in E3'. apply andb_true_iff in E3' as [Ec _].
  assert (V : digits 0 (c :: l) = (Z.abs_N z, [])).
  { pose proof (digits_val (c :: l) 0 [] Logic.I E3) as V. rewrite app_nil_r, E4 in V. exact V. }
  assert (Sc : is_space c = false) by (unfold is_space, is_digit in *; lia).
  destruct (Z.ltb_spec z 0) as [Hz|Hz].
  - cbn [app]. unfold strtoll. cbn [skip_space]. change (is_space 45) with false. cbv iota zeta. change (split_sign (45 :: c :: l)) with (true, c :: l). cbv iota. rewrite Ec, V. f_equal. lia.
  - cbn [app]. unfold strtoll. cbn [skip_space]. rewrite Sc. cbv iota zeta.
    assert (c <> 45 /\ c <> 43) as [N1 N2] by (unfold is_digit in Ec; lia).
    unfold split_sign. rewrite (proj2 (N.eqb_neq _ _) N1), (proj2 (N.eqb_neq _ _) N2). rewrite Ec, V. f_equal. lia.
Qed.
Lemma show_int_short z : (length (show_int z) <= 21)%nat.
Proof.
  assert (G : forall f n acc, (length (dec f n acc) <= f + length acc)%nat).
  { induction f as [|f IH]; intros n acc; cbn [dec]; [lia|]. destruct (n / 10 =? 0); [cbn [length]; lia|]. specialize (IH (n / 10) (48 + n mod 10 :: acc)). cbn [length] in IH. lia. }
  unfold show_int. rewrite app_length. specialize (G 20%nat (Z.abs_N z) []). cbn [length] in G. destruct (z <? 0)%Z; cbn [length]; lia.
Qed.

(** * Predicates *)
Section V.
Variable D : Type.
Variable strtod : bytes -> D * bytes.
Variable of_int : Z -> D.
Variable dcmp : D -> D -> option comparison.
Variable fmtg : D -> bytes.
Variable re_match : bytes -> bytes -> bool.
Notation exec_predicate := (exec_predicate D strtod of_int dcmp fmtg re_match).
Notation exec_node := (exec_node D strtod of_int dcmp fmtg re_match).
Notation holds := (holds D strtod of_int dcmp fmtg re_match).
Notation gives := (gives D fmtg).

(** what the answer looks like in memory *)
Definition in_memory (a : answer D) (v : var D) : Prop :=
  match a with
  | Str s => ty D v = VString /\ s_len D v = length s /\
             exists ext, vs D v = Some (s ++ ext) /\ ((length s < 4096)%nat \/ nonul s /\ exists e, ext = 0 :: e)
  | Int z => ty D v = VInt /\ vl D v = z /\ vs D v = None
  | Dbl d => ty D v = VDouble /\ vn D v = d /\ vs D v = None /\ (length (fmtg d) < 4096)%nat
  | NoString => ty D v = VString /\ vs D v = None
  | Missing => True
  end.
Lemma gives_memory a fv : gives a fv -> fst fv = (match a with Missing => false | _ => true end) /\ in_memory a (snd fv).
Proof.
  intro G; inversion G as [v|v n|v s ext Hl|v s ext v' Hn Hs|v s ext v' Hn Hs|v z Hz|v d Hz Hd]; subst; cbn [fst snd]; split; try reflexivity.
  - split; reflexivity.
  - split; [reflexivity|]. split; [reflexivity|]. exists ext. split; [reflexivity|left; exact Hl].
  - unfold set_string in Hs. rewrite (proj2 (has_nul _)) in Hs by (apply in_or_app; right; left; reflexivity). injection Hs as <-.
    rewrite cstr_app0 by exact Hn. split; [reflexivity|]. split; [reflexivity|]. eexists; split; [reflexivity|]. right; split; [exact Hn|eexists; reflexivity].
  - unfold set_stringn_copy in Hs. destruct (Nat.ltb_spec (length s) 40) as [L|L].
    + rewrite app_length in Hs. destruct (Nat.ltb_spec (length s + length ext) (length s)); [lia|]. injection Hs as <-. split; [reflexivity|]. split; [reflexivity|].
      cbn [vs]. rewrite firstn_app, Nat.sub_diag, firstn_O, app_nil_r, firstn_all. eexists; split; [reflexivity|]. left; lia.
    + destruct Hn as [Hn|Hn]; [lia|]. destruct ((length (s ++ ext) <? length s)%nat && negb (existsb (N.eqb 0) (s ++ ext))); [discriminate|].
      injection Hs as <-. split; [reflexivity|]. split; [reflexivity|]. cbn [vs]. rewrite firstn_app, Nat.sub_diag, firstn_O, app_nil_r, firstn_all.
      rewrite cstr_nonul by exact Hn. eexists; split; [reflexivity|]. right; split; [exact Hn|eexists; reflexivity].
  - repeat split. cbn [set_int64 vs]. destruct (free_s D v); [reflexivity|]. destruct Hz; [assumption|discriminate].
  - repeat split; [|exact Hd]. cbn [set_double vs]. destruct (free_s D v); [reflexivity|]. destruct Hz; [assumption|discriminate].
Qed.

Definition result (o : option bool) : outcome := match o with Some b => Val b | None => Abort end.

Lemma predicate_string lookup op left t a : fst (lookup left) = true -> in_memory a (snd (lookup left)) -> (a <> Missing /\ a <> NoString) -> op <> EXISTS ->
  (Z.of_nat (length t) < 2 ^ 31)%Z -> (forall s, a = Str s -> (Z.of_nat (length s) < 2 ^ 31)%Z) ->
  exec_predicate lookup op left (Right RString t) = result (holds op a (Right RString t)).
Proof.
  intros F M [A1 A2] Ho Ht Hs. unfold Model.exec_predicate. destruct (lookup left) as [found lhs]. cbn [fst snd] in F, M. subst found.
  assert (T : exists ext, tostring D fmtg lhs = (Some (text D fmtg a ++ ext), length (text D fmtg a)) /\
                ((length (text D fmtg a) < 4096)%nat \/ nonul (text D fmtg a) /\ exists e, ext = 0 :: e) /\ vs D lhs <> None \/
              (exists ext, tostring D fmtg lhs = (Some (text D fmtg a ++ ext), length (text D fmtg a)) /\ (length (text D fmtg a) < 4096)%nat /\ ty D lhs <> VString)).
  { destruct a as [| |s|z|d]; try congruence; cbn [in_memory text] in *.
    - destruct M as (M1 & M2 & ext & M3 & M4). exists ext. left. unfold tostring. rewrite M1, M2, M3. split; [|split; [exact M4|congruence]]. destruct (length s); reflexivity.
    - destruct M as (M1 & M2 & M3). exists []. right. exists [0]. unfold tostring. rewrite M1, M2, M3. split; [reflexivity|]. split; [pose proof (show_int_short z); lia|discriminate].
    - destruct M as (M1 & M2 & M3 & Hd). exists []. right. exists [0]. unfold tostring. rewrite M1, M2, M3. split; [reflexivity|]. split; [exact Hd|discriminate]. }
  assert (L : (Z.of_nat (length (text D fmtg a)) < 2 ^ 31)%Z).
  { destruct a as [| |s|z|d]; cbn [text]; [congruence|congruence|apply Hs; reflexivity|pose proof (show_int_short z); lia|destruct M as (_ & _ & _ & Hd); lia]. }
  assert (T' : exists ext, tostring D fmtg lhs = (Some (text D fmtg a ++ ext), length (text D fmtg a)) /\
                (if (4096 <=? length (text D fmtg a))%nat then strlen (text D fmtg a ++ ext) else Some (length (text D fmtg a))) = Some (length (text D fmtg a)) /\
                (match ty D lhs, vs D lhs with VString, None => true | _, _ => false end) = false).
  { destruct T as [ext [(T1 & T2 & T3)|(ext' & T1 & T2 & T3)]].
    - exists ext. split; [exact T1|]. split; [|destruct (ty D lhs), (vs D lhs); congruence || reflexivity].
      destruct (Nat.leb_spec 4096 (length (text D fmtg a))) as [G|G]; [|reflexivity]. destruct T2 as [T2|[T2 [e ->]]]; [lia|].
      unfold strlen. rewrite (proj2 (has_nul _)) by (apply in_or_app; right; left; reflexivity). rewrite cstr_app0 by exact T2. reflexivity.
    - exists ext'. split; [exact T1|]. split; [|destruct (ty D lhs), (vs D lhs); congruence || reflexivity].
      destruct (Nat.leb_spec 4096 (length (text D fmtg a))); [lia|reflexivity]. }
  destruct T' as (ext & T1 & T2 & T3). rewrite T3, T1. cbn [negb orb rty rtext]. rewrite T2.
  assert (RB : (length (text D fmtg a ++ ext) <? length (text D fmtg a))%nat = false) by (apply Nat.ltb_ge; rewrite app_length; lia).
  assert (FA : firstn (length (text D fmtg a)) (text D fmtg a ++ ext) = text D fmtg a) by (rewrite firstn_app, Nat.sub_diag, firstn_O, app_nil_r, firstn_all; reflexivity).
  destruct (strllcmp_ok (text D fmtg a) ext t [0] L Ht) as (c & C1 & C2).
  assert (HD : forall b, match op, a with
                 | EXISTS, Missing => Some false | EXISTS, _ => Some true
                 | _, Missing | _, NoString => Some (match op with NE | NRE => true | _ => false end)
                 | _, _ => b end = b) by (intro b; destruct op, a; congruence).
  unfold Spec.holds. cbn [rty rtext]. rewrite HD.
  assert (RD : is_re op = false -> cmp_z op c = decide op (Some (shortlex (text D fmtg a) t))) by (intro R; apply cmp_z_decide; assumption).
  destruct op; try congruence; try (rewrite C1, (RD eq_refl); reflexivity); rewrite RB, FA; reflexivity.
Qed.

Lemma predicate_number lookup op left r a : fst (lookup left) = true -> in_memory a (snd (lookup left)) -> (a <> Missing /\ a <> NoString) -> op <> EXISTS ->
  rty r <> RString -> (forall s, a = Str s -> (length s < 128)%nat) ->
  exec_predicate lookup op left r = result (holds op a r).
Proof.
  intros F M [A1 A2] Ho Hr Hs. unfold Model.exec_predicate. destruct (lookup left) as [found lhs]. cbn [fst snd] in F, M. subst found.
  assert (HD : forall b, match op, a with
                 | EXISTS, Missing => Some false | EXISTS, _ => Some true
                 | _, Missing | _, NoString => Some (match op with NE | NRE => true | _ => false end)
                 | _, _ => b end = b) by (intro b; destruct op, a; congruence).
  unfold Spec.holds. rewrite HD. clear HD.
  assert (OD : forall b0 c, match op with EXISTS => b0 | _ => c end = c :> outcome) by (intros; destruct op; congruence). rewrite OD. clear OD.
  assert (NN : (match ty D lhs, vs D lhs with VString, None => true | _, _ => false end) = false).
  { destruct a as [| |s|z|d]; try congruence; cbn [in_memory] in M; [destruct M as (M1 & M2 & ext & M3 & M4); rewrite M1, M3; reflexivity|destruct M as (-> & _); reflexivity|destruct M as (-> & _); reflexivity]. }
  rewrite NN. cbn [negb orb].
  assert (DM : forall c, domatch op c = result (if is_re op then None else Some (decide op c))).
  { intro c. destruct (is_re op) eqn:R; [destruct op; try discriminate; reflexivity|]. cbn [result]. apply domatch_decide; [exact R|exact Ho]. }
  assert (RT : forall (x y : outcome), match rty r with RString => x | _ => y end = y) by (intros; destruct (rty r); congruence). rewrite RT. clear RT.
  assert (RT : forall (x y : option bool), match rty r with RString => x | _ => y end = y) by (intros; destruct (rty r); congruence). rewrite RT. clear RT.
  destruct a as [| |s|z|d]; try congruence; cbn [in_memory number] in *.
  - destruct M as (M1 & M2 & ext & M3 & M4). rewrite M1, M2, M3. specialize (Hs _ eq_refl).
    destruct (Nat.leb_spec 128 (length s)); [lia|]. rewrite app_length. destruct (Nat.ltb_spec (length s + length ext) (length s)); [lia|]. cbn [orb].
    rewrite firstn_app, Nat.sub_diag, firstn_O, app_nil_r, firstn_all.
    destruct (strtoll (cstr s)) as [zz [|e1 e2]].
    + unfold rnumber, ncompare. destruct (rty r) eqn:Er; try congruence; rewrite DM; reflexivity.
    + destruct (strtod (cstr s)) as [dd [|f1 f2]]; [|reflexivity]. unfold rnumber, ncompare. destruct (rty r) eqn:Er; try congruence; rewrite DM; reflexivity.
  - destruct M as (-> & -> & _). unfold rnumber, ncompare. destruct (rty r) eqn:Er; try congruence; rewrite DM; reflexivity.
  - destruct M as (-> & -> & _). unfold rnumber, ncompare. destruct (rty r) eqn:Er; try congruence; rewrite DM; reflexivity.
Qed.

Theorem predicate_ok lookup op left r a : gives a (lookup left) -> small D a r -> exec_predicate lookup op left r = result (holds op a r).
Proof.
  intros G [S1 S2]. destruct (gives_memory _ _ G) as [F M].
  assert (OE : {op = EXISTS} + {op <> EXISTS}) by (destruct op; (left; reflexivity) || (right; discriminate)). destruct OE as [->|Ho].
  { unfold Model.exec_predicate. destruct (lookup left) as [found lhs]. cbn [fst] in F. subst found. destruct a; reflexivity. }
  assert (AM : a = Missing \/ a = NoString \/ (a <> Missing /\ a <> NoString)) by (destruct a; auto; right; right; split; discriminate).
  destruct AM as [->|[->|A]].
  - unfold Model.exec_predicate. destruct (lookup left) as [found lhs]. cbn [fst] in F. subst found. destruct op; try congruence; reflexivity.
  - unfold Model.exec_predicate. destruct (lookup left) as [found lhs]. cbn [fst snd in_memory] in F, M. subst found. destruct M as [M1 M2]. rewrite M1, M2. destruct op; try congruence; reflexivity.
  - assert (F' : fst (lookup left) = true) by (rewrite F; destruct a; try reflexivity; destruct A; congruence).
    destruct (rty r) eqn:Er.
    + destruct r as [rt t]; cbn [rty] in Er; subst rt. apply predicate_string; try assumption; try exact S2. intros s ->. apply S1.
    + apply predicate_number; try assumption; try congruence. intros s ->. apply S1. congruence.
    + apply predicate_number; try assumption; try congruence. intros s ->. apply S1. congruence.
Qed.

(** * Trees *)
Fixpoint nsize (n : node) : nat := match n with Oper _ es => S (fold_right (fun e a => nsize e + a)%nat 0%nat es) | _ => 1%nat end.
Lemma in_size e es o : In e es -> (nsize e < nsize (Oper o es))%nat.
Proof.
  cbn [nsize]. induction es as [|a es IH]; intro I; [destruct I|]. cbn [fold_right]. destruct I as [->|I]; [lia|]. specialize (IH I). lia.
Qed.
Lemma node_ind' (P : node -> Prop) : P Null -> (forall op l r, P (Pred op l r)) -> (forall o es, (forall e, In e es -> P e) -> P (Oper o es)) -> forall n, P n.
Proof.
  intros H1 H2 H3 n. remember (nsize n) as k eqn:Ek. revert n Ek. induction k as [k IH] using lt_wf_ind. intros [|op l r|o es] Ek; [exact H1|apply H2|].
  apply H3. intros e I. eapply IH; [|reflexivity]. subst k. apply in_size, I.
Qed.
Lemma sound_all o es : sound (Oper o es) -> (match o with LNot => length es = 1%nat | _ => True end) /\ forall e, In e es -> sound e.
Proof.
  cbn [sound]. intros [H1 H2]. split; [exact H1|]. clear H1. induction es as [|a es IH]; intros e I; [destruct I|]. destruct H2 as [Ha H2]. destruct I as [->|I]; [exact Ha|apply IH; assumption].
Qed.
Lemma occurs_in op l r o es e : In e es -> occurs op l r e -> occurs op l r (Oper o es).
Proof.
  cbn [occurs]. induction es as [|a es IH]; intros I H; [destruct I|]. destruct I as [->|I]; [left; exact H|right; apply IH; assumption].
Qed.
Lemma occurs_inv op l r o es : occurs op l r (Oper o es) -> exists e, In e es /\ occurs op l r e.
Proof.
  cbn [occurs]. induction es as [|a es IH]; intro H; [destruct H|]. destruct H as [H|H]; [exists a; split; [left; reflexivity|exact H]|].
  destruct (IH H) as (e & I & He). exists e; split; [right; exact I|exact He].
Qed.

Theorem formula lookup h n : sound n -> (forall op l r, occurs op l r n -> exec_predicate lookup op l r = Val (h op l r)) ->
  exec_node lookup n = Val (truth h n).
Proof.
  induction n as [|op l r|o es IH] using node_ind'; intros S H; [destruct S|apply H; repeat split|].
  apply sound_all in S as [Sl S].
  assert (E : forall e, In e es -> exec_node lookup e = Val (truth h e)).
  { intros e I. apply IH; [exact I|apply S, I|]. intros op l r O. apply H. eapply occurs_in; eassumption. }
  clear IH S H. destruct o; cbn [Model.exec_node truth].
  - induction es as [|e es IH]; [reflexivity|]. rewrite (E e (or_introl eq_refl)). cbn [forallb]. destruct (truth h e); cbn [andb]; [|reflexivity].
    apply IH. intros e' I. apply E. right; exact I.
  - induction es as [|e es IH]; [reflexivity|]. rewrite (E e (or_introl eq_refl)). cbn [existsb]. destruct (truth h e); cbn [orb]; [reflexivity|].
    apply IH. intros e' I. apply E. right; exact I.
  - destruct es as [|e es]; [discriminate|]. rewrite (E e (or_introl eq_refl)). reflexivity.
Qed.

Theorem order_irrelevant lookup h o es es' : Permutation es es' -> o <> LNot -> sound (Oper o es) ->
  (forall op l r, occurs op l r (Oper o es) -> exec_predicate lookup op l r = Val (h op l r)) ->
  exec_node lookup (Oper o es') = exec_node lookup (Oper o es).
Proof.
  intros P Ho S H. rewrite (formula lookup h (Oper o es) S H). rewrite (formula lookup h (Oper o es')).
  - f_equal. destruct o; try congruence; cbn [truth]; clear S H.
    + induction P; cbn [forallb]; try congruence. destruct (truth h x), (truth h y); reflexivity.
    + induction P; cbn [existsb]; try congruence. destruct (truth h x), (truth h y); reflexivity.
  - apply sound_all in S as [Sl S]. cbn [sound]. split; [destruct o; congruence || exact Logic.I|].
    assert (S' : forall e, In e es' -> sound e) by (intros e I; apply S; eapply Permutation_in; [symmetry; exact P|exact I]).
    clear -S'. induction es' as [|a es' IH]; [exact Logic.I|]. split; [apply S'; left; reflexivity|apply IH; intros e I; apply S'; right; exact I].
  - intros op l r O. apply H. apply occurs_inv in O as (e & I & O). eapply occurs_in; [|exact O]. eapply Permutation_in; [symmetry; exact P|exact I].
Qed.

Theorem has_predicate_ok n lval : sound n -> exists b, has_predicate n lval = Some b /\ (b = true <-> exists op r, occurs op lval r n).
Proof.
  induction n as [|op l r|o es IH] using node_ind'; intro S; [destruct S| |].
  - cbn [has_predicate occurs]. destruct (list_eq_dec N.eq_dec l lval) as [->|E]; eexists; split; try reflexivity.
    + split; [intros _; exists op, r; repeat split|reflexivity].
    + split; [discriminate|]. intros (? & ? & _ & X & _). congruence.
  - apply sound_all in S as [_ S]. cbn [has_predicate occurs]. induction es as [|e es IHes].
    + exists false. split; [reflexivity|]. split; [discriminate|]. intros (? & ? & []).
    + destruct (IH e (or_introl eq_refl) (S e (or_introl eq_refl))) as (b & E & Hb). rewrite E.
      destruct IHes as (b' & E' & Hb'); [intros e' I; apply IH; right; exact I|intros e' I; apply S; right; exact I|].
      destruct b.
      * exists true. split; [reflexivity|]. split; [intros _|reflexivity]. destruct (proj1 Hb eq_refl) as (op & r & O). exists op, r. left; exact O.
      * exists b'. split; [exact E'|]. rewrite Hb'. split; [intros (op & r & O); exists op, r; right; exact O|].
        intros (op & r & [O|O]); [exfalso; assert (false = true) by (apply Hb; eauto); discriminate|eauto].
Qed.

(** a tree evaluated by a program answering every name *)
Definition h_of (a : bytes -> answer D) op l r : bool := match holds op (a l) r with Some b => b | None => false end.
Theorem exec_ok lookup a n : sound n ->
  (forall op l r, occurs op l r n -> gives (a l) (lookup l) /\ small D (a l) r /\ holds op (a l) r <> None) ->
  exec_node lookup n = Val (truth (h_of a) n).
Proof.
  intros S H. apply formula; [exact S|]. intros op l r O. destruct (H _ _ _ O) as (G & Sm & N). rewrite (predicate_ok _ _ _ _ _ G Sm). unfold h_of.
  destruct (holds op (a l) r); [reflexivity|congruence].
Qed.
End V.
