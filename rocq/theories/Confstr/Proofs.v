From Coq Require Import NArith ZArith List Bool Lia ZifyBool ZifyNat ZifyN.
From Verif.Confstr Require Import Model Spec.
Import ListNotations.

(** ** durations *)
Lemma span_all p a b : all p a -> match b with [] => True | c :: _ => p c = false end -> span p (a ++ b) = (a, b).
Proof.
  induction 1 as [|c a H F IH]; intros B; cbn.
  - destruct b as [|c b]; cbn; [reflexivity|]. rewrite B. reflexivity.
  - rewrite H, (IH B). reflexivity.
Qed.
Lemma span_spec p s : forall a b, span p s = (a, b) -> s = a ++ b /\ all p a /\ match b with [] => True | c :: _ => p c = false end.
Proof.
  induction s as [|c s IH]; intros a b; cbn.
  - intros [= <- <-]. repeat split. constructor.
  - destruct (p c) eqn:P.
    + destruct (span p s) as [a' b'] eqn:E. intros [= <- <-]. destruct (IH a' b' eq_refl) as (-> & A & B). repeat split; [constructor; assumption|exact B].
    + intros [= <- <-]. repeat split; [constructor|exact P].
Qed.

Lemma digits_decimal ds : digits_val ds = decimal ds.
Proof.
  unfold digits_val. assert (forall a, fold_left (fun a c => 10 * a + (c - 48))%N ds a = (a * 10 ^ N.of_nat (length ds) + decimal ds)%N) as H.
  { induction ds as [|c ds IH]; intros a; [cbn [fold_left length decimal]; rewrite N.pow_0_r; lia|]. cbn [fold_left length decimal]. rewrite IH.
    rewrite Nat2N.inj_succ, N.pow_succ_r'. lia. }
  rewrite H. lia.
Qed.

Lemma bytes_eqb_spec a : forall b, bytes_eqb a b = true <-> a = b.
Proof.
  induction a as [|x a IH]; intros [|y b]; cbn; try (split; [discriminate|congruence]); [tauto|]. rewrite andb_true_iff, N.eqb_eq, IH. split; [intros [-> ->]; reflexivity|intros [= -> ->]; auto].
Qed.

Lemma same_spec a b : reflect (a = b) (same a b).
Proof. unfold same. destruct (list_eq_dec N.eq_dec a b); constructor; assumption. Qed.
Lemma unit_find d u : unit_mul d u = option_map snd (find (fun e => same (fst e) u) d).
Proof.
  induction d as [|[k m] d IH]; cbn [unit_mul find fst]; [reflexivity|]. destruct (same_spec k u) as [->|NE].
  - rewrite (proj2 (bytes_eqb_spec u u) eq_refl). reflexivity.
  - destruct (bytes_eqb u k) eqn:E; [apply bytes_eqb_spec in E; congruence|exact IH].
Qed.
Lemma unit_mul_in d u : (exists m, In (u, m) d) <-> unit_mul d u <> None.
Proof.
  rewrite unit_find. split.
  - intros [m H]. destruct (find _ d) eqn:E; [discriminate|]. pose proof (find_none _ _ E _ H) as Q. cbn [fst] in Q. destruct (same_spec u u); congruence.
  - destruct (find _ d) as [[k m]|] eqn:E; [|cbn; congruence]. apply find_some in E. destruct E as [I E]. cbn [fst] in E. destruct (same_spec k u) as [->|]; [|discriminate]. eauto.
Qed.

Lemma disjoint_classes c : (isdigit c = true -> isspace c = false /\ isalpha c = false) /\ (isspace c = true -> isalpha c = false).
Proof. unfold isdigit, isspace, isalpha. lia. Qed.

(** contribution of a term to *output *)
Definition contrib (d : defs) (t : term) : N :=
  match unit_mul d (t_unit t) with Some m => (N.min (decimal (t_digits t)) (two64 - 1) * m) mod two64 | None => 0 end%N.
Definition accum (d : defs) (ts : list term) (out : N) : N := fold_left (fun o t => ((o + contrib d t) mod two64)%N) ts out.

Lemma term_step d t rest : term_ok d t -> match rest with [] => True | c :: _ => isdigit c = true end ->
  exists c r, term_text t ++ rest = c :: r /\ isdigit c = true /\
  strtoul (term_text t ++ rest) = (N.min (decimal (t_digits t)) (two64 - 1), t_gap t ++ t_unit t ++ t_end t ++ rest) /\
  snd (span isspace (t_gap t ++ t_unit t ++ t_end t ++ rest)) = t_unit t ++ t_end t ++ rest /\
  span isalpha (t_unit t ++ t_end t ++ rest) = (t_unit t, t_end t ++ rest).
Proof.
  intros (H1 & H2 & H3 & H4 & H5 & H6 & H7) R. unfold term_text. destruct t as [ds gap u e]; cbn [t_digits t_gap t_unit t_end] in *.
  destruct ds as [|c ds]; [congruence|]. destruct u as [|cu u]; [congruence|].
  assert (match e ++ rest with [] => True | c :: _ => isalpha c = false end) as A1.
  { destruct e as [|ce e]; cbn; [destruct rest; [exact I|apply (proj1 (disjoint_classes n)); exact R]|]. inversion H6; subst. apply disjoint_classes. assumption. }
  assert (isspace cu = false) as A2.
  { inversion H4 as [|? ? X]; subst. destruct (isspace cu) eqn:E; [|reflexivity]. apply disjoint_classes in E. congruence. }
  assert (match gap ++ cu :: u ++ e ++ rest with [] => True | c :: _ => isdigit c = false end) as A3.
  { destruct gap as [|g gap]; cbn.
    - inversion H4 as [|? ? X]; subst. destruct (isdigit cu) eqn:E; [|reflexivity]. apply disjoint_classes in E. destruct E. congruence.
    - inversion H3 as [|? ? X]; subst. destruct (isdigit g) eqn:E; [|reflexivity]. apply disjoint_classes in E. destruct E. congruence. }
  exists c, (ds ++ gap ++ (cu :: u) ++ e ++ rest). split; [rewrite <- !app_assoc; reflexivity|]. split; [inversion H1; assumption|]. split; [|split].
  - unfold strtoul. rewrite <- !app_assoc. rewrite span_all by assumption. rewrite digits_decimal. reflexivity.
  - rewrite (span_all isspace gap); [reflexivity|exact H3|exact A2].
  - apply span_all; assumption.
Qed.

Lemma term_len t : t_unit t <> [] -> length (t_end t) < length (term_text t).
Proof. unfold term_text. rewrite !app_length. destruct (t_unit t); [congruence|]. cbn [length]. lia. Qed.
Lemma parse_terms d : forall ts blanks fuel out s, all isspace blanks -> Forall (term_ok d) ts ->
  length (blanks ++ concat (map term_text ts)) < fuel ->
  parse_loop fuel (blanks ++ concat (map term_text ts)) out s d = Some (match ts with [] => s | _ => Success end, accum d ts out).
Proof.
  induction ts as [|t ts IH]; intros blanks fuel out s B F L; (destruct fuel as [|fuel]; [lia|]); cbn [parse_loop].
  - cbn [map concat] in *. rewrite span_all by (auto; exact I). reflexivity.
  - inversion F as [|? ? F1 F2]; subst. cbn [map concat] in *.
    assert (match concat (map term_text ts) with [] => True | c :: _ => isdigit c = true end) as R.
    { destruct ts as [|t' ts']; [exact I|]. cbn. inversion F2 as [|? ? F3]; subst. destruct F3 as (G1 & G2 & _). unfold term_text. destruct (t_digits t') as [|c ds]; [congruence|]. inversion G1; assumption. }
    destruct (term_step d t _ F1 R) as (c & r & E0 & E1 & E2 & E3 & E4).
    assert (snd (span isspace (blanks ++ term_text t ++ concat (map term_text ts))) = term_text t ++ concat (map term_text ts)) as ->.
    { rewrite (span_all isspace blanks); [reflexivity|exact B|]. rewrite E0. apply disjoint_classes in E1. apply E1. }
    rewrite E0. cbv iota. rewrite E1. rewrite <- E0, E2, E3, E4. destruct F1 as (H1 & H2 & H3 & H4 & H5 & H6 & H7). pose proof (proj1 (unit_mul_in d (t_unit t)) H7) as HM.
    destruct (t_unit t) as [|cu u] eqn:EU; [congruence|]. destruct (unit_mul d (cu :: u)) as [m|] eqn:EM; [|congruence].
    rewrite IH; [|exact H6|exact F2|].
    + cbn [accum fold_left]. unfold contrib at 2. rewrite EU, EM. destruct ts; reflexivity.
    + pose proof (term_len t ltac:(congruence)). rewrite !app_length in *. lia.
Qed.

Lemma parse_inv d : forall fuel s out s0 v, parse_loop fuel s out s0 d = Some (Success, v) ->
  exists blanks ts, all isspace blanks /\ s = blanks ++ concat (map term_text ts) /\ Forall (term_ok d) ts /\ (ts = [] -> s0 = Success).
Proof.
  induction fuel as [|fuel IH]; intros s out s0 v; cbn [parse_loop]; [discriminate|].
  destruct (span isspace s) as [bl s1] eqn:E1. apply span_spec in E1. destruct E1 as (-> & B & _). cbn [snd].
  destruct s1 as [|c s1]; [intros [= -> ->]; exists bl, []; cbn; auto using Forall_nil|]. destruct (isdigit c) eqn:D; [|discriminate].
  unfold strtoul. destruct (span isdigit (c :: s1)) as [ds s2] eqn:E2. apply span_spec in E2. destruct E2 as (E2 & DS & _).
  destruct (span isspace s2) as [gap s3] eqn:E3. apply span_spec in E3. destruct E3 as (-> & GA & _). cbn [snd].
  destruct (span isalpha s3) as [u s4] eqn:E4. apply span_spec in E4. destruct E4 as (-> & UA & _).
  destruct u as [|cu u]; [discriminate|]. destruct (unit_mul d (cu :: u)) as [m|] eqn:EM; [|discriminate].
  intros H. apply IH in H. destruct H as (b2 & ts & H1 & -> & H3 & H4). exists bl, ({| t_digits := ds; t_gap := gap; t_unit := cu :: u; t_end := b2 |} :: ts).
  split; [exact B|]. split.
  - rewrite E2. cbn [map concat]. unfold term_text at 2. cbn [t_digits t_gap t_unit t_end]. rewrite <- !app_assoc. reflexivity.
  - split; [|discriminate]. constructor; [|exact H3]. unfold term_ok. cbn [t_digits t_gap t_unit t_end]. repeat split; try assumption; try discriminate.
    + intros ->. cbn in E2. destruct gap; [cbn in E2; injection E2 as -> _; inversion UA as [|? ? X]; subst; apply disjoint_classes in D; destruct D; congruence|].
      injection E2 as -> _. inversion GA; subst. apply disjoint_classes in D. destruct D. congruence.
    + apply unit_mul_in. congruence.
Qed.

Lemma parse_fuel d : forall fuel s out s0, length s < fuel -> parse_loop fuel s out s0 d <> None.
Proof.
  induction fuel as [|fuel IH]; intros s out s0 L; [lia|]. cbn [parse_loop].
  destruct (span isspace s) as [bl s1] eqn:E1. apply span_spec in E1. destruct E1 as (-> & B & _). cbn [snd].
  destruct s1 as [|c s1]; [discriminate|]. destruct (isdigit c) eqn:D; [|discriminate].
  unfold strtoul. destruct (span isdigit (c :: s1)) as [ds s2] eqn:E2. apply span_spec in E2. destruct E2 as (E2 & DS & _).
  destruct (span isspace s2) as [gap s3] eqn:E3. apply span_spec in E3. destruct E3 as (-> & GA & _). cbn [snd].
  destruct (span isalpha s3) as [u s4] eqn:E4. apply span_spec in E4. destruct E4 as (-> & UA & _).
  destruct u as [|cu u]; [discriminate|]. destruct (unit_mul d (cu :: u)) as [m|] eqn:EM; [|discriminate]. apply IH.
  apply (f_equal (@length N)) in E2. rewrite !app_length in *. cbn [length] in *. lia.
Qed.

Definition positive (d : defs) : Prop := forall u m, unit_mul d u = Some m -> (0 < m)%N.

Lemma meaning_mul d t : meaning d t = match unit_mul d (t_unit t) with Some m => (decimal (t_digits t) * m)%N | None => 0%N end.
Proof. unfold meaning. rewrite unit_find. destruct (find _ d) as [[k m]|]; reflexivity. Qed.

Lemma two64_pos : (0 < two64)%N.
Proof. reflexivity. Qed.

Lemma contrib_le d t : positive d -> (meaning d t < two64)%N -> contrib d t = meaning d t.
Proof.
  intros P. rewrite meaning_mul. unfold contrib. destruct (unit_mul d (t_unit t)) as [m|] eqn:E; [|reflexivity]. intros L. apply P in E.
  assert (decimal (t_digits t) < two64)%N as L2 by nia. rewrite N.min_l by lia. apply N.mod_small. exact L.
Qed.

Lemma accum_total d : positive d -> forall ts out, (out + total d ts < two64)%N -> accum d ts out = (out + total d ts)%N.
Proof.
  intros P. induction ts as [|t ts IH]; intros out L; cbn [accum fold_left total fold_right] in *; [lia|].
  rewrite contrib_le by (try assumption; unfold total in *; lia). rewrite N.mod_small by lia. change (fold_left _ ts ?x) with (accum d ts x).
  rewrite IH by (unfold total; lia). unfold total. lia.
Qed.

Lemma duration_sum d s ts : positive d -> duration_text d s ts -> (total d ts < two64)%N -> parse_duration s d = Some (Success, total d ts).
Proof.
  intros P (bl & B & -> & NE & F) L. unfold parse_duration. rewrite parse_terms; [|exact B|exact F|lia]. rewrite accum_total by (try assumption; lia).
  destruct ts; [congruence|]. reflexivity.
Qed.
Lemma duration_accepts d s : (exists v, parse_duration s d = Some (Success, v)) <-> (exists ts, duration_text d s ts).
Proof.
  split.
  - intros [v H]. apply parse_inv in H. destruct H as (bl & ts & B & -> & F & NE). exists ts, bl. repeat split; try assumption. intros ->. specialize (NE eq_refl). discriminate.
  - intros (ts & bl & B & -> & NE & F). unfold parse_duration. rewrite parse_terms; [|exact B|exact F|lia]. destruct ts; [congruence|]. eauto.
Qed.
Lemma duration_total_fn d s : exists r v, parse_duration s d = Some (r, v).
Proof. pose proof (parse_fuel d (S (length s)) s 0%N ErrFormat ltac:(lia)) as H. unfold parse_duration. destruct (parse_loop _ _ _ _ _) as [[r v]|]; [eauto|congruence]. Qed.

(** the output modulo 2^64 when no single number overflows *)
Lemma accum_mod d ts : Forall (fun t => decimal (t_digits t) < two64)%N ts -> forall out, accum d ts (out mod two64) = ((out + total d ts) mod two64)%N.
Proof.
  induction 1 as [|t ts H F IH]; intros out; cbn [accum fold_left total fold_right]; [rewrite N.add_0_r; reflexivity|].
  change (fold_left _ ts ?x) with (accum d ts x).
  assert ((out mod two64 + contrib d t) mod two64 = (out + meaning d t) mod two64)%N as ->.
  { rewrite meaning_mul. unfold contrib. destruct (unit_mul d (t_unit t)) as [m|].
    - rewrite N.min_l by (pose proof two64_pos; lia). rewrite <- N.add_mod by (pose proof two64_pos; lia). reflexivity.
    - rewrite N.add_mod_idemp_l by (pose proof two64_pos; lia). reflexivity. }
  rewrite IH. f_equal. unfold total. lia.
Qed.
Lemma duration_wraps d s ts : duration_text d s ts -> Forall (fun t => decimal (t_digits t) < two64)%N ts ->
  parse_duration s d = Some (Success, total d ts mod two64)%N.
Proof.
  intros (bl & B & -> & NE & F) L. unfold parse_duration. rewrite parse_terms; [|exact B|exact F|lia].
  change 0%N with (0 mod two64)%N at 1. rewrite accum_mod by exact L. destruct ts; [congruence|]. reflexivity.
Qed.

(** ** the four tables *)
Lemma tables_positive : positive durations_ns /\ positive durations_us /\ positive durations_ms /\ positive durations_s.
Proof.
  assert (forall d, forallb (fun e : list N * N => (0 <? snd e)%N) d = true -> positive d) as H.
  { induction d as [|[k m] d IH]; intros A u v E; [discriminate|]. cbn in A, E. apply andb_true_iff in A. destruct A as [A1 A2]. destruct (bytes_eqb u k); [injection E as <-; lia|]. apply (IH A2 u v E). }
  repeat split; apply H; reflexivity.
Qed.

Definition scaled (c : N) (a b : defs) : Prop := forall u m n, unit_mul a u = Some m -> unit_mul b u = Some n -> (n = c * m)%N.
Lemma unit_mul_In d u m : unit_mul d u = Some m -> In (u, m) d.
Proof. induction d as [|[k v] d IH]; cbn; [discriminate|]. destruct (bytes_eqb u k) eqn:E; [apply bytes_eqb_spec in E; subst; intros [= ->]; auto|auto]. Qed.
Lemma scaled_check c a b : forallb (fun e => match unit_mul b (fst e) with Some n => (n =? c * snd e)%N | None => true end) a = true -> scaled c a b.
Proof.
  intros H u m n E1 E2. apply unit_mul_In in E1. rewrite forallb_forall in H. specialize (H _ E1). cbn in H. rewrite E2 in H. apply N.eqb_eq in H. exact H.
Qed.
Lemma tables_scaled : scaled 1000 durations_s durations_ms /\ scaled 1000 durations_ms durations_us /\ scaled 1000 durations_us durations_ns.
Proof. repeat split; apply scaled_check; reflexivity. Qed.

Lemma duration_scaled c a b s va vb ts tsb : scaled c a b -> positive a -> positive b ->
  duration_text a s ts -> duration_text b s tsb -> (total b ts < two64)%N -> (total a ts < two64)%N ->
  parse_duration s a = Some (Success, va) -> parse_duration s b = Some (Success, vb) -> vb = (c * va)%N.
Proof.
  intros SC PA PB DA DB LB LA HA HB.
  assert (duration_text b s ts) as DB'.
  { destruct DA as (bl & B & E & NE & F). exists bl. repeat split; try assumption.
    assert (parse_duration s b = Some (Success, vb)) as HB' by exact HB.
    (* every unit met is known to b, otherwise the parse fails *)
    unfold parse_duration in HB. subst s. clear DB HA LA LB NE HB'. revert HB. generalize 0%N ErrFormat.
    assert (length (bl ++ concat (map term_text ts)) < S (length (bl ++ concat (map term_text ts)))) as L by lia. revert L.
    generalize (S (length (bl ++ concat (map term_text ts)))) as fuel. revert bl B. induction F as [|t ts F1 F2 IH]; intros bl B fuel L o r H; [constructor|].
    destruct fuel as [|fuel]; [discriminate|]. cbn [parse_loop map concat] in H.
    assert (match concat (map term_text ts) with [] => True | c :: _ => isdigit c = true end) as R.
    { destruct ts as [|t' ts']; [exact I|]. cbn. inversion F2 as [|? ? F3]; subst. destruct F3 as (G1 & G2 & _). unfold term_text. destruct (t_digits t') as [|c0 ds]; [congruence|]. inversion G1; assumption. }
    destruct (term_step a t _ F1 R) as (c0 & r0 & E0 & E1 & E2 & E3 & E4).
    assert (snd (span isspace (bl ++ term_text t ++ concat (map term_text ts))) = term_text t ++ concat (map term_text ts)) as EQ.
    { rewrite (span_all isspace bl); [reflexivity|exact B|]. rewrite E0. apply disjoint_classes in E1. apply E1. }
    rewrite EQ, E0 in H. cbv iota in H. rewrite E1 in H. rewrite <- E0, E2, E3, E4 in H. destruct F1 as (H1 & H2 & H3 & H4 & H5 & H6 & H7).
    destruct (unit_mul b (t_unit t)) as [m|] eqn:EM.
    - constructor.
      + repeat split; try assumption. apply unit_mul_in. congruence.
      + destruct (t_unit t) as [|cu u] eqn:EU; [congruence|]. apply (IH (t_end t) H6 fuel) in H; [exact H|].
        cbn [map concat] in L. pose proof (term_len t ltac:(congruence)). rewrite !app_length in *. lia.
    - destruct (t_unit t); discriminate. }
  rewrite (duration_sum a s ts PA DA LA) in HA. rewrite (duration_sum b s ts PB DB' LB) in HB. injection HA as <-. injection HB as <-.
  destruct DA as (_ & _ & _ & _ & FA), DB' as (_ & _ & _ & _ & FB). clear LA LB. induction ts as [|t ts IH]; [cbn; lia|].
  inversion FA as [|? ? A1 A2]; inversion FB as [|? ? B1 B2]; subst. cbn [total fold_right]. unfold total in IH. rewrite IH by assumption. rewrite !meaning_mul.
  destruct A1 as (_ & _ & _ & _ & _ & _ & A1), B1 as (_ & _ & _ & _ & _ & _ & B1). apply unit_mul_in in A1, B1.
  destruct (unit_mul a (t_unit t)) as [m|] eqn:EA; [|congruence]. destruct (unit_mul b (t_unit t)) as [n|] eqn:EB; [|congruence].
  rewrite (SC _ _ _ EA EB). lia.
Qed.

(** ** booleans *)
Lemma strcase_spec a : forall b, strcaseeq a b = true <-> map toupper a = map toupper b.
Proof.
  induction a as [|x a IH]; intros [|y b]; cbn; try (split; [discriminate|congruence]); [tauto|].
  rewrite andb_true_iff, N.eqb_eq, IH. split; [intros [-> ->]; reflexivity|intros [= -> ->]; auto].
Qed.

(** ** calendar *)
Open Scope Z_scope.
Ltac Zify.zify_post_hook ::= Z.div_mod_to_equations.

Lemma year_days_leap y : year_days y = 365 + (y mod 4 + 3) / 4 * 0 + (if leap y then 1 else 0).
Proof. unfold year_days. destruct (leap y); lia. Qed.

(** leap days up to the end of year y, from year 0 *)
Definition lp (y : Z) : Z := y / 4 - y / 100 + y / 400.
Lemma lp_step y : lp y = lp (y - 1) + (if leap y then 1 else 0).
Proof.
  unfold lp, leap.
  assert (y / 4 = (y - 1) / 4 + (if y mod 4 =? 0 then 1 else 0)) as A by (destruct (Z.eqb_spec (y mod 4) 0); lia).
  assert (y / 100 = (y - 1) / 100 + (if y mod 100 =? 0 then 1 else 0)) as B by (destruct (Z.eqb_spec (y mod 100) 0); lia).
  assert (y / 400 = (y - 1) / 400 + (if y mod 400 =? 0 then 1 else 0)) as C by (destruct (Z.eqb_spec (y mod 400) 0); lia).
  rewrite A, B, C. clear A B C.
  destruct (Z.eqb_spec (y mod 4) 0), (Z.eqb_spec (y mod 100) 0), (Z.eqb_spec (y mod 400) 0); cbn; lia.
Qed.
Lemma years_days_closed y n : years_days y n = 365 * Z.of_nat n + lp (y + Z.of_nat n - 1) - lp (y - 1).
Proof.
  induction n as [|n IH]; cbn [years_days].
  - replace (y + Z.of_nat 0 - 1) with (y - 1) by lia. lia.
  - rewrite IH. unfold year_days. pose proof (lp_step (y + Z.of_nat n)) as H. replace (y + Z.of_nat (S n) - 1) with (y + Z.of_nat n) by lia.
    replace (y + Z.of_nat n - 1) with (y + Z.of_nat n - 1) in H by lia. rewrite H. destruct (leap (y + Z.of_nat n)); lia.
Qed.

Lemma cum_months y m : 1 <= m <= 12 ->
  fold_right Z.add 0 (map (fun k => month_days y (Z.of_nat k)) (seq 1 (Z.to_nat (m - 1)))) = nth (Z.to_nat (m - 1)) cumdays 0 + (if (3 <=? m) && leap y then 1 else 0).
Proof.
  intros M. assert (m = 1 \/ m = 2 \/ m = 3 \/ m = 4 \/ m = 5 \/ m = 6 \/ m = 7 \/ m = 8 \/ m = 9 \/ m = 10 \/ m = 11 \/ m = 12) as H by lia.
  unfold month_days. destruct (leap y); repeat (destruct H as [->|H]; [reflexivity|]); subst; reflexivity.
Qed.

Lemma leap_rem y : 0 <= y -> (Z.rem y 4 =? 0) && (negb (Z.rem y 100 =? 0) || (Z.rem y 400 =? 0)) = leap y.
Proof. intros H. rewrite !Z.rem_mod_nonneg by lia. reflexivity. Qed.

(** day count computed by mtev_timegm *)
Definition tg_days (y m d : Z) : Z :=
  (y - 1970) * 365 + nth (Z.to_nat (m - 1)) cumdays 0 + Z.quot (y - 1968) 4 - Z.quot (y - 1900) 100 + Z.quot (y - 1600) 400 - (if leap y && (m - 1 <? 2) then 1 else 0) + (d - 1).
Lemma timegm_days y m d h mi s : 0 <= y -> timegm (y - 1900) (m - 1) d h mi s = ((tg_days y m d * 24 + h) * 60 + mi) * 60 + s.
Proof.
  intros Y. unfold timegm, tg_days. replace (1900 + (y - 1900)) with y by lia. rewrite leap_rem by exact Y. destruct (leap y && (m - 1 <? 2)); lia.
Qed.
Lemma tg_days_ok y m d : 1968 <= y -> 1 <= m <= 12 -> tg_days y m d = (y - 1970) * 365 + (lp (y - 1) - lp 1969) + nth (Z.to_nat (m - 1)) cumdays 0 + (if (3 <=? m) && leap y then 1 else 0) + (d - 1).
Proof.
  intros Y M. unfold tg_days. rewrite !Z.quot_div_nonneg by lia.
  assert ((y - 1968) / 4 - (y - 1900) / 100 + (y - 1600) / 400 = lp y - lp 1969) as E by (unfold lp; lia).
  pose proof (lp_step y) as L. assert ((m - 1 <? 2) = negb (3 <=? m)) as -> by lia. destruct (leap y), (3 <=? m); cbn [andb negb]; lia.
Qed.

Lemma day_number_ok y m d : 1 <= m <= 12 -> day_number y m d = (y - 1970) * 365 + (lp (y - 1) - lp 1969) + nth (Z.to_nat (m - 1)) cumdays 0 + (if (3 <=? m) && leap y then 1 else 0) + (d - 1).
Proof.
  intros M. unfold day_number. rewrite cum_months by exact M. destruct (Z.leb_spec 1970 y); rewrite years_days_closed, Z2Nat.id by lia.
  - replace (1970 + (y - 1970) - 1) with (y - 1) by lia. change (1970 - 1) with 1969. lia.
  - replace (y + (1970 - y) - 1) with 1969 by lia. lia.
Qed.

Lemma timegm_epoch y m d h mi s : 1968 <= y -> 1 <= m <= 12 -> timegm (y - 1900) (m - 1) d h mi s = epoch y m d h mi s.
Proof. intros Y M. rewrite timegm_days by lia. unfold epoch. rewrite tg_days_ok, day_number_ok by lia. lia. Qed.

Lemma cum_bound m : 1 <= m <= 12 -> 0 <= nth (Z.to_nat (m - 1)) cumdays 0 <= 334.
Proof.
  intros M. assert (m = 1 \/ m = 2 \/ m = 3 \/ m = 4 \/ m = 5 \/ m = 6 \/ m = 7 \/ m = 8 \/ m = 9 \/ m = 10 \/ m = 11 \/ m = 12) as H by lia.
  repeat (destruct H as [->|H]; [vm_compute; split; discriminate|]); subst; vm_compute; split; discriminate.
Qed.

(** before 1968 both are far below zero *)
Lemma timegm_early y m d h mi s o : 1900 <= y < 1968 -> 1 <= m <= 12 -> 1 <= d <= 31 -> 0 <= h <= 23 -> 0 <= mi <= 59 -> 0 <= s <= 59 -> -86400 < o < 86400 ->
  timegm (y - 1900) (m - 1) d h mi s - o < 0 /\ epoch y m d h mi s - o < 0.
Proof.
  intros Y M D H MI S O. pose proof (cum_bound m M) as C. split.
  - rewrite timegm_days by lia. unfold tg_days.
    assert (Z.quot (y - 1968) 4 <= 0) by (replace (y - 1968) with (- (1968 - y)) by lia; rewrite Z.quot_opp_l by lia; rewrite Z.quot_div_nonneg by lia; lia).
    rewrite (Z.quot_div_nonneg (y - 1900) 100), (Z.quot_div_nonneg (y - 1600) 400) by lia.
    assert ((y - 1600) / 400 = 0) as -> by lia. assert (0 <= (y - 1900) / 100) by lia.
    destruct (leap y && (m - 1 <? 2)); lia.
  - unfold epoch. rewrite day_number_ok by lia.
    assert (lp (y - 1) - lp 1969 <= 0) as L by (unfold lp; lia). destruct ((3 <=? m) && leap y); lia.
Qed.

(** ** validation *)
Lemma valid_exact y m d : 1900 <= y -> 1 <= m <= 12 -> 1 <= d <= 31 ->
  is_valid_date (y - 1900) (m - 1) d = true <->
  (if (m =? 2) && (d =? 29) && ((y mod 400 =? 0) || (y mod 400 =? 300)) then ~ real_date y m d else real_date y m d).
Proof.
  intros Y M D. unfold is_valid_date, real_date, month_days. rewrite leap_rem by lia.
  assert (leap (y - 1900) = if y mod 400 =? 0 then false else if y mod 400 =? 300 then true else leap y) as ->.
  { unfold leap. assert ((y - 1900) mod 4 = y mod 4) as -> by lia. assert ((y - 1900) mod 100 = y mod 100) as -> by lia.
    assert (((y - 1900) mod 400 =? 0) = (y mod 400 =? 300)) as -> by lia.
    destruct (Z.eqb_spec (y mod 400) 0); [assert ((y mod 400 =? 300) = false) as -> by (apply Z.eqb_neq; lia); assert ((y mod 100 =? 0) = true) as -> by (apply Z.eqb_eq; lia); rewrite andb_false_r; reflexivity|].
    destruct (Z.eqb_spec (y mod 400) 300); [assert ((y mod 4 =? 0) = true) as -> by (apply Z.eqb_eq; lia); rewrite orb_true_r; reflexivity|]. reflexivity. }
  assert ((y - 1900 <? 0) || (m - 1 <? 0) || (11 <? m - 1) || (d <? 1) || (31 <? d) = false) as -> by lia.
  assert (leap y = true -> y mod 400 = 300 -> False) as L1 by (unfold leap; lia).
  assert (y mod 400 = 0 -> leap y = true) as L2 by (unfold leap; lia).
  assert ((m - 1 =? 1) = (m =? 2)) as -> by lia.
  assert (((m - 1 =? 3) || (m - 1 =? 5) || (m - 1 =? 8) || (m - 1 =? 10)) = ((m =? 4) || (m =? 6) || (m =? 9) || (m =? 11))) as -> by lia.
  destruct (Z.eqb_spec m 2) as [->|N2]; cbn [andb].
  - destruct (Z.eqb_spec (y mod 400) 0) as [E0|N0].
    + rewrite (L2 E0). destruct (Z.eqb_spec d 29); cbn [andb orb]; lia.
    + destruct (Z.eqb_spec (y mod 400) 300) as [E3|N3].
      * destruct (leap y) eqn:LY; [exfalso; auto|]. destruct (Z.eqb_spec d 29); cbn [andb orb]; lia.
      * rewrite andb_false_r. destruct (leap y); lia.
  - destruct ((m =? 4) || (m =? 6) || (m =? 9) || (m =? 11)); lia.
Qed.

Lemma year_valid y m d : 1900 <= y -> y mod 100 <> 0 -> 1 <= m <= 12 -> 1 <= d <= 31 -> is_valid_date (y - 1900) (m - 1) d = true <-> real_date y m d.
Proof.
  intros Y N M D. rewrite valid_exact by assumption. assert ((y mod 400 =? 0) || (y mod 400 =? 300) = false) as -> by lia. rewrite andb_false_r. tauto.
Qed.

(** ** the text parser *)
Lemma zone_range z : zone_ok z -> -86400 < zone_secs z < 86400.
Proof. destruct z as [u|mn h mi]; cbn; [lia|]. destruct mn; lia. Qed.

Lemma finish_ok y m d h mi s o : 1900 <= y -> 1 <= m <= 12 -> 1 <= d <= 31 -> 0 <= h <= 23 -> 0 <= mi <= 59 -> 0 <= s <= 59 -> -86400 < o < 86400 ->
  finish (y - 1900) (m - 1) d h mi s o = if epoch y m d h mi s - o <? 0 then (ErrUnrepresentable, None) else (Success, Some (epoch y m d h mi s - o)).
Proof.
  intros Y M D H MI S O. unfold finish. destruct (Z.lt_ge_cases y 1968) as [L|G].
  - destruct (timegm_early y m d h mi s o) as [A B]; try lia. rewrite (proj2 (Z.ltb_lt _ _) A), (proj2 (Z.ltb_lt _ _) B). reflexivity.
  - rewrite timegm_epoch by lia. reflexivity.
Qed.

Lemma parse_text sp y m d h mi s z up : reads sp -> 1900 <= y <= 9999 -> 1 <= m <= 12 -> 1 <= d <= 31 -> 0 <= h <= 23 -> 0 <= mi <= 59 -> 0 <= s <= 59 -> zone_ok z ->
  parse_time_gm sp (rfc3339 y m d h mi s z up) =
    if is_valid_date (y - 1900) (m - 1) d then
      if epoch y m d h mi s - zone_secs z <? 0 then (ErrUnrepresentable, None) else (Success, Some (epoch y m d h mi s - zone_secs z))
    else (ErrFormat, None).
Proof.
  intros (R1 & R2 & R3) Y M D H MI S Z. unfold parse_time_gm, rfc3339. rewrite R1 by lia. cbn [app].
  assert (toupper (if up then 84%N else 116%N) =? 84 = true)%N as -> by (destruct up; reflexivity). cbn [negb].
  destruct (is_valid_date (y - 1900) (m - 1) d); cbn [negb]; [|reflexivity]. rewrite R2 by lia.
  assert (is_valid_time h mi s = true) as -> by (unfold is_valid_time; lia). cbn [negb]. pose proof (zone_range z Z) as ZR.
  destruct z as [u|mn zh zm]; cbn [zone_text zone_secs] in *.
  - assert ((if u then 90%N else 122%N) =? 45 = false)%N as -> by (destruct u; reflexivity).
    assert ((if u then 90%N else 122%N) =? 43 = false)%N as -> by (destruct u; reflexivity).
    assert (((if u then 90%N else 122%N) =? 122) || ((if u then 90%N else 122%N) =? 90) = true)%N as -> by (destruct u; reflexivity).
    cbn [orb]. apply finish_ok; lia.
  - assert (((if mn then 45%N else 43%N) =? 45) || ((if mn then 45%N else 43%N) =? 43) = true)%N as -> by (destruct mn; reflexivity).
    destruct Z as [Z1 Z2]. rewrite <- (app_nil_r (hm_text zh zm)), R3 by lia.
    assert (is_valid_time zh zm 0 = true) as -> by (unfold is_valid_time; lia). cbn [negb].
    assert ((if ((if mn then 45 else 43) =? 45)%N then (zh * 60 + zm) * 60 * -1 else (zh * 60 + zm) * 60) = (if mn then -1 else 1) * (zh * 3600 + zm * 60)) as -> by (destruct mn; [change (45 =? 45)%N with true|change (43 =? 45)%N with false]; cbv iota; lia).
    apply finish_ok; assumption || lia.
Qed.

(** ** a strptime that reads such texts *)
Definition undig (c : N) : Z := Z.of_N c - 48.
Definition std : strptime := {|
  sp_date := fun s => match s with
    | a :: b :: c :: e :: x :: f :: g :: y :: h :: i :: r =>
        Some (undig a * 1000 + undig b * 100 + undig c * 10 + undig e - 1900, undig f * 10 + undig g - 1, undig h * 10 + undig i, r)
    | _ => None end;
  sp_time := fun s => match s with
    | a :: b :: x :: c :: e :: y :: f :: g :: r => Some (undig a * 10 + undig b, undig c * 10 + undig e, undig f * 10 + undig g, r)
    | _ => None end;
  sp_hm := fun s => match s with
    | a :: b :: x :: c :: e :: r => Some (undig a * 10 + undig b, undig c * 10 + undig e, r)
    | _ => None end |}.
Lemma undig_dig v : undig (dig v) = v mod 10.
Proof. unfold undig, dig. lia. Qed.
Lemma std_reads : reads std.
Proof.
  split; [|split]; intros; cbn [std sp_date sp_time sp_hm date_text time_text hm_text d2 d4 app]; rewrite !undig_dig; repeat f_equal; lia.
Qed.

Lemma date_accepted sp y m d h mi s z up : reads sp -> 1900 <= y <= 9999 -> 1 <= m <= 12 -> 1 <= d <= 31 -> 0 <= h <= 23 -> 0 <= mi <= 59 -> 0 <= s <= 59 -> zone_ok z ->
  fst (parse_time_gm sp (rfc3339 y m d h mi s z up)) <> ErrFormat <->
  (if (m =? 2) && (d =? 29) && ((y mod 400 =? 0) || (y mod 400 =? 300)) then ~ real_date y m d else real_date y m d).
Proof.
  intros. rewrite parse_text by assumption. rewrite <- valid_exact by lia. destruct (is_valid_date _ _ _); [|cbn; split; [congruence|discriminate]].
  destruct (_ <? 0); cbn; split; congruence.
Qed.

Lemma time_value sp y m d h mi s z up : reads sp -> 1900 <= y <= 9999 -> real_date y m d -> ~ (m = 2 /\ d = 29 /\ y mod 400 = 0) ->
  0 <= h <= 23 -> 0 <= mi <= 59 -> 0 <= s <= 59 -> zone_ok z ->
  parse_time_gm sp (rfc3339 y m d h mi s z up) =
    if epoch y m d h mi s - zone_secs z <? 0 then (ErrUnrepresentable, None) else (Success, Some (epoch y m d h mi s - zone_secs z)).
Proof.
  intros R Y RD NB H MI S Z. pose proof RD as [M D]. assert (d <= 31) as D31 by (unfold month_days in D; destruct (m =? 2), (leap y), ((m =? 4) || (m =? 6) || (m =? 9) || (m =? 11)); lia).
  rewrite parse_text by (try assumption; lia).
  assert (is_valid_date (y - 1900) (m - 1) d = true) as ->; [|reflexivity]. apply valid_exact; [lia|lia|lia|].
  destruct ((m =? 2) && (d =? 29) && ((y mod 400 =? 0) || (y mod 400 =? 300))) eqn:E; [|exact RD]. exfalso.
  assert (m = 2 /\ d = 29 /\ y mod 400 = 300) as (-> & -> & E3) by lia. unfold month_days in D. change (2 =? 2) with true in D. unfold leap in D. 
  assert ((y mod 4 =? 0) && (negb (y mod 100 =? 0) || (y mod 400 =? 0)) = false) as X by lia. rewrite X in D. lia.
Qed.

Lemma boolean_ok s b : parse_boolean s = (Success, Some b) <-> In (map toupper s) (map (map toupper) (if b then [s_yes; s_true; s_on] else [s_no; s_false; s_off])).
Proof.
  assert (forall x, strcaseeq s x = false <-> map toupper s <> map toupper x) as NF by (intros; rewrite <- strcase_spec; destruct (strcaseeq s x); split; congruence).
  unfold parse_boolean. destruct b; cbn [map In].
  - destruct (strcaseeq s s_yes || strcaseeq s s_true || strcaseeq s s_on) eqn:E.
    + rewrite !orb_true_iff, !strcase_spec in E. split; [intros _|reflexivity]. destruct E as [[->| ->]| ->]; auto.
    + rewrite !orb_false_iff, !NF in E. split; [destruct (_ || _); discriminate|]. intros [H|[H|[H|[]]]]; exfalso; destruct E as [[E1 E2] E3]; congruence.
  - destruct (strcaseeq s s_yes || strcaseeq s s_true || strcaseeq s s_on) eqn:E.
    + split; [discriminate|]. rewrite !orb_true_iff, !strcase_spec in E. intros [H|[H|[H|[]]]]; exfalso; rewrite <- H in E; destruct E as [[E|E]|E]; discriminate.
    + destruct (strcaseeq s s_no || strcaseeq s s_false || strcaseeq s s_off) eqn:E'.
      * rewrite !orb_true_iff, !strcase_spec in E'. split; [intros _|reflexivity]. destruct E' as [[->| ->]| ->]; auto.
      * rewrite !orb_false_iff, !NF in E'. split; [discriminate|]. intros [H|[H|[H|[]]]]; exfalso; destruct E' as [[E1 E2] E3]; congruence.
Qed.

Lemma parse_sound sp s v : parse_time_gm sp s = (Success, Some v) ->
  exists y m d h mi sc o r1 r2, sp_date sp s = Some (y - 1900, m - 1, d, r1) /\ 1900 <= y /\ 1 <= m <= 12 /\ 1 <= d <= 31 /\
    sp_time sp (tl r1) = Some (h, mi, sc, r2) /\ 0 <= h <= 23 /\ 0 <= mi <= 59 /\ 0 <= sc <= 59 /\ -86400 < o < 86400 /\
    0 <= v /\ v = epoch y m d h mi sc - o.
Proof.
  unfold parse_time_gm. destruct (sp_date sp s) as [[[[y m] d] r1]|] eqn:ED; [|discriminate]. destruct r1 as [|t r1]; [discriminate|].
  destruct (negb _); [discriminate|]. destruct (is_valid_date y m d) eqn:VD; [|discriminate]. cbn [negb].
  destruct (sp_time sp r1) as [[[[h mi] sc] r2]|] eqn:ET; [|discriminate]. destruct (is_valid_time h mi sc) eqn:VT; [|discriminate]. cbn [negb].
  assert (0 <= h <= 23 /\ 0 <= mi <= 59 /\ 0 <= sc <= 59) as (H1 & H2 & H3) by (unfold is_valid_time in VT; lia).
  assert (0 <= y /\ 0 <= m <= 11 /\ 1 <= d <= 31) as (Y & M & D).
  { unfold is_valid_date in VD. destruct (_ || _) eqn:E in VD; [discriminate|]. lia. }
  assert (forall o, -86400 < o < 86400 -> finish y m d h mi sc o = (Success, Some v) -> 0 <= v /\ v = epoch (y + 1900) (m + 1) d h mi sc - o) as F.
  { intros o O F. replace y with ((y + 1900) - 1900) in F by lia. replace m with ((m + 1) - 1) in F by lia. rewrite finish_ok in F by lia.
    destruct (Z.ltb_spec (epoch (y + 1900) (m + 1) d h mi sc - o) 0); [discriminate|]. injection F as <-. auto. }
  destruct r2 as [|tz r2]; [discriminate|].
  assert (forall o, -86400 < o < 86400 -> finish y m d h mi sc o = (Success, Some v) -> 
    exists y0 m0 d0 h0 mi0 sc0 o0 r r', Some (y, m, d, t :: r1) = Some (y0 - 1900, m0 - 1, d0, r) /\ 1900 <= y0 /\ 1 <= m0 <= 12 /\ 1 <= d0 <= 31 /\
    sp_time sp (tl r) = Some (h0, mi0, sc0, r') /\ 0 <= h0 <= 23 /\ 0 <= mi0 <= 59 /\ 0 <= sc0 <= 59 /\ -86400 < o0 < 86400 /\ 0 <= v /\ v = epoch y0 m0 d0 h0 mi0 sc0 - o0) as G.
  { intros o O X. apply F in X; [|exact O]. destruct X as [X1 X2]. exists (y + 1900), (m + 1), d, h, mi, sc, o, (t :: r1), (tz :: r2).
    replace (y + 1900 - 1900) with y by lia. replace (m + 1 - 1) with m by lia. cbn [tl]. repeat split; try lia; assumption. }
  destruct ((tz =? 45)%N || (tz =? 43)%N).
  - destruct (sp_hm sp r2) as [[[th tm] r3]|]; [|discriminate]. destruct (is_valid_time th tm 0) eqn:VZ; [|discriminate]. cbn [negb]. destruct r3; [|discriminate].
    assert (0 <= th <= 23 /\ 0 <= tm <= 59) as [T1 T2] by (unfold is_valid_time in VZ; lia).
    apply G. destruct (tz =? 45)%N; lia.
  - destruct ((tz =? 122)%N || (tz =? 90)%N); [|discriminate]. destruct r2; [|discriminate]. apply G. lia.
Qed.
