(** Every document of the grammar (without the features left out) is read as
    its value. *)
From Coq Require Import NArith ZArith List Bool Lia ZifyBool ZifyNat ZifyN.
From Verif Require Import Json.Model Json.Spec Json.Proofs Json.Proofs2.
Import ListNotations.
Local Open Scope N_scope.

Lemma dredo_S : forall n e t obj c,
  dredo (S n) e t obj c = match dswitch e t obj c with DR t' o => dredo n e t' o c | x => x end.
Proof. reflexivity. Qed.

Lemma delta_dn : forall e t obj c t', dswitch e t obj c = DN t' -> dredo 12 e t obj c = DN t'.
Proof. intros e t obj c t' H. rewrite dredo_S, H. reflexivity. Qed.

Lemma delta_dr : forall e t obj c t' o, Inv t -> dswitch e t obj c = DR t' o ->
  dredo 12 e t obj c = dredo 12 e t' o c.
Proof.
  intros e t obj c t' o I H. pose proof (dswitch_inv e t obj c I) as D. rewrite H in D.
  destruct D as [I' R]. rewrite (dredo_S 11 e t), H.
  apply dredo_more; [exact I'| |]; pose proof (rank_bound t); lia.
Qed.

Lemma dsteps_one : forall e t c t' r, delta e t c = DN t' -> c <> 0 ->
  dsteps e t (c :: r) = dsteps e t' r.
Proof. intros e t c t' r H N. cbn [dsteps]. rewrite H. apply N.eqb_neq in N. rewrite N. reflexivity. Qed.

Lemma dsteps_same : forall e t1 t2 c r, delta e t1 c = delta e t2 c ->
  dsteps e t1 (c :: r) = dsteps e t2 (c :: r).
Proof. intros e t1 t2 c r H. cbn [dsteps]. rewrite H. reflexivity. Qed.

Lemma blank_space : forall c, blank c -> isspace c = true /\ c <> 0.
Proof. intros c H. unfold blank in H. unfold isspace. lia. Qed.

Lemma ws_run : forall e w t, ws w -> state (top t) = S_eatws -> dsteps e t w = Some t.
Proof.
  intros e. induction w as [|c w IH]; intros t W H; [reflexivity|].
  pose proof (Forall_inv W) as B. destruct (blank_space c B) as [B1 B2].
  rewrite (dsteps_one e t c t); [apply IH; [exact (Forall_inv_tail W)|exact H]| |exact B2].
  apply delta_dn. unfold dswitch. rewrite H, B1. reflexivity.
Qed.

(** * Strings *)

Lemma hex_none : forall c v, hex none c v -> c <> 0 /\ hex_or_nul c = true /\ hexdigit c = v /\ v < 16.
Proof.
  intros c v H. destruct H as [v H|v H|v H []].
  - assert (E : v = 0 \/ v = 1 \/ v = 2 \/ v = 3 \/ v = 4 \/ v = 5 \/ v = 6 \/ v = 7 \/ v = 8 \/ v = 9) by lia.
    decompose [or] E; subst v; (split; [discriminate|split; [reflexivity|split; [reflexivity|lia]]]).
  - assert (E : v = 10 \/ v = 11 \/ v = 12 \/ v = 13 \/ v = 14 \/ v = 15) by lia.
    decompose [or] E; subst v; (split; [discriminate|split; [reflexivity|split; [reflexivity|lia]]]).
Qed.

Lemma lor_small : forall k x a,
  (forallb (fun i => N.lor a (N.of_nat i) =? a + N.of_nat i) (seq 0 k)) = true ->
  x < N.of_nat k -> N.lor a x = a + x.
Proof.
  intros k x a H L. rewrite forallb_forall in H. specialize (H (N.to_nat x)).
  rewrite N2Nat.id in H. apply N.eqb_eq, H, in_seq. lia.
Qed.

Lemma utf_eq : forall u, u < 65536 -> utf_out u = utf8 u.
Proof.
  intros u H. unfold utf_out, utf8.
  destruct (u <? 128); [reflexivity|].
  assert (L63 : forall x, N.land x 63 = x mod 64).
  { intros x. change 63 with (N.ones 6). rewrite N.land_ones. reflexivity. }
  rewrite !N.shiftr_div_pow2. change (2 ^ 6) with 64. change (2 ^ 12) with 4096.
  rewrite !L63.
  assert (M : forall x, N.lor 128 (x mod 64) = 128 + x mod 64).
  { intros x. apply (lor_small 64); [vm_compute; reflexivity|]. apply N.mod_lt. discriminate. }
  rewrite !M.
  destruct (u <? 2048) eqn:E.
  - assert (u / 64 < 32) by (apply N.div_lt_upper_bound; lia).
    rewrite (lor_small 32) by (try assumption; vm_compute; reflexivity).
    rewrite N.mod_small by lia. reflexivity.
  - assert (u / 4096 < 16) by (apply N.div_lt_upper_bound; lia).
    rewrite (lor_small 16) by (try assumption; vm_compute; reflexivity).
    rewrite N.mod_small by lia.
    apply N.ltb_lt in H. rewrite H. reflexivity.
Qed.

Lemma utf8_nonzero : forall u, u <> 0 -> Forall (fun c => c <> 0) (utf8 u).
Proof.
  intros u H. unfold utf8. repeat match goal with |- context [if ?x then _ else _] => destruct x end;
    repeat constructor; lia.
Qed.

Definition in_string (t : tok) : Prop :=
  (state (top t) = S_string \/ state (top t) = S_object_field) /\ quote_char t = 34.

(** the same level, but for pb and the scratch fields *)
Definition str_next (t t' : tok) (d : bytes) : Prop :=
  pb t' = pb t ++ d /\ state (top t') = state (top t) /\ current (top t') = current (top t)
  /\ field_name (top t') = field_name (top t) /\ below t' = below t /\ quote_char t' = quote_char t.

Lemma str_next_trans : forall a b c d1 d2,
  str_next a b d1 -> str_next b c d2 -> str_next a c (d1 ++ d2).
Proof.
  unfold str_next. intros a b c d1 d2 (A1 & A2 & A3 & A4 & A5 & A6) (B1 & B2 & B3 & B4 & B5 & B6).
  rewrite B1, A1, B2, B3, B4, B5, B6, app_assoc. tauto.
Qed.

Lemma in_string_next : forall t t' d, in_string t -> str_next t t' d -> in_string t'.
Proof.
  unfold in_string, str_next. intros t t' d [A B] (_ & C & _ & _ & _ & D). rewrite C, D. auto.
Qed.

Lemma plain_step : forall e t c, in_string t -> c <> 0 -> c <> 34 -> c <> 92 ->
  exists t', dsteps e t [c] = Some t' /\ str_next t t' [c].
Proof.
  intros e t c [St Q] N0 N1 N2.
  destruct t as [f fs p db sp uc q er sta]. destruct f as [s sv cu fn]. cbn in St, Q. subst q.
  apply N.eqb_neq in N1, N2.
  eexists. split.
  - erewrite dsteps_one; [reflexivity| |exact N0].
    apply delta_dn. unfold dswitch. cbn [top state quote_char].
    destruct St as [-> | ->]; rewrite N1, N2; reflexivity.
  - unfold str_next. cbn. repeat split.
Qed.

Lemma escape_step : forall e t, in_string t ->
  exists t', dsteps e t [92] = Some t' /\ state (top t') = S_string_escape /\
    saved (top t') = state (top t) /\ pb t' = pb t /\ current (top t') = current (top t)
    /\ field_name (top t') = field_name (top t) /\ below t' = below t /\ quote_char t' = quote_char t.
Proof.
  intros e t [St Q].
  destruct t as [f fs p db sp uc q er sta]. destruct f as [s sv cu fn]. cbn in St, Q. subst q.
  destruct St as [-> | ->]; (eexists; split;
    [erewrite dsteps_one; [reflexivity|apply delta_dn; reflexivity|discriminate]
    |cbn; rewrite app_nil_r; repeat split]).
Qed.

Lemma short_step : forall e t x y, in_string t ->
  In (x, y) [(34, 34); (92, 92); (47, 47); (98, 8); (110, 10); (114, 13); (116, 9)] ->
  exists t', dsteps e t [92; x] = Some t' /\ str_next t t' [y].
Proof.
  intros e t x y H Hin.
  destruct (escape_step e t H) as (t1 & D & S1 & S2 & S3 & S4 & S5 & S6 & S7).
  change [92; x] with ([92] ++ [x]). rewrite dsteps_app, D.
  destruct t1 as [f fs p db sp uc q er sta]. destruct f as [s sv cu fn]. cbn in S1, S2, S3, S4, S5, S6, S7.
  subst.
  cbn [In] in Hin. decompose [or] Hin; clear Hin;
    match goal with
    | A : (_, _) = (_, _) |- _ => injection A as <- <-
    | A : False |- _ => destruct A
    end;
    (eexists; split; [erewrite dsteps_one; [reflexivity|apply delta_dn; reflexivity|discriminate]
                     |unfold str_next; cbn; repeat split; auto]).
Qed.

Lemma uni_step : forall e t c v, state (top t) = S_escape_unicode -> hex none c v -> (st_pos t < 3)%nat ->
  ucs_char t < 65536 ->
  exists t', dsteps e t [c] = Some t' /\ top t' = top t /\ below t' = below t /\ pb t' = pb t
    /\ quote_char t' = quote_char t /\ st_pos t' = S (st_pos t)
    /\ ucs_char t' = (ucs_char t + v * 2 ^ N.of_nat ((3 - st_pos t) * 4)) mod 4294967296.
Proof.
  intros e t c v St H L U. destruct (hex_none c v H) as (N0 & H1 & H2 & H3).
  eexists. split.
  - erewrite dsteps_one; [reflexivity| |exact N0].
    apply delta_dn. unfold dswitch. rewrite St, H1, H2.
    destruct (Nat.eqb (st_pos (set_pos (set_ucs t _) (S (st_pos t)))) 4) eqn:E.
    + cbn [st_pos set_pos] in E. apply Nat.eqb_eq in E. lia.
    + reflexivity.
  - cbn [top below pb quote_char st_pos ucs_char set_pos set_ucs].
    rewrite N.shiftl_mul_pow2. repeat split.
Qed.

Lemma hex_step : forall e t h1 h2 h3 h4 u, in_string t -> hex4 none h1 h2 h3 h4 u -> 
  exists t', dsteps e t [92; 117; h1; h2; h3; h4] = Some t' /\ str_next t t' (utf8 u) /\ u < 65536.
Proof.
  intros e t h1 h2 h3 h4 u H (x & y & z & w & X & Y & Z & W & ->).
  destruct (hex_none _ _ X) as (_ & _ & _ & LX). destruct (hex_none _ _ Y) as (_ & _ & _ & LY).
  destruct (hex_none _ _ Z) as (_ & _ & _ & LZ). destruct (hex_none _ _ W) as (NW & W1 & W2 & LW).
  destruct (escape_step e t H) as (t1 & D & S1 & S2 & S3 & S4 & S5 & S6 & S7).
  change [92; 117; h1; h2; h3; h4] with ([92] ++ [117] ++ [h1] ++ [h2] ++ [h3] ++ [h4]).
  rewrite dsteps_app, D. rewrite dsteps_app.
  destruct t1 as [f fs p db sp uc q er sta]. destruct f as [s sv cu fn]. cbn in S1, S2, S3, S4, S5, S6, S7.
  subst s sv p cu fn fs q.
  erewrite dsteps_one; [|apply delta_dn; reflexivity|discriminate]. cbn [dsteps].
  cbn [set_state set_pos set_ucs set_top top below pb is_double st_pos ucs_char quote_char err started state saved current field_name].
  match goal with |- context [dsteps e ?T ([h1] ++ _)] => set (t2 := T) end.
  destruct (uni_step e t2 h1 x eq_refl X) as (t3 & E3 & A1 & A2 & A3 & A4 & A5 & A6); [cbn; lia|cbn; lia|].
  rewrite dsteps_app, E3.
  assert (U3 : ucs_char t3 = x * 4096).
  { rewrite A6. change (st_pos t2) with 0%nat. change (ucs_char t2) with 0.
    change (2 ^ N.of_nat ((3 - 0) * 4)) with 4096. rewrite N.mod_small; lia. }
  destruct (uni_step e t3 h2 y) as (t4 & E4 & B1 & B2 & B3 & B4 & B5 & B6);
    [rewrite A1; reflexivity|exact Y|rewrite A5; cbn; lia|rewrite U3; lia|].
  rewrite dsteps_app, E4.
  assert (U4 : ucs_char t4 = x * 4096 + y * 256).
  { rewrite B6, U3, A5. change (st_pos t2) with 0%nat.
    change (2 ^ N.of_nat ((3 - 1) * 4)) with 256. rewrite N.mod_small; lia. }
  destruct (uni_step e t4 h3 z) as (t5 & E5 & C1 & C2 & C3 & C4 & C5 & C6);
    [rewrite B1, A1; reflexivity|exact Z|rewrite B5, A5; cbn; lia|rewrite U4; lia|].
  rewrite dsteps_app, E5.
  assert (U5 : ucs_char t5 = x * 4096 + y * 256 + z * 16).
  { rewrite C6, U4, B5, A5. change (st_pos t2) with 0%nat.
    change (2 ^ N.of_nat ((3 - 2) * 4)) with 16. rewrite N.mod_small; lia. }
  assert (P5 : st_pos t5 = 3%nat) by (rewrite C5, B5, A5; reflexivity).
  assert (T5 : top t5 = top t2) by congruence.
  assert (L : x * 4096 + y * 256 + z * 16 + w < 65536) by lia.
  rewrite <- (utf_eq _ L).
  assert (Pb5 : pb t5 = pb t) by (rewrite C3, B3, A3; reflexivity).
  assert (Q5 : quote_char t5 = quote_char t) by (rewrite C4, B4, A4; reflexivity).
  assert (Be5 : below t5 = below t) by (rewrite C2, B2, A2; reflexivity).
  eexists. split; [|split; [|exact L]].
  - erewrite dsteps_one; [reflexivity| |exact NW].
    apply delta_dn. unfold dswitch. rewrite T5.
    change (state (top t2)) with S_escape_unicode. cbn match. rewrite W1, W2, P5.
    cbn [st_pos set_pos Nat.eqb]. reflexivity.
  - rewrite N.shiftl_mul_pow2. change (2 ^ N.of_nat ((3 - 3) * 4)) with 1.
    rewrite U5, N.mod_small by lia.
    replace (x * 4096 + y * 256 + z * 16 + w * 1) with (x * 4096 + y * 256 + z * 16 + w) by lia.
    unfold str_next, append, set_pb, set_pos, set_ucs, set_state, set_top.
    cbn [top below pb ucs_char quote_char st_pos state saved current field_name]. rewrite T5, Pb5, Q5, Be5.
    repeat split; reflexivity.
Qed.

Lemma chars_run : forall e s d, chars none s d -> forall t, in_string t ->
  exists t', dsteps e t s = Some t' /\ str_next t t' d /\ Forall (fun c => c <> 0) d.
Proof.
  intros e s d H. induction H as [|c s d R N1 N2 H IH|x y s d Hin H IH|s d []
    |h1 h2 h3 h4 u s d Hx Hr Hz H IH|h1 h2 h3 h4 hi l1 l2 l3 l4 lo s d []]; intros t Ht.
  - exists t. split; [reflexivity|]. split; [|constructor]. unfold str_next. rewrite app_nil_r. tauto.
  - destruct (plain_step e t c Ht) as (t1 & D & S1); [lia|exact N1|exact N2|].
    destruct (IH t1 (in_string_next _ _ _ Ht S1)) as (t2 & D2 & S2 & F).
    exists t2. change (c :: s) with ([c] ++ s). rewrite dsteps_app, D.
    split; [exact D2|]. split; [exact (str_next_trans _ _ _ _ _ S1 S2)|]. constructor; [lia|exact F].
  - destruct (short_step e t x y Ht Hin) as (t1 & D & S1).
    destruct (IH t1 (in_string_next _ _ _ Ht S1)) as (t2 & D2 & S2 & F).
    exists t2. change (92 :: x :: s) with ([92; x] ++ s). rewrite dsteps_app, D.
    split; [exact D2|]. split; [exact (str_next_trans _ _ _ _ _ S1 S2)|].
    constructor; [|exact F].
    cbn [In] in Hin. decompose [or] Hin; try (match goal with A : (_, _) = (_, _) |- _ => injection A as <- <- end; discriminate); contradiction.
  - destruct (hex_step e t h1 h2 h3 h4 u Ht Hx) as (t1 & D & S1 & L).
    destruct (IH t1 (in_string_next _ _ _ Ht S1)) as (t2 & D2 & S2 & F).
    exists t2. change (92 :: 117 :: h1 :: h2 :: h3 :: h4 :: s) with ([92; 117; h1; h2; h3; h4] ++ s).
    rewrite dsteps_app, D.
    split; [exact D2|]. split; [exact (str_next_trans _ _ _ _ _ S1 S2)|].
    apply Forall_app. split; [|exact F]. apply utf8_nonzero. exact Hz.
Qed.

Lemma cstr_id : forall d, Forall (fun c => c <> 0) d -> cstr d = d.
Proof.
  intros d H. induction H as [|c d N H IH]; [reflexivity|].
  cbn [cstr]. apply N.eqb_neq in N. rewrite N, IH. reflexivity.
Qed.
