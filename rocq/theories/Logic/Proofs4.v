From Coq Require Import Arith NArith ZArith List Bool Lia ZifyBool ZifyNat ZifyN.
From Verif Require Import Logic.Model Logic.Spec Logic.Proofs.
Import ListNotations.
Local Open Scope N_scope.

Section V.
Variable D : Type.
Variable strtod : bytes -> D * bytes.
Variable of_int : Z -> D.
Variable dcmp : D -> D -> option comparison.
Variable fmtg : D -> bytes.
Variable re_match : bytes -> bytes -> bool.
Notation holds := (holds D strtod of_int dcmp fmtg re_match).
Notation number := (number D strtod).
Notation ncompare := (ncompare D of_int dcmp).
Notation rnumber := (rnumber D strtod).

Definition present (a : answer D) : Prop := a <> Missing /\ a <> NoString.
(** one predicate is decided and is the negation of another *)
Definition negates (p q : pop) (a : answer D) (r : right) : Prop := exists b, holds p a r = Some b /\ holds q a r = Some (negb b).

Lemma negates_string a r : present a -> rty r = RString -> negates EQ NE a r /\ negates LT GE a r /\ negates GT LE a r /\ negates RE NRE a r.
Proof.
  intros [P1 P2] R. unfold negates, Spec.holds.
  destruct a; try congruence; rewrite R; (split; [|split; [|split]]); eexists; (split; [reflexivity|]); try reflexivity;
    match goal with |- context [shortlex ?x ?y] => destruct (shortlex x y) end; reflexivity.
Qed.
Lemma negates_missing a r : ~ present a -> holds NE a r = Some true /\ holds NRE a r = Some true /\
  forall op, In op [EQ; LT; LE; GT; GE; RE] -> holds op a r = Some false.
Proof.
  intro P. assert (A : a = Missing \/ a = NoString) by (destruct a; auto; exfalso; apply P; split; discriminate).
  destruct A as [-> | ->]; (split; [reflexivity|]); (split; [reflexivity|]); intros op I; cbn [In] in I; intuition (subst; reflexivity).
Qed.
Lemma negates_number a r : present a -> rty r <> RString ->
  ((negates EQ NE a r /\ negates LT GE a r /\ negates GT LE a r) <-> exists n c, number a = Some n /\ ncompare n (rnumber r) = Some c).
Proof.
  intros [P1 P2] R. unfold negates, Spec.holds.
  assert (RT : forall (x y : option bool), match rty r with RString => x | _ => y end = y) by (intros; destruct (rty r); congruence).
  split.
  - intros (H1 & H2 & H3). destruct (number a) as [n|] eqn:N.
    + exists n. destruct (ncompare n (rnumber r)) as [c|] eqn:C; [exists c; split; reflexivity|]. exfalso.
      destruct H2 as (b & B1 & B2). destruct a; try congruence; rewrite !RT in B1, B2; cbn [is_re] in *; cbn [decide] in *; injection B1 as <-; discriminate.
    + exfalso. destruct H1 as (b & B1 & B2). destruct a; try congruence; rewrite !RT in B1, B2; injection B1 as <-; discriminate.
  - intros (n & c & N & C).
    destruct a; try congruence; rewrite !RT, N; cbn [is_re]; rewrite C; (split; [|split]); eexists; (split; [reflexivity|]); destruct c; reflexivity.
Qed.
Lemma not_a_number a r : present a -> rty r <> RString -> number a = None -> forall op, op <> EXISTS -> holds op a r = Some false.
Proof.
  intros [P1 P2] R N op O. unfold Spec.holds. destruct a; try congruence; rewrite N; destruct op; try congruence; destruct (rty r); congruence.
Qed.
Lemma regex_number a r n : present a -> rty r <> RString -> number a = Some n -> holds RE a r = None /\ holds NRE a r = None.
Proof.
  intros [P1 P2] R N. unfold Spec.holds. destruct a; try congruence; rewrite N; destruct (rty r); try congruence; split; reflexivity.
Qed.
Lemma show_int_nonul z : nonul (show_int z).
Proof.
  assert (G : forall f n acc, ~ In 0 acc -> ~ In 0 (dec f n acc)).
  { induction f as [|f IH]; intros n acc H; [exact H|]. cbn [dec]. assert (H' : ~ In 0 (48 + n mod 10 :: acc)) by (intros [X|X]; [lia|auto]).
    destruct (n / 10 =? 0); [exact H'|apply IH, H']. }
  unfold nonul, show_int. rewrite in_app_iff. intros [H|H]; [destruct (z <? 0)%Z; [destruct H as [H|[]]; discriminate|destruct H]|]. eapply G; [|exact H]. intros [].
Qed.
Lemma decimal_same op z r : (- 2 ^ 63 <= z < 2 ^ 63)%Z -> holds op (Int z) r = holds op (Str (show_int z)) r.
Proof.
  intro H. unfold Spec.holds.
  assert (E : number (Str (show_int z)) = number (Int z)) by (cbn [Spec.number]; rewrite cstr_nonul by apply show_int_nonul; rewrite show_int_strtoll by exact H; reflexivity).
  rewrite E. reflexivity.
Qed.
End V.
