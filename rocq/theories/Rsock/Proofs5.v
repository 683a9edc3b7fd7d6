From Coq Require Import List NArith Arith Bool Lia ZifyBool ZifyNat ZifyN.
From Verif Require Import Rsock.Model Rsock.Spec Rsock.Proofs Rsock.Proofs2
     Rsock.Proofs3 Rsock.Proofs4.
Import ListNotations.
Local Open Scope N_scope.

(** * What holds of every history *)

Lemma good_rx : forall s, Good s ->
  (exists r, rxs (log s) = encs (frames (log s)) ++ r /\ stuck r) /\
  Forall valid (frames (log s)).
Proof.
  intros s [G|G].
  - pose proof (C_stuck _ _ _ _ _ _ (iC _ G)). destruct (iC _ G) as (C1 & C2 & _).
    eauto.
  - split; [apply (dC _ G)|apply (dF _ G)].
Qed.

Lemma good_tx : forall s, Good s ->
  begins (txs (log s)) (encs (owed (log s))) /\ Forall valid (owed (log s)).
Proof.
  intros s [G|G].
  - destruct (iB _ G) as (B1 & _ & B3). split; auto. now exists (pend (outq s) (hw s)).
  - split; [destruct (dB _ G) as [r B]; now exists r|apply (dV _ G)].
Qed.

Lemma good_lawful : forall s, Good s -> lawful (log s).
Proof. intros s [G|G]; [apply (iL _ G)|apply (dL _ G)]. Qed.

Lemma rx_exact : forall s fs part, Good s -> Forall valid fs -> stuck part ->
  rxs (log s) = encs fs ++ part -> frames (log s) = fs.
Proof.
  intros s fs part G V St E. destruct (good_rx s G) as [(r & R1 & R2) R3].
  rewrite R1 in E. destruct (parse_unique _ _ _ _ R3 V R2 St E). auto.
Qed.

Lemma alive_no_failure : forall s, Inv s -> ~ failure (log s).
Proof.
  intros s G [X|(h & X & B)]; [now apply (iH _ G)|].
  destruct (iC _ G) as (C1 & C2 & C3 & C4).
  rewrite X in C1. apply app_inv_head in C1. subst h.
  destruct C4 as [[C4 C5]|(C4 & C5 & C6 & C7 & C8 & C9 & C10)].
  - rewrite C5, app_nil_r in B. destruct B as (a&b&c&d&e&f&B&_).
    rewrite B in C4. cbn in C4. lia.
  - assert (ibuf s = []).
    { destruct B as (a&b&c&d&e&f&B&_). apply (f_equal (@length N)) in B.
      rewrite app_length, C4 in B. cbn [length] in B. destruct (ibuf s); auto.
      cbn [length] in B. lia. }
    rewrite H, app_nil_r in B.
    pose (d := repeat 0 (N.to_nat (ilen s))).
    assert (Ld : N.of_nat (length d) = ilen s) by (unfold d; rewrite repeat_length; lia).
    apply (stuck_bad _ d B (Fr (icmd s) (ich s) d) []).
    + split; cbn [fch fdat]; lia.
    + rewrite app_nil_r. symmetry. auto.
Qed.

Lemma good_dead : forall s, Good s -> (dead s = true <-> failure (log s)).
Proof.
  intros s [G|G].
  - rewrite (iD _ G). split; [discriminate|]. intro X. now apply alive_no_failure in X.
  - split; intro; [apply (dX _ G)|apply (dD _ G)].
Qed.

Lemma bad_header_dead : forall s fs h rest, Good s -> Forall valid fs ->
  bad_header h -> rxs (log s) = encs fs ++ h ++ rest ->
  dead s = true /\ frames (log s) = fs.
Proof.
  intros s fs h rest G V B E.
  pose proof (stuck_bad h rest B) as St.
  assert (F : frames (log s) = fs) by (eapply rx_exact; eauto).
  split; auto.
  destruct G as [G|G]; [exfalso|apply (dD _ G)].
  destruct (iC _ G) as (C1 & C2 & C3 & C4).
  rewrite E, F in C1. apply app_inv_head in C1.
  destruct C4 as [[C4 C5]|(C4 & C5 & C6 & C7 & C8 & C9 & C10)].
  - rewrite C5, app_nil_r in C1. destruct B as (a&b&c&d&e&f&B&_).
    apply (f_equal (@length N)) in C1. rewrite B, app_length in C1. cbn [length] in C1. lia.
  - assert (h = hdr s).
    { destruct B as (a&b&c&d&e&f&B&_). rewrite B in *.
      destruct (hdr s) as [|a1 [|b1 [|c1 [|d1 [|e1 [|f1 [|z r]]]]]]]; try discriminate C4.
      cbn in C1. congruence. }
    subst h.
    pose (d := repeat 0 (N.to_nat (ilen s))).
    assert (Ld : N.of_nat (length d) = ilen s) by (unfold d; rewrite repeat_length; lia).
    apply (stuck_bad _ d B (Fr (icmd s) (ich s) d) []).
    + split; cbn [fch fdat]; lia.
    + rewrite app_nil_r. symmetry. auto.
Qed.

Lemma dead_step : forall s o, DInv s -> step s o = s.
Proof.
  intros s o G. destruct o as [rs ws|c ws rs|ok]; cbn [step].
  - unfold main. now rewrite (dD _ G).
  - unfold chanh. now rewrite (dW _ G).
  - unfold connect. now rewrite (dD _ G).
Qed.

Lemma dead_run : forall os s, DInv s -> run os s = s.
Proof.
  induction os as [|o os IH]; intros s G; auto.
  cbn [run]. rewrite dead_step by auto. auto.
Qed.

Lemma good_dead_D : forall s, Good s -> dead s = true -> DInv s.
Proof. intros s [G|G] D; auto. rewrite (iD _ G) in D. discriminate. Qed.

Lemma run_app : forall a b s, run (a ++ b) s = run b (run a s).
Proof. induction a as [|o a IH]; intros b s; cbn; auto. Qed.

(** * What a local connection was given *)

Lemma lawful_given : forall l n, lawful l ->
  exists ds rest, came l n = ds ++ rest /\ Forall data ds /\
                  begins (given l n) (bytes ds).
Proof.
  induction l as [|e t IH]; intros n H.
  - exists [], []. split; auto. split; auto. now exists [].
  - destruct H as (F & _ & H). destruct (IH n H) as (ds & rest & D1 & D2 & D3).
    destruct e; cbn [came given]; try (now exists ds, rest).
    + exists ds, (rest ++ match owner t (fch f) with
        | Some m => if m =? n then [f] else [] | None => [] end).
      rewrite D1, app_assoc. auto.
    + destruct (n0 =? n) eqn:E.
      * apply N.eqb_eq in E. subst n0. destruct F as (_ & _ & F). exact F.
      * rewrite app_nil_r. now exists ds, rest.
Qed.

Lemma lawful_split : forall l1 e l2, lawful (l1 ++ e :: l2) ->
  fits e l2 /\ lawful l2.
Proof.
  induction l1 as [|a l1 IH]; intros e l2 H.
  - destruct H as (F & _ & H). auto.
  - destruct H as (_ & _ & H). auto.
Qed.

Lemma lawful_due : forall l1 e l2, lawful (l1 ++ e :: l2) -> idle (l1 ++ e :: l2) ->
  match e with
  | EFrame f true => is_cmd f s_connect -> owner l2 (fch f) = None ->
      exists l1' n, l1 = l1' ++ [EAcc n (fch f)]
  | _ => True
  end.
Proof.
  intros l1 e l2 H I. destruct e; auto. destruct ok; auto. intros C O.
  destruct l1 as [|a l1] using rev_ind.
  - cbn [app] in I. destruct (I EHup C O) as [n X]. discriminate.
  - clear IHl1. rewrite <- app_assoc in H. cbn [app] in H.
    clear I. induction l1 as [|b l1 IH].
    + destruct H as (_ & D & _). destruct (D C O) as [n ->]. now exists [], n.
    + destruct H as (_ & _ & H). destruct (IH H) as (l' & n & E).
      apply app_inj_tail in E. destruct E as [_ ->]. now exists (b :: l1), n.
Qed.

Lemma good_idle : forall s, Good s -> idle (log s).
Proof. intros s [G|G]; [apply (iI _ G)|apply (dI _ G)]. Qed.
