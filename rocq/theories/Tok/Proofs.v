From Coq Require Import Arith NArith ZArith List Bool Lia.
From Verif.Tok Require Import Model Spec.
Import ListNotations.
Local Open Scope N_scope.

(** ** Positions *)
Definition at_ (s : list N) (i : nat) (q : list N) : Prop := skipn i s = q /\ (i <= length s)%nat.

Lemma at_rd s i c q : at_ s i (c :: q) -> rd s i = Some c.
Proof.
  intros [E L]. unfold rd. revert s E L. induction i as [|i IH]; intros [|a s] E L; cbn in *; try discriminate.
  - congruence.
  - apply IH; auto. lia.
Qed.

Lemma at_end s i : at_ s i [] -> rd s i = Some 0 /\ i = length s.
Proof.
  intros [E L]. unfold rd. revert s E L. induction i as [|i IH]; intros [|a s] E L; cbn in *; try discriminate; try lia; auto.
  destruct (IH s E) as [A B]; [lia|]. auto.
Qed.

Lemma at_next s i c q : at_ s i (c :: q) -> at_ s (S i) q.
Proof.
  intros [E L]. unfold at_. revert s E L. induction i as [|i IH]; intros [|a s] E L; cbn [skipn length] in *; try discriminate.
  - injection E as -> ->. split; [reflexivity|lia].
  - destruct (IH s E) as [A B]; [lia|]. cbn [skipn] in A. split; [exact A|lia].
Qed.

Lemma at_app s e : forall i l, at_ s i (e ++ l) -> at_ s (i + length e) l.
Proof.
  induction e as [|c e IH]; intros i l H.
  - now rewrite Nat.add_0_r.
  - cbn [app length] in *. replace (i + S (length e))%nat with (S i + length e)%nat by lia.
    apply IH. eapply at_next; eauto.
Qed.

Lemma at_len s i q : at_ s i q -> (i + length q = length s)%nat.
Proof. intros [<- L]. rewrite skipn_length. lia. Qed.

Lemma at_copy s i e l n : at_ s i (e ++ l) -> n = (i + length e)%nat -> copy s i n = e.
Proof.
  intros [E L] ->. unfold copy. rewrite E. replace (i + length e - i)%nat with (length e) by lia.
  rewrite firstn_app, Nat.sub_diag, firstn_all. cbn [firstn]. apply app_nil_r.
Qed.

Lemma at_start s : at_ s 0 s.
Proof. split; [reflexivity|lia]. Qed.

(** ** Characters *)
Lemma white_is_ws c : white c <-> is_ws c = true.
Proof.
  unfold white, is_ws. cbn [In]. rewrite !orb_true_iff, !N.eqb_eq. intuition.
Qed.

Lemma not_white c : ~ white c -> is_ws c = false.
Proof. rewrite white_is_ws. destruct (is_ws c); congruence. Qed.

Lemma white_cases c : white c -> c = 9 \/ c = 10 \/ c = 13 \/ c = 32.
Proof. unfold white. cbn [In]. intuition. Qed.

Lemma unescape_known c v : In (c, v) escapes -> unescape_char c = [v].
Proof.
  unfold escapes. cbn [In]. intros H.
  repeat (destruct H as [H|H]; [injection H as <- <-; reflexivity|]). contradiction.
Qed.

Lemma unescape_unknown c : (forall v, ~ In (c, v) escapes) -> unescape_char c = [92; c].
Proof.
  intros H. unfold unescape_char.
  repeat match goal with
  | |- context[c =? ?k] => destruct (N.eqb_spec c k) as [->|]; [exfalso; eapply H; unfold escapes; cbn; tauto|]
  end.
  reflexivity.
Qed.

Lemma known_dec c : (exists v, In (c, v) escapes) \/ forall v, ~ In (c, v) escapes.
Proof.
  destruct (in_dec N.eq_dec c (map fst escapes)) as [H|H].
  - left. apply in_map_iff in H. destruct H as ((a & v) & <- & H). eauto.
  - right. intros v Hv. apply H. apply in_map_iff. exists (c, v). auto.
Qed.

Lemma known_nonzero c v : In (c, v) escapes -> c <> 0.
Proof.
  unfold escapes. cbn [In]. intros H.
  repeat (destruct H as [H|H]; [injection H as <- <-; discriminate|]). contradiction.
Qed.

(** ** Unescaping *)
Lemma unescape_plain o c e : (c =? 92) = false -> c_unescape o (c :: e) = c :: c_unescape o e.
Proof. intros H. cbn [c_unescape]. destruct e; [reflexivity|]. now rewrite H. Qed.

Lemma unescape_dq e w : dq_body e w -> c_unescape None e = w.
Proof.
  induction 1 as [|c e w A B C D IH|c v e w A D IH|c e w A B D IH].
  - reflexivity.
  - rewrite unescape_plain by (now apply N.eqb_neq). now rewrite IH.
  - cbn [c_unescape]. cbn [N.eqb Pos.eqb andb]. rewrite (unescape_known _ _ A), IH. reflexivity.
  - cbn [c_unescape]. cbn [N.eqb Pos.eqb andb]. rewrite (unescape_unknown _ B), IH. reflexivity.
Qed.

Lemma unescape_other c e : (match e with d :: _ => d <> 32 | [] => True end) ->
  c_unescape (Some 32) (c :: e) = c :: c_unescape (Some 32) e.
Proof.
  intros H. cbn [c_unescape]. destruct e as [|d e]; [reflexivity|].
  rewrite (proj2 (N.eqb_neq d 32) H), andb_false_r. reflexivity.
Qed.

Lemma bare_head e w : bare_tail e w -> match e with d :: _ => d <> 32 | [] => True end.
Proof.
  destruct 1 as [|c e w A B C D|e w D| |c e w A D]; auto; try discriminate.
  intros ->. apply A. unfold white. cbn. tauto.
Qed.

Lemma unescape_bare e w : bare_tail e w -> c_unescape (Some 32) e = w.
Proof.
  induction 1 as [|c e w A B C D IH|e w D IH| |c e w A D IH].
  - reflexivity.
  - rewrite unescape_other by (eapply bare_head; eauto). now rewrite IH.
  - cbn [c_unescape]. cbn [N.eqb Pos.eqb andb]. rewrite IH. reflexivity.
  - reflexivity.
  - rewrite unescape_other by auto. now rewrite IH.
Qed.

Lemma app_snoc' {A} (l : list A) x r : (l ++ [x]) ++ r = l ++ x :: r.
Proof. rewrite <- app_assoc. reflexivity. Qed.

(** ** Loops *)
Fixpoint run_ws (l : list N) : nat := match l with c :: r => if is_ws c then S (run_ws r) else 0%nat | [] => 0%nat end.

Lemma scan_ws_ok s l : forall i f, at_ s i l -> (length l < f)%nat ->
  scan_ws f s i = Some (Some (i + run_ws l)%nat).
Proof.
  induction l as [|c l IH]; intros i f H F; (destruct f as [|f]; [lia|]); cbn [scan_ws run_ws].
  - destruct (at_end _ _ H) as [-> _]. cbn. do 2 f_equal. lia.
  - rewrite (at_rd _ _ _ _ H). destruct (is_ws c).
    + rewrite IH; [do 2 f_equal; lia|eapply at_next; eauto|cbn [length] in F; lia].
    + do 2 f_equal. lia.
Qed.

Definition stops (e l : list N) : Prop :=
  l = [] \/ exists c l', l = c :: l' /\ white c /\ (c = 32 -> last e 0 <> 92).

Lemma stops_cons c d e l : stops (c :: d :: e) l -> stops (d :: e) l.
Proof. intros [H|(x & l' & E & W & K)] ; [now left|]. right. exists x, l'. auto. Qed.

Lemma stops_nil e l : stops e l -> stops [] l.
Proof.
  intros [H|(x & l' & E & W & K)] ; [now left|]. right. exists x, l'. split; [auto|]. split; [auto|].
  intros _. discriminate.
Qed.

Lemma stops_tail c e l : stops (c :: e) l -> stops e l.
Proof.
  destruct e as [|d e]; [|apply stops_cons]. intros H. eapply stops_nil; eauto.
Qed.

Lemma scan_ident_ok s e w : bare_tail e w -> forall l i f esc, at_ s i (e ++ l) -> stops e l ->
  (esc = true -> match e ++ l with d :: _ => d <> 32 | [] => True end) -> (length (e ++ l) < f)%nat ->
  scan_ident f s esc i = Some (Some (i + length e)%nat).
Proof.
  induction 1 as [|c e w A B C D IH|e w D IH| |c e w A D IH]; intros l i f esc H St Es F;
    (destruct f as [|f]; [lia|]); cbn [scan_ident app length] in *.
  - destruct St as [-> |(c & l' & -> & W & K)] .
    + destruct (at_end _ _ H) as [-> _]. cbn. do 2 f_equal. lia.
    + rewrite (at_rd _ _ _ _ H). destruct esc.
      * specialize (Es eq_refl).
        destruct (white_cases c W) as [-> |[-> |[-> | ->]]]; try congruence; cbn; do 2 f_equal; lia.
      * destruct (white_cases c W) as [-> |[-> |[-> | ->]]]; cbn; do 2 f_equal; lia.
  - rewrite (at_rd _ _ _ _ H). pose proof (not_white c A) as NW. unfold is_ws in NW.
    apply orb_false_iff in NW. destruct NW as [NW N32]. rewrite !orb_false_iff in NW.
    destruct NW as [[N9 N10] N13]. rewrite N9, N10, N13, N32.
    rewrite (proj2 (N.eqb_neq c 0) C), (proj2 (N.eqb_neq c 92) B). cbn [orb andb].
    rewrite (IH l (S i) f false); [do 2 f_equal; lia|eapply at_next; eauto|eapply stops_tail; eauto|discriminate|lia].
  - rewrite (at_rd _ _ _ _ H). cbn [N.eqb Pos.eqb orb andb].
    destruct f as [|f]; [cbn [length] in F; lia|]. cbn [scan_ident].
    apply at_next in H. rewrite (at_rd _ _ _ _ H). cbn [N.eqb Pos.eqb orb andb negb].
    rewrite (IH l (S (S i)) f false); [do 2 f_equal; lia|eapply at_next; eauto| |discriminate|cbn [length] in F; lia].
    eapply stops_tail, stops_tail; eauto.
  - rewrite (at_rd _ _ _ _ H). cbn [N.eqb Pos.eqb orb andb].
    destruct f as [|f]; [cbn [length] in F; lia|]. cbn [scan_ident].
    apply at_next in H. destruct St as [-> |(c & l' & -> & W & K)] .
    + destruct (at_end _ _ H) as [-> _]. cbn. do 2 f_equal. lia.
    + rewrite (at_rd _ _ _ _ H).
      destruct (white_cases c W) as [-> |[-> |[-> | ->]]]; try (cbn; do 2 f_equal; lia).
      exfalso. apply K; reflexivity.
  - rewrite (at_rd _ _ _ _ H). cbn [N.eqb Pos.eqb orb andb].
    rewrite (IH l (S i) f true); [do 2 f_equal; lia|eapply at_next; eauto|eapply stops_tail; eauto| |cbn [length] in *; lia].
    intros _. auto.
Qed.

Lemma scan_sq_ok s w : forall l i f, ~ In 39 w -> ~ In 0 w -> at_ s i (w ++ l) ->
  (l = [] \/ exists l', l = 39 :: l') -> (length (w ++ l) < f)%nat ->
  scan_sq f s i = Some (Some (i + length w)%nat).
Proof.
  induction w as [|c w IH]; intros l i f Q Z H L F; (destruct f as [|f]; [lia|]); cbn [scan_sq app length] in *.
  - destruct L as [-> |(l' & ->) ].
    + destruct (at_end _ _ H) as [-> _]. cbn. do 2 f_equal. lia.
    + rewrite (at_rd _ _ _ _ H). cbn. do 2 f_equal. lia.
  - rewrite (at_rd _ _ _ _ H). cbn [In] in Q, Z.
    rewrite (proj2 (N.eqb_neq c 0)), (proj2 (N.eqb_neq c 39)) by intuition. cbn [orb].
    rewrite (IH l (S i) f); auto; [do 2 f_equal; lia|eapply at_next; eauto|lia].
Qed.

Lemma scan_dq_ok s e w : dq_body e w -> forall l i f, at_ s i (e ++ 34 :: l) ->
  (length (e ++ 34%N :: l) < f)%nat ->
  scan_dq f s i = Some (Some (inr (S (i + length e), (i + length e)%nat))).
Proof.
  assert (ESC : forall c e, c <> 0 -> (forall l i f, at_ s i (e ++ 34 :: l) -> (length (e ++ 34%N :: l) < f)%nat ->
      scan_dq f s i = Some (Some (inr (S (i + length e), (i + length e)%nat)))) ->
      forall l i f, at_ s i ((92 :: c :: e) ++ 34 :: l) -> (length ((92%N :: c :: e) ++ 34%N :: l) < f)%nat ->
      scan_dq f s i = Some (Some (inr (S (i + length (92 :: c :: e)), (i + length (92%N :: c :: e))%nat)))).
  { intros c e' C IH l i f H F. destruct f as [|f]; [lia|]. cbn [scan_dq app length] in *.
    rewrite (at_rd _ _ _ _ H). cbn [N.eqb Pos.eqb].
    apply at_next in H. rewrite (at_rd _ _ _ _ H). rewrite (proj2 (N.eqb_neq c 0) C).
    apply at_next in H. rewrite (IH l _ f H) by lia. do 3 f_equal. f_equal; lia. }
  induction 1 as [|c e w A B C D IH|c v e w A D IH|c e w A B D IH]; intros l i f H F.
  - destruct f as [|f]; [lia|]. cbn [scan_dq app length] in *. rewrite (at_rd _ _ _ _ H).
    cbn. do 3 f_equal. f_equal; lia.
  - destruct f as [|f]; [lia|]. cbn [scan_dq app length] in *. rewrite (at_rd _ _ _ _ H).
    rewrite (proj2 (N.eqb_neq c 0) C), (proj2 (N.eqb_neq c 34) A), (proj2 (N.eqb_neq c 92) B).
    apply at_next in H. rewrite (IH l _ f H) by lia. do 3 f_equal. f_equal; lia.
  - apply (ESC c e (known_nonzero _ _ A) IH l); auto.
  - apply (ESC c e A IH l); auto.
Qed.

Lemma scan_dq_open s b lone : dq_open b lone -> forall i f, at_ s i b -> (length b < f)%nat ->
  scan_dq f s i = Some (Some (if lone then inr (S (length s), length s) else inl (S (length s)))).
Proof.
  induction 1 as [| |c e b A B C D IH|c e b C D IH]; intros i f H F; (destruct f as [|f]; [lia|]); cbn [scan_dq].
  - destruct (at_end _ _ H) as [-> ->]. reflexivity.
  - rewrite (at_rd _ _ _ _ H). cbn [N.eqb Pos.eqb]. apply at_next in H.
    destruct (at_end _ _ H) as [-> E]. cbn [N.eqb]. now rewrite E.
  - rewrite (at_rd _ _ _ _ H).
    rewrite (proj2 (N.eqb_neq c 0) C), (proj2 (N.eqb_neq c 34) A), (proj2 (N.eqb_neq c 92) B).
    apply IH; [eapply at_next; eauto|cbn [length] in F; lia].
  - rewrite (at_rd _ _ _ _ H). cbn [N.eqb Pos.eqb]. apply at_next in H.
    rewrite (at_rd _ _ _ _ H). rewrite (proj2 (N.eqb_neq c 0) C).
    apply IH; [eapply at_next; eauto|cbn [length] in F; lia].
Qed.

(** ** One token *)
Lemma scan_end s t : at_ s (next t) [] ->
  exists t', token_scan s t = Ret 0 t' /\ type t' = NT_EOF.
Proof.
  intros H. unfold token_scan. cbn [mainpattern set next].
  destruct (at_end _ _ H) as [-> _]. cbn. eauto.
Qed.

Lemma scan_white s t c l : at_ s (next t) (c :: l) -> white c ->
  let n := (S (next t) + run_ws l)%nat in token_scan s t = Ret 1 (set t None (next t) n n NT_SPACE).
Proof.
  intros H W. unfold token_scan. cbn [mainpattern set next start end_].
  rewrite (at_rd _ _ _ _ H). pose proof (at_len _ _ _ H) as L. cbn [length] in L.
  assert (W' := W). apply white_is_ws in W'. rewrite W'.
  rewrite (scan_ws_ok s l) by (try lia; eapply at_next; eauto).
  destruct (white_cases c W) as [-> |[-> |[-> | ->]]]; reflexivity.
Qed.

Lemma scan_bare s t e w l : at_ s (next t) (e ++ l) -> bare e w -> ends e l ->
  exists t', token_scan s t = Ret 1 t' /\ type t' = NT_IDENT /\ text t' = Some w /\
             next t' = (next t + length e)%nat.
Proof.
  intros H B En. inversion B as [c e' w' A Q S Z D]; subst. unfold token_scan.
  cbn [mainpattern set next start end_].
  pose proof (at_len _ _ _ H) as L. cbn [app length] in L.
  cbn [app] in H. rewrite (at_rd _ _ _ _ H).
  rewrite (not_white c A), (proj2 (N.eqb_neq c 0) Z), (proj2 (N.eqb_neq c 34) Q), (proj2 (N.eqb_neq c 39) S).
  rewrite (scan_ident_ok s e' w' D l (Datatypes.S (next t)) (length s + 2) false);
    [|eapply at_next; eauto|exact En|discriminate|lia].
  eexists. split; [reflexivity|]. cbn [set type text next length].
  split; [reflexivity|]. split; [|lia]. f_equal.
  rewrite (at_copy s (next t) (c :: e') l); [|exact H|cbn [length]; lia].
  rewrite unescape_other by (eapply bare_head; eauto). now rewrite (unescape_bare _ _ D).
Qed.

Lemma app_snoc (w : list N) x l : (w ++ [x]) ++ l = w ++ x :: l.
Proof. rewrite <- app_assoc. reflexivity. Qed.

Lemma scan_quoted s t e w l : at_ s (next t) (e ++ l) -> quoted e w ->
  exists t', token_scan s t = Ret 1 t' /\ (type t' = NT_IDENT \/ type t' = NT_DQSTRING) /\
             text t' = Some w /\ next t' = (next t + length e)%nat.
Proof.
  intros H Q. pose proof (at_len _ _ _ H) as L.
  destruct Q as [w Q Z|e w D].
  - unfold token_scan. cbn [app] in H. rewrite app_snoc in H.
    cbn [app length] in L. rewrite app_length, app_length in L. cbn [length] in L.
    cbn [mainpattern set next start end_].
    rewrite (at_rd _ _ _ _ H). cbn [N.eqb Pos.eqb is_ws orb]. rewrite Nat.eqb_refl. cbn [negb].
    pose proof (at_next _ _ _ _ H) as H1.
    assert (FIN : at_ s (S (next t) + length w) (39 :: l)) by (eapply at_app; eauto).
    assert (TXT : copy s (S (next t)) (S (S (next t) + length w) - 1) = w).
    { eapply at_copy; [exact H1|lia]. }
    assert (NE : Nat.eqb (next t) (S (next t) + length w) = false) by (apply Nat.eqb_neq; lia).
    destruct w as [|d w].
    + cbn [app] in H1. rewrite ?(at_rd _ _ _ _ H1). cbn [N.eqb Pos.eqb].
      cbn [mainpattern set next start end_]. rewrite ?(at_rd _ _ _ _ H1). cbn [N.eqb Pos.eqb is_ws orb].
      cbn [length] in NE, TXT. rewrite Nat.add_0_r in NE, TXT. rewrite NE. cbn [negb].
      eexists. split; [reflexivity|]. cbn [set type text next length]. split; [auto|].
      split; [now rewrite TXT|]. cbn [app length]. lia.
    + cbn [app] in H1. rewrite ?(at_rd _ _ _ _ H1).
      cbn [In] in Q, Z. rewrite (proj2 (N.eqb_neq d 0)), (proj2 (N.eqb_neq d 39)) by intuition.
      rewrite (scan_sq_ok s w (39 :: l) (S (S (next t)))); [| |  |eapply at_next; eauto|eauto|];
        [|intuition|intuition|cbn [length] in L; rewrite app_length; cbn [length]; lia].
      replace (S (S (next t)) + length w)%nat with (S (next t) + length (d :: w))%nat by (cbn [length]; lia).
      cbn [mainpattern set next start end_]. rewrite ?(at_rd _ _ _ _ FIN). cbn [N.eqb Pos.eqb is_ws orb].
      rewrite NE. cbn [negb]. eexists. split; [reflexivity|]. cbn [set type text next]. split; [auto|].
      split; [now rewrite TXT|]. cbn [length]. rewrite app_length. cbn [length]. lia.
  - unfold token_scan. cbn [app] in H. rewrite app_snoc in H.
    cbn [app length] in L. rewrite app_length, app_length in L. cbn [length] in L.
    cbn [mainpattern set next start end_].
    rewrite (at_rd _ _ _ _ H). cbn [N.eqb Pos.eqb is_ws orb]. rewrite Nat.eqb_refl. cbn [negb].
    pose proof (at_next _ _ _ _ H) as H1.
    rewrite (scan_dq_ok s e w D l) by (try exact H1; rewrite app_length; cbn [length]; lia).
    assert (FIN : at_ s (S (next t) + length e) (34 :: l)) by (eapply at_app; eauto).
    assert (TXT : copy s (S (next t)) (S (S (next t) + length e) - 1) = e).
    { eapply at_copy; [exact H1|lia]. }
    cbn [mainpattern set next start end_]. rewrite ?(at_rd _ _ _ _ FIN). cbn [N.eqb Pos.eqb is_ws orb].
    assert (NE : Nat.eqb (next t) (S (S (next t) + length e)) = false) by (apply Nat.eqb_neq; lia).
    rewrite NE. cbn [negb]. eexists. split; [reflexivity|]. cbn [set type text next]. split; [auto|].
    split; [now rewrite TXT, (unescape_dq _ _ D)|]. cbn [length]. rewrite app_length. cbn [length]. lia.
Qed.

Lemma scan_lone_quote s t : at_ s (next t) [39] ->
  exists t', token_scan s t = Ret (-1) t' /\ next t' = S (length s).
Proof.
  intros H. unfold token_scan. cbn [mainpattern set next start end_].
  rewrite (at_rd _ _ _ _ H). cbn [N.eqb Pos.eqb is_ws orb]. rewrite Nat.eqb_refl. cbn [negb].
  apply at_next in H. destruct (at_end _ _ H) as [-> E]. cbn. eexists. split; [reflexivity|].
  cbn [set next]. lia.
Qed.

Lemma scan_open_single s t c b : at_ s (next t) (39 :: c :: b) -> ~ In 39 (c :: b) -> ~ In 0 (c :: b) ->
  exists t', token_scan s t = Ret 0 t' /\ type t' = NT_EOF.
Proof.
  intros H Q Z. pose proof (at_len _ _ _ H) as L. cbn [length] in L.
  unfold token_scan. cbn [mainpattern set next start end_].
  rewrite (at_rd _ _ _ _ H). cbn [N.eqb Pos.eqb is_ws orb]. rewrite Nat.eqb_refl. cbn [negb].
  apply at_next in H. rewrite (at_rd _ _ _ _ H).
  cbn [In] in Q, Z. rewrite (proj2 (N.eqb_neq c 0)), (proj2 (N.eqb_neq c 39)) by intuition.
  apply at_next in H.
  rewrite (scan_sq_ok s b [] (S (S (next t)))); rewrite ?app_nil_r; [|intuition|intuition|exact H|auto|lia].
  cbn [mainpattern set next start end_].
  assert (E : at_ s (S (S (next t)) + length b) []) by (apply at_app; now rewrite app_nil_r).
  destruct (at_end _ _ E) as [-> _]. cbn. eauto.
Qed.

Lemma scan_open_double s t b lone : at_ s (next t) (34 :: b) -> dq_open b lone ->
  exists t', token_scan s t = Ret (if lone then 0 else -1)%Z t' /\
             (if lone then type t' = NT_EOF else next t' = S (length s)).
Proof.
  intros H D. pose proof (at_len _ _ _ H) as L. cbn [length] in L.
  unfold token_scan. cbn [mainpattern set next start end_].
  rewrite (at_rd _ _ _ _ H). cbn [N.eqb Pos.eqb is_ws orb]. rewrite Nat.eqb_refl. cbn [negb].
  rewrite (scan_dq_open s b lone D) by (try lia; eapply at_next; eauto).
  destruct lone.
  - cbn [mainpattern set next start end_].
    assert (E : at_ s (length s) []) by (split; [apply skipn_all|lia]).
    destruct (at_end _ _ E) as [-> _]. cbn. eauto.
  - eexists. split; [reflexivity|reflexivity].
Qed.

(** ** The whole line *)
Lemma run_ws_at s i l : at_ s i l -> at_ s (i + run_ws l) (skipn (run_ws l) l).
Proof.
  revert i. induction l as [|c l IH]; intros i H; cbn [run_ws].
  - now rewrite Nat.add_0_r.
  - destruct (is_ws c) eqn:W; cbn [skipn].
    + replace (i + S (run_ws l))%nat with (S i + run_ws l)%nat by lia. apply IH. eapply at_next; eauto.
    + now rewrite Nat.add_0_r.
Qed.

Definition code (v : verdict) (s : list N) (n : nat) : Z :=
  match v with Reported => (- Z.of_nat (length s + 1))%Z | _ => Z.of_nat n end.

Lemma loop_next f s t t' cnt toks : next t = next t' -> text t = text t' -> type t = type t' ->
  tokenize_loop f s t cnt toks = tokenize_loop f s t' cnt toks.
Proof.
  intros E X Y. destruct f as [|f]; [reflexivity|]. cbn [tokenize_loop].
  replace (token_scan s t) with (token_scan s t'); [reflexivity|].
  unfold token_scan, set. now rewrite E, X, Y.
Qed.

Lemma loop_parse s l ws v : parse l ws v -> forall t f cnt toks, at_ s (next t) l ->
  (length l < f)%nat ->
  tokenize_loop f s t cnt toks = finish (code v s (length (toks ++ ws))) cnt (toks ++ ws).
Proof.
  induction 1 as [|c l ws v W P IH|e w l ws v Q P IH|e w l ws v B En P IH| |c b Q Z|b D|b D];
    intros t f cnt toks H F; (destruct f as [|f]; [lia|]).
  - cbn [tokenize_loop]. destruct (scan_end s t H) as (t' & -> & T). cbn [Z.eqb]. rewrite T.
    rewrite app_nil_r. reflexivity.
  - cbn [length] in F. cbn [tokenize_loop]. rewrite (scan_white s t c l H W). cbn [Z.eqb set type].
    pose proof (at_next _ _ _ _ H) as H1.
    destruct l as [|d l].
    + cbn [run_ws]. rewrite Nat.add_0_r. apply (IH _ f cnt toks); auto. cbn [length] in *. lia.
    + cbn [run_ws] in *. destruct (is_ws d) eqn:Wd.
      * specialize (IH (set t None (next t) (S (next t)) (S (next t)) NT_SPACE) (S f) cnt toks H1).
        rewrite <- IH by lia. cbn [tokenize_loop]. apply white_is_ws in Wd.
        rewrite (scan_white s _ d l) by (auto; exact H1). cbn [Z.eqb set type next].
        apply loop_next; cbn [set next text type]; auto. lia.
      * rewrite Nat.add_0_r. apply (IH _ f cnt toks); auto. lia.
  - assert (LE : (0 < length e)%nat) by (destruct Q; cbn [length]; lia).
    rewrite app_length in F.
    cbn [tokenize_loop]. destruct (scan_quoted s t e w l H Q) as (t' & -> & T & X & N). cbn [Z.eqb].
    apply at_app in H. rewrite <- N in H.
    destruct T as [-> | ->]; rewrite X; rewrite (IH t' f cnt (toks ++ [w]) H) by lia; now rewrite app_snoc' .
  - assert (LE : (0 < length e)%nat) by (destruct B; cbn [length]; lia).
    rewrite app_length in F.
    cbn [tokenize_loop]. destruct (scan_bare s t e w l H B En) as (t' & -> & T & X & N). cbn [Z.eqb].
    apply at_app in H. rewrite <- N in H.
    rewrite T, X. rewrite (IH t' f cnt (toks ++ [w]) H) by lia. now rewrite app_snoc'.
  - cbn [tokenize_loop]. destruct (scan_lone_quote s t H) as (t' & -> & N). cbn [Z.eqb Pos.eqb].
    rewrite N, app_nil_r. unfold code. f_equal. lia.
  - cbn [tokenize_loop]. destruct (scan_open_single s t c b H Q Z) as (t' & -> & T). cbn [Z.eqb].
    rewrite T, app_nil_r. reflexivity.
  - cbn [tokenize_loop]. destruct (scan_open_double s t b false H D) as (t' & -> & N). cbn [Z.eqb Pos.eqb].
    rewrite N, app_nil_r. unfold code. f_equal. lia.
  - cbn [tokenize_loop]. destruct (scan_open_double s t b true H D) as (t' & -> & N). cbn [Z.eqb].
    rewrite N, app_nil_r. reflexivity.
Qed.

Lemma tokenize_parse s ws v cnt : parse s ws v ->
  tokenize s cnt = Done (match v with Reported => (- Z.of_nat (length s + 1))%Z | _ => Z.of_nat (length ws) end)
                        (Nat.min (length ws) cnt) (firstn cnt ws) ws.
Proof.
  intros P. unfold tokenize. rewrite (loop_parse s s ws v P) by (try apply at_start; lia).
  cbn [app]. unfold finish, code. f_equal. destruct (Nat.ltb_spec (length ws) cnt); lia.
Qed.

(** ** Every line is one or the other *)
Lemma dq_split b : forall n, (length b <= n)%nat -> ~ In 0 b ->
  (exists e w l, b = e ++ 34 :: l /\ dq_body e w) \/ exists lone, dq_open b lone.
Proof.
  intros n. revert b. induction n as [|n IH]; intros b L Z.
  - destruct b; [|cbn in L; lia]. right. eexists. constructor.
  - destruct b as [|c b]; [right; eexists; constructor|]. cbn [length In] in *.
    destruct (N.eq_dec c 34) as [-> |Q].
    { left. exists [], [], b. split; [reflexivity|constructor]. }
    destruct (N.eq_dec c 92) as [-> |B].
    + destruct b as [|d b].
      * right. exists true. constructor.
      * cbn [length In] in *. assert (D0 : d <> 0) by intuition.
        destruct (IH b) as [(e & w & l & -> & D)|(lone & D)]; [lia|intuition| |].
        -- left. destruct (known_dec d) as [(v & K)|K].
           ++ exists (92 :: d :: e), (v :: w), l. split; [reflexivity|now constructor].
           ++ exists (92 :: d :: e), (92 :: d :: w), l. split; [reflexivity|now constructor].
        -- right. exists lone. now constructor.
    + assert (C0 : c <> 0) by intuition.
      destruct (IH b) as [(e & w & l & -> & D)|(lone & D)]; [lia|intuition| |].
      * left. exists (c :: e), (c :: w), l. split; [reflexivity|now constructor].
      * right. exists lone. now constructor.
Qed.

Lemma white_dec c : {white c} + {~ white c}.
Proof. unfold white. apply in_dec. exact N.eq_dec. Qed.

Lemma bare_split b : forall n, (length b <= n)%nat -> ~ In 0 b ->
  exists e w l, b = e ++ l /\ bare_tail e w /\ stops e l.
Proof.
  intros n. revert b. induction n as [|n IH]; intros b L Z.
  - destruct b; [|cbn in L; lia]. exists [], [], []. split; [reflexivity|]. split; [constructor|now left].
  - destruct b as [|c b]; [exists [], [], []; split; [reflexivity|]; split; [constructor|now left]|].
    cbn [length In] in *. assert (C0 : c <> 0) by intuition.
    destruct (white_dec c) as [W|W].
    { exists [], [], (c :: b). split; [reflexivity|]. split; [constructor|]. right. exists c, b.
      split; [reflexivity|]. split; [auto|]. intros _. discriminate. }
    destruct (N.eq_dec c 92) as [-> |B].
    + destruct b as [|d b].
      { exists [92], [92], []. split; [reflexivity|]. split; [apply bt_last|now left]. }
      destruct (N.eq_dec d 32) as [-> |D32].
      * cbn [length In] in *. destruct (IH b) as (e & w & l & -> & T & St); [lia|intuition|].
        exists (92 :: 32 :: e), (32 :: w), l. split; [reflexivity|]. split; [now constructor|].
        destruct St as [-> |(x & l' & -> & Wx & K)]; [now left|]. right. exists x, l'.
        split; [reflexivity|]. split; [auto|]. intros Hx. destruct e; [discriminate|apply K; auto].
      * destruct (IH (d :: b)) as (e & w & l & E & T & St); [cbn [length] in *; lia|intuition|].
        destruct e as [|d' e].
        { cbn [app] in E. destruct l as [|x l]; [discriminate|]. injection E as <- <-.
          exists [92], [92], (d :: b). split; [reflexivity|]. split; [solve [constructor]|].
          destruct St as [St|(x & l' & E & Wx & K)]; [discriminate|]. injection E as <- <-.
          right. exists d, b. split; [reflexivity|]. split; [auto|]. intros Hd. congruence. }
        cbn [app] in E. injection E as <- ->.
        exists (92 :: d :: e), (92 :: w), l. split; [reflexivity|]. split; [now constructor|].
        destruct St as [-> |(x & l' & -> & Wx & K)]; [now left|]. right. exists x, l'. auto.
    + destruct (IH b) as (e & w & l & -> & T & St); [lia|intuition|].
      exists (c :: e), (c :: w), l. split; [reflexivity|]. split; [now constructor|].
      destruct St as [-> |(x & l' & -> & Wx & K)]; [now left|]. right. exists x, l'.
      split; [reflexivity|]. split; [auto|]. intros Hx. destruct e; [cbn; auto|apply K; auto].
Qed.

Lemma sq_split b : (exists w l, b = w ++ 39 :: l /\ ~ In 39 w) \/ ~ In 39 b.
Proof.
  induction b as [|c b IH]; [right; intros []|].
  destruct (N.eq_dec c 39) as [-> |C].
  - left. exists [], b. split; [reflexivity|intros []].
  - destruct IH as [(w & l & -> & Q)|Q].
    + left. exists (c :: w), l. split; [reflexivity|]. cbn [In]. intuition.
    + right. cbn [In]. intuition.
Qed.

Lemma parse_total s : ~ In 0 s -> exists ws v, parse s ws v.
Proof.
  remember (length s) as n eqn:E. assert (L : (length s <= n)%nat) by lia. clear E. revert s L.
  induction n as [|n IH]; intros s L Z.
  - destruct s; [|cbn in L; lia]. exists [], Good. constructor.
  - destruct s as [|c s]; [exists [], Good; constructor|]. cbn [length In] in *.
    destruct (white_dec c) as [W|W].
    { destruct (IH s) as (ws & v & P); [lia|intuition|]. exists ws, v. now constructor. }
    destruct (N.eq_dec c 34) as [-> |C34].
    { destruct (dq_split s (length s)) as [(e & w & l & -> & D)|(lone & D)]; [lia|intuition| |].
      - rewrite app_length in L. cbn [length] in L.
        destruct (IH l) as (ws & v & P); [lia|rewrite in_app_iff in Z; cbn [In] in Z; intuition|].
        exists (w :: ws), v. rewrite <- (app_snoc e 34 l).
        change (34 :: (e ++ [34]) ++ l) with ((34 :: e ++ [34]) ++ l). apply p_quoted; auto. now constructor.
      - destruct lone; eexists _, _; [apply p_open_double_lone|apply p_open_double]; eauto. }
    destruct (N.eq_dec c 39) as [-> |C39].
    { destruct (sq_split s) as [(w & l & -> & Q)|Q].
      - rewrite app_length in L. cbn [length] in L. rewrite in_app_iff in Z. cbn [In] in Z.
        destruct (IH l) as (ws & v & P); [lia|intuition|].
        exists (w :: ws), v. rewrite <- (app_snoc w 39 l).
        change (39 :: (w ++ [39]) ++ l) with ((39 :: w ++ [39]) ++ l). apply p_quoted; auto.
        constructor; intuition.
      - destruct s as [|d s]; eexists _, _; [apply p_lone_quote|apply p_open_single]; auto. }
    destruct (bare_split s (length s)) as (e & w & l & -> & T & St); [lia|intuition|].
    rewrite app_length in L. rewrite in_app_iff in Z.
    destruct (IH l) as (ws & v & P); [lia|intuition|].
    exists ((c :: w) :: ws), v. change (c :: e ++ l) with ((c :: e) ++ l). apply p_bare; auto.
    constructor; intuition.
Qed.

Lemma parse_unique s ws ws' v v' : parse s ws v -> parse s ws' v' -> ws = ws'.
Proof.
  intros P Q. pose proof (tokenize_parse s ws v 0 P) as A. pose proof (tokenize_parse s ws' v' 0 Q) as B.
  congruence.
Qed.

Lemma tokenize_total s cnt : ~ In 0 s ->
  exists ret ws, tokenize s cnt = Done ret (Nat.min (length ws) cnt) (firstn cnt ws) ws /\
    (ret = Z.of_nat (length ws) \/ ret = (- Z.of_nat (length s + 1))%Z).
Proof.
  intros Z. destruct (parse_total s Z) as (ws & v & P). rewrite (tokenize_parse s ws v cnt P).
  eexists _, ws. split; [reflexivity|]. destruct v; auto.
Qed.

(** ** Quoting any word *)
Definition esc1 (c : N) : list N := if (c =? 34) || (c =? 92) then [92; c] else [c].

Lemma quote_body w : ~ In 0 w -> dq_body (flat_map esc1 w) w.
Proof.
  induction w as [|c w IH]; intros Z; [constructor|]. cbn [In flat_map] in *. unfold esc1 at 1.
  destruct (N.eqb_spec c 34) as [-> |A]; [|destruct (N.eqb_spec c 92) as [-> |B]]; cbn [orb app].
  - apply (db_escape 34 34); [cbn; tauto|apply IH; intuition].
  - apply (db_escape 92 92); [cbn; tauto|apply IH; intuition].
  - apply db_plain; auto; apply IH; intuition.
Qed.

Definition quote (w : list N) : list N := 34 :: flat_map esc1 w ++ [34].

Fixpoint command (ws : list (list N)) : list N :=
  match ws with [] => [] | w :: r => quote w ++ 32 :: command r end.

Lemma parse_command ws : (forall w, In w ws -> ~ In 0 w) -> parse (command ws) ws Good.
Proof.
  induction ws as [|w ws IH]; intros H; cbn [command]; [constructor|].
  apply p_quoted; [constructor; apply quote_body; apply H; now left|].
  apply p_white; [unfold white; cbn; tauto|]. apply IH. intros x Hx. apply H. now right.
Qed.
