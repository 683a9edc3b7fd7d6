From Coq Require Import NArith ZArith List Bool String Lia ZifyBool ZifyNat ZifyN.
From Verif.Url Require Model Spec Proofs.
From Verif.Cookie Require Import Model Spec Proofs Proofs2.
Import ListNotations.
Local Open Scope string_scope.
Local Open Scope list_scope.
Local Open Scope nat_scope.

(** ** Forms *)
Lemma updigit_hex : forall v, (v < 16)%N -> Url.Spec.hexdigit (Url.Spec.updigit v) v.
Proof. intros v L. unfold Url.Spec.hexdigit, Url.Spec.updigit. destruct (N.ltb_spec v 10); lia. Qed.
Lemma form_pct : forall v w, form_encodes v w -> ~ In 32%N v -> ~ In 42%N v -> Url.Spec.pct_decodes w v.
Proof.
  intros v w F. induction F as [|c l t S F IH|l t F IH|c l t N1 N2 L F IH]; intros A B.
  - constructor.
  - apply Url.Spec.PLit; [|apply IH; intro I; [apply A|apply B]; right; exact I].
    assert (c <> 42%N) by (intros ->; apply B; left; reflexivity). unfold form_safe in S. unfold Url.Spec.unreserved. lia.
  - destruct A. left. reflexivity.
  - assert (c / 16 < 16)%N by (apply N.div_lt_upper_bound; lia). assert (c mod 16 < 16)%N by (apply N.mod_lt; lia).
    assert (E : c = (16 * (c / 16) + c mod 16)%N) by (apply N.div_mod; lia).
    enough (K : Url.Spec.pct_decodes (37%N :: Url.Spec.updigit (c / 16) :: Url.Spec.updigit (c mod 16) :: t)
                  ((16 * (c / 16) + c mod 16)%N :: l)) by (rewrite <- E in K; exact K).
    apply Url.Spec.PPct; try (apply updigit_hex; auto).
    apply IH; intro I; [apply A|apply B]; right; exact I.
Qed.
Lemma form_lost : forall v w, form_encodes v w -> In 32%N v \/ In 42%N v -> forall d, ~ Url.Spec.pct_decodes w d.
Proof.
  intros v w F. induction F as [|c l t S F IH|l t F IH|c l t N1 N2 L F IH]; intros I d D.
  - destruct I as [[]|[]].
  - inversion D as [|? ? ? U D'|]; subst.
    + apply IH in D'; auto. unfold Url.Spec.unreserved in U. destruct I as [[-> |I]|[-> |I]]; try tauto; exfalso; clear - U; lia.
    + unfold form_safe in S. lia.
  - inversion D as [|? ? ? U D'|]; subst. unfold Url.Spec.unreserved in U. lia.
  - inversion D as [|? ? ? U D'|]; subst; [unfold Url.Spec.unreserved in U; lia|].
    eapply IH; [|eassumption]. destruct I as [[-> |I]|[-> |I]]; auto; [congruence|].
    destruct N1. unfold form_safe. lia.
Qed.
Lemma form_chars : forall v w, form_encodes v w -> Forall (fun c => form_safe c \/ c = 43 \/ c = 37)%N w.
Proof.
  intros v w F. induction F as [|c l t S F IH|l t F IH|c l t N1 N2 L F IH]; constructor; auto.
  assert (K : forall x, (x < 16)%N -> form_safe (Url.Spec.updigit x)).
  { intros x Lx. unfold form_safe, Url.Spec.updigit. destruct (N.ltb_spec x 10); lia. }
  assert (c / 16 < 16)%N by (apply N.div_lt_upper_bound; lia). assert (c mod 16 < 16)%N by (apply N.mod_lt; lia).
  constructor; auto.
Qed.
Lemma form_not : forall v w x, form_encodes v w -> ~ form_safe x -> x <> 43%N -> x <> 37%N -> ~ In x w.
Proof. intros v w x F N1 N2 N3 I. pose proof (form_chars _ _ F) as H. rewrite Forall_forall in H. apply H in I. tauto. Qed.
Lemma decode_here_ok : forall w d, Url.Spec.pct_decodes w d -> decode_here w = d.
Proof. intros w d D. apply decode_ok; auto; lia. Qed.
Lemma received_decode : forall v w, form_encodes v w -> clean v -> received v (cstr (decode_here w)).
Proof.
  intros v w F C. destruct (in_dec N.eq_dec 32%N v) as [I|I]; [|destruct (in_dec N.eq_dec 42%N v) as [J|J]].
  - unfold decode_here. rewrite decode_fails; [apply recv_lost; auto|apply (form_lost v); auto|lia|lia].
  - unfold decode_here. rewrite decode_fails; [apply recv_lost; auto|apply (form_lost v); auto|lia|lia].
  - rewrite (decode_here_ok _ _ (form_pct _ _ F I J)), cstr_clean by auto. apply recv_ok; auto.
Qed.
Lemma strchr_at : forall c k r, ~ In c k -> strchr c (k ++ c :: r) = Some (List.length k).
Proof.
  intros c. induction k as [|x k IH]; intros r N; cbn.
  - rewrite N.eqb_refl. reflexivity.
  - destruct (N.eqb_spec x c) as [->|]; [destruct N; left; reflexivity|].
    rewrite IH by (intro I; apply N; right; auto). reflexivity.
Qed.
Lemma skip_at : forall (k r : bytes) c, skipn (S (List.length k)) (k ++ c :: r) = r.
Proof. intros. replace (S (List.length k)) with (List.length (k ++ [c])) by (rewrite app_length; cbn; lia).
  replace (k ++ c :: r) with ((k ++ [c]) ++ r) by (rewrite <- app_assoc; reflexivity).
  rewrite skipn_app, skipn_all, Nat.sub_diag. reflexivity. Qed.
Lemma first_at : forall (k r : bytes), firstn (List.length k) (k ++ r) = k.
Proof. intros. rewrite firstn_app, firstn_all, Nat.sub_diag, firstn_O, app_nil_r. reflexivity. Qed.
Lemma field_split : forall f k w, ~ In 61%N k -> k <> [] -> Forall Url.Spec.unreserved k ->
  form_field f (k ++ 61%N :: w) =
    (let val := Some (cstr (decode_here w)) in
     if beq k (bs "username") then mkform val (pass f) (to f)
     else if beq k (bs "password") then mkform (user f) val (to f)
     else if beq k (bs "whereto") then mkform (user f) (pass f) val
     else f).
Proof.
  intros f k w N Ne U. unfold form_field. rewrite strchr_at by auto. rewrite first_at, skip_at.
  assert (D : Url.Spec.pct_decodes k k).
  { clear - U. induction U; constructor; auto. }
  assert (C : clean k).
  { intro I. rewrite Forall_forall in U. apply U in I. unfold Url.Spec.unreserved in I. lia. }
  rewrite (decode_here_ok _ _ D). destruct k as [|c k]; [congruence|]. rewrite (cstr_clean _ C). reflexivity.
Qed.
Lemma ampsep : forall l, ~ In 38%N l -> forall x, In x l -> existsb (N.eqb x) (bs "&") = false.
Proof.
  intros l N x I. change (bs "&") with [38%N]. cbn. destruct (N.eqb_spec x 38); auto. subst. contradiction.
Qed.
Lemma strtok_more : forall l r, l <> [] -> ~ In 38%N l -> strtok (bs "&") (l ++ 38%N :: r) [] = l :: strtok (bs "&") r [].
Proof.
  intros l r N A. rewrite strtok_run by (apply ampsep; auto). destruct l as [|x l]; [congruence|]. reflexivity.
Qed.
Lemma strtok_last : forall l, l <> [] -> ~ In 38%N l -> strtok (bs "&") l [] = [l].
Proof.
  intros l N A. rewrite <- (app_nil_r l) at 1. rewrite strtok_run by (apply ampsep; auto). destruct l as [|x l]; [congruence|]. reflexivity.
Qed.
Lemma word : forall l, forallb (fun c => (97 <=? c) && (c <=? 122))%N l = true -> Forall Url.Spec.unreserved l.
Proof.
  intros l H. apply Forall_forall. intros x I. rewrite forallb_forall in H. apply H in I. unfold Url.Spec.unreserved. lia.
Qed.
Ltac words := apply word; reflexivity.
Lemma absent_dec : forall (x : N) l, existsb (N.eqb x) l = false -> ~ In x l.
Proof. intros x l H I. assert (existsb (N.eqb x) l = true) by (apply existsb_exists; exists x; split; auto; apply N.eqb_refl). congruence. Qed.
Lemma key_piece : forall k v w c, form_encodes v w -> ~ In c k -> c <> 61%N -> ~ form_safe c -> c <> 43%N -> c <> 37%N ->
  ~ In c (k ++ 61%N :: w).
Proof.
  intros k v w c F N1 N2 N3 N4 N5 I. apply in_app_or in I as [I|[I|I]]; auto. apply (form_not _ _ _ F N3 N4 N5 I).
Qed.
Lemma form_read : forall u p t body, clean u -> clean p -> clean t -> form_body (login_form u p t) body ->
  exists u' p' t', received u u' /\ received p p' /\ received t t' /\
    body <> [] /\ read_form body = mkform (Some u') (Some p') (Some t').
Proof.
  intros u p t body Cu Cp Ct B. unfold login_form in B.
  assert (exists wt wu wp, form_encodes t wt /\ form_encodes u wu /\ form_encodes p wp /\
    body = (bs "whereto" ++ 61%N :: wt) ++ 38%N :: (bs "username" ++ 61%N :: wu) ++ 38%N :: (bs "password" ++ 61%N :: wp)) as
    (wt & wu & wp & Ft & Fu & Fp & ->).
  { inversion B as [|k1 v1 w1 fs1 t1 F1 B1 E1 E1']; subst. inversion B1 as [|k2 v2 w2 fs2 t2 F2 B2 E2 E2']; subst.
    inversion B2 as [k3 v3 w3 F3 E3 E3'|? ? ? ? ? ? B3]; subst.
    - exists w1, w2, w3. repeat split; auto; rewrite <- !app_assoc; reflexivity.
    - inversion B3. }
  assert (Z38 : ~ form_safe 38) by (unfold form_safe; lia). assert (Z0 : ~ form_safe 0) by (unfold form_safe; lia).
  exists (cstr (decode_here wu)), (cstr (decode_here wp)), (cstr (decode_here wt)).
  split; [apply received_decode; auto|]. split; [apply received_decode; auto|]. split; [apply received_decode; auto|].
  split; [discriminate|].
  unfold read_form. rewrite cstr_clean.
  - rewrite strtok_more; [|discriminate|]. rewrite strtok_more; [|discriminate|]. rewrite strtok_last; [|discriminate|].
    cbn [fold_left]. rewrite field_split; [|apply absent_dec; reflexivity|discriminate|words].
    change (beq (bs "whereto") (bs "username")) with false. change (beq (bs "whereto") (bs "password")) with false.
    change (beq (bs "whereto") (bs "whereto")) with true. cbv zeta. cbn iota.
    rewrite field_split; [|apply absent_dec; reflexivity|discriminate|words].
    change (beq (bs "username") (bs "username")) with true. cbn iota zeta.
    rewrite field_split; [|apply absent_dec; reflexivity|discriminate|words].
    change (beq (bs "password") (bs "username")) with false. change (beq (bs "password") (bs "password")) with true.
    cbn iota zeta. reflexivity.
    all: eapply key_piece; eauto; try (apply absent_dec; reflexivity); lia.
  - intro I. apply in_app_or in I as [I|[I|I]]; [|lia|apply in_app_or in I as [I|[I|I]]; [|lia|]].
    all: revert I; eapply key_piece; eauto; try (apply absent_dec; reflexivity); lia.
Qed.
Lemma received_same : forall v r, received v r -> ~ In 32%N v -> ~ In 42%N v -> r = v.
Proof. intros v r H A B. destruct H as [|v [I|I]]; auto; contradiction. Qed.
Lemma form_exact : forall u p t body, clean u -> clean p -> clean t -> form_body (login_form u p t) body ->
  ~ In 32%N (u ++ p ++ t) -> ~ In 42%N (u ++ p ++ t) -> read_form body = mkform (Some u) (Some p) (Some t).
Proof.
  intros u p t body Cu Cp Ct B N1 N2. destruct (form_read _ _ _ _ Cu Cp Ct B) as (u' & p' & t' & Ru & Rp & Rt & _ & ->).
  rewrite !in_app_iff in N1, N2. rewrite (received_same _ _ Ru), (received_same _ _ Rp), (received_same _ _ Rt); tauto || auto.
Qed.

(** ** Logging in *)
Lemma login_form_read : forall hook users who u p t body query, body <> [] ->
  read_form body = mkform (Some u) (Some p) (Some t) ->
  login hook users who body query =
    let (w, error) := do_auth hook users who u p in
    match w with
    | Some _ => (w, Redirect (match t with [] => bs "/" | _ => t end))
    | None => (None, Page (hidden t) (match error with Some e => e | None => bs "authentication failed" end))
    end.
Proof.
  intros hook users who u p t body query N R. unfold login. destruct body as [|c body]; [congruence|]. rewrite R. cbn [user pass to].
  destruct (do_auth _ _ _ _ _) as [[w|] e]; [|reflexivity]. destruct t; reflexivity.
Qed.
Lemma login_who : forall hook users body query x ans, login hook users None body query = (Some x, ans) ->
  exists u p, user (read_form body) = Some u /\ pass (read_form body) = Some p /\
    (sets (hook u p) = Some x /\ (what (hook u p) <> HookContinue \/ get users u <> Some p)
     \/ what (hook u p) = HookContinue /\ get users u = Some p /\ x = (u, bs "hmac_cookie_test")).
Proof.
  intros hook users body query x ans H. unfold login in H. destruct body as [|c body]; [discriminate|].
  destruct (user (read_form (c :: body))) as [u|] eqn:Eu; [|discriminate].
  destruct (pass (read_form (c :: body))) as [p|] eqn:Ep; [|discriminate].
  exists u, p. split; auto. split; auto. destruct (do_auth hook users None u p) as [w e] eqn:D.
  assert (Ew : w = Some x) by (destruct w; inversion H; auto). subst w. clear H Eu Ep. unfold do_auth in D.
  destruct (what (hook u p)) eqn:W.
  - left. split; [destruct (sets (hook u p)); inversion D; auto|left; discriminate].
  - left. split; [destruct (sets (hook u p)); inversion D; auto|left; discriminate].
  - destruct (get users u) as [pw|] eqn:G.
    + destruct (beq pw p) eqn:B.
      * apply beq_eq in B. subst pw. right. inversion D. auto.
      * left. split; [destruct (sets (hook u p)); inversion D; auto|right]. intro E. inversion E; subst. rewrite beq_refl in B. discriminate.
    + left. split; [destruct (sets (hook u p)); inversion D; auto|right; discriminate].
Qed.
Lemma login_refused : forall hook users body query u p, body <> [] ->
  user (read_form body) = Some u -> pass (read_form body) = Some p -> sets (hook u p) = None ->
  what (hook u p) <> HookContinue \/ get users u <> Some p ->
  exists h e, login hook users None body query = (None, Page h e).
Proof.
  intros hook users body query u p N Eu Ep Sn W. unfold login. destruct body as [|c body]; [congruence|]. rewrite Eu, Ep.
  unfold do_auth. rewrite Sn. destruct (what (hook u p)) eqn:Wh; [eauto|eauto|]. destruct W as [W|W]; [congruence|].
  destruct (get users u) as [pw|] eqn:G; [|eauto]. destruct (beq pw p) eqn:B; [|eauto]. apply beq_eq in B. congruence.
Qed.
Lemma login_anyhow : forall hook users who body query u p, body <> [] ->
  user (read_form body) = Some u -> pass (read_form body) = Some p -> who <> None ->
  exists w l, login hook users who body query = (Some w, Redirect l) /\
    ((sets (hook u p) = None -> what (hook u p) <> HookContinue \/ get users u <> Some p -> who = Some w)).
Proof.
  intros hook users who body query u p N Eu Ep W. unfold login. destruct body as [|c body]; [congruence|]. rewrite Eu, Ep.
  destruct who as [w0|]; [|congruence]. unfold do_auth. destruct (sets (hook u p)) as [x|].
  - destruct (what (hook u p)).
    + exists x. eexists. split; [reflexivity|discriminate].
    + exists x. eexists. split; [reflexivity|discriminate].
    + destruct (get users u) as [pw|]; [destruct (beq pw p)|]; eexists; eexists; (split; [reflexivity|discriminate]).
  - destruct (what (hook u p)).
    + eexists. eexists. split; [reflexivity|auto].
    + eexists. eexists. split; [reflexivity|auto].
    + destruct (get users u) as [pw|] eqn:G; [destruct (beq pw p) eqn:B|]; eexists; eexists; (split; [reflexivity|auto]).
      intros _ [Q|Q]; [congruence|]. apply beq_eq in B. congruence.
Qed.
Lemma redirect_where : forall hook users who body query w l, login hook users who body query = (w, Redirect l) ->
  w <> None /\ (to (read_form body) = Some l \/ l = bs "/").
Proof.
  intros hook users who body query w l H. unfold login in H. destruct body as [|c body]; [discriminate|].
  destruct (user (read_form (c :: body))) as [u|]; [|discriminate].
  destruct (pass (read_form (c :: body))) as [p|]; [|discriminate].
  destruct (do_auth hook users who u p) as [[x|] e]; [|discriminate].
  destruct (to (read_form (c :: body))) as [[|d t]|]; inversion H; subst; (split; [discriminate|auto]).
Qed.
