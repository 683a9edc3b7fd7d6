From Coq Require Import NArith ZArith List Bool String Lia ZifyBool ZifyNat ZifyN.
From Verif.Url Require Model Spec Proofs.
From Verif.Cookie Require Import Model Spec Proofs Proofs2 Proofs3 Proofs4.
Import ListNotations.
Local Open Scope string_scope.
Local Open Scope list_scope.
Local Open Scope nat_scope.

Lemma issued_accepted : forall hmac t age d h nonce u a,
  mac32 hmac -> List.length nonce = NONCE_LEN -> octets nonce -> octets u -> octets a ->
  List.length u < 256 -> List.length a < 256 -> clean u -> clean a -> (t + age < 2 ^ 64)%N ->
  exists c rest, refresh hmac t age d h nonce (Some (u, a)) = Done (Some (bs "mtevauth=" ++ c ++ bs "; " ++ rest)) /\
    pair (bs "mtevauth=" ++ c) /\
    forall now before after header, Forall (fun p => pair p /\ ~ ours p) before -> Forall pair after ->
      cookies (before ++ (bs "mtevauth=" ++ c) :: after) header ->
      request_complete hmac now (Some header) =
        Done (if (0 <? now)%Z && (now <? Z.of_N (t + age))%Z then Some (u, a) else None).
Proof.
  intros hmac t age d h nonce u a M Ln On Ou Oa Lu La Cu Ca Le.
  destruct (refresh_ok hmac t age d h nonce u a M Ln On Ou Oa) as (c & R & P).
  exists c, (bs "Max-Age=" ++ print age ++ domain_text d h). split; [rewrite R; reflexivity|]. split.
  - eapply pct_pair; eauto. apply Forall_app. split; [apply signed_octets; auto|]. constructor; [lia|apply M].
  - intros now before after header Fb Fa C. eapply round_trip; eauto.
Qed.
Lemma number_fun : forall l n n', number l n -> number l n' -> (n < 2 ^ 64)%Z -> (n' < 2 ^ 64)%Z -> n = n'.
Proof. intros l n n' H H' L L'. rewrite <- (strtoull_number _ _ H L). apply strtoull_number; auto. Qed.
Lemma signed_inj : forall n u a e n' u' a' e', List.length n = NONCE_LEN -> List.length n' = NONCE_LEN ->
  List.length u < 256 -> List.length a < 256 -> List.length u' < 256 -> List.length a' < 256 ->
  (e < 2 ^ 64)%N -> (e' < 2 ^ 64)%N -> signed n u a e = signed n' u' a' e' -> n = n' /\ u = u' /\ a = a' /\ e = e'.
Proof.
  intros n u a e n' u' a' e' Ln Ln' Lu La Lu' La' Le Le' E.
  assert (P : parts [COOKIE_HEADER; n; u; a; print e] (signed n u a e)) by (apply signed_parts; auto; unfold NONCE_LEN in Ln; lia).
  assert (P' : parts [COOKIE_HEADER; n'; u'; a'; print e'] (signed n' u' a' e')) by (apply signed_parts; auto; unfold NONCE_LEN in Ln'; lia).
  rewrite E in P. pose proof (parts_fun _ _ P _ P') as Q. injection Q as -> -> -> Q.
  repeat split; auto. pose proof (print_number e Le) as N1. pose proof (print_number e' Le') as N2. rewrite Q in N1.
  pose proof (number_fun _ _ _ N1 N2) as K. assert (Z.of_N e = Z.of_N e') by (apply K; clear - Le Le'; lia). lia.
Qed.
(** what is left of a long name *)
Definition kept (l : bytes) : bytes := firstn (List.length l mod 256) l.
Lemma kept_length : forall l, List.length (kept l) = List.length l mod 256.
Proof.
  intro l. unfold kept. rewrite firstn_length. pose proof (Nat.mod_le (List.length l) 256 ltac:(lia)). lia.
Qed.
Lemma kept_part : forall l, part (kept l) = part l.
Proof.
  intro l. pose proof (Nat.mod_upper_bound (List.length l) 256 ltac:(lia)) as B.
  rewrite part_small by (rewrite kept_length; auto). rewrite kept_length. reflexivity.
Qed.
Lemma kept_refresh : forall hmac t age d h nonce u a,
  refresh hmac t age d h nonce (Some (u, a)) = refresh hmac t age d h nonce (Some (kept u, kept a)).
Proof. intros. cbn [refresh]. unfold signed. rewrite !kept_part. reflexivity. Qed.
Lemma firstn_all_in : forall n (l : bytes) (P : N -> Prop), Forall P l -> Forall P (firstn n l).
Proof. induction n as [|n IH]; intros [|x l] P F; cbn; auto. inversion F; subst. constructor; auto. Qed.
Lemma kept_octets : forall l, octets l -> octets (kept l).
Proof. intros. apply firstn_all_in. auto. Qed.
Lemma kept_clean : forall l, clean l -> clean (kept l).
Proof. intros l C I. apply C. rewrite <- (firstn_skipn (List.length l mod 256) l). apply in_or_app. auto. Qed.
Lemma identity : forall hmac t age d h nonce u a,
  mac32 hmac -> List.length nonce = NONCE_LEN -> octets nonce -> octets u -> octets a -> clean u -> clean a -> (t + age < 2 ^ 64)%N ->
  exists c rest, refresh hmac t age d h nonce (Some (u, a)) = Done (Some (bs "mtevauth=" ++ c ++ bs "; " ++ rest)) /\
    forall now, (0 < now < Z.of_N (t + age))%Z ->
    request_complete hmac now (Some (bs "mtevauth=" ++ c)) =
      Done (Some (firstn (List.length u mod 256) u, firstn (List.length a mod 256) a)).
Proof.
  intros hmac t age d h nonce u a M Ln On Ou Oa Cu Ca Le.
  pose proof (Nat.mod_upper_bound (List.length u) 256 ltac:(lia)). pose proof (Nat.mod_upper_bound (List.length a) 256 ltac:(lia)).
  destruct (issued_accepted hmac t age d h nonce (kept u) (kept a) M Ln On) as (c & rest & R & Pr & A);
    auto using kept_octets, kept_clean; try (rewrite kept_length; auto).
  exists c, rest. rewrite kept_refresh. split; auto. intros now N.
  pose proof (A now [] [] _ (Forall_nil _) (Forall_nil _) (cookies_one _)) as K.
  assert (E : (0 <? now)%Z && (now <? Z.of_N (t + age))%Z = true) by (clear - N; lia). rewrite E in K. exact K.
Qed.

Lemma any_redirect : forall hook users t u p body, clean t -> t <> [] -> ~ In 32%N t -> ~ In 42%N t ->
  clean u -> clean p -> ~ In 32%N (u ++ p) -> ~ In 42%N (u ++ p) -> sets (hook u p) <> None ->
  form_body (login_form u p t) body -> exists who, login hook users None body None = (Some who, Redirect t).
Proof.
  intros hook users t u p body Ct Nt A B Cu Cp Au Bu Hs Fb.
  destruct (form_read _ _ _ _ Cu Cp Ct Fb) as (u' & p' & t' & Ru & Rp & Rt & Nb & Rf).
  rewrite in_app_iff in Au, Bu.
  rewrite (received_same _ _ Ru), (received_same _ _ Rp), (received_same _ _ Rt) in Rf; auto.
  rewrite (login_form_read _ _ _ _ _ _ _ _ Nb Rf). unfold do_auth.
  destruct (sets (hook u p)) as [x|]; [|congruence]. destruct t as [|c t]; [congruence|].
  destruct (what (hook u p)); [eauto|eauto|]. destruct (get users u) as [pw|]; [destruct (beq pw p)|]; eauto.
Qed.
(** a path whose text is not the text of its request *)
Lemma space_lost : forall hook users u p t body, clean u -> clean p -> ~ In 32%N (u ++ p) -> ~ In 42%N (u ++ p) ->
  sets (hook u p) <> None -> clean t -> In 32%N t \/ In 42%N t ->
  form_body (login_form u p t) body -> exists who, login hook users None body None = (Some who, Redirect (bs "/")).
Proof.
  intros hook users u p t body Cu Cp Au Bu Hs Ct I Fb.
  destruct (form_read _ _ _ _ Cu Cp Ct Fb) as (u' & p' & t' & Ru & Rp & Rt & Nb & Rf).
  rewrite in_app_iff in Au, Bu.
  rewrite (received_same _ _ Ru), (received_same _ _ Rp) in Rf; auto.
  assert (t' = []) as -> by (destruct Rt; auto; tauto).
  rewrite (login_form_read _ _ _ _ _ _ _ _ Nb Rf). unfold do_auth.
  destruct (sets (hook u p)) as [x|]; [|congruence].
  destruct (what (hook u p)); [eauto|eauto|]. destruct (get users u) as [pw|]; [destruct (beq pw p)|]; eauto.
Qed.
Lemma denied_login : forall uri, uri <> bs "/login" -> ~ (exists r, uri = bs "/login?" ++ r) -> auth_denied None uri = LoginRedirect.
Proof.
  intros uri N1 N2. unfold auth_denied. rewrite beq_neq by auto.
  destruct (starts (bs "/login?") uri) eqn:E; auto. apply starts_iff in E. contradiction.
Qed.
