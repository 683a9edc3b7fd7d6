From Coq Require Import NArith ZArith List Bool String Lia ZifyBool ZifyNat ZifyN.
From Verif.Url Require Model Spec Proofs.
From Verif.Head Require Model Spec Props.
From Verif.Cookie Require Import Model Spec Proofs Proofs2 Proofs3.
Import ListNotations.
Local Open Scope string_scope.
Local Open Scope list_scope.
Local Open Scope nat_scope.

(** ** Back to the page *)
Lemma login_buff_page : forall uri qs c l t, page_of uri qs = c :: l ->
  url_encode (c :: l) (Url.Model.url_encode_len (Z.of_nat (List.length (c :: l)))) = Some t ->
  login_buff uri qs = Some (bs "/login?whereto=" ++ t).
Proof.
  intros uri qs c l t E H. unfold page_of in E. unfold login_buff. destruct qs as [q|]; rewrite E; rewrite H; reflexivity.
Qed.
Lemma login_buff_ok : forall uri qs, octets uri -> uri <> [] -> (forall q, qs = Some q -> octets q) ->
  exists w, login_buff uri qs = Some (bs "/login?whereto=" ++ w) /\ Url.Spec.pct_encodes (page_of uri qs) w.
Proof.
  intros uri qs O N Q. assert (Op : octets (page_of uri qs)).
  { unfold page_of. destruct qs as [q|]; auto. apply Forall_app. split; auto. constructor; [lia|]. apply Q. reflexivity. }
  assert (Np : page_of uri qs <> []) by (unfold page_of; destruct qs; destruct uri; discriminate || congruence).
  remember (page_of uri qs) as pg eqn:E. destruct pg as [|c l]; [congruence|].
  destruct (encode_ok (c :: l) (Url.Model.url_encode_len (Z.of_nat (List.length (c :: l))))) as (t & P & R); auto.
  - unfold Url.Model.url_encode_len. lia.
  - exists t. split; auto. eapply login_buff_page; eauto.
Qed.
Lemma up_hex : forall v, (v < 16)%N -> Head.Spec.is_hex v (Url.Spec.updigit v).
Proof. intros v L. unfold Head.Spec.is_hex, Url.Spec.updigit. destruct (N.ltb_spec v 10); lia. Qed.
Lemma pct_head : forall l w, Url.Spec.pct_encodes l w -> octets l -> Head.Spec.encodes l w.
Proof.
  intros l w P. induction P as [|c l t U P IH|c l t U P IH]; intro O; [constructor|inversion O; subst..].
  - unfold Url.Spec.unreserved in U. constructor; auto; lia.
  - assert (c / 16 < 16)%N by (apply N.div_lt_upper_bound; lia). assert (c mod 16 < 16)%N by (apply N.mod_lt; lia).
    assert (E : c = (16 * (c / 16) + c mod 16)%N) by (apply N.div_mod; lia).
    enough (K : Head.Spec.encodes ((16 * (c / 16) + c mod 16)%N :: l)
              (37%N :: Url.Spec.updigit (c / 16) :: Url.Spec.updigit (c mod 16) :: t)) by (rewrite <- E in K; exact K).
    apply Head.Spec.enc_hex; auto using up_hex.
Qed.
Lemma plain_encodes : forall l, ~ In 37%N l -> ~ In 43%N l -> Head.Spec.encodes l l.
Proof.
  induction l as [|c l IH]; intros A B; [constructor|]. constructor.
  - intros ->. apply A. left. reflexivity.
  - intros ->. apply B. left. reflexivity.
  - apply IH; intro I; [apply A|apply B]; right; exact I.
Qed.
Lemma login_query : forall page w, octets page -> clean page -> Url.Spec.pct_encodes page w ->
  exists t, Head.Model.process_uri (bs "/login?whereto=" ++ w) = (bs "/login", Some (bs "whereto=" ++ w), t) /\
    Head.Model.querystring t (bs "whereto") = Some page.
Proof.
  intros page w O C P.
  destruct (Head.Props.C109_parameters (bs "/login") (bs "/login") [(bs "whereto", Some page)] (bs "whereto=" ++ w)) as (t & E & F & _).
  - apply plain_encodes; apply absent_dec; reflexivity.
  - apply absent_dec; reflexivity.
  - intro I. revert I. apply absent_dec. reflexivity.
  - apply Head.Spec.query_last. change (bs "whereto=" ++ w) with (bs "whereto" ++ 61%N :: w).
    apply Head.Spec.piece_value; try (apply absent_dec; reflexivity).
    + apply plain_encodes; apply absent_dec; reflexivity.
    + apply pct_head; auto.
    + intro I. pose proof (pct_chars _ _ P O) as H. rewrite Forall_forall in H. apply H in I. unfold Url.Spec.unreserved in I. lia.
  - constructor; [|constructor]. unfold Head.Spec.nul_free. cbn [fst snd]. split; [|exact C].
    intro I. revert I. apply absent_dec. reflexivity.
  - exists t. split; [exact E|]. apply F. apply (Head.Spec.first_some _ [] (Some page) []). intros v [].
Qed.
Lemma html_fun : forall t l, Url.Spec.html_unescapes t l -> forall l', Url.Spec.html_unescapes t l' -> l' = l.
Proof.
  intros t l H. induction H as [|c t l N H IH|t l H IH|t l H IH|t l H IH|t l H IH|t l H IH]; intros l' H';
    inversion H'; subst; try congruence; f_equal; auto.
Qed.
Lemma cstring_clean : forall l, clean l -> Url.Spec.cstring l = l.
Proof.
  induction l as [|x l IH]; intro C; auto. cbn. destruct (N.eqb_spec x 0) as [->|]; [exfalso; apply C; left; reflexivity|].
  rewrite IH; auto. intro I. apply C. right. exact I.
Qed.
Lemma html_length : forall l, List.length (Url.Proofs.html_text l) <= 5 * List.length l.
Proof.
  induction l as [|c l IH]; auto. cbn [Url.Proofs.html_text flat_map]. fold (Url.Proofs.html_text l). rewrite app_length.
  pose proof (Url.Proofs.repl_len c). cbn [List.length]. lia.
Qed.
Lemma hidden_ok : forall l, clean l -> Url.Spec.html_unescapes (hidden (47%N :: l)) (47%N :: l).
Proof.
  intros l C. assert (C' : clean (47%N :: l)) by (intros [I|I]; [discriminate|auto]).
  unfold hidden, Url.Model.html_encode. 
  assert (E5 : Url.Model.html_encode_len (Z.of_nat (List.length (47%N :: l))) = (5 * Z.of_nat (List.length (47%N :: l)) + 1)%Z)
    by (unfold Url.Model.html_encode_len; lia).
  rewrite E5. destruct (Z.ltb_spec (5 * Z.of_nat (List.length (47%N :: l)) + 1) 1); [lia|].
  rewrite Url.Proofs.html_loop_ok.
  - cbn [Url.Model.hret Url.Model.hstores]. rewrite cstring_clean by auto.
    destruct (List.length (Url.Proofs.html_text (47%N :: l))) as [|k] eqn:K; [discriminate|].
    rewrite <- K, first_at. apply Url.Proofs.html_unescapes_text.
  - cbn [List.length]. lia.
  - right. rewrite cstring_clean by auto. pose proof (html_length l). cbn [Url.Proofs.html_text flat_map].
    fold (Url.Proofs.html_text l). rewrite app_length. change (List.length (Url.Model.html_repl 47)) with 1. cbn [List.length]. lia.
Qed.
Lemma back : forall hook users r qs u p body,
  let path := 47%N :: r in let page := page_of path qs in
  octets page -> clean page -> ~ In 32%N page -> ~ In 42%N page ->
  clean u -> clean p -> ~ In 32%N (u ++ p) -> ~ In 42%N (u ++ p) -> sets (hook u p) <> None ->
  exists location t h,
    login_buff path qs = Some location /\
    Head.Model.process_uri location = (bs "/login", Some (skipn 7 location), t) /\
    login hook users None [] (Head.Model.querystring t (bs "whereto")) = (None, Page h []) /\
    (forall field, Url.Spec.html_unescapes h field <-> field = page) /\
    (form_body (login_form u p page) body ->
     exists who, login hook users None body None = (Some who, Redirect page)).
Proof.
  intros hook users r qs u p body path page O C A B Cu Cp Au Bu Hs.
  assert (Opath : octets path /\ forall q, qs = Some q -> octets q).
  { unfold page, page_of in O. destruct qs as [q|]; [apply Forall_app in O as [O1 O2]; split; auto|split; auto; discriminate].
    intros q' E. inversion E; subst. inversion O2; auto. }
  destruct Opath as [O1 O2].
  destruct (login_buff_ok path qs O1 ltac:(discriminate) O2) as (w & Lb & P).
  destruct (login_query _ _ O C P) as (t & E & Q).
  exists (bs "/login?whereto=" ++ w), t, (hidden page). split; auto. split; [exact E|].
  split; [rewrite Q; reflexivity|].
  assert (Hh : Url.Spec.html_unescapes (hidden page) page).
  { assert (exists l, page = 47%N :: l) as [l El] by (unfold page, page_of; destruct qs; eexists; reflexivity).
    rewrite El in *. apply hidden_ok. intro I. apply C. right. exact I. }
  split; [intro field; split; [apply (html_fun _ _ Hh)|intros ->; exact Hh]|].
  intro Fb. destruct (form_read _ _ _ _ Cu Cp C Fb) as (u' & p' & t' & Ru & Rp & Rt & Nb & Rf).
  rewrite in_app_iff in Au, Bu.
  rewrite (received_same _ _ Ru), (received_same _ _ Rp), (received_same _ _ Rt) in Rf; auto.
  rewrite (login_form_read _ _ _ _ _ _ _ _ Nb Rf). unfold do_auth.
  destruct (sets (hook u p)) as [x|]; [|congruence].
  assert (Ep : match page with [] => bs "/" | _ => page end = page) by (unfold page, page_of, path; destruct qs; reflexivity).
  destruct (what (hook u p)); [rewrite Ep; eauto|rewrite Ep; eauto|].
  destruct (get users u) as [pw|]; [destruct (beq pw p)|]; rewrite Ep; eauto.
Qed.

(** ** Domains *)
Lemma strchr_none : forall c l, strchr c l = None <-> ~ In c l.
Proof.
  intros c. induction l as [|x l IH]; cbn; [tauto|]. destruct (N.eqb_spec x c) as [->|N].
  - split; [discriminate|intro H; destruct H; auto].
  - destruct (strchr c l) eqn:E; cbn.
    + split; [discriminate|]. intro H. destruct IH as [_ IH]. discriminate IH. intro I. apply H. auto.
    + split; auto. intros _ [I|I]; [congruence|]. apply IH; auto.
Qed.
Lemma strchr_some : forall c l k, strchr c l = Some k -> exists a b, l = a ++ c :: b /\ ~ In c a /\ k = List.length a.
Proof.
  intros c. induction l as [|x l IH]; cbn; intros k H; [discriminate|]. destruct (N.eqb_spec x c) as [->|N].
  - injection H as <-. exists [], l. auto.
  - destruct (strchr c l) as [j|]; [|discriminate]. injection H as <-. destruct (IH j eq_refl) as (a & b & -> & Na & ->).
    exists (x :: a), b. repeat split; auto. intros [I|I]; auto.
Qed.
Lemma strrchr_none : forall c l, ~ In c l -> strrchr c l = None.
Proof.
  intros c. induction l as [|x l IH]; intro N; auto. cbn. rewrite IH by (intro I; apply N; right; auto).
  destruct (N.eqb_spec x c) as [->|]; auto. destruct N. left. reflexivity.
Qed.
Lemma strrchr_at : forall c a b, ~ In c b -> strrchr c (a ++ c :: b) = Some (List.length a).
Proof.
  intros c. induction a as [|x a IH]; intros b N.
  - cbn. rewrite strrchr_none by auto. rewrite N.eqb_refl. reflexivity.
  - cbn [app strrchr]. rewrite IH by auto. reflexivity.
Qed.
Lemma last_nth : forall (l : bytes) d, l <> [] -> nth (List.length l - 1) l d = last l d.
Proof.
  induction l as [|x l IH]; intros d N; [congruence|]. destruct l as [|y l]; auto.
  change (last (x :: y :: l) d) with (last (y :: l) d). rewrite <- IH by discriminate. cbn [List.length].
  replace (S (S (List.length l)) - 1) with (S (S (List.length l) - 1)) by lia. reflexivity.
Qed.
Lemma letter_iff : forall c, isalpha c = true <-> letter c.
Proof. intro c. unfold isalpha, letter. lia. Qed.
Lemma first_two : forall (a b a' b' : bytes) c, ~ In c a -> ~ In c a' -> a ++ c :: b = a' ++ c :: b' -> a = a' /\ b = b'.
Proof.
  induction a as [|x a IH]; intros b [|y a'] b' c N N' E; cbn in E.
  - injection E as E. auto.
  - injection E as Ec E. subst y. destruct N'. left. reflexivity.
  - injection E as Ec E. subst x. destruct N. left. reflexivity.
  - injection E as Ec E. subst y. destruct (IH b a' b' c) as [-> ->]; auto; intro I; [apply N|apply N']; right; exact I.
Qed.
(** the part after the first dot, then the port *)
Lemma domain_core : forall a d x, ~ In 46%N a -> ~ In 58%N d ->
  (x = [] \/ exists p, x = 58%N :: p /\ Forall (fun c => (48 <= c <= 57)%N) p) ->
  domain_of (a ++ 46%N :: d ++ x) =
    if existsb (N.eqb 46) d && isalpha (last d 0%N) then Some d else None.
Proof.
  intros a d x Na Nd X. unfold domain_of. rewrite strchr_at by auto.
  assert (Sk : skipn (List.length a) (a ++ 46%N :: d ++ x) = 46%N :: d ++ x)
    by (rewrite skipn_app, skipn_all, Nat.sub_diag; reflexivity).
  rewrite Sk. cbn [skipn].
  assert (Hl : match strrchr 58 (46%N :: d ++ x) with Some j => j | None => List.length (46%N :: d ++ x) end - 1 = List.length d).
  { destruct X as [->|(p & -> & F)].
    - rewrite app_nil_r. rewrite strrchr_none; [cbn [List.length]; lia|]. intros [I|I]; [lia|contradiction].
    - change (46%N :: d ++ 58%N :: p) with ((46%N :: d) ++ 58%N :: p). rewrite strrchr_at; [cbn [List.length]; lia|].
      intro I. rewrite Forall_forall in F. apply F in I. lia. }
  rewrite Hl.
  assert (Dt : match strchr 46 (d ++ x) with Some _ => true | None => false end = existsb (N.eqb 46) d).
  { destruct (strchr 46 (d ++ x)) eqn:E.
    - apply strchr_some in E as (a' & b & E & _ & _). symmetry. apply existsb_exists. exists 46%N. split; [|reflexivity].
      assert (I : In 46%N (d ++ x)) by (rewrite E; apply in_or_app; right; left; reflexivity).
      apply in_app_or in I as [I|I]; auto. destruct X as [->|(p & -> & F)]; [destruct I|].
      destruct I as [I|I]; [lia|]. rewrite Forall_forall in F. apply F in I. lia.
    - apply strchr_none in E. destruct (existsb (N.eqb 46) d) eqn:Q; auto. apply existsb_exists in Q as (y & I & Q).
      apply N.eqb_eq in Q. subst y. destruct E. apply in_or_app. auto. }
  rewrite Dt.
  destruct (existsb (N.eqb 46) d) eqn:Ex; [|rewrite andb_false_r; reflexivity]. rewrite andb_true_r.
  destruct d as [|y d]; [discriminate|].
  assert (Nth : nth (List.length (y :: d)) (46%N :: (y :: d) ++ x) 0%N = last (y :: d) 0%N).
  { rewrite <- last_nth by discriminate. cbn [List.length]. replace (S (List.length d) - 1) with (List.length d) by lia.
    change (nth (S (List.length d)) (46%N :: (y :: d) ++ x) 0%N) with (nth (List.length d) ((y :: d) ++ x) 0%N).
    apply app_nth1. cbn; lia. }
  rewrite Nth.
  destruct (isalpha (last (y :: d) 0%N)) eqn:Al; [|rewrite andb_false_r; reflexivity].
  assert (L2 : (2 <? List.length (46%N :: (y :: d) ++ x)) = true).
  { cbn [List.length app]. destruct d as [|z d]; [|cbn [app List.length]; apply Nat.ltb_lt; lia].
    exfalso. cbn [existsb] in Ex. apply letter_iff in Al. unfold letter in Al. cbn [last] in Al. lia. }
  rewrite L2. cbn [andb]. rewrite first_at. reflexivity.
Qed.
Lemma domain_exact : forall h hdr d, host_header h hdr ->
  (domain_of hdr = Some d <-> exists label, ~ In 46%N label /\ h = label ++ 46%N :: d /\ In 46%N d /\ letter (last d 0%N)).
Proof.
  intros h hdr d H.
  assert (exists x, hdr = h ++ x /\ ~ In 58%N h /\ (x = [] \/ exists p, x = 58%N :: p /\ Forall (fun c => (48 <= c <= 57)%N) p)) as (x & -> & Nh & X).
  { destruct H as [h N|h p N F]; [exists []; rewrite app_nil_r; auto|]. exists (58%N :: p). repeat split; auto. right. eauto. }
  destruct (strchr 46 h) as [k|] eqn:E.
  - apply strchr_some in E as (a & b & -> & Na & _). rewrite <- app_assoc. rewrite <- app_comm_cons. rewrite domain_core; auto.
    2: { intro I. apply Nh. apply in_or_app. right. right. exact I. }
    split.
    + destruct (existsb (N.eqb 46) b && isalpha (last b 0%N)) eqn:Q; [|discriminate]. intro E. injection E as ->.
      apply andb_true_iff in Q as [Q1 Q2]. exists a. apply existsb_exists in Q1 as (y & I & Q1). apply N.eqb_eq in Q1. subst y.
      apply letter_iff in Q2. auto.
    + intros (l & Nl & E & I & Lt). destruct (first_two _ _ _ _ _ Na Nl E) as [-> ->].
      assert (Q1 : existsb (N.eqb 46) d = true) by (apply existsb_exists; exists 46%N; auto).
      apply letter_iff in Lt. rewrite Q1, Lt. reflexivity.
  - apply strchr_none in E. split.
    + unfold domain_of. assert (strchr 46 (h ++ x) = None) as ->; [|discriminate]. apply strchr_none. intro I.
      apply in_app_or in I as [I|I]; auto. destruct X as [->|(p & -> & F)]; [destruct I|].
      destruct I as [I|I]; [lia|]. rewrite Forall_forall in F. apply F in I. lia.
    + intros (l & _ & -> & _). destruct E. apply in_or_app. right. left. reflexivity.
Qed.

(** ** Configuration *)
Lemma beq_neq : forall a b, a <> b -> beq a b = false.
Proof. intros a b N. destruct (beq a b) eqn:E; auto. apply beq_eq in E. contradiction. Qed.
Lemma get_set : forall t k v k', get (set t k v) k' = if beq k k' then Some v else get t k'.
Proof.
  induction t as [|[k0 v0] t IH]; intros k v k'; cbn.
  - reflexivity.
  - destruct (beq k0 k) eqn:E; cbn.
    + apply beq_eq in E. subst k0. destruct (beq k k'); reflexivity.
    + rewrite IH. destruct (beq k0 k') eqn:E'; auto. destruct (beq k k') eqn:E''; auto.
      apply beq_eq in E', E''. subst. rewrite beq_refl in E. discriminate.
Qed.
Section Conf.
Variable b64 : bytes -> bytes.
Lemma setting_user : forall c n v, setting b64 c (bs "user_" ++ n, v) =
  Some (mkconf (key c) (max_age c) (domain c) (set (users c) n v)).
Proof. intros. reflexivity. Qed.
Lemma config_keeps : forall l c c', config b64 c l = Some c' ->
  (~ In (bs "key") (map fst l) -> key c' = key c) /\ (~ In (bs "max_age") (map fst l) -> max_age c' = max_age c) /\
  domain c' = domain c /\ (forall n, ~ In (bs "user_" ++ n) (map fst l) -> get (users c') n = get (users c) n).
Proof.
  induction l as [|[k v] l IH]; intros c c' H; cbn [config] in H; [injection H as <-; auto|].
  destruct (setting b64 c (k, v)) as [c1|] eqn:E; [|discriminate]. apply IH in H as (A & B & D & U). clear IH. unfold setting in E. cbn [map fst].
  destruct (beq k (bs "key")) eqn:K1.
  { apply beq_eq in K1. subst k. destruct (_ =? 32); [|discriminate]. injection E as <-. cbn [key max_age domain users] in *.
    split; [intro N; destruct N; left; reflexivity|]. split; [intro N; apply B; intro I; apply N; right; auto|]. split; auto.
    intros n N. apply U. intro I. apply N. right. auto. }
  destruct (beq k (bs "max_age")) eqn:K2.
  { apply beq_eq in K2. subst k. injection E as <-. cbn [key max_age domain users] in *.
    split; [intro N; apply A; intro I; apply N; right; auto|]. split; [intro N; destruct N; left; reflexivity|]. split; auto.
    intros n N. apply U. intro I. apply N. right. auto. }
  destruct (starts (bs "user_") k) eqn:K3.
  { injection E as <-. cbn [key max_age domain users] in *. apply starts_iff in K3 as [r ->].
    split; [intro N; apply A; intro I; apply N; right; auto|]. split; [intro N; apply B; intro I; apply N; right; auto|]. split; auto.
    intros n N. rewrite U by (intro I; apply N; right; auto). rewrite get_set.
    match goal with |- (if beq ?x _ then _ else _) = _ => change x with r end. destruct (beq r n) eqn:Q; auto. apply beq_eq in Q. subst r. destruct N. left. reflexivity. }
  injection E as <-.
  split; [intro N; apply A; intro I; apply N; right; auto|]. split; [intro N; apply B; intro I; apply N; right; auto|]. split; auto.
  intros n N. apply U. intro I. apply N. right. auto.
Qed.
Lemma config_app : forall l1 l2 c, config b64 c (l1 ++ l2) = match config b64 c l1 with Some c1 => config b64 c1 l2 | None => None end.
Proof.
  induction l1 as [|kv l1 IH]; intros l2 c; auto. cbn [app config]. destruct (setting b64 c kv); auto.
Qed.
Lemma config_split : forall l c c' k v, NoDup (map fst l) -> In (k, v) l -> config b64 c l = Some c' ->
  exists c1 c2 l2, ~ In k (map fst l2) /\ setting b64 c1 (k, v) = Some c2 /\ config b64 c2 l2 = Some c'.
Proof.
  intros l c c' k v Nd I H. apply in_split in I as (l1 & l2 & ->). rewrite config_app in H. cbn [config] in H.
  destruct (config b64 c l1) as [c1|]; [|discriminate]. destruct (setting b64 c1 (k, v)) as [c2|] eqn:E; [|discriminate].
  exists c1, c2, l2. split; auto. rewrite map_app in Nd. cbn [map fst] in Nd. apply NoDup_remove_2 in Nd.
  intro J. apply Nd. apply in_or_app. auto.
Qed.
Lemma config_values : forall l c', NoDup (map fst l) -> config b64 conf0 l = Some c' ->
  (forall v, In (bs "key", v) l -> key c' = Some (b64 v) /\ List.length (b64 v) = 32) /\
  (~ In (bs "key") (map fst l) -> key c' = None) /\
  (forall v n, In (bs "max_age", v) l -> number v n -> (n < 2 ^ 32)%Z -> Z.of_N (max_age c') = n) /\
  (~ In (bs "max_age") (map fst l) -> max_age c' = 86400%N) /\
  (forall n v, In (bs "user_" ++ n, v) l -> get (users c') n = Some v) /\
  (forall n, ~ In (bs "user_" ++ n) (map fst l) -> get (users c') n = None) /\
  domain c' = None.
Proof.
  intros l c' Nd H. pose proof (config_keeps _ _ _ H) as (A & B & D & U).
  split.
  { intros v I. destruct (config_split _ _ _ _ _ Nd I H) as (c1 & c2 & l2 & N & E & R).
    apply config_keeps in R as (A' & _). rewrite A' by auto. unfold setting in E. rewrite beq_refl in E.
    destruct (Nat.eqb_spec (List.length (b64 v)) 32); [|discriminate]. injection E as <-. auto. }
  split; [exact A|]. split.
  { intros v n I Nm L. destruct (config_split _ _ _ _ _ Nd I H) as (c1 & c2 & l2 & N & E & R).
    apply config_keeps in R as (_ & B' & _). rewrite B' by auto. unfold setting in E.
    change (beq (bs "max_age") (bs "key")) with false in E. rewrite beq_refl in E. injection E as <-. cbn [max_age].
    destruct (number_digits _ _ Nm) as (_ & _ & _ & P).
    rewrite (strtoull_number _ _ Nm) by (clear - L; lia). rewrite Z.mod_small by (clear - L P; lia).
    rewrite Z2N.id by exact P. reflexivity. }
  split; [exact B|]. split.
  { intros n v I. destruct (config_split _ _ _ _ _ Nd I H) as (c1 & c2 & l2 & N & E & R).
    apply config_keeps in R as (_ & _ & _ & U'). rewrite U' by auto. rewrite setting_user in E. injection E as <-. cbn [users].
    rewrite get_set, beq_refl. reflexivity. }
  split; [exact U|exact D].
Qed.
Lemma config_fails : forall l c, config b64 c l = None <-> exists v, In (bs "key", v) l /\ List.length (b64 v) <> 32.
Proof.
  induction l as [|[k v] l IH]; intro c; cbn [config].
  - split; [discriminate|intros (v & [] & _)].
  - destruct (setting b64 c (k, v)) as [c1|] eqn:E.
    + rewrite IH. split.
      * intros (v' & I & L). exists v'. split; [right|]; auto.
      * intros (v' & [I|I] & L); [|eauto]. injection I as -> ->. exfalso. unfold setting in E. rewrite beq_refl in E.
        destruct (Nat.eqb_spec (List.length (b64 v')) 32); [congruence|discriminate].
    + split; auto. intros _. unfold setting in E. destruct (beq k (bs "key")) eqn:K1.
      * apply beq_eq in K1. subst k. exists v. split; [left; reflexivity|]. destruct (Nat.eqb_spec (List.length (b64 v)) 32); [discriminate|auto].
      * exfalso. destruct (beq k (bs "max_age")); [discriminate|]. destruct (starts _ k); discriminate.
Qed.
End Conf.
