From Coq Require Import NArith ZArith List Bool String Lia ZifyBool ZifyNat ZifyN.
From Verif.Url Require Model Spec.
From Verif.Head Require Model.
From Verif.Cookie Require Import Model Spec Proofs Proofs2 Proofs3 Proofs4 Proofs5.
Import ListNotations.
Local Open Scope string_scope.
Local Open Scope list_scope.
Local Open Scope nat_scope.

(** a signature, a nonce, and ways to tell things about literals *)
Definition ex_mac (s : bytes) : bytes := repeat (N.of_nat (List.length s mod 256)) 32.
Definition ex_nonce : bytes := [1; 2; 3; 4; 5; 6; 7; 200]%N.
Lemma ex_mac32 : mac32 ex_mac.
Proof.
  intro s. split; [apply repeat_length|]. apply Forall_forall. intros x I. apply repeat_spec in I. subst x.
  pose proof (Nat.mod_upper_bound (List.length s) 256 ltac:(lia)). lia.
Qed.
Lemma octets_dec : forall l, forallb (fun c => c <? 256)%N l = true -> octets l.
Proof. intros l H. apply Forall_forall. intros x I. rewrite forallb_forall in H. apply H in I. lia. Qed.
Lemma clean_dec : forall l, existsb (N.eqb 0) l = false -> clean l.
Proof. intros l H. apply absent_dec. exact H. Qed.

(** ** C117: an issued cookie identifies its user until it expires. *)
Theorem C117_round_trip : forall hmac t age d h nonce u a,
  mac32 hmac -> List.length nonce = NONCE_LEN -> octets nonce -> octets u -> octets a ->
  List.length u < 256 -> List.length a < 256 -> clean u -> clean a -> (t + age < 2 ^ 64)%N ->
  exists c rest, refresh hmac t age d h nonce (Some (u, a)) = Done (Some (bs "mtevauth=" ++ c ++ bs "; " ++ rest)) /\
    pair (bs "mtevauth=" ++ c) /\
    forall now before after header, Forall (fun p => pair p /\ ~ ours p) before -> Forall pair after ->
      cookies (before ++ (bs "mtevauth=" ++ c) :: after) header ->
      request_complete hmac now (Some header) =
        Done (if (0 <? now)%Z && (now <? Z.of_N (t + age))%Z then Some (u, a) else None).
Proof. exact issued_accepted. Qed.
Print Assumptions C117_round_trip.
Example C117_round_trip_ex :
  (mac32 ex_mac /\ List.length ex_nonce = NONCE_LEN /\ octets ex_nonce /\ octets (bs "ann") /\ octets (bs "x y")) /\
  exists c rest, refresh ex_mac 1000 60 None (Some (bs "www.example.com:80")) ex_nonce (Some (bs "ann", bs "x y")) =
      Done (Some (bs "mtevauth=" ++ c ++ bs "; " ++ rest)) /\
    rest = bs "Max-Age=60; Domain=example.com" /\
    let h := bs "a=b; mtevauth=" ++ c ++ bs "; z=" in
    request_complete ex_mac 1059 (Some h) = Done (Some (bs "ann", bs "x y")) /\
    request_complete ex_mac 1060 (Some h) = Done None.
Proof.
  split; [split; [apply ex_mac32|split; [reflexivity|repeat split; apply octets_dec; reflexivity]]|].
  exists (bs "%0Bhmac_cookie%08%01%02%03%04%05%06%07%C8%03ann%03x%20y%041060%20" ++
    List.concat (repeat (bs "%22") 32)), (bs "Max-Age=60; Domain=example.com").
  vm_compute. repeat split; reflexivity.
Qed.

(** ** C118: nobody is authenticated but by a cookie that bears the signature
    of what it says. *)
Theorem C118_accepted : forall hmac now header u a, mac32 hmac ->
  request_complete hmac now (Some header) = Done (Some (u, a)) ->
  exists v payload nonce U A T s, (exists x y, header = x ++ bs "mtevauth=" ++ v ++ y) /\ Url.Spec.pct_decodes v payload /\
    bears hmac payload s /\ parts [bs "hmac_cookie"; nonce; U; A; T] s /\ c_string U u /\ c_string A a /\
    exists E, c_string T E /\ (0 < now < strtoull E)%Z.
Proof. exact accepted. Qed.
Print Assumptions C118_accepted.
Example C118_accepted_ex :
  let s := bs "%0Bhmac_cookie%00%03ann%00%019" in
  request_complete ex_mac 5 (Some (bs "mtevauth=" ++ s ++ bs "%20" ++ List.concat (repeat (bs "%14") 32))) = Done (Some (bs "ann", [])) /\
  request_complete ex_mac 5 (Some (bs "mtevauth=" ++ s ++ bs "%20" ++ List.concat (repeat (bs "%13") 32))) = Done None.
Proof. vm_compute. auto. Qed.
(** If no text but those of issued cookies bears a signature, the user is one a
    cookie was issued to, and it has not expired. *)
Theorem C118_issued : forall hmac now header u a (issued : list (bytes * bytes * bytes * N)), mac32 hmac ->
  Forall (fun i => let '(n, u, a, e) := i in List.length n = NONCE_LEN /\ List.length u < 256 /\ clean u /\
                   List.length a < 256 /\ clean a /\ (e < 2 ^ 64)%N) issued ->
  (forall v payload s, (exists x y, header = x ++ v ++ y) -> Url.Spec.pct_decodes v payload -> bears hmac payload s ->
     exists n u a e, In (n, u, a, e) issued /\ s = signed n u a e) ->
  request_complete hmac now (Some header) = Done (Some (u, a)) ->
  exists n e, In (n, u, a, e) issued /\ (0 < now < Z.of_N e)%Z.
Proof. exact unforgeable. Qed.
Print Assumptions C118_issued.
(** a signature that marks one text only *)
Definition mark_mac (s : bytes) : bytes :=
  if beq s (signed ex_nonce (bs "ann") [] 9) then repeat 0%N 32 else repeat 1%N 32.
Example C118_issued_ex :
  let i := [(ex_nonce, bs "ann", @nil N, 9%N)] in
  mac32 mark_mac /\
  Forall (fun i => let '(n, u, a, e) := i in List.length n = NONCE_LEN /\ List.length u < 256 /\ clean u /\
                   List.length a < 256 /\ clean a /\ (e < 2 ^ 64)%N) i /\
  request_complete mark_mac 5 (Some (bs "mtevauth=%0Bhmac_cookie%08%01%02%03%04%05%06%07%C8%03ann%00%019%20" ++
     List.concat (repeat (bs "%00") 32))) = Done (Some (bs "ann", [])).
Proof.
  split; [|split; [|vm_compute; reflexivity]].
  - intro s. unfold mark_mac. destruct (beq _ _); (split; [reflexivity|apply octets_dec; reflexivity]).
  - constructor; [|constructor]. repeat split; try (apply clean_dec; reflexivity); vm_compute; lia.
Qed.
(** what is signed tells all it is about *)
Theorem C118_distinct : forall n u a e n' u' a' e', List.length n = NONCE_LEN -> List.length n' = NONCE_LEN ->
  List.length u < 256 -> List.length a < 256 -> List.length u' < 256 -> List.length a' < 256 ->
  (e < 2 ^ 64)%N -> (e' < 2 ^ 64)%N -> signed n u a e = signed n' u' a' e' -> n = n' /\ u = u' /\ a = a' /\ e = e'.
Proof. exact signed_inj. Qed.
Print Assumptions C118_distinct.
Example C118_distinct_ex : signed ex_nonce (bs "ab") (bs "c") 12 <> signed ex_nonce (bs "a") (bs "bc") 12.
Proof. vm_compute. discriminate. Qed.

(** ** C119: the user in a cookie is the user who logged in. *)
Definition C119_full : Prop := forall hmac t age d h nonce u a c rest now,
  mac32 hmac -> List.length nonce = NONCE_LEN -> octets nonce -> octets u -> octets a -> clean u -> clean a -> (t + age < 2 ^ 64)%N ->
  refresh hmac t age d h nonce (Some (u, a)) = Done (Some (bs "mtevauth=" ++ c ++ bs "; " ++ rest)) ->
  (0 < now < Z.of_N (t + age))%Z ->
  request_complete hmac now (Some (bs "mtevauth=" ++ c)) = Done (Some (u, a)).
(** Of names of 256 bytes or more only the first (length mod 256) are in it. *)
Theorem C119_identity_partial : forall hmac t age d h nonce u a,
  mac32 hmac -> List.length nonce = NONCE_LEN -> octets nonce -> octets u -> octets a -> clean u -> clean a -> (t + age < 2 ^ 64)%N ->
  exists c rest, refresh hmac t age d h nonce (Some (u, a)) = Done (Some (bs "mtevauth=" ++ c ++ bs "; " ++ rest)) /\
    forall now, (0 < now < Z.of_N (t + age))%Z ->
    request_complete hmac now (Some (bs "mtevauth=" ++ c)) =
      Done (Some (firstn (List.length u mod 256) u, firstn (List.length a mod 256) a)).
Proof. exact identity. Qed.
Print Assumptions C119_identity_partial.
Example C119_identity_partial_ex : firstn (List.length (bs "root" ++ repeat 120%N 256) mod 256) (bs "root" ++ repeat 120%N 256) = bs "root".
Proof. vm_compute. reflexivity. Qed.
(** the cookie of a long name is one of the name it begins with *)
Theorem C119_long_refuted : forall hmac t age d h nonce v w a, List.length v < 256 -> List.length w = 256 ->
  refresh hmac t age d h nonce (Some (v ++ w, a)) = refresh hmac t age d h nonce (Some (v, a)).
Proof. exact long_user. Qed.
Print Assumptions C119_long_refuted.
Example C119_long_refuted_ex : List.length (bs "root") < 256 /\ List.length (repeat 120%N 256) = 256 /\
  bs "root" ++ repeat 120%N 256 <> bs "root".
Proof. split; [cbn; lia|]. split; [reflexivity|]. vm_compute. discriminate. Qed.

(** ** C120: no request makes it leave its buffers. *)
Theorem C120_reading : forall hmac now c, request_complete hmac now c <> Bad.
Proof. exact complete_safe. Qed.
Print Assumptions C120_reading.
Example C120_reading_ex : request_complete ex_mac 5 (Some (bs "mtevauth=%FFhm")) = Done None /\
  request_complete ex_mac 5 (Some (bs "mtevauth=;mtevauth=%")) = Done None.
Proof. vm_compute. auto. Qed.
Theorem C120_issuing : forall hmac now age d h nonce who, List.length nonce = NONCE_LEN ->
  refresh hmac now age d h nonce who <> Bad.
Proof. exact refresh_safe. Qed.
Print Assumptions C120_issuing.
Example C120_issuing_ex : List.length ex_nonce = NONCE_LEN.
Proof. reflexivity. Qed.

(** ** C121: the credentials checked are those the browser sent. *)
Definition C121_full : Prop := forall u p t body, clean u -> clean p -> clean t -> form_body (login_form u p t) body ->
  read_form body = mkform (Some u) (Some p) (Some t).
Theorem C121_credentials_partial : forall u p t body, clean u -> clean p -> clean t -> form_body (login_form u p t) body ->
  ~ In 32%N (u ++ p ++ t) -> ~ In 42%N (u ++ p ++ t) -> read_form body = mkform (Some u) (Some p) (Some t).
Proof. exact form_exact. Qed.
Print Assumptions C121_credentials_partial.
Ltac safe := apply form_self; [unfold form_safe; cbn; lia|].
Example C121_credentials_partial_ex :
  form_body (login_form (bs "u") (bs "p%") (bs "/")) (bs "whereto=%2F&username=u&password=p%25") /\
  read_form (bs "whereto=%2F&username=u&password=p%25") = mkform (Some (bs "u")) (Some (bs "p%")) (Some (bs "/")).
Proof.
  split; [|vm_compute; reflexivity].
  apply (body_more (bs "whereto") _ (bs "%2F") _ (bs "username=u&password=p%25")).
  { apply form_hex; [unfold form_safe; cbn; lia|discriminate|reflexivity|constructor]. }
  apply (body_more (bs "username") _ (bs "u") _ (bs "password=p%25")); [safe; constructor|].
  apply (body_one (bs "password") _ (bs "p%25")). safe.
  apply form_hex; [unfold form_safe; cbn; lia|discriminate|reflexivity|constructor].
Qed.
(** a value with a space or an asterisk is received as the empty one *)
Theorem C121_lost : forall u p t body, clean u -> clean p -> clean t -> form_body (login_form u p t) body ->
  exists u' p' t', received u u' /\ received p p' /\ received t t' /\
    body <> [] /\ read_form body = mkform (Some u') (Some p') (Some t').
Proof. exact form_read. Qed.
Print Assumptions C121_lost.
Example C121_lost_ex : form_encodes (bs "a b*") (bs "a+b*") /\ received (bs "a b*") [] /\
  read_form (bs "whereto=&username=u&password=a+b*") = mkform (Some (bs "u")) (Some []) (Some []).
Proof.
  split; [safe; apply form_plus; safe; safe; constructor|]. split; [apply recv_lost; cbn; auto|vm_compute; reflexivity].
Qed.
Theorem C121_refuted : ~ C121_full.
Proof.
  intro F. specialize (F (bs "u") (bs "a b") (bs "x") (bs "whereto=x&username=u&password=a+b")).
  assert (E : read_form (bs "whereto=x&username=u&password=a+b") = mkform (Some (bs "u")) (Some []) (Some (bs "x"))) by (vm_compute; reflexivity).
  rewrite E in F. discriminate F; try (apply clean_dec; reflexivity).
  apply (body_more (bs "whereto") _ (bs "x") _ (bs "username=u&password=a+b")); [safe; constructor|].
  apply (body_more (bs "username") _ (bs "u") _ (bs "password=a+b")); [safe; constructor|].
  apply (body_one (bs "password") _ (bs "a+b")). safe. apply form_plus. safe. constructor.
Qed.
Print Assumptions C121_refuted.

(** ** C122: a login succeeds only with credentials that are accepted. *)
Definition C122_full : Prop := forall hook users who body query u p, body <> [] ->
  user (read_form body) = Some u -> pass (read_form body) = Some p -> sets (hook u p) = None ->
  what (hook u p) <> HookContinue \/ get users u <> Some p ->
  exists h e, snd (login hook users who body query) = Page h e.
Theorem C122_success_partial : forall hook users body query x ans, login hook users None body query = (Some x, ans) ->
  exists u p, user (read_form body) = Some u /\ pass (read_form body) = Some p /\
    (sets (hook u p) = Some x /\ (what (hook u p) <> HookContinue \/ get users u <> Some p)
     \/ what (hook u p) = HookContinue /\ get users u = Some p /\ x = (u, bs "hmac_cookie_test")).
Proof. exact login_who. Qed.
Print Assumptions C122_success_partial.
Definition no_hook (u p : bytes) : hook_result := mkhook HookContinue None None.
Example C122_success_partial_ex :
  login no_hook [(bs "u", bs "p")] None (bs "username=u&password=p") None = (Some (bs "u", bs "hmac_cookie_test"), Redirect (bs "/")).
Proof. vm_compute. reflexivity. Qed.
Theorem C122_refused_partial : forall hook users body query u p, body <> [] ->
  user (read_form body) = Some u -> pass (read_form body) = Some p -> sets (hook u p) = None ->
  what (hook u p) <> HookContinue \/ get users u <> Some p ->
  exists h e, login hook users None body query = (None, Page h e).
Proof. exact login_refused. Qed.
Print Assumptions C122_refused_partial.
Example C122_refused_partial_ex :
  login no_hook [(bs "u", bs "p")] None (bs "username=u&password=q&whereto=%2Fa%26") None =
    (None, Page (bs "/a&amp;") (bs "authentication failed")).
Proof. vm_compute. reflexivity. Qed.
(** but a request that has a cookie already is told it has logged in *)
Theorem C122_cookie_refuted : forall hook users who body query u p, body <> [] ->
  user (read_form body) = Some u -> pass (read_form body) = Some p -> who <> None ->
  exists w l, login hook users who body query = (Some w, Redirect l) /\
    (sets (hook u p) = None -> what (hook u p) <> HookContinue \/ get users u <> Some p -> who = Some w).
Proof. exact login_anyhow. Qed.
Print Assumptions C122_cookie_refuted.
Example C122_cookie_refuted_ex :
  login (fun _ _ => mkhook HookAbort None None) [] (Some (bs "ann", [])) (bs "username=root&password=q") None =
    (Some (bs "ann", []), Redirect (bs "/")).
Proof. vm_compute. reflexivity. Qed.

(** ** C123: after login the browser stays on the site. *)
Definition C123_full : Prop := forall hook users who body query w l, login hook users who body query = (w, Redirect l) ->
  exists r, l = 47%N :: r /\ ~ In 10%N r /\ (forall x, r <> 47%N :: x).
Theorem C123_location_partial : forall hook users who body query w l, login hook users who body query = (w, Redirect l) ->
  w <> None /\ (to (read_form body) = Some l \/ l = bs "/").
Proof. exact redirect_where. Qed.
Print Assumptions C123_location_partial.
Example C123_location_partial_ex :
  login no_hook [(bs "u", bs "p")] None (bs "username=u&password=p&whereto=%2Fx") None = (Some (bs "u", bs "hmac_cookie_test"), Redirect (bs "/x")).
Proof. vm_compute. reflexivity. Qed.
(** whatever the form says is where it goes *)
Theorem C123_anywhere_refuted : forall hook users t u p body, clean t -> t <> [] -> ~ In 32%N t -> ~ In 42%N t ->
  clean u -> clean p -> ~ In 32%N (u ++ p) -> ~ In 42%N (u ++ p) -> sets (hook u p) <> None ->
  form_body (login_form u p t) body -> exists who, login hook users None body None = (Some who, Redirect t).
Proof. exact any_redirect. Qed.
Print Assumptions C123_anywhere_refuted.
Example C123_anywhere_refuted_ex :
  login no_hook [(bs "u", bs "p")] None (bs "whereto=http%3A%2F%2Fevil%2F%0D%0ASet-Cookie%3Aa&username=u&password=p") None =
    (Some (bs "u", bs "hmac_cookie_test"), Redirect (bs "http://evil/" ++ [13; 10]%N ++ bs "Set-Cookie:a")).
Proof. vm_compute. reflexivity. Qed.

(** ** C124: after login the browser is at the page that was asked for. *)
Definition C124_full : Prop := forall hook users r qs u p body,
  let page := page_of (47%N :: r) qs in
  octets page -> clean page -> clean u -> clean p -> ~ In 32%N (u ++ p) -> ~ In 42%N (u ++ p) -> sets (hook u p) <> None ->
  form_body (login_form u p page) body -> exists who, login hook users None body None = (Some who, Redirect page).
Theorem C124_back_partial : forall hook users r qs u p body,
  let path := 47%N :: r in let page := page_of path qs in
  octets page -> clean page -> ~ In 32%N page -> ~ In 42%N page ->
  clean u -> clean p -> ~ In 32%N (u ++ p) -> ~ In 42%N (u ++ p) -> sets (hook u p) <> None ->
  exists location t h,
    login_buff path qs = Some location /\
    Head.Model.process_uri location = (bs "/login", Some (skipn 7 location), t) /\
    login hook users None [] (Head.Model.querystring t (bs "whereto")) = (None, Page h []) /\
    (forall field, Url.Spec.html_unescapes h field <-> field = page) /\
    (form_body (login_form u p page) body ->
     exists who, login hook users None body None = (Some who, Redirect page)).
Proof. exact back. Qed.
Print Assumptions C124_back_partial.
Example C124_back_partial_ex :
  let page := page_of (bs "/a") (Some (bs "b=<&c")) in
  octets page /\ clean page /\ ~ In 32%N page /\ ~ In 42%N page /\
  login_buff (bs "/a") (Some (bs "b=<&c")) = Some (bs "/login?whereto=%2Fa%3Fb%3D%3C%26c") /\
  login no_hook [] None [] (Some page) = (None, Page (bs "/a?b=&lt;&amp;c") []).
Proof.
  split; [apply octets_dec; reflexivity|]. split; [apply clean_dec; reflexivity|].
  split; [apply absent_dec; reflexivity|]. split; [apply absent_dec; reflexivity|]. vm_compute. auto.
Qed.
(** a page with a space or an asterisk in its path or query is not found again *)
Theorem C124_space_refuted : forall hook users u p t body, clean u -> clean p -> ~ In 32%N (u ++ p) -> ~ In 42%N (u ++ p) ->
  sets (hook u p) <> None -> clean t -> In 32%N t \/ In 42%N t ->
  form_body (login_form u p t) body -> exists who, login hook users None body None = (Some who, Redirect (bs "/")).
Proof. exact space_lost. Qed.
Print Assumptions C124_space_refuted.
Example C124_space_refuted_ex : form_encodes (bs "a b") (bs "a+b") /\
  login no_hook [(bs "u", bs "p")] None (bs "whereto=a+b&username=u&password=p") None = (Some (bs "u", bs "hmac_cookie_test"), Redirect (bs "/")).
Proof. split; [safe; apply form_plus; safe; constructor|vm_compute; reflexivity]. Qed.
(** who is not logged in is sent to the login page *)
Theorem C124_denied : forall uri, uri <> bs "/login" -> ~ (exists r, uri = bs "/login?" ++ r) -> auth_denied None uri = LoginRedirect.
Proof. exact denied_login. Qed.
Print Assumptions C124_denied.
Example C124_denied_ex : auth_denied None (bs "/logins") = LoginRedirect /\ auth_denied (Some (bs "a", [])) (bs "/x") = ResetMessage /\
  auth_denied None (bs "/login") = LoginBroken.
Proof. vm_compute. auto. Qed.

(** ** C125: the domain of a cookie is one the host is in. *)
Theorem C125_domain : forall h hdr d, host_header h hdr ->
  (domain_of hdr = Some d <-> exists label, ~ In 46%N label /\ h = label ++ 46%N :: d /\ In 46%N d /\ letter (last d 0%N)).
Proof. exact domain_exact. Qed.
Print Assumptions C125_domain.
Example C125_domain_ex : host_header (bs "a.b.com") (bs "a.b.com:8080") /\ domain_of (bs "a.b.com:8080") = Some (bs "b.com") /\
  domain_of (bs "b.com:80") = None /\ domain_of (bs "10.0.0.1:80") = None.
Proof.
  split; [|vm_compute; auto]. apply (host_port (bs "a.b.com") (bs "8080")); [apply absent_dec; reflexivity|].
  apply Forall_forall. intros x I. vm_compute in I. repeat (destruct I as [<-|I]; [lia|]). destruct I.
Qed.

(** The cookie is set for the domain configured; without one, for that of the host asked for, or
    for the host alone. *)
Theorem C125_cookie : forall hmac now age d hdr nonce who v,
  refresh hmac now age d hdr nonce who = Done (Some v) ->
  exists c, v = bs "mtevauth=" ++ c ++ bs "; Max-Age=" ++ print age ++
    match d, hdr with
    | Some d, _ => bs "; Domain=" ++ d
    | None, Some t => match domain_of t with Some d => bs "; Domain=" ++ d | None => [] end
    | None, None => []
    end.
Proof.
  intros hmac now age d hdr nonce [[u a]|] v H; [|discriminate H]. cbn [refresh] in H.
  destruct (cookie_text _ _) as [[c|]|]; cbn [bind] in H; try discriminate H.
  exists c. apply done_some in H. rewrite <- H. destruct d; [reflexivity|]. now destruct hdr.
Qed.
Print Assumptions C125_cookie.
Example C125_cookie_ex : exists v,
  refresh ex_mac 5 7 (Some (bs "corp.net")) (Some (bs "a.b.com")) (repeat 65%N 32) (Some (bs "u", bs "a")) = Done (Some v) /\
  skipn (List.length v - 17) v = bs "; Domain=corp.net".
Proof. eexists. split; [vm_compute; reflexivity|]. vm_compute. reflexivity. Qed.

(** ** C126: the module does what it is configured to. *)
Definition C126_full : Prop := forall b64 l c, NoDup (map fst l) -> config b64 conf0 l = Some c ->
  forall v, In (bs "domain", v) l -> domain c = Some v.
Theorem C126_config_partial : forall b64 l c', NoDup (map fst l) -> config b64 conf0 l = Some c' ->
  (forall v, In (bs "key", v) l -> key c' = Some (b64 v) /\ List.length (b64 v) = 32) /\
  (~ In (bs "key") (map fst l) -> key c' = None) /\
  (forall v n, In (bs "max_age", v) l -> number v n -> (n < 2 ^ 32)%Z -> Z.of_N (max_age c') = n) /\
  (~ In (bs "max_age") (map fst l) -> max_age c' = 86400%N) /\
  (forall n v, In (bs "user_" ++ n, v) l -> get (users c') n = Some v) /\
  (forall n, ~ In (bs "user_" ++ n) (map fst l) -> get (users c') n = None) /\
  domain c' = None.
Proof. exact config_values. Qed.
Print Assumptions C126_config_partial.
Example C126_config_partial_ex :
  config (fun v => v) conf0 [(bs "max_age", bs "60"); (bs "user_ann", bs "p"); (bs "domain", bs "x.org")] =
    Some (mkconf None 60 None [(bs "ann", bs "p")]).
Proof. vm_compute. reflexivity. Qed.
Theorem C126_rejected : forall b64 l c, config b64 c l = None <-> exists v, In (bs "key", v) l /\ List.length (b64 v) <> 32.
Proof. exact config_fails. Qed.
Print Assumptions C126_rejected.
Example C126_rejected_ex : config (fun v => v) conf0 [(bs "max_age", bs "60"); (bs "key", bs "short")] = None.
Proof. vm_compute. reflexivity. Qed.
(** a configured domain is never used *)
Theorem C126_domain_refuted : ~ C126_full.
Proof.
  intro F. assert (D : domain (mkconf None 86400 None []) = Some (bs "x.org")).
  { apply (F (fun v => v) [(bs "domain", bs "x.org")]); [|reflexivity|left; reflexivity]. constructor; [intros []|constructor]. }
  discriminate D.
Qed.
Print Assumptions C126_domain_refuted.
