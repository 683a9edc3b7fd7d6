(** Routing, access control and files of mtev_rest.c. *)
From Coq Require Import NArith ZArith List Bool String Lia.
From Verif.Btrie Require Model Spec.
From Verif.Rest Require Import Model Spec Proofs Proofs2 Proofs3 Proofs4.
Import ListNotations.
Local Open Scope list_scope.

(** Routes of the examples *)
Definition rt (m expr : string) (h : N) (au : option N) : route := mkroute (bs m) (bs expr) None (Some h) None au 0.
Definition ws (expr : string) (p : option bytes) (h : N) (au : option N) : route := mkroute (bs "WS") (bs expr) p None (Some h) au 0.
Definition gs : list registration :=
  [(bs "/", rt "GET" "*" 1 None); (bs "/api", rt "GET" "*" 2 None); (bs "/api/", rt "GET" "x(" 3 None);
   (bs "/api/", rt "PUT" "one" 4 (Some 1%N)); (bs "/api/", rt "GET" "one" 5 (Some 1%N)); (bs "/api/", rt "GET" "o*" 6 (Some 2%N));
   (bs "/api/", rt "GET" "many" 7 None); (bs "/api/", ws "chat" (Some (bs "v1")) 8 (Some 2%N))].
Definition get_ (u : string) : request := mkreq (bs "GET") (bs u) false None.
Definition cb (ok : N -> bool) : callbacks := mkcb ok (HContinue, None) (HContinue, Some permission_denied).

(** ** C96 *)
(** For every history of registrations and every request (other than
    OPTIONS): the route found is the first one registered for the method of
    the request, with an expression matching the rest of the URI, under the
    longest registered base the URI starts with; there is no route exactly
    when there is none of that kind. No call reads outside its memory. *)
Theorem C96_route : forall e gs q w r, good_exec e -> rmethod q <> bs "OPTIONS" ->
  ((exists ps, matching_route e (registered e gs) q w = Done (Some (r, ps), None)) <->
   exists b rest g, longest_base e gs (uri q) b rest /\ first_such gs (candidate e q b rest) g /\ snd g = r).
Proof. exact route_iff. Qed.
Print Assumptions C96_route.
Example C96_route_ex : good_exec ex_env /\
  matching_route ex_env (registered ex_env gs) (get_ "/api/one") false = Done (Some (rt "GET" "one" 5 (Some 1%N), []), None) /\
  matching_route ex_env (registered ex_env gs) (get_ "/api/other") false = Done (Some (rt "GET" "o*" 6 (Some 2%N), [bs "ther"]), None) /\
  matching_route ex_env (registered ex_env gs) (get_ "/apix") false = Done (Some (rt "GET" "*" 1 None, [bs "apix"]), None) /\
  matching_route ex_env (registered ex_env gs) (get_ "/api/two") false = Done (None, None).
Proof. split; [exact ex_good|]. vm_compute. auto. Qed.

Theorem C96_total : forall e gs q w, good_exec e -> matching_route e (registered e gs) q w <> Bad.
Proof. exact route_total. Qed.
Print Assumptions C96_total.
Example C96_total_ex : good_exec ex_env /\ matching_route ex_env (registered ex_env gs) (mkreq (bs "GET") [] false None) false = Done (None, None).
Proof. split; [exact ex_good|vm_compute; reflexivity]. Qed.

(** ** C97 *)
(** The parameters are the texts of the groups, in order, an empty text for a
    group that took no part, up to the last group that took part. *)
Theorem C97_params_partial : forall e gs q w r ps, good_exec e ->
  matching_route e (registered e gs) q w = Done (Some (r, ps), None) ->
  exists b rest gr, longest_base e gs (uri q) b rest /\ matched e (expression r) rest gr /\ params_of rest gr ps.
Proof. exact params_spec. Qed.
Print Assumptions C97_params_partial.
Example C97_params_partial_ex : good_exec ex_env /\
  matching_route ex_env (registered ex_env gs) (get_ "/api/other") false = Done (Some (rt "GET" "o*" 6 (Some 2%N), [bs "ther"]), None).
Proof. split; [exact ex_good|vm_compute; reflexivity]. Qed.

(** a match with more than nine groups is none *)
Theorem C97_many_groups_refuted : exists e gs q, good_exec e /\
  (exists g, exec e (expression (snd g)) (skipn 5 (uri q)) <> None /\ gs = [g] /\ accepted e g /\ fits q (snd g) /\ fst g = firstn 5 (uri q)) /\
  matching_route e (registered e gs) q false = Done (None, None).
Proof.
  exists ex_env, [(bs "/api/", rt "GET" "many" 7 None)], (get_ "/api/x"). split; [exact ex_good|]. split; [|vm_compute; reflexivity].
  eexists. split; [|split; [reflexivity|]]; [vm_compute; discriminate|]. split; [|split; reflexivity].
  split; [|reflexivity]. exists (bs "/api"). reflexivity.
Qed.
Print Assumptions C97_many_groups_refuted.

(** ** C98 *)
(** OPTIONS answers with the methods of all the routes that match the URL, in
    the order of registration, after OPTIONS itself; with nothing (404) when
    there is no such route or no base. *)
Theorem C98_options : forall e gs q b rest, good_exec e -> rmethod q = bs "OPTIONS" -> longest_base e gs (uri q) b rest ->
  matching_route e (registered e gs) q true =
    Done (None, match map (fun g => method (snd g)) (filter (offers e b rest) gs) with
                | [] => None | ms => Some (comma_list (bs "OPTIONS" :: ms)) end).
Proof. exact options_base. Qed.
Print Assumptions C98_options.
Example C98_options_ex : good_exec ex_env /\
  get_handler ex_env (cb (fun _ => false)) (registered ex_env gs) (mkreq (bs "OPTIONS") (bs "/api/one") false None)
    = Done (Options (bs "OPTIONS, PUT, GET, GET")).
Proof. split; [exact ex_good|vm_compute; reflexivity]. Qed.

Theorem C98_no_base : forall e gs q w, (forall b rest, ~ longest_base e gs (uri q) b rest) ->
  matching_route e (registered e gs) q w = Done (None, None).
Proof. exact no_base. Qed.
Print Assumptions C98_no_base.
Example C98_no_base_ex : forall b rest, ~ longest_base ex_env gs (bs "api/one") b rest.
Proof.
  intros b rest (E & (g & I & (_ & _) & B) & _). subst b.
  repeat (destruct I as [<- | I]; [discriminate E|]). destruct I.
Qed.

(** ** C104 *)
(** A handler runs only if it belongs to the route of the request, and its
    authorisation function agreed, if it has one; or the application's own
    hook rest_auth_denied took the denial away. *)
Theorem C104_authorised : forall e a gs q h cl ps, good_exec e ->
  get_handler e a (registered e gs) q = Done (Run h cl ps) ->
  exists b rest g, longest_base e gs (uri q) b rest /\ first_such gs (candidate e q b rest) g /\
    handler (snd g) = Some h /\ closure (snd g) = cl /\
    (forall f, auth (snd g) = Some f -> authorize a f = true \/ (fst (auth_denied_hook a) <> HAbort /\ snd (auth_denied_hook a) = None)).
Proof. exact run_authorised. Qed.
Print Assumptions C104_authorised.
Example C104_authorised_ex : good_exec ex_env /\
  get_handler ex_env (cb (N.eqb 2)) (registered ex_env gs) (get_ "/api/other") = Done (Run 6 0 [bs "ther"]).
Proof. split; [exact ex_good|vm_compute; reflexivity]. Qed.

(** It does run when they agree, with the groups as parameters; *)
Theorem C104_runs : forall e a gs q b rest g, good_exec e -> rmethod q <> bs "OPTIONS" ->
  longest_base e gs (uri q) b rest -> first_such gs (candidate e q b rest) g -> fst (get_handler_hook a) = HContinue ->
  (forall f, auth (snd g) = Some f -> authorize a f = true) ->
  get_handler e a (registered e gs) q = Done NotFound /\ handler (snd g) = None \/
  exists h gr ps, handler (snd g) = Some h /\ matched e (expression (snd g)) rest gr /\ params_of rest gr ps /\
    get_handler e a (registered e gs) q = Done (Run h (closure (snd g)) ps).
Proof. exact authorised_runs. Qed.
Print Assumptions C104_runs.
Lemma base_api : forall rest, (forall b rest', bs "/api/" ++ rest = b ++ rest' -> In b [bs "/"; bs "/api"; bs "/api/"] -> List.length b <= 5) /\
  longest_base ex_env gs (bs "/api/" ++ rest) (bs "/api/") rest.
Proof.
  intros rest. assert (L : forall b rest', bs "/api/" ++ rest = b ++ rest' -> In b [bs "/"; bs "/api"; bs "/api/"] -> List.length b <= 5).
  { intros b r' _ I. repeat (destruct I as [<- | I]; [vm_compute; repeat constructor|]). destruct I. }
  split; [exact L|]. split; [reflexivity|]. split.
  - exists (bs "/api/", rt "PUT" "one" 4 (Some 1%N)). split; [cbn; tauto|]. split; [|reflexivity]. split; [exists (bs "/api"); reflexivity|reflexivity].
  - intros b r' E (g & I & _ & <-). apply (L _ _ E). cbn in I. repeat (destruct I as [<- | I]; [cbn; tauto|]). destruct I.
Qed.
Lemma first_one : first_such gs (candidate ex_env (get_ "/api/one") (bs "/api/") (bs "one")) (bs "/api/", rt "GET" "one" 5 (Some 1%N)).
Proof.
  exists (firstn 4 gs), (skipn 5 gs). split; [reflexivity|]. split.
  - split; [split; [exists (bs "/api"); reflexivity|reflexivity]|]. split; [reflexivity|]. split; [reflexivity|].
    eexists. split; [vm_compute; reflexivity|cbn; lia].
  - intros y I ((_ & CO) & B & F & _). cbn [firstn gs] in I.
    destruct I as [<- | [<- | [<- | [<- | []]]]]; try discriminate B; try discriminate CO. discriminate F.
Qed.
Example C104_runs_ex : longest_base ex_env gs (uri (get_ "/api/one")) (bs "/api/") (bs "one") /\
  first_such gs (candidate ex_env (get_ "/api/one") (bs "/api/") (bs "one")) (bs "/api/", rt "GET" "one" 5 (Some 1%N)) /\
  get_handler ex_env (cb (N.eqb 1)) (registered ex_env gs) (get_ "/api/one") = Done (Run 5 0 []).
Proof. split; [apply (proj2 (base_api (bs "one")))|]. split; [exact first_one|]. vm_compute. reflexivity. Qed.

(** and the answer is 403 when they do not and no hook interferes. *)
Theorem C104_denied : forall e a gs q b rest g f, good_exec e -> rmethod q <> bs "OPTIONS" ->
  longest_base e gs (uri q) b rest -> first_such gs (candidate e q b rest) g -> fst (get_handler_hook a) = HContinue ->
  auth (snd g) = Some f -> authorize a f = false -> auth_denied_hook a = (HContinue, Some permission_denied) ->
  get_handler e a (registered e gs) q = Done Denied.
Proof. exact denied_answer. Qed.
Print Assumptions C104_denied.
Example C104_denied_ex : longest_base ex_env gs (uri (get_ "/api/one")) (bs "/api/") (bs "one") /\
  first_such gs (candidate ex_env (get_ "/api/one") (bs "/api/") (bs "one")) (bs "/api/", rt "GET" "one" 5 (Some 1%N)) /\
  get_handler ex_env (cb (N.eqb 2)) (registered ex_env gs) (get_ "/api/one") = Done Denied.
Proof. split; [apply (proj2 (base_api (bs "one")))|]. split; [exact first_one|]. vm_compute. reflexivity. Qed.

(** ** C105: the messages of a websocket reach its handler only if the
    authorisation function agrees. False; what happens: *)
(** the first message is held back, all later ones are delivered *)
Theorem C105_messages_partial : forall e a gs q b rest g h n, good_exec e -> rmethod q <> bs "OPTIONS" ->
  longest_base e gs (uri q) b rest -> first_such gs (candidate e q b rest) g -> websocket_handler (snd g) = Some h ->
  websocket_messages e a (registered e gs) q None (S n) =
    Done ((if match auth (snd g) with Some f => authorize a f | None => true end then Some h else None) :: repeat (Some h) n).
Proof. exact ws_messages. Qed.
Print Assumptions C105_messages_partial.
Definition chat : request := mkreq (bs "GET") (bs "/api/chat") true (Some (bs "v1")).
Lemma first_chat : first_such gs (candidate ex_env chat (bs "/api/") (bs "chat")) (bs "/api/", ws "chat" (Some (bs "v1")) 8 (Some 2%N)).
Proof.
  exists (firstn 7 gs), []. split; [reflexivity|]. split.
  - split; [split; [exists (bs "/api"); reflexivity|reflexivity]|]. split; [reflexivity|]. split.
    + unfold fits. cbn [is_websocket chat]. split; [reflexivity|]. intros x y Hx Hy. injection Hx as <-. injection Hy as <-. reflexivity.
    + eexists. split; [vm_compute; reflexivity|cbn; lia].
  - intros y I (_ & _ & F & _). unfold fits in F. cbn [is_websocket chat] in F. destruct F as [F _]. cbn [firstn gs] in I.
    repeat (destruct I as [<- | I]; [discriminate F|]). destruct I.
Qed.
Example C105_messages_partial_ex : longest_base ex_env gs (uri chat) (bs "/api/") (bs "chat") /\
  first_such gs (candidate ex_env chat (bs "/api/") (bs "chat")) (bs "/api/", ws "chat" (Some (bs "v1")) 8 (Some 2%N)).
Proof. split; [apply (proj2 (base_api (bs "chat")))|exact first_chat]. Qed.
Theorem C105_second_message_refuted : exists e a gs q h, good_exec e /\ (forall f, authorize a f = false) /\
  websocket_messages e a (registered e gs) q None 2 = Done [None; Some h].
Proof. exists ex_env, (cb (fun _ => false)), gs, chat, 8%N. split; [exact ex_good|]. split; [reflexivity|vm_compute; reflexivity]. Qed.
Print Assumptions C105_second_message_refuted.

(** the function given to mtev_http_rest_websocket_register_auth is not asked
    for websockets at all, whatever it says *)
Theorem C105_register_auth_refuted : forall e b expr proto wf au cl t q rest n a, good_exec e ->
  websocket_register_auth e [] b expr proto wf au cl = Some t ->
  is_websocket q = true -> rmethod q <> bs "OPTIONS" -> uri q = b ++ rest ->
  (forall x y, proto = Some x -> protocol q = Some y -> x = y) -> (exists g, matched e expr rest g) ->
  websocket_messages e a t q None (S n) = Done (repeat (Some wf) (S n)).
Proof. exact ws_register. Qed.
Print Assumptions C105_register_auth_refuted.
Example C105_register_auth_refuted_ex : exists t,
  websocket_register_auth ex_env [] (bs "/api/") (bs "chat") (Some (bs "v1")) 8 (Some 2%N) 0 = Some t /\
  uri chat = bs "/api/" ++ bs "chat" /\ (exists g, matched ex_env (bs "chat") (bs "chat") g) /\
  websocket_messages ex_env (cb (fun _ => false)) t chat None 1 = Done [Some 8%N].
Proof.
  eexists. split; [vm_compute; reflexivity|]. split; [reflexivity|]. split; [|vm_compute; reflexivity].
  eexists. split; [vm_compute; reflexivity|cbn; lia].
Qed.

(** * Access control lists *)
Definition acl_ (l : attrs) (rs : list attrs) : node := mknode l rs.
Definition at_ (k v : string) : bytes * bytes := (bs k, bs v).
Definition client_ (u : string) (r : option Btrie.Model.family * list N) : client := mkclient [] [] (bs "client") (bs u) r [at_ "acl" "internal"].
Definition v4 : option Btrie.Model.family * list N := (Some Btrie.Model.V4, [167772161; 0; 0; 0]%N).
Lemma client_good : forall u r, Btrie.Spec.address (snd r) -> good_client (client_ u r).
Proof. intros u r H. exact H. Qed.

Definition conf1 : list node :=
  [acl_ [at_ "type" "deny"; at_ "url" "/private"; at_ "listener_acl" "internal"]
        [[at_ "cn" "server"; at_ "type" "allow"]; [at_ "ip" "10.0.0.0/8"; at_ "url" "/private/a"; at_ "type" "allow"]; [at_ "type" "deny"]];
   acl_ [] [[at_ "type" "allow"]]].

(** ** C99: the first list that applies decides, in it the first rule that
    applies, and else the type of the list. *)
(** The type of the list is not looked at: it is "deny". With that, for every
    configuration of expressions that compile, are not cut and have at most
    nine groups, addresses of the client's family, and no skipto: *)
Theorem C99_decision_partial : forall e q conf, good_exec e -> good_pton e -> good_client q -> good_conf e q conf -> no_skipto conf ->
  client_cert_auth e conf q = Done (decide (holds e q) (fun _ => false) conf).
Proof. exact auth_good. Qed.
Print Assumptions C99_decision_partial.
Lemma conf1_good : good_conf ex_env (client_ "/private/a" v4) conf1.
Proof.
  assert (R : forall re, In re [bs "/private"; bs "/private/a"; bs "server"; bs "internal"] -> good_re ex_env re).
  { intros re I. split; [|split].
    - repeat (destruct I as [<- | I]; [vm_compute; lia|]). destruct I.
    - repeat (destruct I as [<- | I]; [reflexivity|]). destruct I.
    - intros s g H. repeat (destruct I as [<- | I]; [|]); [| | | |destruct I];
        (cbn [exec ex_env] in H; unfold ex_exec in H;
         match type of H with (if ?b then _ else if ?c then _ else _) = _ =>
           let x := eval vm_compute in b in change b with x in H; let y := eval vm_compute in c in change c with y in H end; cbv iota in H;
         destruct (is_prefix _ s); [injection H as <-; cbn; lia|discriminate]). }
  assert (K : forall (l : attrs), In l [nattrs (nth 0 conf1 (mknode [] [])); [at_ "cn" "server"; at_ "type" "allow"];
     [at_ "ip" "10.0.0.0/8"; at_ "url" "/private/a"; at_ "type" "allow"]; [at_ "type" "deny"]; []; [at_ "type" "allow"]] -> good_attrs ex_env (client_ "/private/a" v4) l).
  { intros l I. split; [|split].
    - intros k re Ik H. apply R.
      repeat (destruct I as [<- | I]; [repeat (destruct Ik as [<- | Ik]; [vm_compute in H; (discriminate H || (injection H as <-; vm_compute; tauto))|]); destruct Ik|]). destruct I.
    - intros s H. repeat (destruct I as [<- | I]; [vm_compute in H; (discriminate H || (injection H as <-; split; [cbn; lia|]; eexists _, _, _; split; [vm_compute; reflexivity|right; reflexivity]))|]). destruct I.
    - intros a Ia. assert (X : snd a = bs "internal").
      { repeat (destruct I as [<- | I]; [vm_compute in Ia; (destruct Ia as [<- | []]; reflexivity) || destruct Ia|]). destruct I. }
      rewrite X. destruct (R (bs "internal")) as (_ & A & B); [cbn; tauto|]. split; [exact A|exact B]. }
  intros n I. destruct I as [<- | [<- | []]].
  - split; [apply K; left; reflexivity|]. intros r [<- | [<- | [<- | []]]]; apply K; cbn [In]; tauto.
  - split; [apply K; cbn [nattrs acl_ In]; tauto|]. intros r [<- | []]; apply K; cbn [In]; tauto.
Qed.
Example C99_decision_partial_ex : good_conf ex_env (client_ "/private/a" v4) conf1 /\ no_skipto conf1 /\
  client_cert_auth ex_env conf1 (client_ "/private/a" v4) = Done true /\
  client_cert_auth ex_env conf1 (client_ "/private/b" v4) = Done false /\
  client_cert_auth ex_env conf1 (client_ "/public" v4) = Done true.
Proof.
  split; [exact conf1_good|]. split; [|vm_compute; auto].
  intros n r [<- | [<- | []]]; [intros [<- | [<- | [<- | []]]]|intros [<- | []]]; reflexivity.
Qed.

(** a list of type "allow" without a rule that applies denies *)
Theorem C99_acl_type_refuted : forall e q rs, good_exec e -> good_pton e -> good_client q -> find (taken e q) rs = None ->
  client_cert_auth e [mknode [(bs "type", bs "allow")] rs] q = Done false /\ is_allow [(bs "type", bs "allow")] = true.
Proof.
  intros e q rs G P C F. split; [|reflexivity].
  destruct (auth_exact e q [mknode [(bs "type", bs "allow")] rs] G P C) as [E|[_ (pre & n & post & rpre & r & rpost & k & n' & r' & Q & _ & _ & Q2 & _ & T & _)]].
  - rewrite E. f_equal. unfold decide. cbn [find nattrs children].
    change (taken e q [(bs "type", bs "allow")]) with (true && true && true && true && true && true). cbn [andb children]. rewrite F. reflexivity.
  - exfalso. destruct pre as [|m pre]; cbn in Q; injection Q as <- Q; [|destruct pre; discriminate]. cbn [children] in Q2.
    rewrite (find_none _ _ F r) in T; [discriminate|]. rewrite Q2. apply in_elt.
Qed.
Print Assumptions C99_acl_type_refuted.
Example C99_acl_type_refuted_ex : find (taken ex_env (client_ "/x" v4)) [] = None /\
  client_cert_auth ex_env [acl_ [at_ "type" "allow"] []] (client_ "/x" v4) = Done false.
Proof. vm_compute. auto. Qed.

(** ** C100 *)
(** Access is granted only by a rule of type "allow" in some list; without
    lists, or when none applies, it is denied. *)
Theorem C100_granted : forall e q conf, good_exec e -> good_pton e -> good_client q -> client_cert_auth e conf q = Done true ->
  exists n r, In n conf /\ In r (children n) /\ is_allow r = true /\ taken e q (nattrs n) = true /\ taken e q r = true.
Proof. exact granted. Qed.
Print Assumptions C100_granted.
Example C100_granted_ex : good_exec ex_env /\ good_pton ex_env /\ good_client (client_ "/public" v4) /\
  client_cert_auth ex_env conf1 (client_ "/public" v4) = Done true /\ client_cert_auth ex_env [] (client_ "/public" v4) = Done false.
Proof. split; [exact ex_good|]. split; [exact ex_good_pton|]. split; [apply client_good; repeat constructor|]. vm_compute. auto. Qed.

(** ** C101: a condition the code cannot use never makes a rule grant more.
    False; what happens: *)
(** For every configuration whatsoever: the decision is the one of the
    conditions as [taken] reads them. *)
Theorem C101_conditions_partial : forall e q conf, good_exec e -> good_pton e -> good_client q ->
  client_cert_auth e conf q = Done (decide (taken e q) (fun _ => false) conf) \/
  (client_cert_auth e conf q = Bad /\ skips (taken e q) conf).
Proof. exact auth_exact. Qed.
Print Assumptions C101_conditions_partial.
Example C101_conditions_partial_ex : good_exec ex_env /\ good_pton ex_env /\ good_client (client_ "/x" v4).
Proof. split; [exact ex_good|]. split; [exact ex_good_pton|]. apply client_good. repeat constructor. Qed.

(** an expression that does not compile, an address that is not understood,
    an expression for a listener that does not compile, one longer than 255
    characters: each grants what it should not *)
Theorem C101_fail_open_refuted : exists e q, good_exec e /\ good_pton e /\ good_client q /\
  (forall r, In r [[(bs "type", bs "allow"); (bs "cn", bs "admin(")]; [(bs "type", bs "allow"); (bs "ip", bs "10.0.0.256")];
                   [(bs "type", bs "allow"); (bs "listener_acl", bs "admin(")]; [(bs "type", bs "allow"); (bs "url", repeat 47%N 255 ++ bs "admin")]] ->
     holds e q r = false /\ client_cert_auth e [mknode [] [r]] q = Done true).
Proof.
  exists ex_env, (mkclient [] [] (bs "client") (repeat 47%N 255) v4 [(bs "acl", bs "internal")]).
  split; [exact ex_good|]. split; [exact ex_good_pton|]. split; [repeat constructor|].
  intros r I. repeat (destruct I as [<- | I]; [vm_compute; auto|]). destruct I.
Qed.
Print Assumptions C101_fail_open_refuted.

(** ** C102: a rule with skipto continues at the rule of that name. False: *)
(** the lookup of the name yields the list the rule is in, not the rule, and
    is read as a rule, beyond its end; exactly when the rule that decides has
    a skipto whose name is the name of a rule in this list or a later one *)
Theorem C102_skipto_partial : forall e q conf, good_exec e -> good_pton e -> good_client q ->
  (client_cert_auth e conf q = Bad <-> skips (taken e q) conf).
Proof. exact auth_bad. Qed.
Print Assumptions C102_skipto_partial.
Definition conf2 : list node :=
  [acl_ [] [[at_ "skipto" "b"]; [at_ "type" "deny"]; [at_ "name" "b"; at_ "type" "allow"]]].
Definition conf3 : list node :=
  [acl_ [at_ "url" "/y"] [[at_ "name" "b"; at_ "type" "allow"]]; acl_ [] [[at_ "skipto" "b"; at_ "type" "deny"]]].
Example C102_skipto_partial_ex : skips (taken ex_env (client_ "/x" v4)) conf2 /\ client_cert_auth ex_env conf2 (client_ "/x" v4) = Bad /\
  client_cert_auth ex_env conf3 (client_ "/x" v4) = Done false.
Proof.
  split; [|vm_compute; auto].
  exists [], (nth 0 conf2 (mknode [] [])), [], [], [at_ "skipto" "b"], [[at_ "type" "deny"]; [at_ "name" "b"; at_ "type" "allow"]], (bs "b"),
    (nth 0 conf2 (mknode [] [])), [at_ "name" "b"; at_ "type" "allow"].
  split; [reflexivity|]. split; [intros m []|]. split; [vm_compute; reflexivity|]. split; [reflexivity|]. split; [intros m []|].
  split; [vm_compute; reflexivity|]. split; [reflexivity|]. split; [left; reflexivity|]. split; [cbn; tauto|reflexivity].
Qed.
Theorem C102_skipto_refuted : exists e q conf, good_exec e /\ good_pton e /\ good_client q /\ good_conf e q conf /\ client_cert_auth e conf q = Bad.
Proof.
  exists ex_env, (client_ "/x" v4), conf2. split; [exact ex_good|]. split; [exact ex_good_pton|]. split; [apply client_good; repeat constructor|].
  split; [|vm_compute; reflexivity].
  assert (K : forall l : attrs, In l [[]; [at_ "skipto" "b"]; [at_ "type" "deny"]; [at_ "name" "b"; at_ "type" "allow"]] -> good_attrs ex_env (client_ "/x" v4) l).
  { intros l I. split; [|split].
    - intros k re Ik H. exfalso. repeat (destruct I as [<- | I]; [repeat (destruct Ik as [<- | Ik]; [vm_compute in H; discriminate H|]); destruct Ik|]). destruct I.
    - intros s H. exfalso. repeat (destruct I as [<- | I]; [vm_compute in H; discriminate H|]). destruct I.
    - intros a Ia. exfalso. repeat (destruct I as [<- | I]; [vm_compute in Ia; destruct Ia|]). destruct I. }
  intros n [<- | []]. split; [apply K; left; reflexivity|]. intros r Ir. apply K. right. exact Ir.
Qed.
Print Assumptions C102_skipto_refuted.

(** ** C103: a rule with an address or network applies to the clients in it.
    *)
(** For every network that is understood and every client: the rule applies
    exactly when the leading bits agree; the families are not compared, the
    network only must not be longer than the client's address. *)
Theorem C103_network_partial : forall e q s f a n, good_exec e -> good_pton e -> good_client q -> List.length s <= 50 ->
  network e s = Some (f, a, n) ->
  client_cert_auth e (only_ip s) q =
    Done (match fst (remote q) with Some g => in_network a n g (snd (remote q)) | None => false end).
Proof. exact ip_decision. Qed.
Print Assumptions C103_network_partial.
Example C103_network_partial_ex : network ex_env (bs "10.0.0.0/8") = Some (Btrie.Model.V4, [167772160; 7; 8; 9]%N, 8) /\
  client_cert_auth ex_env (only_ip (bs "10.0.0.0/8")) (client_ "/x" v4) = Done true /\
  client_cert_auth ex_env (only_ip (bs "10.0.0.0")) (client_ "/x" v4) = Done false /\
  client_cert_auth ex_env (only_ip (bs "10.0.0.0/99")) (client_ "/x" v4) = Done false.
Proof. vm_compute. auto. Qed.
(** a client with the IPv6 address 0a00::1 is in 10.0.0.0/8 *)
Theorem C103_family_refuted : exists e q s f a n g, good_exec e /\ good_pton e /\ good_client q /\
  network e s = Some (f, a, n) /\ fst (remote q) = Some g /\ f <> g /\ client_cert_auth e (only_ip s) q = Done true.
Proof.
  exists ex_env, (client_ "/x" (Some Btrie.Model.V6, [167772160; 0; 0; 1]%N)), (bs "10.0.0.0/8"). eexists _, _, _, _.
  split; [exact ex_good|]. split; [exact ex_good_pton|]. split; [apply client_good; repeat constructor|]. split; [vm_compute; reflexivity|].
  split; [reflexivity|]. split; [discriminate|vm_compute; reflexivity].
Qed.
Print Assumptions C103_family_refuted.

(** * Files *)

(** ** C106: the file handler serves only files below the document root.
    False; what holds: *)
Theorem C106_inside_partial : forall cfg mimes rp fs junk pats f t,
  simple_file_handler cfg mimes rp fs junk pats = Done (FServe f t) ->
  exists root, get cfg (bs "document_root") = Some root /\ fs f = Readable /\
    (below root f \/ (exists c x, c <> 47%N /\ f = root ++ c :: 47%N :: x) \/ f = root).
Proof.
  intros cfg mimes rp fs junk pats f t H. destruct (served _ _ _ _ _ _ _ _ H) as (root & p & index & _ & R & _ & I & F & _).
  exists root. rewrite <- attr_get. split; [exact R|]. split; [exact F|]. eapply inside_spec, I.
Qed.
Print Assumptions C106_inside_partial.
Definition docs : list (bytes * bytes) := [at_ "document_root" "/srv/www"; at_ "mime_type_conf" "text/x-conf"].
Example C106_inside_partial_ex :
  simple_file_handler docs [at_ "html" "text/html"] plain_realpath (fun _ => Readable) (fun _ => 0%N) [bs "a/../b/index.html"]
    = Done (FServe (bs "/srv/www/b/index.html") (bs "text/html")) /\
  simple_file_handler docs [at_ "html" "text/html"] plain_realpath (fun _ => Readable) (fun _ => 0%N) [bs "../../etc/passwd"] = Done FDenied.
Proof. vm_compute. auto. Qed.

(** it is the file asked for, or the index file of the directory asked for *)
Theorem C106_asked : forall cfg mimes rp fs junk pats f t,
  simple_file_handler cfg mimes rp fs junk pats = Done (FServe f t) ->
  exists root p, pats = [p] /\ get cfg (bs "document_root") = Some root /\
    let index := match get cfg (bs "index_file") with Some i => i | None => bs "index.html" end in
    (List.length (asked root index p) < 4096 -> rp (asked root index p) = Some f).
Proof. intros cfg mimes rp fs junk pats f t H. rewrite <- !attr_get. exact (served_asked _ _ _ _ _ _ _ _ H). Qed.
Print Assumptions C106_asked.
Example C106_asked_ex :
  simple_file_handler docs [at_ "html" "text/html"] plain_realpath (fun _ => Readable) (fun _ => 0%N) [bs "b/"]
    = Done (FServe (bs "/srv/www/b/index.html") (bs "text/html")) /\ asked (bs "/srv/www") (bs "index.html") (bs "b/") = bs "/srv/www/b/index.html".
Proof. vm_compute. auto. Qed.
(** a file in a directory next to the root with one more letter in its name
    is served, to a request with ".." *)
Theorem C106_sibling_refuted : exists cfg rp f t, rp = plain_realpath /\ get cfg (bs "document_root") = Some (bs "/srv/www") /\
  simple_file_handler cfg [] rp (fun _ => Readable) (fun _ => 0%N) [bs "../www2/secret"] = Done (FServe f t) /\ ~ below (bs "/srv/www") f.
Proof.
  exists docs, plain_realpath. eexists _, _. split; [reflexivity|]. split; [reflexivity|]. split; [vm_compute; reflexivity|].
  intros (x & H). vm_compute in H. discriminate.
Qed.
Print Assumptions C106_sibling_refuted.
(** in general the test accepts every such path *)
Theorem C106_sibling_accepted : forall root c x junk, inside root (root ++ c :: 47%N :: x) junk = true.
Proof. exact inside_sibling. Qed.
Print Assumptions C106_sibling_accepted.
Example C106_sibling_accepted_ex : inside (bs "/srv/www") (bs "/srv/www2/secret") (fun _ => 0%N) = true /\
  inside (bs "/srv/www") (bs "/srv/www22/secret") (fun _ => 0%N) = false.
Proof. vm_compute. auto. Qed.
(** files below the root are never refused by it *)
Theorem C106_below_accepted : forall root f junk, below root f -> inside root f junk = true.
Proof. exact inside_below. Qed.
Print Assumptions C106_below_accepted.
Example C106_below_accepted_ex : below (bs "/srv/www") (bs "/srv/www/a").
Proof. exists (bs "a"). reflexivity. Qed.

(** ** C107: the content type is that of the extension; a file without one is
    looked up by its name. *)
Theorem C107_extension_partial : forall cfg mimes f name ext, List.length f <= 4085 -> base_name f name -> extension name ext ->
  content_type cfg mimes f = Done (type_of cfg mimes ext).
Proof. exact type_extension. Qed.
Print Assumptions C107_extension_partial.
Example C107_extension_partial_ex : base_name (bs "/srv/w.w/a.b.conf") (bs "a.b.conf") /\ extension (bs "a.b.conf") (bs "conf") /\
  content_type docs [] (bs "/srv/w.w/a.b.conf") = Done (bs "text/x-conf").
Proof.
  split; [|split; [|vm_compute; reflexivity]].
  - split; [intros H; vm_compute in H; repeat (destruct H as [H|H]; [discriminate H|]); exact H|]. exists (bs "/srv/w.w"). reflexivity.
  - split; [intros H; vm_compute in H; repeat (destruct H as [H|H]; [discriminate H|]); exact H|]. exists (bs "a.b"). reflexivity.
Qed.
(** without an extension it is looked up by its name less the first letter *)
Theorem C107_name_refuted : forall cfg mimes f c name, List.length f <= 4085 -> base_name f (c :: name) -> ~ In 46%N (c :: name) ->
  content_type cfg mimes f = Done (type_of cfg mimes name).
Proof. exact type_no_extension. Qed.
Print Assumptions C107_name_refuted.
Example C107_name_refuted_ex : base_name (bs "/srv/www/Makefile") (bs "Makefile") /\ ~ In 46%N (bs "Makefile") /\
  content_type [] [at_ "Makefile" "text/x-make"] (bs "/srv/www/Makefile") = Done (bs "application/octet-stream") /\
  content_type [] [at_ "html" "text/html"] (bs "/srv/www/xhtml") = Done (bs "text/html").
Proof.
  split; [|split; [|vm_compute; auto]].
  - split; [intros H; vm_compute in H; repeat (destruct H as [H|H]; [discriminate H|]); exact H|]. exists (bs "/srv/www"). reflexivity.
  - intros H; vm_compute in H; repeat (destruct H as [H|H]; [discriminate H|]); exact H.
Qed.
