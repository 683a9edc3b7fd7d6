(** OPTIONS, authorisation, websockets, files. *)
From Coq Require Import NArith ZArith List Bool String Lia.
From Verif.Rest Require Import Model Spec Proofs.
Import ListNotations.
Local Open Scope list_scope.

Lemma comma_snoc : forall l x, l <> [] -> comma_list (l ++ [x]) = comma_list l ++ [44%N; 32%N] ++ x.
Proof.
  induction l as [|a l IH]; intros x H; [congruence|].
  destruct l as [|b l]; [reflexivity|].
  change ((a :: b :: l) ++ [x]) with (a :: ((b :: l) ++ [x])).
  change (comma_list (a :: b :: l)) with (a ++ [44%N; 32%N] ++ comma_list (b :: l)).
  assert (E : comma_list (a :: ((b :: l) ++ [x])) = a ++ [44%N; 32%N] ++ comma_list ((b :: l) ++ [x])) by reflexivity.
  rewrite E, IH by discriminate. rewrite <- !app_assoc. reflexivity.
Qed.

Definition hits (e : env) (s : bytes) (r : route) : bool := (0 <? pcre_rc e (expression r) s)%Z.

Lemma allowed_some : forall e s l ms, ms <> [] ->
  allowed e s l (Some (comma_list ms)) = Some (comma_list (ms ++ map method (filter (hits e s) l))).
Proof.
  intros e s. induction l as [|r l IH]; intros ms H; cbn [allowed filter map]; [rewrite app_nil_r; reflexivity|].
  fold (hits e s r). destruct (hits e s r) eqn:E; [|apply IH, H]. change (bs ", ") with [44%N; 32%N].
  rewrite <- comma_snoc by exact H. rewrite IH by (destruct ms; discriminate). cbn [map]. rewrite <- app_assoc. reflexivity.
Qed.

Lemma allowed_none : forall e s l,
  allowed e s l None = match map method (filter (hits e s) l) with [] => None | ms => Some (comma_list (bs "OPTIONS" :: ms)) end.
Proof.
  intros e s. induction l as [|r l IH]; cbn [allowed filter map]; [reflexivity|].
  fold (hits e s r). destruct (hits e s r) eqn:E; [|exact IH]. change (bs ", ") with [44%N; 32%N].
  change (bs "OPTIONS" ++ [44%N; 32%N] ++ method r) with (comma_list [bs "OPTIONS"; method r]).
  rewrite allowed_some by discriminate. reflexivity.
Qed.

Lemma hits_offers : forall e gs b rest, good_exec e -> ends b = true ->
  filter (hits e rest) (map snd (filter (own e b) gs)) = map snd (filter (offers e b rest) gs).
Proof.
  intros e gs b rest G EB. induction gs as [|g gs IH]; cbn [filter map]; [reflexivity|].
  assert (O : offers e b rest g = own e b g && hits e rest (snd g)).
  { unfold offers, own, ok, hits, pcre_rc. fold (beq (fst g) b). destruct (beq (fst g) b) eqn:B.
    - apply beq_spec in B. rewrite B, EB. cbn [andb]. rewrite andb_true_r. f_equal.
      destruct (exec e (expression (snd g)) rest) as [gr|] eqn:X; [|reflexivity].
      destruct (G _ _ _ X) as [NE _]. destruct (Nat.leb (List.length gr) 10); [|reflexivity].
      destruct gr; [congruence|]. reflexivity.
    - rewrite !andb_false_r. reflexivity. }
  rewrite O. destruct (own e b g); cbn [andb filter map]; [|exact IH].
  destruct (hits e rest (snd g)); cbn [map]; rewrite IH; reflexivity.
Qed.

Lemma options_base : forall e gs q b rest, good_exec e -> rmethod q = bs "OPTIONS" -> longest_base e gs (uri q) b rest ->
  matching_route e (registered e gs) q true =
    Done (None, match map (fun g => method (snd g)) (filter (offers e b rest) gs) with
                | [] => None | ms => Some (comma_list (bs "OPTIONS" :: ms)) end).
Proof.
  intros e gs q b rest G O L. unfold matching_route.
  destruct (find_base (registered e gs) (uri q) (List.length (uri q))) as [[c m]|] eqn:FB.
  - apply base_found in FB. destruct FB as (LB & RC & _). destruct (longest_unique _ _ _ _ _ _ _ L LB) as [-> ->].
    rewrite O, beq_refl. cbv zeta. rewrite allowed_none, RC, hits_offers; [rewrite map_map; reflexivity|exact G|].
    eapply is_base_ends, (proj1 (proj2 LB)).
  - exfalso. exact (base_none _ _ _ FB _ _ L).
Qed.

Lemma no_base : forall e gs q w, (forall b rest, ~ longest_base e gs (uri q) b rest) ->
  matching_route e (registered e gs) q w = Done (None, None).
Proof.
  intros e gs q w H. unfold matching_route.
  destruct (find_base (registered e gs) (uri q) (List.length (uri q))) as [[c m]|] eqn:FB; [|reflexivity].
  apply base_found in FB. exfalso. exact (H _ _ (proj1 FB)).
Qed.

(** ** Authorisation *)
Lemma run_authorised : forall e a gs q h cl ps, good_exec e ->
  get_handler e a (registered e gs) q = Done (Run h cl ps) ->
  exists b rest g, longest_base e gs (uri q) b rest /\ first_such gs (candidate e q b rest) g /\
    handler (snd g) = Some h /\ closure (snd g) = cl /\
    (forall f, auth (snd g) = Some f -> authorize a f = true \/ (fst (auth_denied_hook a) <> HAbort /\ snd (auth_denied_hook a) = None)).
Proof.
  intros e a gs q h cl ps G H. unfold get_handler in H.
  destruct (list_eq_dec N.eq_dec (rmethod q) (bs "OPTIONS")) as [O|O].
  - exfalso. assert (X : exists am, matching_route e (registered e gs) q true = Done (None, am)).
    { unfold matching_route. destruct (find_base _ _ _) as [[c m]|]; [|eauto]. rewrite O, beq_refl. eauto. }
    destruct X as (am & X). rewrite X in H. cbn [bind] in H. destruct am as [am|]; [discriminate|].
    destruct (fst (get_handler_hook a)); try discriminate. destruct (snd (get_handler_hook a)); discriminate.
  - destruct (route_found e gs q true G O) as [(b & rest & g & gr & ps' & L & F & M & P & E)|[N0 E]]; rewrite E in H; cbn [bind] in H.
    + exists b, rest, g. split; [exact L|]. split; [exact F|].
      destruct (fst (get_handler_hook a)); [destruct (snd (get_handler_hook a)); discriminate| |discriminate]. cbv zeta in H.
      destruct (auth (snd g)) as [f|].
      * destruct (authorize a f) eqn:A.
        -- destruct (handler (snd g)); [|discriminate]. injection H as <- <- <-. split; [reflexivity|]. split; [reflexivity|].
           intros f0 Hf. injection Hf as <-. auto.
        -- destruct (fst (auth_denied_hook a)) eqn:HK; [| |discriminate];
           (destruct (snd (auth_denied_hook a)) as [h0|]; [destruct (N.eqb h0 permission_denied); discriminate|];
            destruct (handler (snd g)); [|discriminate]; injection H as <- <- <-; split; [reflexivity|]; split; [reflexivity|];
            intros f0 Hf; right; split; [discriminate|reflexivity]).
      * destruct (handler (snd g)); [|discriminate]. injection H as <- <- <-. split; [reflexivity|]. split; [reflexivity|]. discriminate.
    + destruct (fst (get_handler_hook a)); try discriminate. destruct (snd (get_handler_hook a)); discriminate.
Qed.

(** and when it is authorised it runs, with the groups as parameters *)
Lemma authorised_runs : forall e a gs q b rest g, good_exec e -> rmethod q <> bs "OPTIONS" ->
  longest_base e gs (uri q) b rest -> first_such gs (candidate e q b rest) g -> fst (get_handler_hook a) = HContinue ->
  (forall f, auth (snd g) = Some f -> authorize a f = true) ->
  get_handler e a (registered e gs) q = Done NotFound /\ handler (snd g) = None \/
  exists h gr ps, handler (snd g) = Some h /\ matched e (expression (snd g)) rest gr /\ params_of rest gr ps /\
    get_handler e a (registered e gs) q = Done (Run h (closure (snd g)) ps).
Proof.
  intros e a gs q b rest g G O L F HK A. unfold get_handler.
  destruct (route_found e gs q true G O) as [(b' & rest' & g' & gr & ps & L' & F' & M & P & E)|[N0 E]].
  - destruct (longest_unique _ _ _ _ _ _ _ L L') as [<- <-]. rewrite (first_such_unique _ _ _ _ _ F' F) in *.
    rewrite E. cbn [bind]. rewrite HK. cbv zeta.
    assert (X : match auth (snd g) with Some f => authorize a f | None => true end = true) by (destruct (auth (snd g)); auto).
    destruct (auth (snd g)) as [f|]; [rewrite X|]; (destruct (handler (snd g)) as [h|]; [right; exists h, gr, ps; auto|left; auto]).
  - destruct F as (p & q0 & Q & C & _). exfalso. apply (N0 b rest g L); [subst gs; apply in_elt|exact C].
Qed.

Lemma denied_answer : forall e a gs q b rest g f, good_exec e -> rmethod q <> bs "OPTIONS" ->
  longest_base e gs (uri q) b rest -> first_such gs (candidate e q b rest) g -> fst (get_handler_hook a) = HContinue ->
  auth (snd g) = Some f -> authorize a f = false -> auth_denied_hook a = (HContinue, Some permission_denied) ->
  get_handler e a (registered e gs) q = Done Denied.
Proof.
  intros e a gs q b rest g f G O L F HK AF A D. unfold get_handler.
  destruct (route_found e gs q true G O) as [(b' & rest' & g' & gr & ps & L' & F' & M & P & E)|[N0 E]].
  - destruct (longest_unique _ _ _ _ _ _ _ L L') as [<- <-]. rewrite (first_such_unique _ _ _ _ _ F' F) in *.
    rewrite E. cbn [bind]. rewrite HK, AF, A, D. reflexivity.
  - destruct F as (p & q0 & Q & C & _). exfalso. apply (N0 b rest g L); [subst gs; apply in_elt|exact C].
Qed.

(** ** Websockets *)
Lemma ws_handler : forall e a gs q, good_exec e -> rmethod q <> bs "OPTIONS" ->
  (exists b rest g, longest_base e gs (uri q) b rest /\ first_such gs (candidate e q b rest) g /\
     get_websocket_handler e a (registered e gs) q =
       Done (match auth (snd g) with
             | Some f => if authorize a f then websocket_handler (snd g) else None
             | None => websocket_handler (snd g) end, websocket_handler (snd g))) \/
  ((forall b rest g, longest_base e gs (uri q) b rest -> In g gs -> ~ candidate e q b rest g) /\
   get_websocket_handler e a (registered e gs) q = Done (None, None)).
Proof.
  intros e a gs q G O. unfold get_websocket_handler.
  destruct (route_found e gs q false G O) as [(b & rest & g & gr & ps & L & F & M & P & E)|[N0 E]]; rewrite E; cbn [bind fst].
  - left. exists b, rest, g. split; [exact L|]. split; [exact F|]. destruct (auth (snd g)) as [f|]; [|reflexivity].
    destruct (authorize a f); reflexivity.
  - right. auto.
Qed.

Lemma ws_memo : forall e a t q n h, websocket_messages e a t q (Some h) n = Done (repeat (Some h) n).
Proof. intros e a t q n h. induction n as [|n IH]; [reflexivity|]. cbn. rewrite IH. reflexivity. Qed.

Lemma ws_messages : forall e a gs q b rest g h n, good_exec e -> rmethod q <> bs "OPTIONS" ->
  longest_base e gs (uri q) b rest -> first_such gs (candidate e q b rest) g -> websocket_handler (snd g) = Some h ->
  websocket_messages e a (registered e gs) q None (S n) =
    Done ((if match auth (snd g) with Some f => authorize a f | None => true end then Some h else None) :: repeat (Some h) n).
Proof.
  intros e a gs q b rest g h n G O L F W. cbn [websocket_messages websocket_dispatcher].
  destruct (ws_handler e a gs q G O) as [(b' & rest' & g' & L' & F' & E)|[N0 E]].
  - destruct (longest_unique _ _ _ _ _ _ _ L L') as [<- <-]. rewrite (first_such_unique _ _ _ _ _ F' F) in *.
    rewrite E. cbn [bind fst snd]. rewrite W, ws_memo. cbn [bind]. destruct (auth (snd g)) as [f|]; [destruct (authorize a f)|]; reflexivity.
  - destruct F as (p & q0 & Q & C & _). exfalso. apply (N0 b rest g L); [subst gs; apply in_elt|exact C].
Qed.

(** ** Files *)
Lemma inside_spec : forall root f junk, inside root f junk = true ->
  below root f \/ (exists c x, c <> 47%N /\ f = root ++ c :: 47%N :: x) \/ f = root.
Proof.
  intros root f junk H. unfold inside in H. apply andb_true_iff in H. destruct H as [P C]. apply beq_spec in P.
  rewrite <- negb_orb in C. rewrite negb_involutive in C.
  assert (E : f = root ++ skipn (List.length root) f) by (rewrite <- P at 1; symmetry; apply firstn_skipn).
  set (t := skipn (List.length root) f) in *. clearbody t. subst f. clear P. unfold char_at in C.
  rewrite app_length in C. destruct t as [|c t]; [right; right; apply app_nil_r|].
  replace (Nat.ltb (List.length root) (List.length root + List.length (c :: t))) with true in C by (symmetry; apply Nat.ltb_lt; cbn; lia).
  rewrite nth_middle in C. apply orb_true_iff in C. destruct C as [C|C].
  - apply N.eqb_eq in C. subst c. left. exists t. reflexivity.
  - destruct t as [|d t].
    + exfalso. cbn [List.length] in C. rewrite Nat.ltb_irrefl, Nat.eqb_refl in C. discriminate.
    + destruct (N.eq_dec c 47) as [-> | NC]; [left; exists (d :: t); reflexivity|]. right. left. exists c, t. split; [exact NC|].
      replace (Nat.ltb (List.length root + 1) (List.length root + List.length (c :: d :: t))) with true in C by (symmetry; apply Nat.ltb_lt; cbn; lia).
      rewrite app_nth2 in C by lia. replace (List.length root + 1 - List.length root) with 1 in C by lia. cbn in C. apply N.eqb_eq in C. subst d. reflexivity.
Qed.

Lemma inside_below : forall root f junk, below root f -> inside root f junk = true.
Proof.
  intros root f junk (x & ->). unfold inside. rewrite firstn_app_exact, beq_refl. cbn [andb].
  unfold char_at at 1. rewrite app_length. replace (Nat.ltb _ _) with true by (symmetry; apply Nat.ltb_lt; cbn; lia).
  rewrite nth_middle. reflexivity.
Qed.
Lemma inside_sibling : forall root c x junk, inside root (root ++ c :: 47%N :: x) junk = true.
Proof.
  intros root c x junk. unfold inside. rewrite firstn_app_exact, beq_refl. cbn [andb]. rewrite <- negb_orb, negb_involutive.
  apply orb_true_iff. right. unfold char_at. rewrite app_length. replace (Nat.ltb _ _) with true by (symmetry; apply Nat.ltb_lt; cbn; lia).
  rewrite app_nth2 by lia. replace (List.length root + 1 - List.length root) with 1 by lia. reflexivity.
Qed.

Lemma served : forall cfg mimes rp fs junk pats f t,
  simple_file_handler cfg mimes rp fs junk pats = Done (FServe f t) ->
  exists root p index, pats = [p] /\ attr cfg (bs "document_root") = Some root /\
    rp (file_name root index p) = Some f /\ inside root f junk = true /\ fs f = Readable /\ content_type cfg mimes f = Done t.
Proof.
  intros cfg mimes rp fs junk pats f t H. unfold simple_file_handler in H.
  destruct pats as [|p [|]]; try discriminate. destruct (attr cfg (bs "document_root")) as [root|]; [|discriminate]. cbv zeta in H.
  set (index := match attr cfg (bs "index_file") with Some i => i | None => bs "index.html" end) in *.
  destruct (rp (file_name root index p)) as [rf|] eqn:R; [|discriminate].
  destruct (inside root rf junk) eqn:I; cbn [negb] in H; [|discriminate].
  destruct (fs rf) eqn:FS; try discriminate. destruct (content_type cfg mimes rf) as [t0|] eqn:CT; cbn [bind] in H; [|discriminate].
  injection H as <- <-. exists root, p, index. auto 10.
Qed.

Lemma attr_get : forall l k, attr l k = get l k.
Proof.
  unfold get. induction l as [|[a v] l IH]; intros k; cbn [attr find fst]; [reflexivity|]. unfold beq. destruct (list_eq_dec N.eq_dec a k); [reflexivity|]. apply IH.
Qed.

Lemma after_last_spec : forall c s, match after_last c s with
  | Some t => ~ In c t /\ exists d, s = d ++ c :: t
  | None => ~ In c s end.
Proof.
  intros c. induction s as [|x s IH]; cbn; [auto|].
  destruct (after_last c s) as [t|].
  - destruct IH as (A & d & ->). split; [exact A|]. exists (x :: d). reflexivity.
  - destruct (N.eqb x c) eqn:E.
    + apply N.eqb_eq in E. subst. split; [exact IH|]. exists []. reflexivity.
    + apply N.eqb_neq in E. intros [<- | I]; auto.
Qed.

Lemma last_unique : forall (c : N) d t d' t', ~ In c t -> ~ In c t' -> d ++ c :: t = d' ++ c :: t' -> t = t'.
Proof.
  intros c d. induction d as [|x d IH]; intros t d' t' N1 N2 E; destruct d' as [|y d']; cbn in E; injection E; intros; subst.
  - reflexivity.
  - exfalso. apply N1. apply in_elt.
  - exfalso. apply N2. apply in_elt.
  - eauto.
Qed.

Lemma after_last_eq : forall c s t d, ~ In c t -> s = d ++ c :: t -> after_last c s = Some t.
Proof.
  intros c s t d H E. pose proof (after_last_spec c s) as A. destruct (after_last c s) as [t'|].
  - destruct A as (A & d' & E'). f_equal. eapply last_unique; [exact A|exact H|]. rewrite <- E', <- E. reflexivity.
  - exfalso. apply A. subst s. apply in_elt.
Qed.

Lemma type_extension : forall cfg mimes f name ext, List.length f <= 4085 -> base_name f name -> extension name ext ->
  content_type cfg mimes f = Done (type_of cfg mimes ext).
Proof.
  intros cfg mimes f name ext LF (A & d & E) (B & b & E2). unfold content_type.
  rewrite (after_last_eq _ _ _ _ A E), (after_last_eq _ _ _ _ B E2). f_equal. unfold type_of.
  rewrite !attr_get, firstn_all2; [reflexivity|]. rewrite app_length. subst. rewrite !app_length in LF. cbn in LF.
  rewrite app_length in LF. cbn in LF. change (List.length (bs "mime_type_")) with 10. unfold PATH_MAX. lia.
Qed.

Lemma type_no_extension : forall cfg mimes f c name, List.length f <= 4085 -> base_name f (c :: name) -> ~ In 46%N (c :: name) ->
  content_type cfg mimes f = Done (type_of cfg mimes name).
Proof.
  intros cfg mimes f c name LF (A & d & E) B. unfold content_type. rewrite (after_last_eq _ _ _ _ A E).
  pose proof (after_last_spec 46%N (c :: name)) as S0. destruct (after_last 46 (c :: name)) as [t|].
  - exfalso. apply B. destruct S0 as (_ & d0 & ->). apply in_elt.
  - f_equal. unfold type_of. rewrite !attr_get, firstn_all2; [reflexivity|]. rewrite app_length. subst. rewrite app_length in LF. cbn in LF.
    change (List.length (bs "mime_type_")) with 10. unfold PATH_MAX. lia.
Qed.

Lemma last_rev : forall (c : N) s, last_char s = match rev s with [] => 0%N | d :: _ => d end.
Proof.
  intros _ s. unfold last_char. destruct s as [|x s] using rev_ind; [reflexivity|]. rewrite last_last, rev_app_distr. reflexivity.
Qed.
Lemma file_asked : forall root index p, List.length (asked root index p) < 4096 -> file_name root index p = asked root index p.
Proof.
  intros root index p L. unfold file_name, asked in *. cbn [app] in *. rewrite !app_length in L. cbn [List.length] in L. rewrite app_length in L. unfold PATH_MAX.
  assert (F : firstn (4096 - 1) (root ++ 47%N :: p) = root ++ 47%N :: p) by (apply firstn_all2; rewrite app_length; cbn [List.length]; lia).
  cbv zeta. rewrite F, (last_rev 0%N). rewrite rev_app_distr. cbn [rev].
  assert (Q : (match (rev p ++ [47%N]) ++ rev root with [] => 0%N | d :: _ => d end =? 47)%N = match rev p with [] => true | c :: _ => N.eqb c 47 end) by (destruct (rev p); reflexivity).
  rewrite Q. destruct (match rev p with [] => true | c :: _ => N.eqb c 47 end).
  - rewrite firstn_all2; [now rewrite <- app_assoc|]. rewrite !app_length. cbn [List.length]. lia.
  - now rewrite app_nil_r.
Qed.
Lemma served_asked : forall cfg mimes rp fs junk pats f t,
  simple_file_handler cfg mimes rp fs junk pats = Done (FServe f t) ->
  exists root p, pats = [p] /\ attr cfg (bs "document_root") = Some root /\
    let index := match attr cfg (bs "index_file") with Some i => i | None => bs "index.html" end in
    (List.length (asked root index p) < 4096 -> rp (asked root index p) = Some f).
Proof.
  intros cfg mimes rp fs junk pats f t H. unfold simple_file_handler in H.
  destruct pats as [|p [|]]; try discriminate. destruct (attr cfg (bs "document_root")) as [root|]; [|discriminate]. exists root, p. split; [reflexivity|]. split; [reflexivity|]. cbv zeta in *.
  intro L. rewrite (file_asked _ _ _ L) in H. destruct (rp _) as [rf|]; [|discriminate].
  destruct (inside root rf junk); cbn [negb] in H; [|discriminate]. destruct (fs rf); try discriminate. destruct (content_type cfg mimes rf); cbn [bind] in H; [|discriminate]. injection H as <- <-. reflexivity.
Qed.
