(** A websocket registered with an authorisation function; a small
    environment for the examples. *)
From Coq Require Import NArith ZArith List Bool String Lia.
From Verif.Btrie Require Model Spec.
From Verif.Rest Require Import Model Spec Proofs Proofs2 Proofs3.
Import ListNotations.
Local Open Scope list_scope.

Lemma ws_register : forall e b expr proto wf au cl t q rest n a, good_exec e ->
  websocket_register_auth e [] b expr proto wf au cl = Some t ->
  is_websocket q = true -> rmethod q <> bs "OPTIONS" -> uri q = b ++ rest ->
  (forall x y, proto = Some x -> protocol q = Some y -> x = y) -> (exists g, matched e expr rest g) ->
  websocket_messages e a t q None (S n) = Done (repeat (Some wf) (S n)).
Proof.
  intros e b expr proto wf au cl t q rest n a G R W O U PR M. unfold websocket_register_auth in R.
  set (r1 := mkroute (bs "WS") expr proto None (Some wf) None cl) in *. set (r2 := mkroute (bs "GET") expr None None None au 0) in *.
  destruct (new_rule e [] b r1) as [t1|] eqn:N1; [|discriminate].
  assert (AC : accepted e (b, r1)).
  { apply ok_spec. pose proof (register_spec e [] (b, r1) b) as S0. unfold register in S0. cbn [fst snd] in S0. rewrite N1, beq_refl, andb_true_r in S0.
    destruct (ok e (b, r1)) eqn:K; [reflexivity|exfalso]. revert N1. unfold new_rule, ok, ends in *. cbn [fst snd] in K. cbv zeta.
    destruct (Nat.eqb (List.length b) 0 || negb (N.eqb (nth (List.length b - 1) b 0%N) 47)); [discriminate|]. cbn [negb andb] in K.
    rewrite K. discriminate. }
  assert (T : t = registered e [(b, r1); (b, r2)]).
  { unfold registered. cbn [fold_left]. unfold register at 2. cbn [fst snd]. rewrite N1. unfold register. cbn [fst snd].
    destruct (new_rule e t1 b r2); congruence. }
  rewrite T. cbn [repeat].
  assert (LB : longest_base e [(b, r1); (b, r2)] (uri q) b rest).
  { split; [exact U|]. split; [exists (b, r1); split; [left; reflexivity|auto]|].
    intros b' rest' _ (g & I & _ & <-). destruct I as [<- | [<- | []]]; apply le_n. }
  assert (F : first_such [(b, r1); (b, r2)] (candidate e q b rest) (b, r1)).
  { exists [], [(b, r2)]. split; [reflexivity|]. split; [|intros y []]. split; [exact AC|]. split; [reflexivity|]. split; [|exact M].
    unfold fits. rewrite W. split; [reflexivity|exact PR]. }
  rewrite (ws_messages e a _ q b rest (b, r1) wf n G O LB F eq_refl). reflexivity.
Qed.

(** Expressions of the examples: a prefix; a prefix followed by a star, the
    rest being group 1; "many" has ten groups; a '(' does not compile. *)
Fixpoint is_prefix (p s : bytes) : bool :=
  match p, s with
  | [], _ => true
  | x :: p', y :: s' => N.eqb x y && is_prefix p' s'
  | _ :: _, [] => false
  end.
Definition ex_exec (re s : bytes) : option (list (option (nat * nat))) :=
  if beq re (bs "many") then Some (repeat (Some (0, 0)) 11)
  else if N.eqb (last re 0%N) 42
  then if is_prefix (removelast re) s then Some [Some (0, List.length s); Some (List.length (removelast re), List.length s)] else None
  else if is_prefix re s then Some [Some (0, List.length re)] else None.
Definition ex_pton (s : bytes) : option (Btrie.Model.family * list N) :=
  if beq s (bs "10.0.0.0") then Some (Btrie.Model.V4, [167772160; 7; 8; 9]%N)
  else if beq s (bs "2001:db8::") then Some (Btrie.Model.V6, [536939960; 0; 0; 0]%N)
  else None.
Definition ex_atoi (s : bytes) : Z :=
  fold_left (fun a c => (10 * a + Z.of_N c - 48)%Z) s 0%Z.
Definition ex_env : env := mkenv (fun re => negb (existsb (N.eqb 40) re)) ex_exec ex_pton ex_atoi.

Lemma is_prefix_len : forall p s, is_prefix p s = true -> List.length p <= List.length s.
Proof.
  induction p as [|x p IH]; intros s H; cbn; [lia|]. destruct s as [|y s]; cbn in H; [discriminate|].
  apply andb_true_iff in H. destruct H as [_ H]. apply IH in H. cbn. lia.
Qed.
Lemma ex_good : good_exec ex_env.
Proof.
  intros re s g H. cbn [exec ex_env] in H. unfold ex_exec in H. destruct (beq re (bs "many")).
  - injection H as <-. split; [discriminate|]. repeat (constructor; [cbn; lia|]). constructor.
  - destruct (N.eqb (last re 0%N) 42).
    + destruct (is_prefix (removelast re) s) eqn:P; [|discriminate]. injection H as <-. apply is_prefix_len in P. split; [discriminate|]. repeat constructor; cbn; lia.
    + destruct (is_prefix re s) eqn:P; [|discriminate]. injection H as <-. apply is_prefix_len in P. split; [discriminate|]. repeat constructor; cbn; lia.
Qed.
Lemma ex_good_pton : good_pton ex_env.
Proof.
  intros s f a H. cbn [pton ex_env] in H. unfold ex_pton in H. destruct (beq s _); [injection H as <- <-; repeat constructor|].
  destruct (beq s _); [injection H as <- <-; repeat constructor|discriminate].
Qed.

(** ** One address *)
Definition ip_rule (s : bytes) : attrs := [(bs "type", bs "allow"); (bs "ip", s)].
Definition only_ip (s : bytes) : list node := [mknode [] [ip_rule s]].
Lemma ip_decision : forall e q s f a n, good_exec e -> good_pton e -> good_client q -> List.length s <= 50 ->
  network e s = Some (f, a, n) ->
  client_cert_auth e (only_ip s) q =
    Done (match fst (remote q) with Some g => in_network a n g (snd (remote q)) | None => false end).
Proof.
  intros e q s f a n G P C L NW. destruct (auth_exact e q (only_ip s) G P C) as [E|[_ SK]].
  - rewrite E. f_equal. unfold decide, only_ip. cbn [find nattrs children].
    change (taken e q []) with (true && true && true && true && true && true). cbn [andb].
    assert (T : taken e q (ip_rule s) = ip_taken e (ip_rule s) (remote q)).
    { unfold taken. change (re_taken e (ip_rule s) "user" (remote_user q)) with true. change (re_taken e (ip_rule s) "auth" (remote_auth q)) with true.
      change (re_taken e (ip_rule s) "cn" (remote_cn q)) with true. change (re_taken e (ip_rule s) "url" (uri_str q)) with true.
      change (listener_taken e (ip_rule s) (config q)) with true. cbn [andb]. rewrite andb_true_r. reflexivity. }
    cbn [children find]. rewrite T. unfold ip_taken. change (get (ip_rule s) (bs "ip")) with (Some s). cbv iota beta.
    rewrite firstn_all2 by exact L. rewrite NW. destruct (fst (remote q)) as [g|]; [|reflexivity].
    destruct (in_network a n g (snd (remote q))); reflexivity.
  - exfalso. refine (no_skipto_skips _ _ _ SK). intros m r [<- | []] [<- | []]. reflexivity.
Qed.
